(** The larger prime of the built-in private key (keystore/key.go:21-35), with a certificate checked by Prime_Check.v. *)
From Coq Require Import ZArith Znumtheory List.
From Bignums Require Import BigZ.
From Verif Require Import Prime_Check Prime_Proofs.
Import ListNotations.
Local Open Scope Z_scope.
(** An integer of the checker (for keystore/key.go:21-35). *)
Local Notation B := BigZ.of_Z.
Create HintDb primes.
Ltac by_certificate n cs :=
  rewrite <- (BigZ.spec_of_Z _); apply (checkN_prime (N := n) (cs := cs)); [vm_cast_no_check (eq_refl true)|];
  let l := fresh in let H := fresh in intros l H; vm_compute in H;
  repeat (destruct H as [H|H]; [subst l; first [solve [auto with primes nocore]|apply trial_div_prime; vm_cast_no_check (eq_refl true)]|]); destruct H.
Lemma prime_18386663 : prime 18386663.
Proof.
  by_certificate (B 18386663) ([Cert [B 0]
     [B 8407456]
     [B 9979207; B 1]
     [(503, 1, [B 3006327]);
      (373, 1, [B 17464524])] (B 1)]).
Qed.
#[local] Hint Resolve prime_18386663 : primes.
Lemma prime_84860597 : prime 84860597.
Proof.
  by_certificate (B 84860597) ([Cert [B 0]
     [B 6481606]
     [B 78378991; B 1]
     [(31337, 1, [B 63344624])] (B 1)]).
Qed.
#[local] Hint Resolve prime_84860597 : primes.
Lemma prime_21204013 : prime 21204013.
Proof.
  by_certificate (B 21204013) ([Cert [B 0]
     [B 8323022]
     [B 12880991; B 1]
     [(1767001, 1, [B 9211481])] (B 1)]).
Qed.
#[local] Hint Resolve prime_21204013 : primes.
Lemma prime_27074393777 : prime 27074393777.
Proof.
  by_certificate (B 27074393777) ([Cert [B 0]
     [B 1818933130]
     [B 25255460647; B 1]
     [(389, 1, [B 19722683141]);
      (269, 1, [B 4704023338]);
      (157, 1, [B 18374994436])] (B 1)]).
Qed.
#[local] Hint Resolve prime_27074393777 : primes.
Lemma prime_7632175754129 : prime 7632175754129.
Proof.
  by_certificate (B 7632175754129) ([Cert [B 0]
     [B 3125434353583]
     [B 4506741400546; B 1]
     [(82657, 1, [B 414902146026]);
      (3547, 1, [B 2339937668398])] (B 1)]).
Qed.
#[local] Hint Resolve prime_7632175754129 : primes.
Lemma prime_p : prime 10356339571033877687291353999015341104247505257597738817068466955638021030731132514440510225090638927702817664496574271692211181948751876058029451361501209.
Proof.
  by_certificate (B 10356339571033877687291353999015341104247505257597738817068466955638021030731132514440510225090638927702817664496574271692211181948751876058029451361501209) ([Cert [B 0]
     [B 6884070399578058590917483183080746714721610825907788991921512873869355691236558274087775823415085752893620382915457702433201068636431509313496773667338007]
     [B 3472269171455819096373870815934594389525894431689949825146954081768665339494574240352734401675553174809197281581116569259010113312320366744532677694163202; B 1]
     [(2, 3, [B 5178169785516938843645676999507670552123752628798869408534233477819010515365566257220255112545319463851408832248287135846105590974375938029014725680750604]);
      (3, 1, [B 2553335445689907045099152554616167062894432737263257779724412353054802567333325335427312206474043889188292528198482182006411780505977185287116270923037068]);
      (7, 1, [B 6960217414847761606954191454753691373377562346511156983596688778322549429068210834311537209616904248758273863900559385617653125005087027296764739627476905]);
      (4327, 1, [B 6085047201649852633397630159821723547834764483540721415738744701311442058646977421220653455830357547092365776479321738933838681634599142820761514706321980]);
      (17839, 1, [B 4157124751709322459297914148855516167936563741647963305880687761030889443785285891464726454228075327797519287478012958746800623485570112034627345916102058]);
      (36217, 1, [B 3999965713159049470524088913922249442532988797601977682144473055140209073698757756534749328068822309122119309760950499458905366161380395616993433190695332])] (B 403406209664197);
   Cert [B (-11); B 0]
     [B 1048193387884440583368554324161125138193470402697611382375477023186205620258300961098932954724291665785803998802538221953229886195835370139165226503092106; B 5979725153477945202345220818202682386723989629940370402867199092200960642894309142198926177877539755138235959909139987128719937471627687355688895608689828]
     [B 1; B 8259952795264996520554245350693090827860564452202516052317512909265609790214530592242644315642055596131209666891497827785751409557081135779698998355316997; B 1]
     [(5, 1, [B 5178169785516938843645676999507670552123752628798869408534233477819010515365566257220255112545319463851408832248287135846105590974375938029014725680750604; B 113330920293042250530300499053180514477111653305510646943365363451037515302136251022521736887322635609904448680864069835286124812935056601839649772292697]);
      (173, 1, [B 5178169785516938843645676999507670552123752628798869408534233477819010515365566257220255112545319463851408832248287135846105590974375938029014725680750604; B 3141373612478355772087278397421377438729080914527040879672659300499239371139132922743476073123779209945745762665884806223767538064484047527876535031680335]);
      (18386663, 1, [B 5178169785516938843645676999507670552123752628798869408534233477819010515365566257220255112545319463851408832248287135846105590974375938029014725680750604; B 331288823354282426507979083786653201655414467283700289508728774969965296279351353951417453769077738208274969673698551732131866197947650609466538190008144]);
      (84860597, 1, [B 5178169785516938843645676999507670552123752628798869408534233477819010515365566257220255112545319463851408832248287135846105590974375938029014725680750604; B 5216991072910063721632753105259735724556558173391915295630890113073208402616758290692495212345695471801671670702064622332343332769684901538276487342380141])] (B 707708691728926158);
   Cert [B (-2); B 0; B 0]
     [B 6193296529543862862657078153074478303686574097739593416165741699768322223438040570689142603227209734957631524486441862017047152521860039312389901191768787; B 5582481282273642040407528042684693536629007057202499078098605572140567097079597465518633320412822179649139328496745907616211770103271259100218998224731543; B 2546322516585628232556595251884936860089172001514295238334359491626731203906781012452788557851975719335513314435996827586927293635543497564277739181749230]
     [B 10356339571033877687291353999015341104247505257597738817068466955638021030731132514440510225090638927702817664496574271692211181948751876058029451361501208; B 5589296118750377895996128750022582278455574113913953303286562152908529748616866875527767667311709295547717790675057888504211040870131315801344089395955411; B 2132789553436166786611473538807247297435288221976697385639708811971075391148143316813592640499648650532740755533822957333280906331923634178889199147696057; B 1]
     [(294277, 1, [B 6220867424835854880385013912814213014606214363615755422975626344214029411153502967251884946806102445577897118928231595677925350276790160910294229185182248; B 3095411474576604833728024708392830872652798535858356823165552162017744597490514928730114662213237037925576101190198876480882300712511333011237414993480511; B 3150923760196597581497800689413000422806749450793471091985108028061831371740728466850527488133375979868758294020703812655515567931070353725390291298430718]);
      (21204013, 1, [B 9047586567377256408653704459372996840894838805800683027639503945309859280434375966309020192467575187841272250716325144117583687643678192030455011915603227; B 1520818357593031358006048584879770019845681084608526158315652313608916022362182886396666837289646326371254121122937172850104879103152633778545055547961591; B 8122124345510747705660828963666406916427936364637753091772102907409193193987513189915200694998189902845831835379377092250623148477071741061674308880759994])] (B 5632388190572);
   Cert [B (-13); B 0; B 0; B 0; B 0; B 0]
     [B 294043547332296353779096317406360888708037325880290476904076295595038568813173511344394215865021037747385984494944253502600026961748546785946778575696992; B 9238916415414385435335804767311392128667940759736276889133038979449413680056323575785277207652608139045738635922910217512623176218808540622248413789592850; B 9623429666298295306919267551540350630098240865920723985312731449765340563646179586165590601882781528768571795623504739293779487731050438610867326113289056; B 5954840487759413411394551272100493431666979165581552094810114585484939035478155110125093747535712763966548391448217992407688454046567406766804466738147078; B 6611989025174642610217272161084559020021723978263341810881547780005112929532846582964414881723169154188071517956691451159502223673206629050322919074349081; B 5488347208300745673364332959330068596017031144690969042762075163881638745461918378861270042306143040158285566717068722960474983694308818872710760982812111]
     [B 1; B 8592078287040099564616776094577175771999281302315995955644009182067789617852091446374144929900512701218501757526908750676611020178260595342348779907319257; B 1001673836872132180535623393997635916051301494995274889926899511221218716096656547848683608818053997112844753668935745903129109827450162622507625448920759; B 5840209613464709923725277649288994608131370965508021489371777704757298165420803418126503949822050664680821399693277780153031092114936371711137770215076951; B 1001673836872132180535623393997635916051301494995274889926899511221218716096656547848683608818053997112844753668935745903129109827450162622507625448920759; B 8592078287040099564616776094577175771999281302315995955644009182067789617852091446374144929900512701218501757526908750676611020178260595342348779907319257; B 1]
     [(433, 1, [B 5178169785516938843645676999507670552123752628798869408534233477819010515365566257220255112545319463851408832248287135846105590974375938029014725680750604; B 9270923729572501369053015084657474499424513255012686372367369792256956200567339553977906401242821474020066288839461599904146062754941793925030202249335439; B 0; B 4049518955961678316182527103465337853910414748924955248337483019748925326599711814417276453088615056534547990834770519947639230105403865573605790114393489; B 0; B 9038000525499699599652577157335675688793585322662190194465074556260316215583323046219762552659529837603116819939909555757416443425850676152596356062613619]);
      (919, 1, [B 5178169785516938843645676999507670552123752628798869408534233477819010515365566257220255112545319463851408832248287135846105590974375938029014725680750604; B 143046395685673116074422864372388018855598375448166396687367126363547387398187052718351301849523821232414467648083979627827015897359887690761347793920577; B 0; B 10000354107366365084623839604535210538446427954671706605601318758985397999677829365683666510373450841997192998366303587157771718296510378888948394144664286; B 0; B 2563034043774487927438849537282251455757734051982085489992881886856951614475378759086272980830686179557244420592584637992076588543970458195660179438784122])] (B 277502);
   Cert [B (-11); B 0; B 0; B 0; B 0; B 0; B 0; B 0]
     [B 5481438635412119933419023377512628859728422357648046195140945592291582209416970454471859481060098694848825977521345108609691991251455660654820185609467885; B 3811020608742750536204767310348210100375526915699197267956738143199076988995999713766833458668758595139895569647614665035142655432133562128237985437923498; B 4542914411883062730736033447052637854546143913762279889644915680196333455110623287356703949375063847241128033678454142650620345873585532571308918226296370; B 2766994534084580977279387424485855891834002243454723603410530979666689315020545260937073198651633680021143738331972753783475086475713777192543698589261021; B 2174126286153036151933920535068245030599796118569051671375431808442763290919839764174500867606706090675043462257745620004437657859016435605104338210156040; B 2549343456880087655566640141152872070937492684900243034869686954903474217672648204583477033971168411951961560775744029653243161892804462823303736341242634; B 3635478530705675769662181142684193285490507221474138823349023951937167351967794612342626650699469963043830331760625614068691737866914388519319114843202953; B 1496561637879888573132021713223248801031842907101583754459612173078922536492042181386254289803406292884884106337588274151264776987023737733221588139665491]
     [B 1; B 7930188771872428969104582974975674643410147426804324524214770039857447478319898936427675276972405079723480502312110489583519979732114095051585771931762965; B 7906903504610034097027371372421571024874446353947547982236811038784419012564587456679894784036491172760549437749538114412382766790420741470452452284180346; B 4259828367118341723170877960460257593695334136357554183124714613429470789443260381562381766300193168564218230353097507524534495558531083748780201240129001; B 898425226056494506637746269236773731626568922861044213853431548946151902464434027014124330113533153070424339067953733793133785306880404945592401009969889; B 4259828367118341723170877960460257593695334136357554183124714613429470789443260381562381766300193168564218230353097507524534495558531083748780201240129001; B 7906903504610034097027371372421571024874446353947547982236811038784419012564587456679894784036491172760549437749538114412382766790420741470452452284180346; B 7930188771872428969104582974975674643410147426804324524214770039857447478319898936427675276972405079723480502312110489583519979732114095051585771931762965; B 1]
     [(577, 1, [B 5178169785516938843645676999507670552123752628798869408534233477819010515365566257220255112545319463851408832248287135846105590974375938029014725680750604; B 4247112544654360750234643132093077906434050799546905204180621023043444641490775233218720021745308747375445023865161465079737642028684137949587373585813268; B 0; B 1402958958254693700892861706818839930489047344453747784265231668861262623586694163266587075774277808900537152561603373024014966776140939479332573814492352; B 0; B 9722835289209220134714047056322230891562679185131553469924925416761909464051959412736914742551378519594746568393195047818698848885300361482017123515488775; B 0; B 2241092812268959116140684362524391031344524412051664864074060850378928195014149041350890097275180469881900409711998090576369823584376019031403997478711932]);
      (27074393777, 1, [B 5178169785516938843645676999507670552123752628798869408534233477819010515365566257220255112545319463851408832248287135846105590974375938029014725680750604; B 7547077626472238905164226384530542103790205576752617637643675343679992450834157883267073815596842650986404800041991783875823619483268781057726485372480241; B 0; B 8871464723918991717384198225811403478023950641160077583861351796671561922471266530338880027772586427523975926093002875305838559121852080500413587808966469; B 0; B 1510194931839268128086778039917488993231912689029598944041317470359478506782044777718986198893638329903502746566700075880482046419088143027845176211197378; B 0; B 8481162952080266900765264445223122190200731077898671054590505952834547811181654232262566026338224996907603043915553505767874292405977797217913709844657369]);
      (7632175754129, 1, [B 5178169785516938843645676999507670552123752628798869408534233477819010515365566257220255112545319463851408832248287135846105590974375938029014725680750604; B 243225042295529126894158291748991538973242236389113454780671980197195815339928289347920118172716916826157338683343367182704157991840696999222018593971681; B 0; B 2812609765453397082238694554376428254577109056536923686791441425296773164548748727298659836036230224621131997423109929763891350155319771786580518224033659; B 0; B 1527266528379375121277629747759353168651862301151065562179808139710972005352576848042273059501248079204217849701892976391772526719605603243797667790098701; B 0; B 7669634218599515662520222374583515284172242575403375943392222204916655731271173325026333296754489642727426764141293309448721042677884349015111901147542942])] (B 1)]).
Qed.
#[local] Hint Resolve prime_p : primes.
