(** The smaller prime of the built-in private key (keystore/key.go:21-35), with a certificate checked by Prime_Check.v. *)
From Coq Require Import ZArith Znumtheory List.
From Bignums Require Import BigZ.
From Verif Require Import Prime_Check Prime_Proofs.
Import ListNotations.
Local Open Scope Z_scope.
(** An integer of the checker (for keystore/key.go:21-35). *)
Local Notation B := BigZ.of_Z.
Create HintDb primes.
Ltac by_certificate n cs :=
  rewrite <- (BigZ.spec_of_Z _); apply (checkN_prime (N := n) (cs := cs)); [vm_cast_no_check (eq_refl true)|];
  let l := fresh in let H := fresh in intros l H; vm_compute in H;
  repeat (destruct H as [H|H]; [subst l; first [solve [auto with primes nocore]|apply trial_div_prime; vm_cast_no_check (eq_refl true)]|]); destruct H.
Lemma prime_3195561541 : prime 3195561541.
Proof.
  by_certificate (B 3195561541) ([Cert [B 0]
     [B 1207504949]
     [B 1988056592; B 1]
     [(3331, 1, [B 404815640]);
      (271, 1, [B 2275230866])] (B 1)]).
Qed.
#[local] Hint Resolve prime_3195561541 : primes.
Lemma prime_230080430953 : prime 230080430953.
Proof.
  by_certificate (B 230080430953) ([Cert [B 0]
     [B 183829502858]
     [B 46250928095; B 1]
     [(3195561541, 1, [B 125209828604])] (B 1)]).
Qed.
#[local] Hint Resolve prime_230080430953 : primes.
Lemma prime_66798971 : prime 66798971.
Proof.
  by_certificate (B 66798971) ([Cert [B 0]
     [B 65933256]
     [B 865715; B 1]
     [(1381, 1, [B 26769744]);
      (691, 1, [B 39571300])] (B 1)]).
Qed.
#[local] Hint Resolve prime_66798971 : primes.
Lemma prime_133597943 : prime 133597943.
Proof.
  by_certificate (B 133597943) ([Cert [B 0]
     [B 114778175]
     [B 18819768; B 1]
     [(66798971, 1, [B 81309345])] (B 1)]).
Qed.
#[local] Hint Resolve prime_133597943 : primes.
Lemma prime_17575079 : prime 17575079.
Proof.
  by_certificate (B 17575079) ([Cert [B 0]
     [B 898963]
     [B 16676116; B 1]
     [(607, 1, [B 496912]);
      (467, 1, [B 15796781])] (B 1)]).
Qed.
#[local] Hint Resolve prime_17575079 : primes.
Lemma prime_4120612776601559110151 : prime 4120612776601559110151.
Proof.
  by_certificate (B 4120612776601559110151) ([Cert [B 0]
     [B 3969742136116885607756]
     [B 150870640484673502395; B 1]
     [(133597943, 1, [B 2666936998058153279748]);
      (17575079, 1, [B 3253825350381691361232])] (B 1)]).
Qed.
#[local] Hint Resolve prime_4120612776601559110151 : primes.
Lemma prime_863206646829251 : prime 863206646829251.
Proof.
  by_certificate (B 863206646829251) ([Cert [B 0]
     [B 224945268050249]
     [B 638261378779002; B 1]
     [(1006471, 1, [B 268495833719658]);
      (3733, 1, [B 72734575319727])] (B 1)]).
Qed.
#[local] Hint Resolve prime_863206646829251 : primes.
Lemma prime_65213647971520342350631 : prime 65213647971520342350631.
Proof.
  by_certificate (B 65213647971520342350631) ([Cert [B 0]
     [B 21026278000918300241068]
     [B 44187369970602042109563; B 1]
     [(863206646829251, 1, [B 37492132564958940334097])] (B 1)]).
Qed.
#[local] Hint Resolve prime_65213647971520342350631 : primes.
Lemma prime_q : prime 10127611528874017620803064559261990278220507336969453722041019573104765777810120691669951595857299124373915310040752098460681066185353851744991241695891301.
Proof.
  by_certificate (B 10127611528874017620803064559261990278220507336969453722041019573104765777810120691669951595857299124373915310040752098460681066185353851744991241695891301) ([Cert [B 0]
     [B 1138096371288523797306127573219665424785828970958621866060959074570283927396920529050178524475730076605214744332784261858934453170227819497867465281444152]
     [B 8989515157585493823496936986042324853434678366010831855980060498534481850413200162619773071381569047768700565707967836601746613015126032247123776414447149; B 1]
     [(2, 2, [B 5063805764437008810401532279630995139110253668484726861020509786552382888905060345834975797928649562186957655020376049230340533092676925872495620847945650]);
      (3, 2, [B 4749212856304648605907338929340284958197913180110251104946769022994136962892230559491655041502865065196328401867816347220908954581905156871383766757861600]);
      (5, 2, [B 272783053927584879598273965451976349260546039872623055278223611829243291611283524417084437452407221386689147355872341327712246695088889259055349311573836]);
      (71, 1, [B 9826095875577382389878560954880808920919045295477315484069906514017634919049221125517208949111396204110549584356599303906399297836295356663959130289042269]);
      (33641, 1, [B 9517962976348453449823636752845056732695921905374093952002461648069737602583474273771598044616856561109262564191221974227339641690964003981023049802146770]);
      (812699, 1, [B 5883027206456299440440224045957204323191467277380731537929587850927579944208170968679508941243526444636363859863113836317676164370535241101538167186000583]);
      (1537001, 1, [B 5453911197046672296199409893184212170332218871353722937096600679874232447551312113463110033366217423088329547439886536707933855062161700865229861660191969]);
      (230080430953, 1, [B 8044558121280008075967558208053418026848588140824527347026197986561383162421573425032616464952384437684338767452138191813152970560885074789968125430849444]);
      (4120612776601559110151, 1, [B 6158507307725589232236096569580806651059504409157680490558237239471472382110718660681429961957486395368384895408917285612728611400893344836469658592200565])] (B 1426546631048841039586583665689979113577882770301543369);
   Cert [B (-2); B 0]
     [B 7772503200759544378405239452052023681372574055869286353985258530351900570353473729658385850891847169010168410304600259953114566716236426208297427131429745; B 7254395215322847084833312682149615556049256145234249581336689057762896696833088913475369780007689521513445464186322879145261761134326289291629142028633056]
     [B 1; B 4710216656228946484795650214419933193695866562200334736111522085505730414913293924023131489930903910727493799472303677015132998938234851073387629128923112; B 1]
     [(11, 1, [B 5063805764437008810401532279630995139110253668484726861020509786552382888905060345834975797928649562186957655020376049230340533092676925872495620847945650; B 4717281501367510884314044821814497300143923396751168918279723608128801783585963895973061904741357046356758815801480447439299362271862458007820511810488853]);
      (569, 1, [B 5063805764437008810401532279630995139110253668484726861020509786552382888905060345834975797928649562186957655020376049230340533092676925872495620847945650; B 5481086630276128854190796786287658685089967487347524856622125560738695692645070179880818010047342929838505047960955850589220332387706485119021693548704133]);
      (65213647971520342350631, 1, [B 5063805764437008810401532279630995139110253668484726861020509786552382888905060345834975797928649562186957655020376049230340533092676925872495620847945650; B 9806490088100867082758205403008743074164026864340484238142980422189351492113101800290048080121675430094377862835022408004695672973256404147567631631478189])] (B 1)]).
Qed.
#[local] Hint Resolve prime_q : primes.
