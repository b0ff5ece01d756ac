(** Claims about dialling, posting and signals: C74, C75, C99, C100. *)
From stdpp Require Import list.
From Coq Require Import ZArith Lia.
From Verif Require Import Net_Model Net_Spec Net_Proofs.
Local Open Scope Z_scope.

(** ** C74 *)
(** Any URL that does not start with ws: or wss: is refused before anything is read or dialled. *)
Theorem c74_refused read pem parses cfg :
  ~ begins_with ws_ (url cfg) -> ~ begins_with wss_ (url cfg) -> NewHandler read pem parses cfg = Refused.
Proof.
  intros H1 H2. unfold NewHandler. destruct (has_prefix wss_ (url cfg)) eqn:E; [apply has_prefix_ok in E; tauto|]. destruct (has_prefix ws_ (url cfg)) eqn:E'; [apply has_prefix_ok in E'; tauto|]. reflexivity.
Qed.
Print Assumptions c74_refused.
(** wss with CA files: a server is connected to iff every file can be read and holds a certificate, one of these signed the server's, and it is valid for its name. *)
Theorem c74_files_partial read pem parses cfg fs sys p :
  begins_with wss_ (url cfg) -> certFiles cfg = Some fs ->
  connects sys (NewHandler read pem parses cfg) p = true <->
    parses = true /\ (forall f, f ∈ fs -> exists b, read f = Some b /\ pem b <> []) /\ named p = true /\ (exists f b, f ∈ fs /\ read f = Some b /\ signer p ∈ pem b).
Proof.
  intros Hu Hf. unfold NewHandler. rewrite (proj2 (has_prefix_ok _ _) Hu), Hf. unfold dial_with. rewrite (scheme_wss _ Hu). split.
  - destruct (load_files read pem [] fs) as [r|] eqn:E; [|discriminate]. destruct parses; [|discriminate].
    destruct (decide _) as [X|_]; [discriminate|]. destruct (decide _) as [_|X]; [|destruct (X eq_refl)]. cbn [connects accepts skip roots orb]. intros H.
    apply andb_true_iff in H as [H1 H2]. apply bool_decide_eq_true in H1. apply load_files_ok in E as (bs & F & Hb & ->). rewrite app_nil_l in H1. split; [reflexivity|]. split; [|split; [exact H2|]].
    + intros f Hin. apply elem_of_list_lookup in Hin as [i Hi]. destruct (Forall2_lookup_l _ _ _ _ _ F Hi) as (b & Hb1 & Hb2). exists b. split; [exact Hb2|]. apply Hb. eapply elem_of_list_lookup_2. exact Hb1.
    + apply elem_of_list_In, in_concat in H1 as (l & Hl & Hs). apply elem_of_list_In, elem_of_list_fmap in Hl as (b & -> & Hin). apply elem_of_list_lookup in Hin as [i Hi].
      destruct (Forall2_lookup_r _ _ _ _ _ F Hi) as (f & Hf1 & Hf2). exists f, b. split; [eapply elem_of_list_lookup_2; exact Hf1|]. split; [exact Hf2|]. apply elem_of_list_In. exact Hs.
  - intros (-> & Hall & Hn & f & b & Hin & Hr & Hs).
    assert (exists bs, Forall2 (fun f b => read f = Some b) fs bs) as [bs F].
    { clear -Hall. induction fs as [|g fs IH]; [exists []; constructor|]. destruct (Hall g ltac:(left)) as (b & Hb & _). destruct IH as [bs IH]; [intros f Hf; apply Hall; right; exact Hf|]. exists (b :: bs). constructor; assumption. }
    assert (E : load_files read pem [] fs = Some (concat (pem <$> bs))).
    { apply load_files_ok. exists bs. split; [exact F|]. split; [|reflexivity]. intros b' Hb'. apply elem_of_list_lookup in Hb' as [i Hi]. destruct (Forall2_lookup_r _ _ _ _ _ F Hi) as (f' & Hf1 & Hf2).
      destruct (Hall f' ltac:(eapply elem_of_list_lookup_2; exact Hf1)) as (b'' & Hb1 & Hb2). congruence. }
    rewrite E. destruct (decide _) as [X|_]; [discriminate|]. destruct (decide _) as [_|X]; [|destruct (X eq_refl)]. cbn [connects accepts skip roots orb]. rewrite Hn, andb_true_r. apply bool_decide_eq_true.
    apply elem_of_list_In, in_concat. exists (pem b). split; [|apply elem_of_list_In; exact Hs]. apply elem_of_list_In, elem_of_list_fmap. exists b. split; [reflexivity|].
    apply elem_of_list_lookup in Hin as [i Hi]. destruct (Forall2_lookup_l _ _ _ _ _ F Hi) as (b' & Hb1 & Hb2). assert (b' = b) as -> by congruence. eapply elem_of_list_lookup_2. exact Hb1.
Qed.
Print Assumptions c74_files_partial.
(** wss with CA bytes and no files: likewise. *)
Theorem c74_bytes_partial read pem parses cfg bs sys p :
  begins_with wss_ (url cfg) -> certFiles cfg = None -> certBytes cfg = Some bs ->
  connects sys (NewHandler read pem parses cfg) p = true <->
    parses = true /\ (forall b, b ∈ bs -> pem b <> []) /\ named p = true /\ (exists b, b ∈ bs /\ signer p ∈ pem b).
Proof.
  intros Hu Hf Hc. unfold NewHandler. rewrite (proj2 (has_prefix_ok _ _) Hu), Hf, Hc. unfold dial_with. rewrite (scheme_wss _ Hu). split.
  - destruct (load_bytes pem [] bs) as [r|] eqn:E; [|discriminate]. destruct parses; [|discriminate].
    destruct (decide _) as [X|_]; [discriminate|]. destruct (decide _) as [_|X]; [|destruct (X eq_refl)]. cbn [connects accepts skip roots orb]. intros H.
    apply andb_true_iff in H as [H1 H2]. apply bool_decide_eq_true in H1. apply load_bytes_ok in E as (Hb & ->). rewrite app_nil_l in H1. split; [reflexivity|]. split; [exact Hb|]. split; [exact H2|].
    apply elem_of_list_In, in_concat in H1 as (l & Hl & Hs). apply elem_of_list_In, elem_of_list_fmap in Hl as (b & -> & Hin). exists b. split; [exact Hin|]. apply elem_of_list_In. exact Hs.
  - intros (-> & Hall & Hn & b & Hin & Hs).
    assert (E : load_bytes pem [] bs = Some (concat (pem <$> bs))) by (apply load_bytes_ok; split; [exact Hall|reflexivity]).
    rewrite E. destruct (decide _) as [X|_]; [discriminate|]. destruct (decide _) as [_|X]; [|destruct (X eq_refl)]. cbn [connects accepts skip roots orb]. rewrite Hn, andb_true_r. apply bool_decide_eq_true.
    apply elem_of_list_In, in_concat. exists (pem b). split; [|apply elem_of_list_In; exact Hs]. apply elem_of_list_In, elem_of_list_fmap. exists b. split; [reflexivity|exact Hin].
Qed.
Print Assumptions c74_bytes_partial.
(** wss with neither: TLS, and every server is accepted. *)
Theorem c74_no_ca read pem cfg :
  begins_with wss_ (url cfg) -> certFiles cfg = None -> certBytes cfg = None ->
  exists c, NewHandler read pem true cfg = OverTls c /\ forall sys p, accepts sys (Some c) p = true.
Proof.
  intros Hu Hf Hc. unfold NewHandler. rewrite (proj2 (has_prefix_ok _ _) Hu), Hf, Hc. unfold dial_with. rewrite (scheme_wss _ Hu). exists (Tls None true). split; [reflexivity|]. intros sys p. reflexivity.
Qed.
Print Assumptions c74_no_ca.
(** ws never uses TLS, and wss always does, whatever certificates are given. *)
Theorem c74_tls_or_not read pem parses cfg :
  (begins_with ws_ (url cfg) -> NewHandler read pem parses cfg = if parses then Plain else UrlError) /\ (begins_with wss_ (url cfg) -> NewHandler read pem parses cfg <> Plain).
Proof.
  split.
  - intros Hu. unfold NewHandler, dial_with. replace (has_prefix wss_ (url cfg)) with false by (destruct Hu as [r ->]; reflexivity). rewrite (proj2 (has_prefix_ok _ _) Hu), (scheme_ws _ Hu). destruct parses; reflexivity.
  - intros Hu. unfold NewHandler. rewrite (proj2 (has_prefix_ok _ _) Hu). unfold dial_with. rewrite (scheme_wss _ Hu).
    destruct (certFiles cfg) as [fs|]; [destruct (load_files read pem [] fs); destruct parses; discriminate|]. destruct (certBytes cfg) as [bs|]; [destruct (load_bytes pem [] bs); destruct parses; discriminate|]. destruct parses; discriminate.
Qed.
Print Assumptions c74_tls_or_not.
(** Violated: if both files and bytes are given, a server vouched for by the bytes is turned away; the bytes are not even looked at. *)
Theorem c74_both_refuted : exists read pem cfg fs bs sys p,
  begins_with wss_ (url cfg) /\ certFiles cfg = Some fs /\ certBytes cfg = Some bs /\ (forall f, f ∈ fs -> exists b, read f = Some b /\ pem b <> []) /\
  (exists b, b ∈ bs /\ signer p ∈ pem b) /\ named p = true /\ connects sys (NewHandler read pem true cfg) p = false.
Proof.
  exists (fun _ => Some [1]), (fun b => b), (WsCfg (wss_ ++ [47; 47; 97]) (Some [0]) (Some [[2]])), [0], [[2]], [], (Server 2 true).
  split; [exists [47; 47; 97]; reflexivity|]. split; [reflexivity|]. split; [reflexivity|]. split; [intros f _; exists [1]; split; [reflexivity|discriminate]|].
  split; [exists [2]; split; [left|cbn; left]|]. split; [reflexivity|]. vm_compute. reflexivity.
Qed.
Print Assumptions c74_both_refuted.
(** A Post to a URL that starts with https: accepts every server; any other one goes by the CAs of the system. *)
Theorem c74_https_partial u : (begins_with https_ u -> forall sys p, accepts sys (post_tls u) p = true) /\
  (~ begins_with https_ u -> forall sys p, accepts sys (post_tls u) p = true <-> signer p ∈ sys /\ named p = true).
Proof.
  unfold post_tls. split.
  - intros H. rewrite (proj2 (has_prefix_ok _ _) H). reflexivity.
  - intros H sys p. destruct (has_prefix https_ u) eqn:E; [apply has_prefix_ok in E; tauto|]. cbn [accepts]. rewrite andb_true_iff, bool_decide_eq_true. reflexivity.
Qed.
Print Assumptions c74_https_partial.
(** Violated: "HTTPS://a" is an https URL, and its server is verified. *)
Theorem c74_https_refuted : exists u, scheme u = Some https /\ exists sys p, accepts sys (post_tls u) p = false.
Proof. exists [72; 84; 84; 80; 83; 58; 47; 47; 97]. split; [reflexivity|]. exists [], (Server 1 true). vm_compute. reflexivity. Qed.
Print Assumptions c74_https_refuted.
(** Two files with three CAs; the third server is signed by a CA of the system only. *)
Example c74_ex :
  let read f := if f =? 0 then Some [10; 11] else if f =? 1 then Some [12] else None in
  let cfg fs := WsCfg (wss_ ++ [47; 47; 97]) (Some fs) None in
  (connects [13] (NewHandler read (fun b => b) true (cfg [0; 1])) <$> [Server 11 true; Server 12 true; Server 13 true; Server 12 false]) = [true; true; false; false] /\
  NewHandler read (fun b => b) true (cfg [0; 2]) = CertError /\
  NewHandler read (fun b => b) true (WsCfg [87; 83; 83; 58; 47; 47; 97] None None) = Refused /\ scheme [87; 83; 83; 58; 47; 47; 97] = Some wss.
Proof. vm_compute. auto. Qed.

(** ** C75 *)
(** Violated: two signals arrive, the second after the first was handled, and only one is handled, whatever runs afterwards. *)
Theorem c75_every_signal_refuted : exists evs, arrived [] evs = [2; 15] /\ forall n, called (listen [] (evs ++ replicate n Goes)) = [2].
Proof.
  exists [Arrives 2; Goes; Arrives 15]. split; [reflexivity|]. intros n. unfold listen. rewrite foldl_app. induction n as [|n IH]; [reflexivity|]. cbn [replicate foldl]. exact IH.
Qed.
Print Assumptions c75_every_signal_refuted.
(** The function is called at most once, and only with the first signal that arrived among those asked for. *)
Theorem c75_first_only_partial sigs evs : called (listen sigs evs) = [] \/ exists s, head (arrived sigs evs) = Some s /\ called (listen sigs evs) = [s].
Proof. destruct (listen_inv sigs evs) as [(_ & H & _)|(_ & s & H1 & H2)]; [left; exact H|right; eauto]. Qed.
Print Assumptions c75_first_only_partial.
(** Once one has arrived and the goroutine runs, it is called. *)
Theorem c75_first_handled_partial sigs evs evs' s : head (arrived sigs evs) = Some s -> called (listen sigs (evs ++ Goes :: evs')) = [s].
Proof.
  intros H. assert (X : called (listen sigs (evs ++ [Goes])) = [s]).
  { unfold listen. rewrite foldl_app. cbn [foldl sig_step]. destruct (listen_inv sigs evs) as [(H1 & H2 & H3)|(H1 & s' & H2 & H3)]; unfold listen in *; set (l := foldl _ _ evs) in *; clearbody l.
    - rewrite H3, H, H1, H2. reflexivity.
    - destruct (chan l); rewrite ?H1, H3; congruence. }
  assert (head (arrived sigs (evs ++ Goes :: evs')) = Some s) as A by (unfold arrived in *; rewrite omap_app; destruct (omap _ evs); [discriminate|exact H]).
  clear H. change (evs ++ Goes :: evs') with (evs ++ [Goes] ++ evs') in *. rewrite app_assoc in *. pose proof (listen_inv sigs (evs ++ [Goes])) as I. unfold listen in *. rewrite foldl_app. set (l := foldl _ _ (evs ++ [Goes])) in *.
  assert (W : waiting l = false) by (destruct I as [(_ & H2 & _)|(H1 & _)]; [congruence|exact H1]).
  clear I. clearbody l. clear A. revert l X W. induction evs' as [|e r IH]; intros l X W; [exact X|]. cbn [foldl]. apply IH; destruct e as [s'|]; cbn [sig_step]; [destruct (_ || _)| |destruct (_ || _)|]; destruct (chan l); cbn [called waiting]; rewrite ?W; auto.
Qed.
Print Assumptions c75_first_handled_partial.
Example c75_ex : arrived [2; 15] [Arrives 1; Goes; Arrives 15; Arrives 2] = [15; 2] /\ called (listen [2; 15] [Arrives 1; Goes; Arrives 15; Arrives 2; Goes; Arrives 2; Goes]) = [15].
Proof. vm_compute. auto. Qed.

(** ** C99 *)
(** Post3 makes one request with the body given (none if empty), to the URL given; the result is the body of the answer, or an error and no body. *)
Theorem c99_request valid do bs close u hs c : valid u = true -> exists r,
  fst (Post3 valid do bs close u hs c) = Some r /\ rurl r = u /\ rclose r = close /\ default [] (rbody r) = bs /\ (rbody r = None <-> bs = []) /\
  forall b, snd (Post3 valid do bs close u hs c) = (Some b, false) <-> exists status, do (post_tls u) r = Body status b.
Proof.
  intros H. unfold Post3. rewrite H. eexists. split; [reflexivity|]. cbn [rurl rclose rbody]. split; [reflexivity|]. split; [reflexivity|]. split; [destruct bs; reflexivity|]. split; [destruct bs; split; congruence|].
  intros b. cbn [snd]. destruct (do _ _) as [| |st b']; [split; [discriminate|intros [s X]; discriminate]..|]. split; [intros X; injection X as <-; eauto|intros [s X]; injection X as _ ->; reflexivity].
Qed.
Print Assumptions c99_request.
(** A body and an error never come together, and never neither. *)
Theorem c99_result valid do bs close u hs c : let r := snd (Post3 valid do bs close u hs c) in fst r = None <-> snd r = true.
Proof. cbn. unfold Post3. destruct (valid u); [|cbn; tauto]. cbn [snd]. destruct (do _ _); cbn; split; congruence. Qed.
Print Assumptions c99_result.
(** An invalid URL: an error, and no request. *)
Theorem c99_invalid valid do bs close u hs c : valid u = false -> Post3 valid do bs close u hs c = (None, (None, true)).
Proof. intros H. unfold Post3. rewrite H. reflexivity. Qed.
Print Assumptions c99_invalid.
(** Without headers and cookie none are set. *)
Theorem c99_plain valid do bs close u : valid u = true -> exists r, fst (Post2 valid do bs close u) = Some r /\ rhead r = [] /\ fst (Post valid do bs u) = Some (Req u (rbody r) [] false).
Proof. intros H. unfold Post, Post2, Post3. rewrite H. eexists. split; [reflexivity|]. split; reflexivity. Qed.
Print Assumptions c99_plain.
(** The server doubles the body; whatever its status, a body that was read is no error. *)
Example c99_ex : let do c r := match c, rbody r with Some c, Some b => if skip c then Body 200 (b ++ b) else DoError | _, _ => DoError end in
  snd (Post (fun _ => true) do [1; 2] (https_ ++ [47; 47; 97])) = (Some [1; 2; 1; 2], false) /\ snd (Post (fun _ => true) do [] (https_ ++ [47; 47; 97])) = (None, true).
Proof. vm_compute. auto. Qed.

(** ** C100 *)
(** The header carries for each name a value given for it, capitals aside, and nothing for other names; the cookie is appended to one given as header. *)
Theorem c100_headers valid do bs close u hs r K : fst (Post3 valid do bs close u hs None) = Some r ->
  match hget K (rhead r) with Some v => v ∈ given K hs | None => given K hs = [] end.
Proof.
  unfold Post3. destruct (valid u); [|discriminate]. intros H. injection H as <-. cbn [rhead]. rewrite heads_get. destruct (last (given K hs)) as [v|] eqn:E.
  - rewrite last_lookup in E. eapply elem_of_list_lookup_2. exact E.
  - apply last_None in E. exact E.
Qed.
Print Assumptions c100_headers.
Theorem c100_cookie valid do bs close u hs c r K : fst (Post3 valid do bs close u hs (Some c)) = Some r ->
  exists r0, fst (Post3 valid do bs close u hs None) = Some r0 /\
  hget K (rhead r) = if decide (K = cookie_) then Some (match hget cookie_ (rhead r0) with Some (x :: l) => (x :: l) ++ [59; 32] ++ c | _ => c end) else hget K (rhead r0).
Proof.
  unfold Post3. destruct (valid u); [|discriminate]. intros H. injection H as <-. eexists. split; [reflexivity|]. cbn [rhead]. unfold add_cookie. set (h := foldl _ _ hs). clearbody h.
  assert (C : canonical cookie_ = cookie_) by reflexivity.
  destruct (hget cookie_ h) as [[|x l]|]; rewrite hget_hset, C; destruct (decide (K = cookie_)) as [->|]; rewrite ?decide_True by reflexivity; try reflexivity; rewrite decide_False by congruence; reflexivity.
Qed.
Print Assumptions c100_cookie.
(** If no two names of the map differ in capitals only, the request does not depend on the order in which the map is visited. *)
Theorem c100_order_partial valid do bs close u hs hs' c r r' K : hs ≡ₚ hs' -> NoDup (canonical ∘ fst <$> hs) ->
  fst (Post3 valid do bs close u hs c) = Some r -> fst (Post3 valid do bs close u hs' c) = Some r' -> hget K (rhead r) = hget K (rhead r').
Proof.
  intros Hp Hn H H'.
  assert (G : forall K, last (given K hs) = last (given K hs')).
  { intros k. pose proof (given_perm k _ _ Hp) as P. pose proof (given_one k hs Hn) as L. destruct (given k hs) as [|x [|y l]]; [apply Permutation_nil_l in P; rewrite <- P; reflexivity|apply Permutation_singleton_l in P; rewrite P; reflexivity|cbn in L; lia]. }
  assert (N : forall s s', fst (Post3 valid do bs close u hs None) = Some s -> fst (Post3 valid do bs close u hs' None) = Some s' -> forall K, hget K (rhead s) = hget K (rhead s')).
  { unfold Post3. destruct (valid u); [|discriminate]. intros s s' X X'. injection X as <-. injection X' as <-. intros k. cbn [rhead]. rewrite !heads_get, G. reflexivity. }
  destruct c as [c|]; [|exact (N _ _ H H' K)]. destruct (c100_cookie _ _ _ _ _ _ _ _ K H) as (s & Hs & ->). destruct (c100_cookie _ _ _ _ _ _ _ _ K H') as (s' & Hs' & ->). rewrite !(N _ _ Hs Hs'). reflexivity.
Qed.
Print Assumptions c100_order_partial.
(** Violated: with "a" and "A" in the map, the request depends on it. *)
Theorem c100_order_refuted : exists valid do u hs hs' K r r', hs ≡ₚ hs' /\ NoDup (fst <$> hs) /\
  fst (Post3 valid do [] false u hs None) = Some r /\ fst (Post3 valid do [] false u hs' None) = Some r' /\ hget K (rhead r) <> hget K (rhead r').
Proof.
  exists (fun _ => true), (fun _ _ => DoError), [], [([97], [1]); ([65], [2])], [([65], [2]); ([97], [1])], [65], (Req [] None [([65], [2])] false), (Req [] None [([65], [1])] false).
  split; [apply Permutation_swap|]. split; [vm_compute; repeat constructor; rewrite ?elem_of_cons, ?elem_of_nil; intuition discriminate|]. split; [reflexivity|]. split; [reflexivity|]. discriminate.
Qed.
Print Assumptions c100_order_refuted.
(** "content-type" and a Cookie header with a cookie: Cookie is a=1; b=2. *)
Example c100_ex :
  let k := [99; 111; 110; 116; 101; 110; 116; 45; 116; 121; 112; 101] in
  canonical k = [67; 111; 110; 116; 101; 110; 116; 45; 84; 121; 112; 101] /\
  (rhead <$> fst (Post3 (fun _ => true) (fun _ _ => DoError) [] false [] [([67; 79; 79; 75; 73; 69], [97; 61; 49]); (k, [120])] (Some [98; 61; 50])))
  = Some [(cookie_, [97; 61; 49; 59; 32; 98; 61; 50]); (canonical k, [120])].
Proof. vm_compute. auto. Qed.
