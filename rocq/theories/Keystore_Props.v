(** Properties C61 to C64, C87 and C88: the key store. *)
From stdpp Require Import gmap list.
From Coq Require Import ZArith Lia.
From Verif Require Import GoInt Thrift_Model Util_Model Keystore_Model Keystore_Spec Thrift_Proofs Keystore_Proofs.
From Verif Require Compress_Model Compress_Proofs.
Local Open Scope Z_scope.

(** ** C61: the stored form *)

(** What was encoded is decoded: nil maps stay nil, empty maps empty, whatever order range takes, and whatever bytes follow. *)
Theorem c61_round_trip : forall k es r, order_ok k es -> fits k -> TDecode (TEncode es ++ r) = Some k.
Proof. intros k es r Ho Hf. apply TDecode_codes, encode_codes; assumption. Qed.
Print Assumptions c61_round_trip.
Definition ex_user : user := User [114; 111; 111; 116] [65; 66] (-3).
Definition ex_bean : keybean :=
  KeyBean (Some {[ [114] := Some ex_user; [] := Some (User [] [] 127) ]}) None (Some ∅) (Some {[ [107] := [118; 119] ]}).
Local Ltac sh := split; [vm_compute; discriminate|repeat constructor; unfold is_u8; cbn; lia].
Example c61_ex : exists es, order_ok ex_bean es /\ fits ex_bean /\ length (TEncode es) = 37%nat /\
  e_admin es = Some [([], Some (User [] [] 127)); ([114], Some ex_user)].
Proof.
  exists (Entries (Some [([], Some (User [] [] 127)); ([114], Some ex_user)]) None (Some []) (Some [([107], [118; 119])])).
  split; [|split; [|split; [vm_compute; reflexivity|reflexivity]]].
  - unfold order_ok, ex_bean. cbn [k_admin k_client k_mq k_other e_admin e_client e_mq e_other order_of]. split; [|split; [exact I|split]].
    + rewrite map_to_list_insert by (rewrite lookup_singleton_ne by discriminate; reflexivity). rewrite map_to_list_singleton. apply perm_swap.
    + rewrite map_to_list_empty. reflexivity.
    + rewrite map_to_list_singleton. reflexivity.
  - unfold fits, ex_bean. cbn [k_admin k_client k_mq k_other]. split; [|split; [|split]].
    + intros m Hm. assert (m = {[ [114] := Some ex_user; [] := Some (User [] [] 127) ]}) as -> by congruence. split; [vm_compute; discriminate|].
      intros k u Hk. apply lookup_insert_Some in Hk as [[<- <-]|[_ Hk]]; [|apply lookup_singleton_Some in Hk as [<- <-]].
      * split; [sh|]. eexists. split; [reflexivity|]. split; [sh|]. split; [sh|]. unfold is_i8. cbn. lia.
      * split; [sh|]. eexists. split; [reflexivity|]. split; [sh|]. split; [sh|]. unfold is_i8. cbn. lia.
    + intros m Hm. discriminate.
    + intros m Hm. assert (m = ∅) as -> by congruence. split; [vm_compute; discriminate|]. intros k u Hk. rewrite lookup_empty in Hk. discriminate.
    + intros m Hm. assert (m = {[ [107] := [118; 119] ]}) as -> by congruence. split; [vm_compute; discriminate|].
      intros k u Hk. apply lookup_singleton_Some in Hk as [<- <-]. split; sh.
Qed.
(** Two beans that can be stored never have a common encoding. *)
Theorem c61_injective : forall k1 k2 es1 es2, order_ok k1 es1 -> order_ok k2 es2 -> fits k1 -> fits k2 -> TEncode es1 = TEncode es2 -> k1 = k2.
Proof.
  intros k1 k2 es1 es2 O1 O2 F1 F2 E. pose proof (c61_round_trip k1 es1 [] O1 F1) as D1. pose proof (c61_round_trip k2 es2 [] O2 F2) as D2. rewrite E in D1. congruence.
Qed.
Print Assumptions c61_injective.
(** Documents of other writers: the sections in any order, the fields of users in any order, repeated fields, and unknown fields of any
    type between them, also within users. *)
Theorem c61_unknown_fields_are_skipped : forall items bs r, kdoc 0 items bs -> TDecode (bs ++ r) = Some (kmeans items).
Proof. intros items bs r H. apply TDecode_codes, codes_key, H. Qed.
Print Assumptions c61_unknown_fields_are_skipped.
Lemma wvalue_list d f et ec n r : wtype et ec -> wmany (wvalue d false et) n r -> (n < 15)%nat -> wvalue (S d) f LIST ([16 * Z.of_nat n + ec] ++ r).
Proof. intros H1 H2 H3. exists n, et, ec, r. auto. Qed.
Lemma wvalue_i32 d f n bs : varint n bs -> wvalue (S d) f I32 bs.
Proof. intros H. exists n. exact H. Qed.
Lemma wvalue_byte d f b : wvalue (S d) f BYTE [b].
Proof. reflexivity. Qed.
(** Section 4 first, a field 20 that is a list of two numbers, then section 1 with a user that has a field 7 and its fields in another order. *)
Example c61_ex_unknown :
  kdoc 0 [IOther [([107], [118])]; IMoreK 20 LIST; IUsers Admin [([97], User [98] [99] 5)]]
    ([75; 1; 136; 1; 107; 1; 118] ++ [9; 40; 37; 1; 200; 1] ++ [11; 2; 1; 140; 1; 97; 51; 5; 67; 6; 8; 4; 1; 99; 8; 2; 1; 98; 0] ++ [0]) /\
  kmeans [IOther [([107], [118])]; IMoreK 20 LIST; IUsers Admin [([97], User [98] [99] 5)]] =
    KeyBean (Some {[ [97] := Some (User [98] [99] 5) ]}) None None (Some {[ [107] := [118] ]}).
Proof.
  assert (V : forall n, 0 <= n < 128 -> varint n [n]) by (intros; apply varint_last; assumption).
  assert (W : forall b, wstring [b] [1; b]) by (intros b; exists [1]; split; [vm_compute; discriminate|split; [apply V; cbn; lia|reflexivity]]).
  split; [|reflexivity].
  change ([75; 1; 136; 1; 107; 1; 118] ++ [9; 40; 37; 1; 200; 1] ++ [11; 2; 1; 140; 1; 97; 51; 5; 67; 6; 8; 4; 1; 99; 8; 2; 1; 98; 0] ++ [0])
    with ([75] ++ [1; 136; 1; 107; 1; 118] ++ [9; 40] ++ [37; 1; 200; 1] ++ [11; 2] ++ [1; 140; 1; 97; 51; 5; 67; 6; 8; 4; 1; 99; 8; 2; 1; 98; 0] ++ [0]).
  apply kdoc_other; [apply (head_short 0 4 MAP 11); [constructor|lia]| |].
  { right. exists [1], [[1; 107; 1; 118]]. split; [discriminate|]. split; [vm_compute; discriminate|]. split; [apply V; cbn; lia|]. split; [|reflexivity].
    constructor; [|constructor]. exists [1; 107], [1; 118]. split; [apply W|]. split; [apply W|reflexivity]. }
  apply kdoc_more; [unfold is_i16; lia|lia|apply (head_long 4 20 LIST 9 [40]); [constructor|apply V; cbn; lia]| |].
  { change [37; 1; 200; 1] with ([16 * Z.of_nat 2 + 5] ++ [1; 200; 1]). apply (wvalue_list 63 true I32); [constructor| |lia].
    apply (many_cons _ 1 [1] [200; 1]); [apply (wvalue_i32 62 _ 1), V; lia|]. apply (many_cons _ 0 [200; 1] []); [|constructor].
    apply (wvalue_i32 62 _ 200). apply varint_more; [lia|reflexivity|]. apply V. cbn. lia. }
  apply (kdoc_users 20 Admin); [apply (head_long 20 1 MAP 11 [2]); [constructor|apply V; cbn; lia]| |constructor].
  right. exists [1], [[1; 97; 51; 5; 67; 6; 8; 4; 1; 99; 8; 2; 1; 98; 0]]. split; [discriminate|]. split; [vm_compute; discriminate|]. split; [apply V; cbn; lia|]. split; [|reflexivity].
  constructor; [|constructor]. exists [1; 97], ([51] ++ [5 mod 256] ++ [67] ++ [6] ++ [8; 4] ++ [1; 99] ++ [8; 2] ++ [1; 98] ++ [0]), [IType 5; IMore 7 BYTE; IPwd [99]; IName [98]].
  split; [apply W|]. split; [|split; reflexivity].
  apply udoc_type; [apply (head_short 0 3 BYTE 3); [constructor|lia]|unfold is_i8; lia|].
  apply udoc_more; [unfold is_i16; lia|lia|lia|lia|apply (head_short 3 7 BYTE 3); [constructor|lia]|apply (wvalue_byte 63)|].
  apply udoc_pwd; [apply (head_long 7 2 STRING 8 [4]); [constructor|apply V; cbn; lia]|apply W|].
  apply udoc_name; [apply (head_long 2 1 STRING 8 [2]); [constructor|apply V; cbn; lia]|apply W|]. constructor.
Qed.
(** Anything less than the whole document is an error. *)
Theorem c61_truncation_is_reported : forall items bs p, kdoc 0 items bs -> p `prefix_of` bs -> p <> bs -> TDecode p = None.
Proof. intros items bs p H. eapply TDecode_prefix, codes_key, H. Qed.
Print Assumptions c61_truncation_is_reported.
Example c61_ex_truncated : TDecode [75; 1; 136; 1; 107; 1; 118] = None /\ TDecode [75; 1; 136; 1; 107; 1; 118; 0] <> None.
Proof. split; [vm_compute; reflexivity|vm_compute; discriminate]. Qed.
(** A nil user is written and makes the whole document unreadable. *)
Theorem c61_nil_users_cannot_be_read : forall es r,
  (forall sec l, match sec with Admin => e_admin es | Client => e_client es | Mq => e_mq es end = Some l ->
     Z.of_nat (length l) <= max_len /\ Forall (fun e => short e.1 /\ (e.2 = None \/ user_fits e.2)) l) ->
  (exists sec l name, match sec with Admin => e_admin es | Client => e_client es | Mq => e_mq es end = Some l /\ (name, None) ∈ l) ->
  TDecode (TEncode es ++ r) = None.
Proof.
  intros es r Hok (sec & l & name & Hl & Hin). unfold TDecode.
  rewrite (dies_key es); [reflexivity|intros l' E; apply (Hok Admin l' E)|intros l' E; apply (Hok Client l' E)|intros l' E; apply (Hok Mq l' E)|].
  assert (N : has_nil l) by (apply Exists_exists; exists (name, None); auto). destruct sec; [left|right; left|right; right]; exists l; auto.
Qed.
Print Assumptions c61_nil_users_cannot_be_read.
Example c61_ex_nil : TDecode (TEncode (Entries None (Some [([97], Some ex_user); ([98], None)]) None None)) = None.
Proof. vm_compute. reflexivity. Qed.
(** Reading comes to an end on any input. *)
Theorem c61_reading_terminates : forall bs, KeyBean_Read bs <> RFuel /\ forall k r, KeyBean_Read bs = ROk k r -> (length r < length bs)%nat.
Proof. intros bs. pose proof (takes_key bs) as H. destruct (KeyBean_Read bs); [|split; congruence|contradiction]. split; [discriminate|]. intros k r E. congruence. Qed.
Print Assumptions c61_reading_terminates.
Example c61_ex_junk : KeyBean_Read [255; 255; 3; 3] = RErr.
Proof. vm_compute. reflexivity. Qed.

(** ** C62: what was put is there after a restart *)

Definition o0 : order := Order map_to_list map_to_list.
Example o0_visits : visits_all o0.
Proof. split; reflexivity. Qed.
Definition s_empty : store := Store (Some (KeyBean (Some ∅) (Some ∅) (Some ∅) (Some ∅))) [].
(** With util.Zlib as it is, nothing that was put is ever there after a restart, for any contents and any conforming compressor. *)
Theorem c62_nothing_survives_a_restart : forall c o s s' call k, Compress_Model.conforming c -> visits_all o ->
  (match call with CPut _ _ _ _ | CPutOther _ _ => True | _ => False end) ->
  do_call (util_z c) s (o, call) = Some s' -> kb s' = Some k -> fits k ->
  forall sec name key, GetUser sec name (Load (util_z c) (restart s')) = Some (None, false) /\ GetOther key (Load (util_z c) (restart s')) = Some ([], false).
Proof.
  intros c o s s' call k Hc Ho Hcall Hd Hk Hf sec name key.
  assert (E : s' = persist (util_z c) o k).
  { destruct call as [| sec' name' pwd ty| |key' value|]; try contradiction; cbn [do_call snd fst] in Hd.
    - unfold PutUser in Hd. destruct (kb s) as [k0|]; [|discriminate]. destruct (sec_get sec' k0) as [m|]; [|discriminate]. apply Some_inj in Hd. rewrite <- Hd in Hk |- *.
      unfold persist in Hk. cbn [kb] in Hk. apply Some_inj in Hk. rewrite Hk. reflexivity.
    - unfold PutOther in Hd. destruct (kb s) as [k0|]; [|discriminate]. destruct (k_other k0) as [m|]; [|discriminate]. apply Some_inj in Hd. rewrite <- Hd in Hk |- *.
      unfold persist in Hk. cbn [kb] in Hk. apply Some_inj in Hk. rewrite Hk. reflexivity. }
  unfold restart. rewrite E, (Load_util c o k None Hc Ho Hf). split.
  - rewrite (GetUser_bean _ _ _ empty_bean) by reflexivity. unfold get_user. destruct sec; cbn [sec_get empty_bean k_admin k_client k_mq]; rewrite lookup_empty; reflexivity.
  - rewrite (GetOther_bean _ _ empty_bean) by reflexivity. unfold get_other. cbn [empty_bean k_other]. rewrite lookup_empty. reflexivity.
Qed.
Print Assumptions c62_nothing_survives_a_restart.
Theorem c62_persists_refuted : exists c o s s' name pwd ty, Compress_Model.conforming c /\ visits_all o /\ ready (default (KeyBean None None None None) (kb s)) /\
  PutUser (util_z c) o Admin name pwd ty s = Some s' /\ GetUser Admin name s' = Some (Some (User name (Md5Str pwd) ty), true) /\
  GetUser Admin name (Load (util_z c) (restart s')) = Some (None, false).
Proof.
  exists Compress_Model.stored, o0, s_empty. eexists. exists [97], [98], 1. split; [apply Compress_Proofs.stored_conforming|]. split; [apply o0_visits|].
  split; [repeat split; discriminate|]. split; [reflexivity|]. split; [|vm_compute; reflexivity].
  vm_compute; reflexivity.
Qed.
Print Assumptions c62_persists_refuted.
(** With compression that can be undone, a restart changes nothing. *)
Theorem c62_persists_partial : forall z o k, faithful z -> visits_all o -> fits k -> Load z (restart (persist z o k)) = persist z o k.
Proof. intros z o k Hz Ho Hf. apply (Load_faithful z o k None Hz Ho Hf). Qed.
Print Assumptions c62_persists_partial.
(** And so, after any history of Puts and Dels of a store that a restart would not change, a restart changes nothing: what was put is there, what was deleted is not. *)
Theorem c62_history_persists_partial : forall z cs s s' k, faithful z -> Forall (fun c => visits_all (fst c)) cs -> no_load (map snd cs) ->
  Load z (restart s) = s -> do_calls z s cs = Some s' -> kb s' = Some k -> fits k -> Load z (restart s') = s'.
Proof.
  intros z cs s s' k Hz Ho Hn Hs Hd Hk Hf.
  assert (HX : forall cs s, Forall (fun c => visits_all (fst c)) cs -> no_load (map snd cs) -> (Load z (restart s) = s \/ exists o k0, visits_all o /\ s = persist z o k0) ->
    do_calls z s cs = Some s' -> (Load z (restart s') = s' \/ exists o k0, visits_all o /\ s' = persist z o k0)).
  { clear. induction cs as [|[o c] cs IH]; intros s Ho Hn HI Hd; cbn [do_calls] in Hd; [injection Hd as <-; exact HI|].
    apply Forall_cons in Ho as [Ho1 Ho]. cbn [fst] in Ho1. unfold no_load in Hn. cbn [map snd] in Hn. apply not_elem_of_cons in Hn as [Hn1 Hn].
    destruct (do_call z s (o, c)) as [s1|] eqn:E; [|discriminate]. apply (IH s1 Ho Hn); [|exact Hd].
    destruct c as [|sec name pwd ty|sec name|key v|key]; [congruence| | | |]; cbn [do_call fst snd] in E.
    - unfold PutUser in E. destruct (kb s) as [k0|]; [|discriminate]. destruct (sec_get sec k0); [|discriminate]. injection E as <-. right. eauto.
    - unfold DelUser in E. destruct (kb s) as [k0|]; [|discriminate]. destruct (sec_get sec k0) as [m|]; [|injection E as <-; exact HI]. destruct (m !! name); injection E as <-; [right; eauto|exact HI].
    - unfold PutOther in E. destruct (kb s) as [k0|]; [|discriminate]. destruct (k_other k0); [|discriminate]. injection E as <-. right. eauto.
    - unfold DelOther in E. destruct (kb s) as [k0|]; [|discriminate]. destruct (k_other k0) as [m|]; [|injection E as <-; exact HI]. destruct (m !! key); injection E as <-; [right; eauto|exact HI]. }
  destruct (HX cs s Ho Hn (or_introl Hs) Hd) as [H|(o & k0 & Ho' & ->)]; [exact H|]. cbn [persist kb] in Hk. injection Hk as ->. apply c62_persists_partial; assumption.
Qed.
Print Assumptions c62_history_persists_partial.
Example c62_history_ex : exists s', do_calls (closed_z Compress_Model.stored) (Load (closed_z Compress_Model.stored) (Store None []))
    (map (fun c => (o0, c)) [CPut Admin [97] [1] 1; CPut Admin [98] [2] 2; CDel Admin [97]; CPutOther [97] [5]]) = Some s' /\
  GetUser Admin [97] (Load (closed_z Compress_Model.stored) (restart s')) = Some (None, false) /\
  GetUser Admin [98] (Load (closed_z Compress_Model.stored) (restart s')) = Some (Some (User [98] (Md5Str [2]) 2), true).
Proof. eexists. split; [reflexivity|]. split; vm_compute; reflexivity. Qed.
(** Closing the writer before its buffer is taken would be enough. *)
Theorem c62_closing_the_writer_suffices_partial : forall c, Compress_Model.conforming c -> faithful (closed_z c).
Proof. exact closed_faithful. Qed.
Print Assumptions c62_closing_the_writer_suffices_partial.
Example c62_ex : exists s', PutUser (closed_z Compress_Model.stored) o0 Mq [97] [98] 1 s_empty = Some s' /\
  GetUser Mq [97] (Load (closed_z Compress_Model.stored) (restart s')) = Some (Some (User [97] (Md5Str [98]) 1), true).
Proof. eexists. split; [reflexivity|]. vm_compute. reflexivity. Qed.

(** ** C63: four maps *)

(** After any history each name has what was put last, unless it was deleted since; names nobody spoke of are as before. *)
Theorem c63_history : forall z s cs s', kb s <> None -> no_load (map snd cs) -> do_calls z s cs = Some s' ->
  (forall sec name, GetUser sec name s' = match last_word (put_in sec name) (map snd cs) with
     | Some (Some (pwd, ty)) => Some (Some (User name (Md5Str pwd) ty), true) | Some None => Some (None, false) | None => GetUser sec name s end) /\
  (forall key, GetOther key s' = match last_word (put_other key) (map snd cs) with
     | Some (Some v) => Some (v, true) | Some None => Some ([], false) | None => GetOther key s end).
Proof.
  intros z s cs s' Hk Hn Hd. destruct (kb s) as [k|] eqn:Ek; [|congruence]. destruct (do_calls_bean z cs s k s' Ek Hn Hd) as (k' & Hk' & U & O). split.
  - intros sec name. rewrite (GetUser_bean _ _ _ _ Hk'), (GetUser_bean _ _ _ _ Ek), U. destruct (last_word _ _) as [[[pwd ty]|]|]; reflexivity.
  - intros key. rewrite (GetOther_bean _ _ _ Hk'), (GetOther_bean _ _ _ Ek), O. destruct (last_word _ _) as [[v|]|]; reflexivity.
Qed.
Print Assumptions c63_history.
Example c63_ex : exists s', do_calls (util_z Compress_Model.stored) s_empty
    (map (fun c => (o0, c)) [CPut Admin [97] [1] 1; CPut Client [97] [2] 2; CDel Admin [97]; CPut Mq [98] [3] 3; CPut Client [97] [4] 4; CPutOther [97] [5]]) = Some s' /\
  GetUser Admin [97] s' = Some (None, false) /\ GetUser Client [97] s' = Some (Some (User [97] (Md5Str [4]) 4), true) /\ GetOther [97] s' = Some ([5], true).
Proof. eexists. split; [reflexivity|]. repeat split; vm_compute; reflexivity. Qed.
(** A call about one section leaves the others alone. *)
Theorem c63_sections_are_independent : forall z s o c s', kb s <> None -> c <> CLoad -> do_call z s (o, c) = Some s' ->
  (forall sec name, (match c with CPut sec' _ _ _ | CDel sec' _ => sec' <> sec | _ => True end) -> GetUser sec name s' = GetUser sec name s) /\
  (forall key, (match c with CPutOther _ _ | CDelOther _ => False | _ => True end) -> GetOther key s' = GetOther key s).
Proof.
  intros z s o c s' Hk Hc Hd. destruct (c63_history z s [(o, c)] s' Hk) as [U O].
  { unfold no_load. cbn. intros H. apply elem_of_list_singleton in H. congruence. }
  { cbn [do_calls]. rewrite Hd. reflexivity. }
  split.
  - intros sec name Hs. rewrite U. assert (E : put_in sec name c = None) by (destruct c; cbn [put_in]; try reflexivity; rewrite decide_False by tauto; reflexivity).
    unfold last_word. cbn [map snd]. rewrite last_omap_cons, E. reflexivity.
  - intros key Hs. rewrite O. assert (E : put_other key c = None) by (destruct c; try reflexivity; contradiction).
    unfold last_word. cbn [map snd]. rewrite last_omap_cons, E. reflexivity.
Qed.
Print Assumptions c63_sections_are_independent.
Example c63_ex_independent : exists s', do_call (util_z Compress_Model.stored) s_empty (o0, CPut Admin [97] [1] 1) = Some s' /\ Client <> Admin /\
  GetUser Admin [97] s' <> GetUser Admin [97] s_empty.
Proof. eexists. split; [reflexivity|]. split; [discriminate|]. vm_compute. discriminate. Qed.
(** The lists hold the names there are, each once. *)
Theorem c63_lists : forall o sec s l, visits_all o -> UserList o sec s = Some l -> NoDup l /\
  forall name, name ∈ l <-> exists u, GetUser sec name s = Some (u, true).
Proof.
  intros o sec s l [Ho _] Hl. unfold UserList in Hl. destruct (kb s) as [k|] eqn:Ek; [|discriminate]. 
  assert (G : forall name, GetUser sec name s = Some (get_user sec name k)) by (intros; apply GetUser_bean, Ek).
  destruct (sec_get sec k) as [m|] eqn:Em.
  - assert (l = map fst (o_users o m)) as -> by congruence. assert (P : map fst (o_users o m) ≡ₚ map fst (map_to_list m)) by (rewrite Ho; reflexivity). split.
    + rewrite P. apply NoDup_fst_map_to_list.
    + intros name. rewrite P, G. unfold get_user. rewrite Em. rewrite elem_of_list_fmap. split.
      * intros ([n u] & -> & Hin). apply elem_of_map_to_list in Hin. cbn [fst]. rewrite Hin. eauto.
      * intros [u Hu]. destruct (m !! name) as [v|] eqn:En; [|congruence]. exists (name, v). split; [reflexivity|]. apply elem_of_map_to_list, En.
  - assert (l = []) as -> by congruence. split; [constructor|]. intros name. rewrite G. unfold get_user. rewrite Em. split; [intros H; inversion H|]. intros [u Hu]. congruence.
Qed.
Print Assumptions c63_lists.
Example c63_ex_list : exists s', do_call (util_z Compress_Model.stored) s_empty (o0, CPut Admin [97] [1] 1) = Some s' /\ UserList o0 Admin s' = Some [[97]].
Proof. eexists. split; [reflexivity|]. vm_compute. reflexivity. Qed.

(** ** C64: a crash while writing *)

Theorem c64_crash_atomic_refuted : exists c o s s' w name u, Compress_Model.conforming c /\ visits_all o /\
  GetUser Admin name (Load (util_z c) (restart s)) = Some (Some u, true) /\ Load (util_z c) (restart s) = s /\
  PutUser (util_z c) o Client [99] [100] 1 s = Some s' /\
  w ∈ Write_states (util_z c) (file s) (TEncode (listed o (default (KeyBean None None None None) (kb s')))) /\
  w <> file s /\ w <> file s' /\ GetUser Admin name (Load (util_z c) (Store None w)) = Some (None, false).
Proof.
  set (k := KeyBean (Some {[ [97] := Some ex_user ]}) (Some ∅) (Some ∅) (Some ∅)).
  exists Compress_Model.stored, o0, (persist (closed_z Compress_Model.stored) o0 k). eexists. exists [], [97], ex_user.
  split; [apply Compress_Proofs.stored_conforming|]. split; [apply o0_visits|]. split; [vm_compute; reflexivity|]. split; [vm_compute; reflexivity|]. split; [reflexivity|].
  split; [right; left|]. split; [vm_compute; discriminate|]. split; [vm_compute; discriminate|vm_compute; reflexivity].
Qed.
Print Assumptions c64_crash_atomic_refuted.
(** The same with compression that works: a crash loses what was there before and what was to be written. *)
Theorem c64_crash_loses_everything_refuted : exists z o k k' w name u u', faithful z /\ visits_all o /\ w ∈ Write_states z (file (persist z o k)) (TEncode (listed o k')) /\
  GetUser Admin name (Load z (Store None (file (persist z o k)))) = Some (Some u, true) /\
  GetUser Admin name (Load z (Store None (file (persist z o k')))) = Some (Some u', true) /\
  GetUser Admin name (Load z (Store None w)) = Some (None, false).
Proof.
  exists (closed_z Compress_Model.stored), o0, (KeyBean (Some {[ [97] := Some ex_user ]}) (Some ∅) (Some ∅) (Some ∅)),
    (KeyBean (Some {[ [97] := Some (User [98] [99] 1) ]}) (Some ∅) (Some ∅) (Some ∅)), [], [97], ex_user, (User [98] [99] 1).
  split; [apply closed_faithful, Compress_Proofs.stored_conforming|]. split; [apply o0_visits|]. split; [right; left|]. split; [vm_compute; reflexivity|].
  split; vm_compute; reflexivity.
Qed.
Print Assumptions c64_crash_loses_everything_refuted.
(** What holds: a crash leaves the old file or a beginning of the new one; with compression that works, a beginning which the
    decompressor accepts gives the new store or an empty one, never something else. *)
Theorem c64_crash_states_partial : forall z old bs w, w ∈ Write_states z old bs -> w = old \/ w `prefix_of` ks_Write z bs.
Proof.
  intros z old bs w H. unfold Write_states in H. apply elem_of_cons in H as [->|H]; [auto|]. apply elem_of_cons in H as [->|H]; [right; apply prefix_nil|].
  apply elem_of_list_fmap in H as (n & -> & _). right. exists (skipn n (f_Zlib z bs)). unfold ks_Write. symmetry. apply take_drop.
Qed.
Print Assumptions c64_crash_states_partial.
Theorem c64_crash_load_partial : forall c o k w k0, Compress_Model.conforming c -> visits_all o -> fits k ->
  w `prefix_of` ks_Write (closed_z c) (TEncode (listed o k)) -> w = [] \/ Compress_Model.reader c w <> None ->
  kb (Load (closed_z c) (Store k0 w)) = Some k \/ kb (Load (closed_z c) (Store k0 w)) = Some (KeyBean (Some ∅) (Some ∅) (Some ∅) (Some ∅)).
Proof.
  intros c o k w k0 Hc Ho Hf Hp Hw. destruct Hw as [->|Hw]; [right; reflexivity|].
  pose proof (encode_codes k _ (listed_ok o k Ho) Hf) as Hcodes.
  destruct (decide (w = ks_Write (closed_z c) (TEncode (listed o k)))) as [E|Hn].
  { left. destruct (Load_faithful (closed_z c) o k k0 (closed_faithful c Hc) Ho Hf) as [_ L]. rewrite E. change (ks_Write (closed_z c) (TEncode (listed o k))) with (file (persist (closed_z c) o k)).
    rewrite L. reflexivity. }
  unfold ks_Write in Hp, Hn. cbn [closed_z f_Zlib] in Hp, Hn. unfold Compress_Model.Zlib in Hp, Hn. cbn [fst] in Hp, Hn.
  pose proof (Compress_Model.conf_cut c Hc _ _ _ w (TEncode_bytes k _ (listed_ok o k Ho) Hf) (or_introl eq_refl) Hp Hn) as C. destruct (Compress_Model.reader c w) as [r|] eqn:Er; [|congruence]. destruct C as [C _].
  unfold Load, ks_Read. cbn [file closed_z f_UnZlib]. unfold Compress_Model.uUnZlib. rewrite Er. destruct w as [|b w]; [right; reflexivity|]. cbn [Compress_Model.ReadFrom fst snd].
  destruct (decide (Compress_Model.data r = TEncode (listed o k))) as [E|Hd].
  - rewrite E. pose proof (TDecode_codes _ _ [] Hcodes) as D. rewrite app_nil_r in D. rewrite D. left. reflexivity.
  - rewrite (TDecode_prefix _ _ _ Hcodes C Hd). right. reflexivity.
Qed.
Print Assumptions c64_crash_load_partial.
Example c64_ex : let bs := TEncode (listed o0 (default (KeyBean None None None None) (kb s_empty))) in
  [120; 156; 0; 1] `prefix_of` ks_Write (closed_z Compress_Model.stored) bs /\ Compress_Model.reader Compress_Model.stored [120; 156; 0; 1] <> None /\
  [120; 156; 0; 1] ∈ Write_states (closed_z Compress_Model.stored) [1] bs.
Proof.
  cbv zeta. split; [|split; [vm_compute; discriminate|]].
  - exists (skipn 4 (ks_Write (closed_z Compress_Model.stored) (TEncode (listed o0 (default (KeyBean None None None None) (kb s_empty)))))). vm_compute. reflexivity.
  - right. right. apply elem_of_list_fmap. exists 4%nat. split; [vm_compute; reflexivity|]. apply elem_of_seq. split; [lia|]. vm_compute. lia.
Qed.

(** ** C87: Put does not panic once the store is loaded *)

Theorem c87_put_after_load_panics_refuted : exists c f o name pwd ty, Compress_Model.conforming c /\ visits_all o /\
  PutUser (util_z c) o Admin name pwd ty (Load (util_z c) (Store None f)) = None /\ PutUser (util_z c) o Admin name pwd ty (Store None []) = None.
Proof.
  exists Compress_Model.stored, [0], o0, [97], [98], 1. split; [apply Compress_Proofs.stored_conforming|]. split; [apply o0_visits|]. split; vm_compute; reflexivity.
Qed.
Print Assumptions c87_put_after_load_panics_refuted.
(** Once the four maps are there, no history of calls panics ... *)
Theorem c87_no_panic_partial : forall z s k cs, kb s = Some k -> ready k -> no_load (map snd cs) -> exists s', do_calls z s cs = Some s'.
Proof. intros z s k cs. apply do_calls_ready. Qed.
Print Assumptions c87_no_panic_partial.
(** ... and they are there after loading a file that is empty, that cannot be decoded, or that this store has written. *)
Theorem c87_load_is_ready_partial : forall z s,
  file s = [] \/ (forall bs, ks_Read z (file s) = Some bs -> TDecode bs = None) \/
  (exists o k, file s = file (persist z o k) /\ ready k /\ fits k /\ visits_all o /\ (faithful z \/ exists c, Compress_Model.conforming c /\ z = util_z c)) ->
  exists k', kb (Load z s) = Some k' /\ ready k'.
Proof.
  intros z s [H|[H|(o & k & Hw & Hr & Hf & Ho & Hz)]].
  - exists empty_bean. split; [unfold Load, ks_Read; rewrite H; reflexivity|]. repeat split; discriminate.
  - exists empty_bean. rewrite (Load_undecodable z s H). split; [reflexivity|]. repeat split; discriminate.
  - destruct s as [k0 f]. cbn [file] in Hw. subst f. destruct Hz as [Hz|(c & Hc & ->)].
    + exists k. destruct (Load_faithful z o k k0 Hz Ho Hf) as [_ L]. rewrite L. split; [reflexivity|exact Hr].
    + exists empty_bean. rewrite (Load_util c o k k0 Hc Ho Hf). split; [reflexivity|]. repeat split; discriminate.
Qed.
Print Assumptions c87_load_is_ready_partial.
Example c87_ex : (forall bs, ks_Read (util_z Compress_Model.stored) [1; 2; 3] = Some bs -> TDecode bs = None) /\
  exists s', do_calls (util_z Compress_Model.stored) (Load (util_z Compress_Model.stored) (Store None [1; 2; 3])) [(o0, CPut Mq [97] [98] 1); (o0, CDelOther [99])] = Some s'.
Proof.
  split.
  - intros bs E. assert (bs = [1; 2; 3]) as -> by (vm_compute in E; congruence). vm_compute. reflexivity.
  - eexists. vm_compute. reflexivity.
Qed.

(** ** C88: KeyBean.Equals is equality of contents *)

Theorem c88_equals_refuted : exists p q, KeyBean_Equals p q = true /\ KeyBean_Equals q p = false /\ ~ same_bean p q.
Proof.
  exists (KeyBean None None None (Some {[ [97] := [] ]})), (KeyBean None None None (Some {[ [98] := [120] ]})).
  split; [vm_compute; reflexivity|]. split; [vm_compute; reflexivity|]. intros (_ & _ & _ & H). unfold same_map in H. cbn in H.
  assert (E : ({[ [97] := [] ]} : gmap str str) !! [97] = ({[ [98] := [120] ]} : gmap str str) !! [97]) by (rewrite H; reflexivity). vm_compute in E. discriminate.
Qed.
Print Assumptions c88_equals_refuted.
(** It is, if no user is nil and no other value is empty on the left. *)
Theorem c88_equals_partial : forall p q, no_nils p -> (KeyBean_Equals p q = true <-> same_bean p q).
Proof.
  intros p q [N1 N2]. unfold KeyBean_Equals, same_bean. rewrite !andb_true_iff.
  rewrite (users_Equals_iff (k_admin p)), (users_Equals_iff (k_client p)), (users_Equals_iff (k_mq p)), (other_Equals_iff (k_other p)).
  - tauto.
  - exact N2.
  - intros m n H. apply (N1 Mq m n H).
  - intros m n H. apply (N1 Client m n H).
  - intros m n H. apply (N1 Admin m n H).
Qed.
Print Assumptions c88_equals_partial.
Example c88_ex : no_nils ex_bean /\ KeyBean_Equals ex_bean ex_bean = true /\ KeyBean_Equals ex_bean (KeyBean (k_admin ex_bean) (Some ∅) None (k_other ex_bean)) = true.
Proof.
  split; [|split; vm_compute; reflexivity]. split.
  - intros sec m n. destruct sec; cbn [ex_bean sec_get k_admin k_client k_mq]; intros H; [|discriminate|].
    + assert (m = {[ [114] := Some ex_user; [] := Some (User [] [] 127) ]}) as -> by congruence. intros E.
      apply lookup_insert_Some in E as [[_ E]|[_ E]]; [discriminate|]. apply lookup_singleton_Some in E as [_ E]. discriminate.
    + assert (m = ∅) as -> by congruence. rewrite lookup_empty. discriminate.
  - intros m n H. cbn [ex_bean k_other] in H. assert (m = {[ [107] := [118; 119] ]}) as -> by congruence. intros E. apply lookup_singleton_Some in E as [_ E]. discriminate.
Qed.
