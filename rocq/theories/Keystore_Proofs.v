(** Proofs about Keystore_Model. *)
From stdpp Require Import gmap list.
From Coq Require Import ZArith Lia.
From Verif Require Import GoInt Thrift_Model Util_Model Keystore_Model Keystore_Spec Thrift_Proofs.
Local Open Scope Z_scope.

(** [p] fails on [e], whatever follows. *)
Definition dies {A} (p : reader A) (e : list Z) : Prop := forall r, p (e ++ r) = RErr.
Lemma dies_left {A B} (p : reader A) (f : A -> reader B) e1 e2 : dies p e1 -> dies (bind p f) (e1 ++ e2).
Proof. intros H r. unfold bind. rewrite <- app_assoc, H. reflexivity. Qed.
Lemma dies_here {A B} (p : reader A) (f : A -> reader B) e : dies p e -> dies (bind p f) e.
Proof. intros H r. unfold bind. rewrite H. reflexivity. Qed.
Lemma dies_right {A B} (p : reader A) (f : A -> reader B) e1 e2 a : codes p e1 a -> dies (f a) e2 -> dies (bind p f) (e1 ++ e2).
Proof. intros [H _] Hd r. unfold bind. rewrite <- app_assoc, H. apply Hd. Qed.
Lemma dies_fail {A} e : dies (@fail A) e.
Proof. intros r. reflexivity. Qed.
Lemma dies_app {A} (p : reader A) e1 e2 : dies p e1 -> dies p (e1 ++ e2).
Proof. intros H r. rewrite <- app_assoc. apply H. Qed.
Lemma dies_ext {A} (p q : reader A) e : (forall bs, p bs = q bs) -> dies p e -> dies q e.
Proof. intros E H r. rewrite <- E. apply H. Qed.

(** ** Users *)
#[local] Instance ttype_eq : EqDecision ttype. Proof. solve_decision. Defined.
Definition ustep (s : urd) (i : uitem) : urd :=
  match i with
  | IName v => Urd 1 v (ur_pwd s) (ur_type s) true (ur_p s) (ur_t s)
  | IPwd v => Urd 2 (ur_name s) v (ur_type s) (ur_n s) true (ur_t s)
  | IType v => Urd 3 (ur_name s) (ur_pwd s) v (ur_n s) (ur_p s) true
  | IMore id _ => Urd id (ur_name s) (ur_pwd s) (ur_type s) (ur_n s) (ur_p s) (ur_t s)
  end.
Ltac Zcases id := destruct id as [|id|id]; [|destruct id as [id|id|]; try (destruct id as [id|id|]); try (destruct id as [id|id|])|].
Lemma UserBean_field_other s id ty :
  ty <> STOP -> ~ (id = 1 /\ ty = STRING) -> ~ (id = 2 /\ ty = STRING) -> ~ (id = 3 /\ ty = BYTE) ->
  match ty with
    | STOP => ret (inr s)
    | _ =>
        match id, ty with
        | 1, STRING => do v <- ReadString; ret (inl (Urd id v (ur_pwd s) (ur_type s) true (ur_p s) (ur_t s)))
        | 2, STRING => do v <- ReadString; ret (inl (Urd id (ur_name s) v (ur_type s) (ur_n s) true (ur_t s)))
        | 3, BYTE => do v <- ReadByte; ret (inl (Urd id (ur_name s) (ur_pwd s) v (ur_n s) (ur_p s) true))
        | _, _ => do _ <- SkipDefault ty; ret (inl (Urd id (ur_name s) (ur_pwd s) (ur_type s) (ur_n s) (ur_p s) (ur_t s)))
        end
    end = (do _ <- SkipDefault ty; ret (inl (Urd id (ur_name s) (ur_pwd s) (ur_type s) (ur_n s) (ur_p s) (ur_t s)))).
Proof.
  intros H0 H1 H2 H3. Zcases id; destruct ty; try reflexivity; exfalso; tauto.
Qed.
Lemma takes_user_field s : takes (UserBean_field s).
Proof.
  unfold UserBean_field. apply takes_bind; [apply takes_head|]. intros [ty id].
  destruct (decide (ty = STOP)) as [->|H0]; [apply tame_ret|].
  destruct (decide (id = 1 /\ ty = STRING)) as [[-> ->]|H1]; [apply tame_bind; [apply takes_tame, takes_string|intros; apply tame_ret]|].
  destruct (decide (id = 2 /\ ty = STRING)) as [[-> ->]|H2]; [apply tame_bind; [apply takes_tame, takes_string|intros; apply tame_ret]|].
  destruct (decide (id = 3 /\ ty = BYTE)) as [[-> ->]|H3]; [apply tame_bind; [apply takes_tame, takes_ReadByte|intros; apply tame_ret]|].
  rewrite UserBean_field_other by assumption. apply tame_bind; [apply tame_skip|intros; apply tame_ret].
Qed.
Lemma head_not_stop last id t h : whead last id t h -> t <> STOP.
Proof. destruct 1 as [c Hc|c bs Hc]; apply (wtype_get _ _ Hc). Qed.
Lemma codes_udoc last items bs : udoc last items bs -> forall s, ur_last s = last -> codes (loop UserBean_field s) bs (fold_left ustep items s).
Proof.
  induction 1 as [last|last v h b items r Hh Hv Hd IH|last v h b items r Hh Hv Hd IH|last t h items r Hh Ht Hd IH|last id t h v items r Hid N1 N2 N3 Hh Hv Hd IH];
    intros s Hs; cbn [fold_left].
  - apply codes_loop_end; [apply takes_user_field|]. unfold UserBean_field. change [0] with ([0] ++ []). eapply codes_bind; [apply codes_stop|apply codes_ret].
  - rewrite app_assoc. eapply codes_loop_more; [apply takes_user_field| |apply IH; reflexivity]. unfold UserBean_field. rewrite Hs.
    eapply codes_bind; [eapply codes_head; [|exact Hh]; unfold is_i16; lia|]. eapply codes_bind_ret; [apply codes_string, Hv|reflexivity].
  - rewrite app_assoc. eapply codes_loop_more; [apply takes_user_field| |apply IH; reflexivity]. unfold UserBean_field. rewrite Hs.
    eapply codes_bind; [eapply codes_head; [|exact Hh]; unfold is_i16; lia|]. eapply codes_bind_ret; [apply codes_string, Hv|reflexivity].
  - rewrite app_assoc. eapply codes_loop_more; [apply takes_user_field| |apply IH; reflexivity]. unfold UserBean_field. rewrite Hs.
    eapply codes_bind; [eapply codes_head; [|exact Hh]; unfold is_i16; lia|]. eapply codes_bind_ret; [apply codes_i8, Ht|reflexivity].
  - rewrite app_assoc. eapply codes_loop_more; [apply takes_user_field| |apply IH; reflexivity]. unfold UserBean_field. rewrite Hs.
    eapply codes_bind; [apply codes_head; [exact Hid|exact Hh]|]. cbv beta iota.
    rewrite UserBean_field_other by (assumption || (eapply head_not_stop; eassumption)). eapply codes_bind_ret; [apply codes_skip, Hv|reflexivity].
Qed.
(** What the fold leaves. *)
Definition or_else {A} (o : option A) (d : A) : A := match o with Some a => a | None => d end.
Definition present {A} (o : option A) (d : bool) : bool := match o with Some _ => true | None => d end.
Lemma last_omap_cons {A B} (f : A -> option B) x l : last (omap f (x :: l)) = match last (omap f l) with Some y => Some y | None => f x end.
Proof.
  change (omap f (x :: l)) with (match f x with Some y => y :: omap f l | None => omap f l end). destruct (f x) as [y|] eqn:E; [|destruct (last (omap f l)); auto].
  destruct (omap f l) as [|z l']; [reflexivity|]. cbn [last]. destruct (last (z :: l')) eqn:E2; [rewrite <- E2; reflexivity|]. apply last_None in E2. discriminate.
Qed.
Lemma ufold items : forall s, let r := fold_left ustep items s in
  let n := last_some (fun i => match i with IName s => Some s | _ => None end) items in
  let p := last_some (fun i => match i with IPwd s => Some s | _ => None end) items in
  let t := last_some (fun i => match i with IType t => Some t | _ => None end) items in
  ur_name r = or_else n (ur_name s) /\ ur_pwd r = or_else p (ur_pwd s) /\ ur_type r = or_else t (ur_type s) /\
  ur_n r = present n (ur_n s) /\ ur_p r = present p (ur_p s) /\ ur_t r = present t (ur_t s).
Proof.
  unfold last_some. induction items as [|i items IH]; intros s; cbn zeta; [cbn; tauto|]. cbn [fold_left]. destruct (IH (ustep s i)) as (I1 & I2 & I3 & I4 & I5 & I6).
  rewrite I1, I2, I3, I4, I5, I6, !last_omap_cons.
  destruct i; cbn [ustep ur_name ur_pwd ur_type ur_n ur_p ur_t];
    repeat match goal with |- context[match ?x with Some _ => _ | None => _ end] => destruct x end; cbn; tauto.
Qed.
Lemma codes_user items bs u : udoc 0 items bs -> umeans items = Some u -> codes UserBean_Read bs u.
Proof.
  intros Hd Hu. unfold UserBean_Read. rewrite <- (app_nil_r bs). eapply codes_bind; [apply (codes_udoc _ _ _ Hd); reflexivity|].
  destruct (ufold items (Urd 0 [] [] 0 false false false)) as (I1 & I2 & I3 & I4 & I5 & I6). cbn zeta in *. rewrite I1, I2, I3, I4, I5, I6.
  unfold umeans in Hu. do 3 (match type of Hu with context[match ?x with Some _ => _ | None => _ end] => destruct x end; [|discriminate]).
  cbn [present negb or_else]. assert (E : ret (User l l0 z) = ret u) by congruence. rewrite E. apply codes_ret.
Qed.
Lemma dies_user items bs : udoc 0 items bs -> umeans items = None -> dies UserBean_Read bs.
Proof.
  intros Hd Hu. unfold UserBean_Read. rewrite <- (app_nil_r bs). eapply dies_right; [apply (codes_udoc _ _ _ Hd); reflexivity|].
  destruct (ufold items (Urd 0 [] [] 0 false false false)) as (I1 & I2 & I3 & I4 & I5 & I6). cbn zeta in *. rewrite I4, I5, I6.
  unfold umeans in Hu. repeat match type of Hu with context[match ?x with Some _ => _ | None => _ end] => destruct x end; cbn [present negb];
    try discriminate; repeat case_match; try discriminate; apply dies_fail.
Qed.
Lemma takes_user : takes UserBean_Read.
Proof.
  apply takes_bind; [apply takes_loop; apply takes_user_field|]. intros s. destruct (negb (ur_n s)); [apply tame_fail|].
  destruct (negb (ur_p s)); [apply tame_fail|]. destruct (negb (ur_t s)); [apply tame_fail|apply tame_ret].
Qed.

(** ** Maps *)
Lemma codes_wmap {A M} (E : A -> list Z -> Prop) kt vt kc vc es bs (body : M -> reader M) (step : M -> A -> M) m0 :
  wtype kt kc -> wtype vt vc -> wmap E kc vc es bs -> (forall e b m, E e b -> codes (body m) b (step m e)) ->
  codes (bind ReadMapBegin (fun '(_, _, size) => times (Z.to_nat size) body m0)) bs (fold_left step es m0).
Proof.
  intros Hk Hv Hm Hb. destruct Hm as [[-> ->]|(l & parts & Hne & Hl & Hvl & HF & ->)].
  - change [0] with ([0] ++ []). eapply codes_bind; [apply codes_mapbegin_empty|]. apply codes_ret.
  - rewrite app_assoc. eapply codes_bind; [apply codes_mapbegin with (n := length es); try eassumption; destruct es; [congruence|cbn; lia]|].
    cbv beta iota. rewrite Nat2Z.id. apply codes_times. eapply Forall2_impl; [exact HF|]. intros e b He a. apply Hb, He.
Qed.
Lemma codes_users es bs : wmap wuser_entry 8 12 es bs -> codes KeyBean_ReadUsers bs (as_map Some es).
Proof.
  intros H. unfold KeyBean_ReadUsers, as_map. eapply codes_wmap; [apply w_string|apply w_struct|exact H|].
  intros [k u] b m (a & d & items & Ha & Hd & Hu & ->). cbn [fst snd] in *. eapply codes_bind; [apply codes_string, Ha|].
  eapply codes_bind_ret; [eapply codes_user; eassumption|reflexivity].
Qed.
Lemma codes_other es bs : wmap wother_entry 8 8 es bs -> codes KeyBean_ReadOther bs (as_map id es).
Proof.
  intros H. unfold KeyBean_ReadOther, as_map. eapply codes_wmap; [apply w_string|apply w_string|exact H|].
  intros [k u] b m (a & d & Ha & Hd & ->). cbn [fst snd] in *. eapply codes_bind; [apply codes_string, Ha|].
  eapply codes_bind_ret; [apply codes_string, Hd|reflexivity].
Qed.
Lemma takes_users : takes KeyBean_ReadUsers.
Proof.
  apply takes_bind; [apply takes_mapbegin|]. intros [[kt vt] n]. apply tame_times. intros m. apply tame_bind; [apply takes_tame, takes_string|]. intros k.
  apply tame_bind; [apply takes_tame, takes_user|]. intros. apply tame_ret.
Qed.
Lemma takes_other : takes KeyBean_ReadOther.
Proof.
  apply takes_bind; [apply takes_mapbegin|]. intros [[kt vt] n]. apply tame_times. intros m. apply tame_bind; [apply takes_tame, takes_string|]. intros k.
  apply tame_bind; [apply takes_tame, takes_string|]. intros. apply tame_ret.
Qed.

(** ** Key beans *)
Lemma KeyBean_field_other kb id ty :
  ty <> STOP -> ~ (1 <= id <= 4 /\ ty = MAP) ->
    match ty with
    | STOP => ret (inr kb)
    | _ =>
        match id, ty with
        | 1, MAP => do m <- KeyBean_ReadUsers; ret (inl (id, KeyBean (Some m) (k_client kb) (k_mq kb) (k_other kb)))
        | 2, MAP => do m <- KeyBean_ReadUsers; ret (inl (id, KeyBean (k_admin kb) (Some m) (k_mq kb) (k_other kb)))
        | 3, MAP => do m <- KeyBean_ReadUsers; ret (inl (id, KeyBean (k_admin kb) (k_client kb) (Some m) (k_other kb)))
        | 4, MAP => do m <- KeyBean_ReadOther; ret (inl (id, KeyBean (k_admin kb) (k_client kb) (k_mq kb) (Some m)))
        | _, _ => do _ <- SkipDefault ty; ret (inl (id, kb))
        end
    end = (do _ <- SkipDefault ty; ret (inl (id, kb))).
Proof.
  intros H0 H1. Zcases id; destruct ty; try reflexivity; exfalso; try tauto; apply H1; (split; [lia|reflexivity]).
Qed.
Lemma takes_key_field s : takes (KeyBean_field s).
Proof.
  destruct s as [last kb]. unfold KeyBean_field. apply takes_bind; [apply takes_head|]. intros [ty id].
  destruct (decide (ty = STOP)) as [->|H0]; [apply tame_ret|].
  destruct (decide (1 <= id <= 4 /\ ty = MAP)) as [[H1 ->]|H1].
  - assert (C : id = 1 \/ id = 2 \/ id = 3 \/ id = 4) by lia. destruct C as [ -> | [ -> | [ -> | -> ] ] ];
      (apply tame_bind; [apply takes_tame; (apply takes_users || apply takes_other)|intros; apply tame_ret]).
  - rewrite KeyBean_field_other by assumption. apply tame_bind; [apply tame_skip|intros; apply tame_ret].
Qed.
Lemma codes_kdoc last items bs : kdoc last items bs -> forall kb, codes (loop KeyBean_field (last, kb)) bs (fold_left kapply items kb).
Proof.
  induction 1 as [last|last sec es h v items r Hh Hv Hd IH|last es h v items r Hh Hv Hd IH|last id t h v items r Hid N Hh Hv Hd IH]; intros kb; cbn [fold_left].
  - apply codes_loop_end; [apply takes_key_field|]. unfold KeyBean_field. change [0] with ([0] ++ []). eapply codes_bind; [apply codes_stop|apply codes_ret].
  - rewrite app_assoc. eapply codes_loop_more; [apply takes_key_field| |apply IH]. unfold KeyBean_field.
    eapply codes_bind; [eapply codes_head; [|exact Hh]; unfold is_i16; destruct sec; cbn; lia|].
    destruct sec; (eapply codes_bind_ret; [apply codes_users, Hv|reflexivity]).
  - rewrite app_assoc. eapply codes_loop_more; [apply takes_key_field| |apply IH]. unfold KeyBean_field.
    eapply codes_bind; [eapply codes_head; [|exact Hh]; unfold is_i16; lia|]. eapply codes_bind_ret; [apply codes_other, Hv|reflexivity].
  - rewrite app_assoc. eapply codes_loop_more; [apply takes_key_field| |apply IH]. unfold KeyBean_field.
    eapply codes_bind; [apply codes_head; [exact Hid|exact Hh]|]. cbv beta iota.
    rewrite KeyBean_field_other by (assumption || (eapply head_not_stop; eassumption)). eapply codes_bind_ret; [apply codes_skip, Hv|reflexivity].
Qed.
Lemma takes_key : takes KeyBean_Read.
Proof. apply takes_loop. apply takes_key_field. Qed.
Lemma codes_key items bs : kdoc 0 items bs -> codes KeyBean_Read bs (kmeans items).
Proof. intros H. apply (codes_kdoc _ _ _ H). Qed.

(** ** Writing *)
Lemma putVarint_ok fuel : forall n, 0 <= n < 2 ^ (7 * Z.of_nat fuel) -> (0 < fuel)%nat -> varint n (putVarint fuel n).
Proof.
  induction fuel as [|fuel IH]; intros n Hn Hf; [lia|]. cbn [putVarint].
  assert (E : Z.land n (Z.lnot 127) = n / 128 * 128).
  { rewrite <- Z.ldiff_land. change 127 with (Z.ones 7). rewrite Z.ldiff_ones_r by lia. rewrite Z.shiftl_mul_pow2, Z.shiftr_div_pow2 by lia. reflexivity. }
  rewrite E. pose proof (Z.div_mod n 128 ltac:(lia)) as Hd. pose proof (Z.mod_pos_bound n 128 ltac:(lia)) as Hm. pose proof (Z.div_pos n 128 ltac:(lia) ltac:(lia)).
  destruct (n / 128 * 128 =? 0) eqn:E0; [apply Z.eqb_eq in E0; apply varint_last; lia|]. apply Z.eqb_neq in E0.
  apply varint_more; [lia| |].
  - rewrite land127. rewrite <- (Z.mul_1_l 128) at 2. change 128 with (2 ^ 7) at 2. rewrite lor_disjoint by (change (2 ^ 7) with 128; lia). change (2 ^ 7) with 128. lia.
  - rewrite Z.shiftr_div_pow2 by lia. change (2 ^ 7) with 128. destruct fuel as [|fuel].
    + change (2 ^ (7 * Z.of_nat 1)) with 128 in Hn. rewrite Z.div_small in E0 by lia. lia.
    + apply IH; [|lia]. split; [lia|]. apply Z.div_lt_upper_bound; [lia|]. replace (128 * 2 ^ (7 * Z.of_nat (S fuel))) with (2 ^ (7 * Z.of_nat (S (S fuel)))); [lia|].
      rewrite !Nat2Z.inj_succ. replace (7 * Z.succ (Z.succ (Z.of_nat fuel))) with (7 + 7 * Z.succ (Z.of_nat fuel)) by lia. rewrite Z.pow_add_r by lia. reflexivity.
Qed.
Lemma WriteVarint32_ok n : 0 <= n < 2 ^ 32 -> varint n (WriteVarint32 n).
Proof.
  intros Hn. unfold WriteVarint32, u32. rewrite Z.mod_small by lia. apply putVarint_ok; [|lia]. change (2 ^ (7 * Z.of_nat 5)) with (2 ^ 35). change (2 ^ 32) with 4294967296 in Hn.
  change (2 ^ 35) with 34359738368. lia.
Qed.
Lemma WriteString_ok s : short s -> wstring s (WriteString s).
Proof.
  unfold short, max_len. intros [Hs _]. exists (WriteVarint32 (Z.of_nat (length s))). split; [exact Hs|]. split; [|reflexivity]. apply WriteVarint32_ok.
  change (2 ^ 32) with 4294967296. lia.
Qed.
Lemma WriteFieldBegin_ok last id t c : 0 <= last -> last < id <= last + 15 -> wtype t c -> whead last id t (WriteFieldBegin last id c).
Proof.
  intros Hl Hi Hc. unfold WriteFieldBegin. destruct (wtype_get _ _ Hc) as (Hr & _ & _).
  replace (last <? id) with true by lia. replace (id - last <=? 15) with true by lia. cbn [andb].
  replace (Z.lor (Z.shiftl (id - last) 4) c) with (16 * (id - last) + c); [apply head_short; [exact Hc|lia]|].
  rewrite Z.shiftl_mul_pow2, Z.lor_comm by lia. rewrite lor_disjoint by (change (2 ^ 4) with 16; lia). change (2 ^ 4) with 16. lia.
Qed.
Lemma user_doc u : short (u_name u) -> short (u_pwd u) -> is_i8 (u_type u) ->
  udoc 0 [IName (u_name u); IPwd (u_pwd u); IType (u_type u)] (UserBean_Write (Some u)).
Proof.
  intros H1 H2 H3. unfold UserBean_Write.
  replace ((WriteFieldBegin 0 1 C_BINARY ++ WriteString (u_name u) ++ WriteFieldBegin 1 2 C_BINARY ++ WriteString (u_pwd u) ++
            WriteFieldBegin 2 3 C_BYTE ++ [u8 (u_type u)]) ++ WriteFieldStop)
    with (WriteFieldBegin 0 1 C_BINARY ++ WriteString (u_name u) ++ WriteFieldBegin 1 2 C_BINARY ++ WriteString (u_pwd u) ++
            WriteFieldBegin 2 3 C_BYTE ++ [u_type u mod 256] ++ [0]) by (rewrite <- !app_assoc; reflexivity).
  apply udoc_name; [apply WriteFieldBegin_ok; [lia|lia|apply w_string]|apply WriteString_ok, H1|].
  apply udoc_pwd; [apply WriteFieldBegin_ok; [lia|lia|apply w_string]|apply WriteString_ok, H2|].
  apply udoc_type; [apply WriteFieldBegin_ok; [lia|lia|apply w_byte]|exact H3|]. apply udoc_stop.
Qed.
Lemma nil_user_doc : udoc 0 [] (UserBean_Write None).
Proof. apply udoc_stop. Qed.
(** The entries of a map, as they are written. *)
Lemma wmap_write {A B} (E : A -> list Z -> Prop) (w : B -> list Z) (f : A -> B) t kc vc (es : list A) :
  wtype STRING kc -> wtype t vc -> Z.of_nat (length es) <= max_len -> Forall (fun e => E e (w (f e))) es ->
  wmap E kc vc es (WriteMapBegin kc vc (length es) ++ concat (map w (map f es))).
Proof.
  intros Hk Hv Hl HF. unfold WriteMapBegin. destruct es as [|e es]; [left; split; reflexivity|]. right.
  replace (length (e :: es) =? 0)%nat with false by reflexivity. exists (WriteVarint32 (Z.of_nat (length (e :: es)))), (map w (map f (e :: es))).
  split; [discriminate|]. split; [exact Hl|]. split; [apply WriteVarint32_ok; unfold max_len in Hl; change (2 ^ 32) with 4294967296; lia|]. split.
  - clear -HF. induction HF; [constructor|]. cbn [map]. constructor; auto.
  - rewrite <- app_assoc. f_equal. f_equal. f_equal. destruct (wtype_get _ _ Hk) as (K & _ & _), (wtype_get _ _ Hv) as (V & _ & _).
    rewrite Z.shiftl_mul_pow2, Z.lor_comm by lia. rewrite lor_disjoint by (change (2 ^ 4) with 16; lia). change (2 ^ 4) with 16. lia.
Qed.
Definition entry_fits (e : str * user) : Prop := short e.1 /\ short (u_name e.2) /\ short (u_pwd e.2) /\ is_i8 (u_type e.2).
Definition boxed (e : str * user) : str * option user := (e.1, Some e.2).
Lemma wuser_write e : entry_fits e -> wuser_entry e (WriteString (boxed e).1 ++ UserBean_Write (boxed e).2).
Proof.
  intros (H1 & H2 & H3 & H4). exists (WriteString e.1), (UserBean_Write (Some e.2)), [IName (u_name e.2); IPwd (u_pwd e.2); IType (u_type e.2)].
  split; [apply WriteString_ok, H1|]. split; [apply user_doc; assumption|]. split; [destruct e as [k [? ? ?]]; reflexivity|reflexivity].
Qed.
Lemma wusers_write es : Z.of_nat (length es) <= max_len -> Forall entry_fits es ->
  wmap wuser_entry 8 12 es (WriteMapBegin C_BINARY C_STRUCT (length (map boxed es)) ++ concat (map (fun e => WriteString e.1 ++ UserBean_Write e.2) (map boxed es))).
Proof.
  intros Hl HF. rewrite map_length. apply (wmap_write wuser_entry (fun e => WriteString e.1 ++ UserBean_Write e.2) boxed STRUCT); [apply w_string|apply w_struct|exact Hl|].
  eapply Forall_impl; [exact HF|]. intros e He. apply wuser_write, He.
Qed.
Lemma wother_write es : Z.of_nat (length es) <= max_len -> Forall (fun e : str * str => short e.1 /\ short e.2) es ->
  wmap wother_entry 8 8 es (WriteMapBegin C_BINARY C_BINARY (length es) ++ concat (map (fun e => WriteString e.1 ++ WriteString e.2) es)).
Proof.
  intros Hl HF. rewrite <- (map_id es) at 3. apply (wmap_write wother_entry (fun e => WriteString e.1 ++ WriteString e.2) (fun e => e) STRING); [apply w_string|apply w_string|exact Hl|].
  eapply Forall_impl; [exact HF|]. intros e [H1 H2]. exists (WriteString e.1), (WriteString e.2). split; [apply WriteString_ok, H1|]. split; [apply WriteString_ok, H2|reflexivity].
Qed.
(** The four sections, one after the other. *)
Lemma kdoc_writeUsers sec last m items r : 0 <= last < sec_id sec -> from_option (fun es => Z.of_nat (length es) <= max_len /\ Forall entry_fits es) True m ->
  kdoc (KeyBean_writeUsers last (sec_id sec) (map boxed <$> m)).2 items r ->
  kdoc last (match m with Some es => IUsers sec es :: items | None => items end) ((KeyBean_writeUsers last (sec_id sec) (map boxed <$> m)).1 ++ r).
Proof.
  intros Hl Hm Hk. destruct m as [es|]; cbn [KeyBean_writeUsers fst snd option_fmap option_map fmap from_option] in *; [|exact Hk].
  destruct Hm as [H1 H2]. rewrite <- app_assoc. apply kdoc_users; [|apply wusers_write; assumption|exact Hk].
  apply WriteFieldBegin_ok; [lia|destruct sec; cbn in *; lia|apply w_map].
Qed.
Lemma kdoc_writeOther last m items r : 0 <= last < 4 -> from_option (fun es => Z.of_nat (length es) <= max_len /\ Forall (fun e : str * str => short e.1 /\ short e.2) es) True m ->
  kdoc (KeyBean_writeOther last 4 m).2 items r ->
  kdoc last (match m with Some es => IOther es :: items | None => items end) ((KeyBean_writeOther last 4 m).1 ++ r).
Proof.
  intros Hl Hm Hk. destruct m as [es|]; cbn [KeyBean_writeOther fst snd from_option] in *; [|exact Hk].
  destruct Hm as [H1 H2]. rewrite <- app_assoc. apply kdoc_other; [|apply wother_write; assumption|exact Hk].
  apply WriteFieldBegin_ok; [lia|lia|apply w_map].
Qed.
Lemma last_range sec last m : 0 <= last < sec_id sec -> 0 <= (KeyBean_writeUsers last (sec_id sec) m).2 <= sec_id sec.
Proof. destruct m; cbn; lia. Qed.
Definition items_of (a c q : option (list (str * user))) (o : option (list (str * str))) : list kitem :=
  match a with Some es => [IUsers Admin es] | None => [] end ++ match c with Some es => [IUsers Client es] | None => [] end ++
  match q with Some es => [IUsers Mq es] | None => [] end ++ match o with Some es => [IOther es] | None => [] end.
Definition list_fits (m : option (list (str * user))) : Prop := from_option (fun es => Z.of_nat (length es) <= max_len /\ Forall entry_fits es) True m.
Definition strings_fit (m : option (list (str * str))) : Prop :=
  from_option (fun es => Z.of_nat (length es) <= max_len /\ Forall (fun e : str * str => short e.1 /\ short e.2) es) True m.
Lemma TEncode_doc a c q o : list_fits a -> list_fits c -> list_fits q -> strings_fit o ->
  kdoc 0 (items_of a c q o) (TEncode (Entries (map boxed <$> a) (map boxed <$> c) (map boxed <$> q) o)).
Proof.
  intros Ha Hc Hq Ho. unfold TEncode. cbn [e_admin e_client e_mq e_other].
  destruct (KeyBean_writeUsers 0 1 (map boxed <$> a)) as [b1 l1] eqn:E1. destruct (KeyBean_writeUsers l1 2 (map boxed <$> c)) as [b2 l2] eqn:E2.
  destruct (KeyBean_writeUsers l2 3 (map boxed <$> q)) as [b3 l3] eqn:E3. destruct (KeyBean_writeOther l3 4 o) as [b4 l4] eqn:E4.
  pose proof (last_range Admin 0 (map boxed <$> a) ltac:(cbn; lia)) as R1. cbn [sec_id] in R1. rewrite E1 in R1. cbn [snd] in R1.
  pose proof (last_range Client l1 (map boxed <$> c) ltac:(cbn; lia)) as R2. cbn [sec_id] in R2. rewrite E2 in R2. cbn [snd] in R2.
  pose proof (last_range Mq l2 (map boxed <$> q) ltac:(cbn; lia)) as R3. cbn [sec_id] in R3. rewrite E3 in R3. cbn [snd] in R3.
  pose proof (kdoc_writeOther l3 o [] [0] ltac:(lia) Ho) as K4. rewrite E4 in K4. cbn [fst snd] in K4. specialize (K4 (kdoc_stop _)).
  pose proof (fun it => kdoc_writeUsers Mq l2 q it (b4 ++ [0]) ltac:(cbn; lia) Hq) as K3. cbn [sec_id] in K3. rewrite E3 in K3. cbn [fst snd] in K3. specialize (K3 _ K4).
  pose proof (fun it => kdoc_writeUsers Client l1 c it (b3 ++ b4 ++ [0]) ltac:(cbn; lia) Hc) as K2. cbn [sec_id] in K2. rewrite E2 in K2. cbn [fst snd] in K2. specialize (K2 _ K3).
  pose proof (fun it => kdoc_writeUsers Admin 0 a it (b2 ++ b3 ++ b4 ++ [0]) ltac:(cbn; lia) Ha) as K1. cbn [sec_id] in K1. rewrite E1 in K1. cbn [fst snd] in K1. specialize (K1 _ K2).
  unfold items_of. destruct a, c, q, o; exact K1.
Qed.
Lemma kmeans_items a c q o : kmeans (items_of a c q o) = KeyBean (as_map Some <$> a) (as_map Some <$> c) (as_map Some <$> q) (as_map id <$> o).
Proof. destruct a, c, q, o; reflexivity. Qed.
(** Listing a map and reading it back. *)
Lemma as_map_list {V W} (f : V -> W) (es : list (str * V)) : as_map f es = list_to_map (reverse (map (fun e => (e.1, f e.2)) es)).
Proof.
  unfold as_map. rewrite <- fold_left_rev_right. unfold reverse. rewrite rev_append_rev, app_nil_r. rewrite <- map_rev. 
  induction (rev es) as [|e l IH]; [reflexivity|]. cbn [foldr map list_to_map]. rewrite IH. reflexivity.
Qed.
Lemma as_map_perm {V W} (f : V -> W) (es : list (str * V)) (m : gmap str W) : map (fun e => (e.1, f e.2)) es ≡ₚ map_to_list m -> as_map f es = m.
Proof.
  intros H. rewrite as_map_list. rewrite <- (list_to_map_to_list m). apply list_to_map_proper.
  - rewrite (reverse_Permutation). rewrite H. apply NoDup_fst_map_to_list.
  - rewrite reverse_Permutation. exact H.
Qed.
Lemma unbox (l : list (str * option user)) : Forall (fun e => short e.1 /\ user_fits e.2) l -> exists es, l = map boxed es /\ Forall entry_fits es.
Proof.
  induction 1 as [|[k u] l (Hk & v & Hu & H1 & H2 & H3) Hl IH]; [exists []; split; [reflexivity|constructor]|]. destruct IH as (es & -> & He). cbn [snd] in Hu. subst u.
  exists ((k, v) :: es). split; [reflexivity|]. constructor; [split; [exact Hk|split; [exact H1|split; [exact H2|exact H3]]]|exact He].
Qed.
Lemma users_listed m l : order_of m l -> users_fit m -> exists es, l = (map boxed <$> es) /\ list_fits es /\ (as_map Some <$> es) = m.
Proof.
  intros Ho Hf. destruct m as [m|], l as [l|]; cbn in Ho; try contradiction; [|exists None; repeat split].
  destruct (Hf m eq_refl) as [H1 H2]. destruct (unbox l) as (es & El & He).
  { apply Forall_forall. intros [k u] Hin. rewrite Ho in Hin. apply elem_of_map_to_list in Hin. apply (H2 k u Hin). }
  exists (Some es). subst l. split; [reflexivity|]. split.
  - cbn. split; [|exact He]. replace (length es) with (size m); [exact H1|]. rewrite <- (map_length boxed es), (Permutation_length Ho). unfold size, map_size. reflexivity.
  - cbn [fmap option_fmap option_map]. f_equal. apply as_map_perm. exact Ho.
Qed.
Lemma strings_listed (m : option (gmap str str)) l : order_of m l ->
  (forall m', m = Some m' -> Z.of_nat (size m') <= max_len /\ forall a b, m' !! a = Some b -> short a /\ short b) -> strings_fit l /\ (as_map id <$> l) = m.
Proof.
  intros Ho Hf. destruct m as [m|], l as [l|]; cbn in Ho; try contradiction; [|split; reflexivity]. destruct (Hf m eq_refl) as [H1 H2]. split.
  - cbn. split; [rewrite (Permutation_length Ho); exact H1|]. apply Forall_forall. intros [k u] Hin. rewrite Ho in Hin. apply elem_of_map_to_list in Hin. apply (H2 k u Hin).
  - cbn [fmap option_fmap option_map]. f_equal. apply as_map_perm. replace (map (fun e : str * str => (e.1, id e.2)) l) with l; [exact Ho|].
    rewrite <- (map_id l) at 1. apply map_ext. intros [k u]. reflexivity.
Qed.
Lemma encode_doc k es : order_ok k es -> fits k -> exists items, kdoc 0 items (TEncode es) /\ kmeans items = k.
Proof.
  intros (O1 & O2 & O3 & O4) (F1 & F2 & F3 & F4).
  destruct (users_listed _ _ O1 F1) as (a & Ea & La & Ma). destruct (users_listed _ _ O2 F2) as (c & Ec & Lc & Mc). destruct (users_listed _ _ O3 F3) as (q & Eq & Lq & Mqq).
  destruct (strings_listed _ _ O4 F4) as [So Mo]. exists (items_of a c q (e_other es)). split.
  - destruct es as [ea ec eq eo]. cbn [e_admin e_client e_mq e_other] in *. subst ea ec eq. apply TEncode_doc; assumption.
  - rewrite kmeans_items, Ma, Mc, Mqq, Mo. destruct k; reflexivity.
Qed.
Lemma encode_codes k es : order_ok k es -> fits k -> codes KeyBean_Read (TEncode es) k.
Proof. intros Ho Hf. destruct (encode_doc k es Ho Hf) as (items & Hd & <-). apply codes_key, Hd. Qed.

(** What is written are bytes. *)
Lemma bytes_app a b : is_bytes a -> is_bytes b -> is_bytes (a ++ b).
Proof. apply Forall_app_2. Qed.
Lemma putVarint_bytes fuel : forall n, 0 <= n -> is_bytes (putVarint fuel n).
Proof.
  induction fuel as [|fuel IH]; intros n Hn; cbn [putVarint]; [constructor|].
  assert (L : 0 <= Z.land n 127 < 128). { change 127 with (Z.ones 7). rewrite Z.land_ones by lia. apply Z.mod_pos_bound. lia. }
  destruct (Z.eqb_spec (Z.land n (Z.lnot 127)) 0) as [E|E].
  - constructor; [|constructor]. unfold is_u8. change (2 ^ 8) with 256. replace n with (Z.land n 127); [lia|].
    apply Z.bits_inj'. intros i Hi. rewrite Z.land_spec.
    apply (f_equal (fun z => Z.testbit z i)) in E. rewrite Z.land_spec, Z.lnot_spec, Z.bits_0 in E by lia. destruct (Z.testbit n i), (Z.testbit 127 i); cbn in *; congruence.
  - constructor; [|apply IH, Z.shiftr_nonneg, Hn]. unfold is_u8. change 128 with (1 * 2 ^ 7). change (2 ^ 8) with 256. rewrite lor_disjoint by (change (2 ^ 7) with 128; lia).
    change (2 ^ 7) with 128. lia.
Qed.
Lemma WriteString_bytes s : short s -> is_bytes (WriteString s).
Proof. intros [_ H]. apply bytes_app; [apply putVarint_bytes; unfold u32; apply Z.mod_pos_bound; lia|exact H]. Qed.
Lemma head_bytes last id c : 0 <= last -> last < id <= 4 -> 0 <= c < 16 -> is_bytes (WriteFieldBegin last id c).
Proof.
  intros H1 H2 H3. unfold WriteFieldBegin. replace (last <? id) with true by lia. replace (id - last <=? 15) with true by lia. cbn [andb].
  constructor; [|constructor]. unfold is_u8. rewrite Z.shiftl_mul_pow2, Z.lor_comm by lia. rewrite lor_disjoint by (change (2 ^ 4) with 16; lia). change (2 ^ 4) with 16. change (2 ^ 8) with 256. lia.
Qed.
Lemma map_bytes kt vt n : 0 <= kt < 16 -> 0 <= vt < 16 -> is_bytes (WriteMapBegin kt vt n).
Proof.
  intros H1 H2. unfold WriteMapBegin. destruct (n =? 0)%nat; [repeat constructor; unfold is_u8; lia|].
  apply bytes_app; [apply putVarint_bytes; unfold u32; apply Z.mod_pos_bound; lia|]. constructor; [|constructor].
  unfold is_u8. rewrite Z.shiftl_mul_pow2, Z.lor_comm by lia. rewrite lor_disjoint by (change (2 ^ 4) with 16; lia). change (2 ^ 4) with 16. change (2 ^ 8) with 256. lia.
Qed.
Lemma concat_bytes ls : Forall is_bytes ls -> is_bytes (concat ls).
Proof. induction 1; cbn; [constructor|]. apply bytes_app; assumption. Qed.
Lemma users_bytes last id m : 0 <= last -> last < id <= 3 ->
  (forall es, m = Some es -> Forall (fun e => short e.1 /\ user_fits e.2) es) -> is_bytes (KeyBean_writeUsers last id m).1.
Proof.
  intros H1 H2 H. destruct m as [es|]; cbn [KeyBean_writeUsers fst]; [|constructor]. apply bytes_app; [apply head_bytes; unfold C_MAP; lia|].
  apply bytes_app; [apply map_bytes; unfold C_BINARY, C_STRUCT; lia|]. apply concat_bytes, Forall_map. eapply Forall_impl; [exact (H es eq_refl)|].
  intros [k u] (Hk & v & Hu & S1 & S2 & _). cbn [fst snd] in *. subst u. apply bytes_app; [apply WriteString_bytes, Hk|].
  unfold UserBean_Write, WriteFieldStop.
  repeat first [apply WriteString_bytes; assumption | apply head_bytes; unfold C_BINARY, C_BYTE; lia | apply bytes_app];
    (constructor; [|constructor]); unfold is_u8, u8; [apply Z.mod_pos_bound|]; lia.
Qed.
Lemma other_bytes last m : 0 <= last -> last < 4 ->
  (forall es, m = Some es -> Forall (fun e : str * str => short e.1 /\ short e.2) es) -> is_bytes (KeyBean_writeOther last 4 m).1.
Proof.
  intros H1 H2 H. destruct m as [es|]; cbn [KeyBean_writeOther fst]; [|constructor]. apply bytes_app; [apply head_bytes; unfold C_MAP; lia|].
  apply bytes_app; [apply map_bytes; unfold C_BINARY, C_STRUCT; lia|]. apply concat_bytes, Forall_map. eapply Forall_impl; [exact (H es eq_refl)|].
  intros [k u] [Hk Hu]. apply bytes_app; apply WriteString_bytes; assumption.
Qed.
Lemma users_short m l : order_of m l -> users_fit m -> forall es, l = Some es -> Forall (fun e => short e.1 /\ user_fits e.2) es.
Proof.
  intros Ho Hf es ->. destruct m as [m|]; cbn in Ho; [|contradiction]. destruct (Hf m eq_refl) as [_ H].
  apply Forall_forall. intros [k u] Hin. rewrite Ho in Hin. apply elem_of_map_to_list in Hin. apply (H k u Hin).
Qed.
Lemma TEncode_bytes k es : order_ok k es -> fits k -> is_bytes (TEncode es).
Proof.
  intros (O1 & O2 & O3 & O4) (F1 & F2 & F3 & F4). unfold TEncode.
  pose proof (users_bytes 0 1 (e_admin es) ltac:(lia) ltac:(lia) (users_short _ _ O1 F1)) as B1. pose proof (last_range Admin 0 (e_admin es) ltac:(cbn; lia)) as R1.
  cbn [sec_id] in R1. destruct (KeyBean_writeUsers 0 1 (e_admin es)) as [b1 l1]. cbn [fst snd] in *.
  pose proof (users_bytes l1 2 (e_client es) ltac:(lia) ltac:(lia) (users_short _ _ O2 F2)) as B2. pose proof (last_range Client l1 (e_client es) ltac:(cbn; lia)) as R2.
  cbn [sec_id] in R2. destruct (KeyBean_writeUsers l1 2 (e_client es)) as [b2 l2]. cbn [fst snd] in *.
  pose proof (users_bytes l2 3 (e_mq es) ltac:(lia) ltac:(lia) (users_short _ _ O3 F3)) as B3. pose proof (last_range Mq l2 (e_mq es) ltac:(cbn; lia)) as R3.
  cbn [sec_id] in R3. destruct (KeyBean_writeUsers l2 3 (e_mq es)) as [b3 l3]. cbn [fst snd] in *.
  assert (B4 : is_bytes (KeyBean_writeOther l3 4 (e_other es)).1).
  { apply other_bytes; [lia|lia|]. intros l El. rewrite El in O4. destruct (k_other k) as [m|]; cbn in O4; [|contradiction]. destruct (F4 m eq_refl) as [_ H].
    apply Forall_forall. intros [a b] Hin. rewrite O4 in Hin. apply elem_of_map_to_list in Hin. apply (H a b Hin). }
  destruct (KeyBean_writeOther l3 4 (e_other es)) as [b4 l4]. cbn [fst] in B4. repeat apply bytes_app; try assumption.
  repeat constructor; unfold is_u8; lia.
Qed.

(** ** Nil users *)
Lemma dies_loop {S R} (body : S -> reader (S + R)) s e : (forall s, takes (body s)) -> dies (body s) e -> dies (loop body s) e.
Proof. intros Hb H. eapply dies_ext; [intros bs; symmetry; apply loop_unfold, Hb|]. apply dies_here, H. Qed.
Lemma dies_loop_more {S R} (body : S -> reader (S + R)) s s' e1 e2 : (forall s, takes (body s)) -> codes (body s) e1 (inl s') -> dies (loop body s') e2 ->
  dies (loop body s) (e1 ++ e2).
Proof. intros Hb H1 H2. eapply dies_ext; [intros bs; symmetry; apply loop_unfold, Hb|]. eapply dies_right; [exact H1|exact H2]. Qed.
Definition entry_ok (e : str * option user) : Prop := short e.1 /\ (e.2 = None \/ user_fits e.2).
Definition has_nil (l : list (str * option user)) : Prop := Exists (fun e => e.2 = None) l.
Lemma dies_times l : Forall entry_ok l -> has_nil l ->
  forall m : gmap str (option user), dies (times (length l) (fun m => do k <- ReadString; do v <- UserBean_Read; ret (<[k := Some v]> m)) m)
              (concat (map (fun e => WriteString e.1 ++ UserBean_Write e.2) l)).
Proof.
  intros HF HN. induction HF as [|[k u] l [Hk Hu] Hl IH]; intros m; [inversion HN|]. cbn [length times map concat fst snd] in *.
  destruct u as [u|].
  - destruct Hu as [Hu|(v & Hv & H1 & H2 & H3)]; [discriminate|]. assert (v = u) as -> by congruence.
    eapply dies_right.
    + eapply codes_bind; [apply codes_string, WriteString_ok, Hk|]. eapply codes_bind_ret; [|reflexivity]. eapply codes_user; [apply user_doc; assumption|reflexivity].
    + apply IH. inversion HN as [? ? E|]; subst; [discriminate|assumption].
  - apply dies_left. eapply dies_right; [apply codes_string, WriteString_ok, Hk|]. apply dies_here. eapply dies_user; [apply nil_user_doc|reflexivity].
Qed.
Lemma dies_users l : Z.of_nat (length l) <= max_len -> Forall entry_ok l -> has_nil l ->
  dies KeyBean_ReadUsers (WriteMapBegin C_BINARY C_STRUCT (length l) ++ concat (map (fun e => WriteString e.1 ++ UserBean_Write e.2) l)).
Proof.
  intros Hl HF HN. assert (Hne : (0 < length l)%nat) by (destruct HN; cbn; lia). unfold KeyBean_ReadUsers.
  apply (dies_right _ _ _ _ (STRING, STRUCT, Z.of_nat (length l))); [|rewrite Nat2Z.id; apply dies_times; assumption].
  unfold WriteMapBegin. replace (length l =? 0)%nat with false by (symmetry; apply Nat.eqb_neq; lia).
  change (Z.lor (Z.shiftl C_BINARY 4) C_STRUCT) with (16 * 8 + 12). apply codes_mapbegin; [exact Hne|exact Hl|apply w_string|apply w_struct|].
  apply WriteVarint32_ok. unfold max_len in Hl. change (2 ^ 32) with 4294967296. lia.
Qed.
Definition section_ok (l : option (list (str * option user))) : Prop := forall es, l = Some es -> Z.of_nat (length es) <= max_len /\ Forall entry_ok es.
Definition section_nil (l : option (list (str * option user))) : Prop := exists es, l = Some es /\ has_nil es.
Lemma whole_or_nil l : Forall entry_ok l -> has_nil l \/ exists es, l = map boxed es /\ Forall entry_fits es.
Proof.
  intros HF. assert (D : has_nil l \/ ~ has_nil l).
  { clear. unfold has_nil. induction l as [|[k [u|]] l [IH|IH]]; [right; intros H; inversion H|left; by constructor 2|right; intros H; inversion H; subst; [discriminate|tauto]|left; by constructor|left; by constructor]. }
  destruct D as [H|H]; [left; exact H|]. right. apply unbox.
  rewrite Forall_forall in *. intros e He. destruct (HF e He) as [H1 [H2|H2]]; [|tauto]. exfalso. apply H. apply Exists_exists. eauto.
Qed.
Lemma users_field sec last kb l : 0 <= last < sec_id sec -> section_ok l ->
  (section_nil l /\ dies (KeyBean_field (last, kb)) (KeyBean_writeUsers last (sec_id sec) l).1) \/
  (~ section_nil l /\ exists kb', forall e, dies (loop KeyBean_field ((KeyBean_writeUsers last (sec_id sec) l).2, kb')) e ->
     dies (loop KeyBean_field (last, kb)) ((KeyBean_writeUsers last (sec_id sec) l).1 ++ e)).
Proof.
  intros Hr Hok. destruct l as [l|]; cbn [KeyBean_writeUsers fst snd].
  2: { right. split; [intros (es & E & _); discriminate|]. exists kb. intros e He. exact He. }
  destruct (Hok l eq_refl) as [Hl HF]. assert (Hh : whead last (sec_id sec) MAP (WriteFieldBegin last (sec_id sec) C_MAP)).
  { apply WriteFieldBegin_ok; [lia|destruct sec; cbn in *; lia|apply w_map]. }
  assert (Hi : is_i16 (sec_id sec)) by (unfold is_i16; destruct sec; cbn; lia).
  destruct (whole_or_nil l HF) as [Hn|(es & -> & He)].
  - left. split; [exists l; auto|]. unfold KeyBean_field. apply (dies_right _ _ _ _ (MAP, sec_id sec)); [apply codes_head; assumption|].
    destruct sec; (apply dies_here, dies_users; assumption).
  - right. split.
    { intros (es' & E & Hx). assert (es' = map boxed es) as -> by congruence. clear -Hx. induction es; inversion Hx as [? ? E|]; subst; [discriminate|auto]. }
    exists (sec_set sec (as_map Some es) kb). intros e Hd. eapply dies_loop_more; [apply takes_key_field| |exact Hd].
    unfold KeyBean_field. eapply codes_bind; [eapply codes_head; [exact Hi|exact Hh]|]. rewrite map_length in Hl.
    destruct sec; (eapply codes_bind_ret; [apply codes_users, wusers_write; assumption|reflexivity]).
Qed.
Lemma dies_key es : section_ok (e_admin es) -> section_ok (e_client es) -> section_ok (e_mq es) ->
  section_nil (e_admin es) \/ section_nil (e_client es) \/ section_nil (e_mq es) -> dies KeyBean_Read (TEncode es).
Proof.
  intros H1 H2 H3 Hn. unfold TEncode, KeyBean_Read. set (k0 := KeyBean None None None None).
  destruct (KeyBean_writeUsers 0 1 (e_admin es)) as [b1 l1] eqn:E1. destruct (KeyBean_writeUsers l1 2 (e_client es)) as [b2 l2] eqn:E2.
  destruct (KeyBean_writeUsers l2 3 (e_mq es)) as [b3 l3] eqn:E3. destruct (KeyBean_writeOther l3 4 (e_other es)) as [b4 l4] eqn:E4.
  pose proof (last_range Admin 0 (e_admin es) ltac:(cbn; lia)) as R1. cbn [sec_id] in R1. rewrite E1 in R1. cbn [snd] in R1.
  pose proof (last_range Client l1 (e_client es) ltac:(cbn; lia)) as R2. cbn [sec_id] in R2. rewrite E2 in R2. cbn [snd] in R2.
  pose proof (users_field Admin 0 k0 (e_admin es) ltac:(cbn; lia) H1) as U1. cbn [sec_id] in U1. rewrite E1 in U1. cbn [fst snd] in U1.
  destruct U1 as [[_ U1]|[N1 (k1 & U1)]]; [apply dies_app, dies_loop; [apply takes_key_field|exact U1]|]. apply U1.
  pose proof (users_field Client l1 k1 (e_client es) ltac:(cbn; lia) H2) as U2. cbn [sec_id] in U2. rewrite E2 in U2. cbn [fst snd] in U2.
  destruct U2 as [[_ U2]|[N2 (k2 & U2)]]; [apply dies_app, dies_loop; [apply takes_key_field|exact U2]|]. apply U2.
  pose proof (users_field Mq l2 k2 (e_mq es) ltac:(cbn; lia) H3) as U3. cbn [sec_id] in U3. rewrite E3 in U3. cbn [fst snd] in U3.
  destruct U3 as [[_ U3]|[N3 (k3 & U3)]]; [apply dies_app, dies_loop; [apply takes_key_field|exact U3]|]. tauto.
Qed.

(** ** The store *)
Lemma TDecode_codes bs k r : codes KeyBean_Read bs k -> TDecode (bs ++ r) = Some k.
Proof. intros [H _]. unfold TDecode. rewrite H. reflexivity. Qed.
Lemma TDecode_prefix bs k p : codes KeyBean_Read bs k -> p `prefix_of` bs -> p <> bs -> TDecode p = None.
Proof. intros [_ H] Hp Hn. unfold TDecode. rewrite H by assumption. reflexivity. Qed.
Lemma listed_ok o k : visits_all o -> order_ok k (listed o k).
Proof. intros [H1 H2]. destruct k as [a c q t]. unfold order_ok, listed. cbn. destruct a, c, q, t; cbn; auto. Qed.
Lemma TEncode_nonempty es : TEncode es <> [].
Proof.
  unfold TEncode. destruct (KeyBean_writeUsers 0 1 _) as [b1 l1]. destruct (KeyBean_writeUsers l1 2 _) as [b2 l2]. destruct (KeyBean_writeUsers l2 3 _) as [b3 l3].
  destruct (KeyBean_writeOther l3 4 _) as [b4 l4]. intros E. repeat (apply app_eq_nil in E as [_ E]). discriminate.
Qed.
Definition empty_bean : keybean := KeyBean (Some ∅) (Some ∅) (Some ∅) (Some ∅).
Lemma Load_undecodable z s : (forall bs, ks_Read z (file s) = Some bs -> TDecode bs = None) -> Load z s = Store (Some empty_bean) (file s).
Proof. intros H. unfold Load. destruct (ks_Read z (file s)) as [bs|]; [rewrite H by reflexivity; reflexivity|reflexivity]. Qed.
Lemma Load_faithful z o k f0 : faithful z -> visits_all o -> fits k ->
  Load z (restart (persist z o k)) = persist z o k /\ Load z (Store f0 (file (persist z o k))) = persist z o k.
Proof.
  intros Hz Ho Hf. destruct (Hz (TEncode (listed o k)) (TEncode_bytes k _ (listed_ok o k Ho) Hf)) as [H1 H2].
  pose proof (TDecode_codes _ _ [] (encode_codes k _ (listed_ok o k Ho) Hf)) as Hd. rewrite app_nil_r in Hd.
  assert (E : forall x, Load z (Store x (f_Zlib z (TEncode (listed o k)))) = Store (Some k) (f_Zlib z (TEncode (listed o k)))).
  { intros x. unfold Load, ks_Read. cbn [file]. destruct (f_Zlib z (TEncode (listed o k))) as [|b bs] eqn:Eb; [congruence|]. rewrite H2, Hd. reflexivity. }
  unfold restart, persist, ks_Write. cbn [file]. rewrite !E. auto.
Qed.
Lemma Load_util c o k f0 : Compress_Model.conforming c -> visits_all o -> fits k ->
  Load (util_z c) (Store f0 (file (persist (util_z c) o k))) = Store (Some empty_bean) (file (persist (util_z c) o k)).
Proof.
  intros Hc Ho Hf. apply (Load_undecodable (util_z c) (Store f0 (file (persist (util_z c) o k)))). cbn [file]. unfold persist, ks_Write, ks_Read. cbn [file util_z f_Zlib f_UnZlib]. unfold Compress_Model.uZlib, Compress_Model.uUnZlib. cbn [fst].
  destruct (Compress_Model.conf_written c Hc Compress_Model.DefaultCompression (TEncode (listed o k)) (TEncode_bytes k _ (listed_ok o k Ho) Hf)) as (r & Hr & Hp & Hne & He).
  intros bs. destruct (Compress_Model.sink c _ _ _) as [|b w] eqn:Ew; [discriminate|]. rewrite Hr. cbn. intros E. assert (bs = Compress_Model.data r) as -> by congruence.
  eapply TDecode_prefix; [apply encode_codes; [apply listed_ok, Ho|exact Hf]|exact Hp|]. apply Hne, TEncode_nonempty.
Qed.
Lemma closed_faithful c : Compress_Model.conforming c -> faithful (closed_z c).
Proof.
  intros Hc x Bx. cbn [closed_z f_Zlib f_UnZlib]. unfold Compress_Model.Zlib, Compress_Model.uUnZlib. cbn [fst].
  set (lv := Compress_Model.DefaultCompression).
  destruct (Compress_Model.conf_closed c Hc lv x Compress_Model.Closed Bx (or_introl eq_refl)) as (r & Hr & Hd & He). split.
  - intros E. rewrite E in Hr. set (y := 0 :: x). assert (By : is_bytes y) by (constructor; [unfold is_u8; lia|exact Bx]).
    destruct (Compress_Model.conf_closed c Hc lv y Compress_Model.Closed By (or_introl eq_refl)) as (r' & Hr' & Hd' & He').
    destruct (Compress_Model.sink c lv y Compress_Model.Closed) as [|b w] eqn:Ey.
    + assert (r = r') as <- by congruence. rewrite Hd in Hd'. apply (f_equal length) in Hd'. cbn in Hd'. lia.
    + pose proof (Compress_Model.conf_cut c Hc lv y Compress_Model.Closed [] By (or_introl eq_refl) (prefix_nil _)) as C. rewrite Ey in C. specialize (C ltac:(discriminate)).
      rewrite Hr in C. destruct C as [_ C]. congruence.
  - rewrite Hr. cbn. rewrite Hd. reflexivity.
Qed.

(** ** Histories *)
Definition get_user (sec : section) (name : str) (k : keybean) : option user * bool :=
  match sec_get sec k with Some m => match m !! name with Some u => (u, true) | None => (None, false) end | None => (None, false) end.
Definition get_other (key : str) (k : keybean) : str * bool :=
  match k_other k with Some m => match m !! key with Some v => (v, true) | None => ([], false) end | None => ([], false) end.
Lemma GetUser_bean sec name s k : kb s = Some k -> GetUser sec name s = Some (get_user sec name k).
Proof. intros H. unfold GetUser, get_user. rewrite H. destruct (sec_get sec k) as [m|]; [destruct (m !! name)|]; reflexivity. Qed.
Lemma GetOther_bean key s k : kb s = Some k -> GetOther key s = Some (get_other key k).
Proof. intros H. unfold GetOther, get_other. rewrite H. destruct (k_other k) as [m|]; [destruct (m !! key)|]; reflexivity. Qed.
Lemma sec_set_get sec m k sec' : sec_get sec' (sec_set sec m k) = if decide (sec = sec') then Some m else sec_get sec' k.
Proof. destruct sec, sec'; reflexivity. Qed.
Lemma sec_set_other sec m k : k_other (sec_set sec m k) = k_other k.
Proof. destruct sec; reflexivity. Qed.
Lemma do_call_bean z s c s' k : kb s = Some k -> c.2 <> CLoad -> do_call z s c = Some s' -> exists k', kb s' = Some k' /\
  (forall sec name, get_user sec name k' = match put_in sec name c.2 with
     | Some (Some (pwd, ty)) => (Some (User name (Md5Str pwd) ty), true) | Some None => (None, false) | None => get_user sec name k end) /\
  (forall key, get_other key k' = match put_other key c.2 with Some (Some v) => (v, true) | Some None => ([], false) | None => get_other key k end) /\
  (ready k -> ready k').
Proof.
  intros Hk Hc. destruct c as [o [|sec name pwd ty|sec name|key value|key]]; cbn [do_call fst snd put_in put_other] in *; [congruence|..].
  - unfold PutUser. rewrite Hk. destruct (sec_get sec k) as [m|] eqn:Em; [|discriminate]. intros H. assert (s' = _) as -> by (symmetry; apply Some_inj, H). clear H.
    eexists. split; [reflexivity|]. split; [|split].
    + intros sec' name'. unfold get_user. rewrite sec_set_get. destruct (decide (sec = sec' /\ name = name')) as [[-> ->]|Hn].
      * rewrite decide_True by reflexivity. rewrite lookup_insert. reflexivity.
      * destruct (decide (sec = sec')) as [->|]; [|reflexivity]. rewrite lookup_insert_ne by tauto. rewrite Em. reflexivity.
    + intros key. unfold get_other. rewrite sec_set_other. reflexivity.
    + unfold ready. destruct sec; cbn; intuition discriminate.
  - unfold DelUser. rewrite Hk. destruct (sec_get sec k) as [m|] eqn:Em.
    + destruct (m !! name) as [u|] eqn:En; intros H; (assert (s' = _) as -> by (symmetry; apply Some_inj, H)); clear H.
      * eexists. split; [reflexivity|]. split; [|split].
        -- intros sec' name'. unfold get_user. rewrite sec_set_get. destruct (decide (sec = sec' /\ name = name')) as [[-> ->]|Hn].
           ++ rewrite decide_True by reflexivity. rewrite lookup_delete. reflexivity.
           ++ destruct (decide (sec = sec')) as [->|]; [|reflexivity]. rewrite lookup_delete_ne by tauto. rewrite Em. reflexivity.
        -- intros key. unfold get_other. rewrite sec_set_other. reflexivity.
        -- unfold ready. destruct sec; cbn; intuition discriminate.
      * exists k. split; [exact Hk|]. split; [|split; [reflexivity|auto]].
        intros sec' name'. destruct (decide (sec = sec' /\ name = name')) as [[-> ->]|Hn]; [|reflexivity]. unfold get_user. rewrite Em, En. reflexivity.
    + intros H. assert (s' = s) as -> by congruence. exists k. split; [exact Hk|]. split; [|split; [reflexivity|auto]].
      intros sec' name'. destruct (decide (sec = sec' /\ name = name')) as [[-> ->]|Hn]; [|reflexivity]. unfold get_user. rewrite Em. reflexivity.
  - unfold PutOther. rewrite Hk. destruct (k_other k) as [m|] eqn:Em; [|discriminate]. intros H. assert (s' = _) as -> by (symmetry; apply Some_inj, H). clear H.
    eexists. split; [reflexivity|]. split; [|split].
    + intros sec name. unfold get_user. destruct sec; reflexivity.
    + intros key'. unfold get_other. cbn [k_other]. destruct (decide (key = key')) as [->|Hn]; [rewrite lookup_insert; reflexivity|]. rewrite lookup_insert_ne by exact Hn. rewrite Em. reflexivity.
    + unfold ready. cbn. intuition discriminate.
  - unfold DelOther. rewrite Hk. destruct (k_other k) as [m|] eqn:Em.
    + destruct (m !! key) as [u|] eqn:En; intros H; (assert (s' = _) as -> by (symmetry; apply Some_inj, H)); clear H.
      * eexists. split; [reflexivity|]. split; [|split].
        -- intros sec name. unfold get_user. destruct sec; reflexivity.
        -- intros key'. unfold get_other. cbn [k_other]. destruct (decide (key = key')) as [->|Hn]; [rewrite lookup_delete; reflexivity|]. rewrite lookup_delete_ne by exact Hn. rewrite Em. reflexivity.
        -- unfold ready. cbn. intuition discriminate.
      * exists k. split; [exact Hk|]. split; [reflexivity|]. split; [|auto].
        intros key'. destruct (decide (key = key')) as [->|Hn]; [|reflexivity]. unfold get_other. rewrite Em, En. reflexivity.
    + intros H. assert (s' = s) as -> by congruence. exists k. split; [exact Hk|]. split; [reflexivity|]. split; [|auto].
      intros key'. destruct (decide (key = key')) as [->|Hn]; [|reflexivity]. unfold get_other. rewrite Em. reflexivity.
Qed.
Lemma do_call_ready z s c k : kb s = Some k -> ready k -> c.2 <> CLoad -> exists s', do_call z s c = Some s'.
Proof.
  intros Hk (R1 & R2 & R3 & R4) Hc. destruct c as [o [|sec name pwd ty|sec name|key value|key]]; cbn [do_call fst snd] in *; [congruence|..].
  - unfold PutUser. rewrite Hk. destruct (sec_get sec k) as [m|] eqn:Em; [eexists; reflexivity|]. destruct sec; cbn in Em; congruence.
  - unfold DelUser. rewrite Hk. destruct (sec_get sec k) as [m|] eqn:Em; [destruct (m !! name)|]; eexists; reflexivity.
  - unfold PutOther. rewrite Hk. destruct (k_other k) as [m|] eqn:Em; [eexists; reflexivity|congruence].
  - unfold DelOther. rewrite Hk. destruct (k_other k) as [m|] eqn:Em; [destruct (m !! key)|]; eexists; reflexivity.
Qed.
Lemma do_calls_bean z cs : forall s k s', kb s = Some k -> no_load (map snd cs) -> do_calls z s cs = Some s' -> exists k', kb s' = Some k' /\
  (forall sec name, get_user sec name k' = match last_word (put_in sec name) (map snd cs) with
     | Some (Some (pwd, ty)) => (Some (User name (Md5Str pwd) ty), true) | Some None => (None, false) | None => get_user sec name k end) /\
  (forall key, get_other key k' = match last_word (put_other key) (map snd cs) with Some (Some v) => (v, true) | Some None => ([], false) | None => get_other key k end).
Proof.
  induction cs as [|c cs IH]; intros s k s' Hk Hn Hd; cbn [do_calls map] in *.
  - assert (s' = s) as -> by congruence. exists k. split; [exact Hk|]. split; reflexivity.
  - destruct (do_call z s c) as [s1|] eqn:Ec; [|discriminate]. unfold no_load in *. apply not_elem_of_cons in Hn as [Hn1 Hn2].
    destruct (do_call_bean z s c s1 k Hk ltac:(congruence) Ec) as (k1 & Hk1 & U1 & O1 & _). destruct (IH s1 k1 s' Hk1 Hn2 Hd) as (k' & Hk' & U & O).
    exists k'. split; [exact Hk'|]. unfold last_word in *. split.
    + intros sec name. rewrite U, last_omap_cons. destruct (last (omap (put_in sec name) (map snd cs))); [reflexivity|]. apply U1.
    + intros key. rewrite O, last_omap_cons. destruct (last (omap (put_other key) (map snd cs))); [reflexivity|]. apply O1.
Qed.
Lemma do_calls_ready z cs : forall s k, kb s = Some k -> ready k -> no_load (map snd cs) -> exists s', do_calls z s cs = Some s'.
Proof.
  induction cs as [|c cs IH]; intros s k Hk Hr Hn; cbn [do_calls map] in *; [eexists; reflexivity|].
  unfold no_load in *. apply not_elem_of_cons in Hn as [Hn1 Hn2]. destruct (do_call_ready z s c k Hk Hr ltac:(congruence)) as [s1 Ec]. rewrite Ec.
  destruct (do_call_bean z s c s1 k Hk ltac:(congruence) Ec) as (k1 & Hk1 & _ & _ & R1). apply (IH s1 k1 Hk1 (R1 Hr) Hn2).
Qed.

(** ** Equals *)
Lemma UserBean_Equals_iff p q : UserBean_Equals p q = true <-> p = q.
Proof.
  unfold UserBean_Equals. destruct p as [[n p t]|], q as [[n' p' t']|]; cbn; try (split; congruence).
  destruct (decide (n = n')); [|split; congruence]. destruct (decide (p = p')); [|split; congruence]. destruct (decide (t = t')); split; congruence.
Qed.
Lemma forallb_map {V} (f : str * V -> bool) (m : gmap str V) : forallb f (map_to_list m) = true <-> forall k v, m !! k = Some v -> f (k, v) = true.
Proof.
  rewrite forallb_forall. split.
  - intros H k v Hk. apply H. apply elem_of_list_In. apply elem_of_map_to_list. exact Hk.
  - intros H [k v] Hin. apply H. apply elem_of_map_to_list. apply elem_of_list_In. exact Hin.
Qed.
Lemma default_some {V} (m : option (gmap str V)) : match m with Some m => map_to_list m | None => [] end = map_to_list (default ∅ m).
Proof. destruct m; [reflexivity|]. cbn. rewrite map_to_list_empty. reflexivity. Qed.
Lemma msize_default {V} (m : option (gmap str V)) : msize m = size (default ∅ m).
Proof. destruct m; [reflexivity|]. cbn. rewrite map_size_empty. reflexivity. Qed.
Lemma submap_size {V} (p q : gmap str V) : p ⊆ q -> size p = size q -> p = q.
Proof.
  intros Hs Hz. apply map_eq. intros i. destruct (p !! i) as [x|] eqn:Ep; [symmetry; eapply lookup_weaken; eassumption|].
  destruct (q !! i) as [x|] eqn:Eq; [|reflexivity]. exfalso. assert (Hx : <[i := x]> p ⊆ q) by (apply insert_subseteq_l; assumption).
  apply (subseteq_dom (D := gset str)) in Hx. apply subseteq_size in Hx. rewrite !size_dom in Hx. rewrite map_size_insert_None in Hx by exact Ep. lia.
Qed.
Lemma users_Equals_iff p q : (forall m n, p = Some m -> m !! n <> Some None) -> users_Equals p q = true <-> same_map p q.
Proof.
  intros Hp. unfold users_Equals, same_map. rewrite default_some, andb_true_iff, Nat.eqb_eq, forallb_map, !msize_default. split.
  - intros [H1 H2]. apply submap_size; [|exact H1]. apply map_subseteq_spec. intros k v Hk. specialize (H2 k v Hk). apply UserBean_Equals_iff in H2.
    destruct p as [p|]; [|cbn in Hk; rewrite lookup_empty in Hk; discriminate]. cbn [default] in Hk. destruct v as [v|]; [|destruct (Hp p k eq_refl Hk)].
    destruct q as [q|]; [|discriminate]. cbn. unfold default in H2. destruct (q !! k) as [w|]; [|discriminate]. unfold id in H2. congruence.
  - intros E. split; [rewrite E; reflexivity|]. intros k v Hk. rewrite E in Hk. apply UserBean_Equals_iff. destruct q as [q|]; cbn in Hk |- *; [rewrite Hk; reflexivity|].
    rewrite lookup_empty in Hk. discriminate.
Qed.
Lemma other_Equals_iff (p q : option (gmap str str)) : (forall m n, p = Some m -> m !! n <> Some []) -> other_Equals p q = true <-> same_map p q.
Proof.
  intros Hp. unfold other_Equals, same_map. rewrite default_some, andb_true_iff, Nat.eqb_eq, forallb_map, !msize_default. split.
  - intros [H1 H2]. apply submap_size; [|exact H1]. apply map_subseteq_spec. intros k v Hk. specialize (H2 k v Hk). apply bool_decide_eq_true in H2.
    destruct p as [p|]; [|cbn in Hk; rewrite lookup_empty in Hk; discriminate]. cbn [default] in Hk. destruct v as [|b v]; [destruct (Hp p k eq_refl Hk)|].
    destruct q as [q|]; [|discriminate]. cbn. unfold default in H2. destruct (q !! k) as [w|]; [|discriminate]. unfold id in H2. congruence.
  - intros E. split; [rewrite E; reflexivity|]. intros k v Hk. rewrite E in Hk. apply bool_decide_eq_true. destruct q as [q|]; cbn in Hk |- *; [rewrite Hk; reflexivity|].
    rewrite lookup_empty in Hk. discriminate.
Qed.
