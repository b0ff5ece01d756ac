(** Invariants of the locks of lock/lock.go. *)
From stdpp Require Import gmap.
From Coq Require Import ZArith Lia.
From Verif Require Import GoInt Conc Lock_Model Lock_Spec.
Local Open Scope Z_scope.

Lemma put_all_lookup {A} (x : A) n i : put_all x n !! i = if decide (0 <= i < Z.of_nat n) then Some x else None.
Proof.
  induction n as [|n IH]; cbn [put_all].
  - rewrite lookup_empty. destruct (decide _); [lia|auto].
  - destruct (decide (i = Z.of_nat n)) as [->|Hne].
    + rewrite lookup_insert, decide_True by lia. auto.
    + rewrite lookup_insert_ne by auto. rewrite IH. destruct (decide (0 <= i < Z.of_nat n)), (decide (0 <= i < Z.of_nat (S n))); auto; lia.
Qed.

Lemma slot_range n k : 1 <= n -> 0 <= slot n k < n.
Proof. intros. apply Z.mod_pos_bound. lia. Qed.
Lemma num_index_slot n k : 1 <= n < 2^63 -> num_index n k = Some (slot n k).
Proof.
  intros Hn. unfold num_index. rewrite (u64_id n) by (unfold is_u64; lia).
  destruct (Z.eqb_spec n 0); [lia|]. f_equal. unfold i64. pose proof (slot_range n k ltac:(lia)) as Hr. unfold slot, u64 in *.
  change (2^64) with 18446744073709551616 in *. change (2^63) with 9223372036854775808 in *.
  apply wrapS_id; [lia|]. change (2 ^ (64 - 1)) with 9223372036854775808. lia.
Qed.

Lemma remove1_in {A} `{EqDecision A} (x y : A) l : y ∈ remove1 x l -> y ∈ l.
Proof.
  induction l as [|z l IH]; cbn [remove1]; [auto|]. destruct (decide (x = z)); [intros; right; auto|].
  rewrite !elem_of_cons. intros [->|]; auto.
Qed.
Lemma remove1_sub {A} `{EqDecision A} (x : A) l : remove1 x l `sublist_of` l.
Proof.
  induction l as [|z l IH]; cbn [remove1]; [constructor|]. destruct (decide (x = z)); [apply sublist_cons; auto|].
  apply sublist_skip. auto.
Qed.
Lemma remove1_perm {A} `{EqDecision A} (x : A) l : x ∈ l -> l ≡ₚ x :: remove1 x l.
Proof.
  induction l as [|z l IH]; intros Hx; [inversion Hx|]. cbn [remove1]. destruct (decide (x = z)) as [->|Hne]; [auto|].
  apply elem_of_cons in Hx. destruct Hx as [|Hx]; [congruence|]. rewrite (IH Hx) at 1. constructor.
Qed.

Lemma num_run_app es1 es2 nl : num_run nl (es1 ++ es2) =
  ((num_run nl es1).1 ++ (num_run (num_run nl es1).2 es2).1, (num_run (num_run nl es1).2 es2).2).
Proof.
  revert nl. induction es1 as [|e es1 IH]; intros nl; cbn [app num_run].
  - cbn [fst snd app]. destruct (num_run nl es2); reflexivity.
  - destruct (num_step nl e) as [x nl']. rewrite IH. destruct (num_run nl' es1) as [tr nl1]. cbn [fst snd]. destruct (num_run nl1 es2). reflexivity.
Qed.

Section num.
Context (n : Z) (Hn : 1 <= n < 2^63).

Record ninv (hs : list (nat * Z)) (nl : numlock) : Prop := {
  n_num : muxNum nl = n;
  n_lock : forall i, 0 <= i < n -> lockm nl !! i = Some (bool_decide (i ∈ hs.*2));
  n_nodup : NoDup hs.*2 }.
Lemma ninv_new : ninv [] (NewNumLock n).
Proof.
  constructor; [auto| |constructor]. intros i Hi. cbn [NewNumLock lockm]. rewrite put_all_lookup.
  destruct (decide _); [|lia]. reflexivity.
Qed.
Lemma ninv_step hs nl e : ninv hs nl ->
  (forall t k, e = NUnlock t k -> (t, slot n k) ∈ hs) ->
  let '(x, nl') := num_step nl e in ninv (nhold1 n hs (e, x)) nl' /\ x <> RPanic.
Proof.
  intros [Hnum Hl Hnd] Hdis. unfold num_step. rewrite Hnum.
  assert (HS : forall k, lockm nl !! slot n k = Some (bool_decide (slot n k ∈ hs.*2))).
  { intros k. apply Hl. apply slot_range. lia. }
  assert (Hacq : forall t k, slot n k ∉ hs.*2 -> ninv ((t, slot n k) :: hs) (Numlock (<[slot n k := true]> (lockm nl)) n)).
  { intros t k Hno. constructor; cbn [muxNum lockm]; [auto| |].
    - intros i Hi. destruct (decide (i = slot n k)) as [->|Hne].
      + rewrite lookup_insert. f_equal. symmetry. apply bool_decide_eq_true. left.
      + rewrite lookup_insert_ne by auto. rewrite Hl by auto. f_equal. apply bool_decide_ext.
        rewrite fmap_cons, elem_of_cons. cbn [snd]. split; [auto|]. intros [?|?]; [congruence|auto].
    - rewrite fmap_cons. constructor; auto. }
  assert (Hstay : ninv hs nl) by (constructor; auto).
  destruct e as [t k|t k|t k]; rewrite num_index_slot by auto; rewrite HS; case_bool_decide as Hin; cbn [nhold1];
    try (split; [apply Hacq; auto|discriminate]); try (split; [exact Hstay|discriminate]).
  - split; [|discriminate]. specialize (Hdis t k eq_refl). pose proof (remove1_perm _ _ Hdis) as Hp.
    assert (Hp2 : hs.*2 ≡ₚ slot n k :: (remove1 (t, slot n k) hs).*2) by (rewrite Hp at 1; reflexivity).
    assert (Hnd2 : NoDup (slot n k :: (remove1 (t, slot n k) hs).*2)) by (rewrite <- Hp2; auto).
    apply NoDup_cons in Hnd2. destruct Hnd2 as [Hno Hnd2].
    constructor; cbn [muxNum lockm]; [auto| |auto]. intros i Hi. destruct (decide (i = slot n k)) as [->|Hne].
    + rewrite lookup_insert. f_equal. symmetry. apply bool_decide_eq_false. auto.
    + rewrite lookup_insert_ne by auto. rewrite Hl by auto. f_equal. apply bool_decide_ext.
      rewrite Hp2, elem_of_cons. split; [intros [?|?]; [congruence|auto]|auto].
  - exfalso. apply Hin. specialize (Hdis t k eq_refl). apply elem_of_list_fmap. exists (t, slot n k). auto.
Qed.

Lemma ndisc_prefix es es' : ndisciplined n (es ++ es') -> ndisciplined n es.
Proof. intros Hd pre t k post ->. apply (Hd pre t k (post ++ es')). rewrite <- app_assoc. reflexivity. Qed.

Lemma num_run_inv es : ndisciplined n es ->
  ninv (nholders n (num_run (NewNumLock n) es).1) (num_run (NewNumLock n) es).2 /\
  Forall (fun x => x.2 <> RPanic) (num_run (NewNumLock n) es).1.
Proof.
  induction es as [|e es IH] using rev_ind; intros Hd.
  - split; [apply ninv_new|constructor].
  - destruct (IH (ndisc_prefix _ _ Hd)) as [HI HF]. rewrite num_run_app. cbn [fst snd num_run].
    set (nl := (num_run (NewNumLock n) es).2) in *. set (tr := (num_run (NewNumLock n) es).1) in *.
    assert (Hdis : forall t k, e = NUnlock t k -> (t, slot n k) ∈ nholders n tr).
    { intros t k ->. apply (Hd es t k []). reflexivity. }
    pose proof (ninv_step _ nl e HI Hdis) as HS. destruct (num_step nl e) as [x nl'] eqn:Es. cbn [fst snd].
    destruct HS as [HI' Hx]. split.
    + unfold nholders. rewrite foldl_app. exact HI'.
    + apply Forall_app. split; [auto|]. constructor; [auto|constructor].
Qed.

(** Without discipline: the bit of a mutex says whether the last acquire-or-release of it was an acquire. *)
Lemma num_bit nl e i : muxNum nl = n -> (forall j, 0 <= j < n -> is_Some (lockm nl !! j)) -> 0 <= i < n ->
  let '(x, nl') := num_step nl e in
  muxNum nl' = n /\ (forall j, 0 <= j < n -> is_Some (lockm nl' !! j)) /\
  (lockm nl' !! i = lockm nl !! i \/
   (exists t k, (e = NLock t k \/ e = NTryLock t k) /\ slot n k = i /\ x = RAcquired /\ lockm nl !! i = Some false /\ lockm nl' !! i = Some true) \/
   (exists t k, e = NUnlock t k /\ slot n k = i /\ x = RReleased /\ lockm nl !! i = Some true /\ lockm nl' !! i = Some false)) /\
  (forall t k, (e = NLock t k \/ e = NTryLock t k) -> slot n k = i -> x <> RPanic /\ (x = RAcquired -> lockm nl !! i = Some false)).
Proof.
  intros Hnum Hs Hi. unfold num_step. rewrite Hnum.
  assert (HS : forall b j, forall j', 0 <= j' < n -> is_Some ((<[j:=b]> (lockm nl) : gmap Z bool) !! j')).
  { intros b j j' Hj'. destruct (decide (j = j')) as [->|]; [rewrite lookup_insert; eauto|rewrite lookup_insert_ne by auto; auto]. }
  assert (HL : forall (b : bool) j, (<[j := b]> (lockm nl) : gmap Z bool) !! i = if decide (j = i) then Some b else lockm nl !! i).
  { intros b j. destruct (decide (j = i)) as [->|]; [rewrite lookup_insert; auto|rewrite lookup_insert_ne; auto]. }
  destruct e as [t k|t k|t k]; rewrite num_index_slot by auto;
    destruct (Hs (slot n k) (slot_range n k ltac:(lia))) as [b Eb]; rewrite Eb; destruct b; cbn [muxNum lockm];
    (split; [auto|]); (split; [auto|]); rewrite ?HL;
    try (split; [left; reflexivity|]; intros t' k' [HE|HE] Hk'; simplify_eq; split; discriminate);
    try (split; [left; reflexivity|]; intros t' k' [HE|HE] Hk'; discriminate).
  - destruct (decide (slot n k = i)) as [Hk|Hk].
    + split; [right; left; exists t, k; rewrite <- Hk; repeat split; auto|].
      intros t' k' [HE|HE] Hk'; [|discriminate]. injection HE as <- <-. split; [discriminate|]. intros _. rewrite <- Hk. auto.
    + split; [left; auto|]. intros t' k' [HE|HE] Hk'; [|discriminate]. injection HE as <- <-. congruence.
  - destruct (decide (slot n k = i)) as [Hk|Hk].
    + split; [right; left; exists t, k; rewrite <- Hk; repeat split; auto|].
      intros t' k' [HE|HE] Hk'; [discriminate|]. injection HE as <- <-. split; [discriminate|]. intros _. rewrite <- Hk. auto.
    + split; [left; auto|]. intros t' k' [HE|HE] Hk'; [discriminate|]. injection HE as <- <-. congruence.
  - destruct (decide (slot n k = i)) as [Hk|Hk].
    + split; [right; right; exists t, k; rewrite <- Hk; repeat split; auto|]. intros t' k' [HE|HE]; discriminate.
    + split; [left; auto|]. intros t' k' [HE|HE]; discriminate.
Qed.
End num.

(** *** Strlock. *)
Definition cnt {A} (p : A -> bool) (l : list A) : Z := Z.of_nat (length (List.filter p l)).
Lemma cnt_cons {A} (p : A -> bool) x l : cnt p (x :: l) = (if p x then 1 else 0) + cnt p l.
Proof. unfold cnt. cbn [List.filter]. destruct (p x); cbn [length]; lia. Qed.
Lemma cnt_nonneg {A} (p : A -> bool) l : 0 <= cnt p l.
Proof. unfold cnt. lia. Qed.
Lemma cnt_remove1 {A} `{EqDecision A} (p : A -> bool) x l : x ∈ l -> cnt p (remove1 x l) = cnt p l - (if p x then 1 else 0).
Proof.
  induction l as [|z l IH]; intros Hx; [inversion Hx|]. cbn [remove1]. destruct (decide (x = z)) as [->|Hne].
  - rewrite cnt_cons. lia.
  - apply elem_of_cons in Hx. destruct Hx as [|Hx]; [congruence|]. rewrite !cnt_cons, (IH Hx). lia.
Qed.
Lemma cnt_in {A} (p : A -> bool) x l : x ∈ l -> p x = true -> 1 <= cnt p l.
Proof.
  induction l as [|z l IH]; intros Hx Hp; [inversion Hx|]. rewrite cnt_cons. pose proof (cnt_nonneg p l).
  apply elem_of_cons in Hx. destruct Hx as [->|Hx]; [rewrite Hp; lia|]. specialize (IH Hx Hp). destruct (p z); lia.
Qed.
Lemma cnt_app {A} (p : A -> bool) l1 l2 : cnt p (l1 ++ l2) = cnt p l1 + cnt p l2.
Proof. unfold cnt. rewrite List.filter_app, app_length. lia. Qed.

Definition at_w (i : Z) (x : nat * Z * bool) : bool := (x.1.2 =? i) && x.2.
Definition at_r (i : Z) (x : nat * Z * bool) : bool := (x.1.2 =? i) && negb x.2.

Lemma str_run_app {key} (h : key -> Z) es1 es2 sl : str_run h sl (es1 ++ es2) =
  ((str_run h sl es1).1 ++ (str_run h (str_run h sl es1).2 es2).1, (str_run h (str_run h sl es1).2 es2).2).
Proof.
  revert sl. induction es1 as [|e es1 IH]; intros sl; cbn [app str_run].
  - cbn [fst snd app]. destruct (str_run h sl es2); reflexivity.
  - destruct (str_step h sl e) as [x sl']. rewrite IH. destruct (str_run h sl' es1) as [tr sl1]. cbn [fst snd].
    destruct (str_run h sl1 es2). reflexivity.
Qed.

Section strl.
Context {key : Type} (h : key -> Z) (n : Z) (Hn : 1 <= n < 2^63).

Lemma sslot_range k : 0 <= sslot h n k < n.
Proof. apply Z.mod_pos_bound. lia. Qed.
Lemma str_index_slot k : str_index h n k = Some (sslot h n k).
Proof.
  unfold str_index. rewrite (u64_id n) by (unfold is_u64; lia).
  destruct (Z.eqb_spec n 0); [lia|]. f_equal. pose proof (sslot_range k) as Hr. unfold sslot in *. unfold i64.
  apply wrapS_id; [lia|]. change (2 ^ (64 - 1)) with (2^63). lia.
Qed.

Record sinv (hs : list (nat * Z * bool)) (sl : strlock) : Prop := {
  s_num : smuxNum sl = n;
  s_lock : forall i, 0 <= i < n -> exists w : bool, slockm sl !! i = Some (w, cnt (at_r i) hs) /\
    cnt (at_w i) hs = (if w then 1 else 0) /\ (w = true -> cnt (at_r i) hs = 0) }.
Lemma sinv_new : sinv [] (NewStrlock n).
Proof.
  constructor; [auto|]. intros i Hi. cbn [NewStrlock slockm]. rewrite put_all_lookup.
  destruct (decide _); [|lia]. exists false. auto.
Qed.

(** Changing one slot. *)
Lemma sinv_set hs hs' sl i (w : bool) : sinv hs sl -> 0 <= i < n ->
  (forall j, j <> i -> cnt (at_r j) hs' = cnt (at_r j) hs /\ cnt (at_w j) hs' = cnt (at_w j) hs) ->
  cnt (at_w i) hs' = (if w then 1 else 0) -> (w = true -> cnt (at_r i) hs' = 0) ->
  sinv hs' (Strlock (<[i := (w, cnt (at_r i) hs')]> (slockm sl)) n).
Proof.
  intros [Hnum Hl] Hi Hoth Hw Hr. constructor; cbn [smuxNum slockm]; [auto|]. intros j Hj.
  destruct (decide (j = i)) as [->|Hne].
  - exists w. rewrite lookup_insert. auto.
  - rewrite lookup_insert_ne by auto. destruct (Hl j Hj) as (w' & E1 & E2 & E3). destruct (Hoth j Hne) as [-> ->].
    exists w'. auto.
Qed.

Lemma sinv_step hs sl e : sinv hs sl ->
  (forall t k, e = SUnlock t k -> (t, sslot h n k, true) ∈ hs) ->
  (forall t k, e = SRUnlock t k -> (t, sslot h n k, false) ∈ hs) ->
  let '(x, sl') := str_step h sl e in sinv (shold1 h n hs (e, x)) sl' /\ x <> RPanic.
Proof.
  intros HI HdW HdR. pose proof HI as [Hnum Hl]. unfold str_step. rewrite Hnum, str_index_slot.
  set (i := sslot h n (sev_key e)) in *. assert (Hi : 0 <= i < n) by apply sslot_range.
  destruct (Hl i Hi) as (w & E1 & E2 & E3). rewrite E1.
  assert (Hself : forall (b : bool) (t : nat) j, (j =? i) = false -> at_r j (t, i, b) = false /\ at_w j (t, i, b) = false).
  { intros b t j Hj. unfold at_r, at_w. cbn [fst snd]. rewrite Z.eqb_sym, Hj. auto. }
  assert (Hw1 : forall t : nat, at_w i (t, i, true) = true /\ at_r i (t, i, true) = false /\ at_w i (t, i, false) = false /\ at_r i (t, i, false) = true).
  { intros t. unfold at_r, at_w. cbn [fst snd]. rewrite Z.eqb_refl. auto. }
  pose proof (cnt_nonneg (at_r i) hs) as Hr0.
  assert (Hstay : sinv hs (Strlock (<[i := (w, cnt (at_r i) hs)]> (slockm sl)) n)).
  { apply (sinv_set hs); auto. }
  assert (Hadd : forall (t : nat) (b w' : bool), cnt (at_w i) ((t, i, b) :: hs) = (if w' then 1 else 0) ->
     (w' = true -> cnt (at_r i) ((t, i, b) :: hs) = 0) ->
     sinv ((t, i, b) :: hs) (Strlock (<[i := (w', cnt (at_r i) ((t, i, b) :: hs))]> (slockm sl)) n)).
  { intros t b w' H1 H2. apply (sinv_set hs); auto. intros j Hj. apply Z.eqb_neq in Hj. destruct (Hself b t j Hj) as [Ha Hb].
    rewrite !cnt_cons, Ha, Hb. auto. }
  assert (Hdel : forall (t : nat) (b w' : bool), (t, i, b) ∈ hs -> cnt (at_w i) (remove1 (t, i, b) hs) = (if w' then 1 else 0) ->
     (w' = true -> cnt (at_r i) (remove1 (t, i, b) hs) = 0) ->
     sinv (remove1 (t, i, b) hs) (Strlock (<[i := (w', cnt (at_r i) (remove1 (t, i, b) hs))]> (slockm sl)) n)).
  { intros t b w' Hin H1 H2. apply (sinv_set hs); auto. intros j Hj. apply Z.eqb_neq in Hj. destruct (Hself b t j Hj) as [Ha Hb].
    rewrite !cnt_remove1, Ha, Hb by auto. split; lia. }
  destruct e as [t k|t k|t k|p t k|p t k|t k]; cbn [rw_step sev_key] in *.
  - destruct w; cbn [orb]; [split; [exact Hstay|discriminate]|].
    destruct (Z.ltb_spec 0 (cnt (at_r i) hs)); [split; [exact Hstay|discriminate]|].
    split; [|discriminate]. cbn [shold1]. destruct (Hw1 t) as (W1 & W2 & _).
    replace (cnt (at_r i) hs) with (cnt (at_r i) ((t, i, true) :: hs)) by (rewrite cnt_cons, W2; lia).
    apply Hadd; rewrite cnt_cons, ?W1, ?W2; lia.
  - destruct w; cbn [orb]; [split; [exact Hstay|discriminate]|].
    destruct (Z.ltb_spec 0 (cnt (at_r i) hs)); [split; [exact Hstay|discriminate]|].
    split; [|discriminate]. cbn [shold1]. destruct (Hw1 t) as (W1 & W2 & _).
    replace (cnt (at_r i) hs) with (cnt (at_r i) ((t, i, true) :: hs)) by (rewrite cnt_cons, W2; lia).
    apply Hadd; rewrite cnt_cons, ?W1, ?W2; lia.
  - specialize (HdW t k eq_refl). destruct (Hw1 t) as (W1 & W2 & _).
    destruct w; [|exfalso; pose proof (cnt_in _ _ _ HdW W1); fold i in HdW; lia].
    split; [|discriminate]. cbn [shold1]. fold i.
    replace (cnt (at_r i) hs) with (cnt (at_r i) (remove1 (t, i, true) hs)) by (rewrite cnt_remove1, W2 by auto; lia).
    apply Hdel; auto; rewrite cnt_remove1, ?W1, ?W2 by auto; [lia|discriminate].
  - destruct w; cbn [orb]; [split; [exact Hstay|discriminate]|]. destruct p; [split; [exact Hstay|discriminate]|].
    split; [|discriminate]. cbn [shold1]. destruct (Hw1 t) as (_ & _ & W3 & W4).
    replace (cnt (at_r i) hs + 1) with (cnt (at_r i) ((t, i, false) :: hs)) by (rewrite cnt_cons, W4; lia).
    apply Hadd; rewrite cnt_cons, ?W3, ?W4; [lia|discriminate].
  - destruct w; cbn [orb]; [split; [exact Hstay|discriminate]|]. destruct p; [split; [exact Hstay|discriminate]|].
    split; [|discriminate]. cbn [shold1]. destruct (Hw1 t) as (_ & _ & W3 & W4).
    replace (cnt (at_r i) hs + 1) with (cnt (at_r i) ((t, i, false) :: hs)) by (rewrite cnt_cons, W4; lia).
    apply Hadd; rewrite cnt_cons, ?W3, ?W4; [lia|discriminate].
  - specialize (HdR t k eq_refl). destruct (Hw1 t) as (_ & _ & W3 & W4). pose proof (cnt_in _ _ _ HdR W4) as Hpos. fold i in HdR.
    destruct (Z.ltb_spec 0 (cnt (at_r i) hs)); [|lia].
    split; [|discriminate]. cbn [shold1]. fold i.
    replace (cnt (at_r i) hs - 1) with (cnt (at_r i) (remove1 (t, i, false) hs)) by (rewrite cnt_remove1, W4 by auto; lia).
    apply Hdel; auto; rewrite cnt_remove1, ?W3, ?W4 by auto; [lia|]. intros ->. specialize (E3 eq_refl). lia.
Qed.

Lemma sdisc_prefix es es' : sdisciplined h n (es ++ es') -> sdisciplined h n es.
Proof.
  intros [H1 H2]. split; intros pre t k post ->; [apply (H1 pre t k (post ++ es'))|apply (H2 pre t k (post ++ es'))];
    rewrite <- app_assoc; reflexivity.
Qed.
Lemma str_run_inv es : sdisciplined h n es ->
  sinv (sholders h n (str_run h (NewStrlock n) es).1) (str_run h (NewStrlock n) es).2 /\
  Forall (fun x => x.2 <> RPanic) (str_run h (NewStrlock n) es).1.
Proof.
  induction es as [|e es IH] using rev_ind; intros Hd.
  - split; [apply sinv_new|constructor].
  - destruct (IH (sdisc_prefix _ _ Hd)) as [HI HF]. rewrite str_run_app. cbn [fst snd str_run].
    set (sl := (str_run h (NewStrlock n) es).2) in *. set (tr := (str_run h (NewStrlock n) es).1) in *. destruct Hd as [Hd1 Hd2].
    assert (Hdis1 : forall t k, e = SUnlock t k -> (t, sslot h n k, true) ∈ sholders h n tr).
    { intros t k ->. apply (Hd1 es t k []). reflexivity. }
    assert (Hdis2 : forall t k, e = SRUnlock t k -> (t, sslot h n k, false) ∈ sholders h n tr).
    { intros t k ->. apply (Hd2 es t k []). reflexivity. }
    pose proof (sinv_step _ sl e HI Hdis1 Hdis2) as HS. destruct (str_step h sl e) as [x sl'] eqn:Es. cbn [fst snd].
    destruct HS as [HI' Hx]. split.
    + unfold sholders. rewrite foldl_app. exact HI'.
    + apply Forall_app. split; [auto|]. constructor; [auto|constructor].
Qed.
End strl.

(** *** LimitLock. *)
Definition nsent (c : llconf) : Z := sumZ (fun th => match lpc th with LSent => 1 | _ => 0 end) (lths c).
Definition nrecv (c : llconf) : Z := sumZ (fun th => match lpc th with LRecv => 1 | _ => 0 end) (lths c).
Record llinv (limit : Z) (c : llconf) : Prop := {
  l_cap : chcap c = limit;
  l_len : chlen c = logged is_ok c + nsent c - (logged is_unlocked c + nrecv c);
  l_rng : 0 <= chlen c <= limit;
  l_cnt : lcount c = i64 (logged is_ok c);
  l_rel : lrel c = i64 (logged is_unlocked c) }.

Lemma i64_succ a : i64 (i64 a + 1) = i64 (a + 1).
Proof.
  unfold i64. apply wrapS_eq_mod; [lia|]. rewrite <- Zplus_mod_idemp_l. rewrite wrapS_mod by lia. rewrite Zplus_mod_idemp_l. auto.
Qed.
Lemma ll_init_inv limit progs : 0 <= limit -> llinv limit (ll_init limit progs).
Proof.
  intros Hl. assert (HL : forall p, logged p (ll_init limit progs) = 0).
  { intros p. unfold logged. apply sumZ_zero. intros th Hth. cbn [ll_init lths] in Hth. apply elem_of_list_fmap in Hth.
    destruct Hth as (q & -> & _). reflexivity. }
  assert (HP : nsent (ll_init limit progs) = 0 /\ nrecv (ll_init limit progs) = 0).
  { split; apply sumZ_zero; intros th Hth; cbn [ll_init lths] in Hth; apply elem_of_list_fmap in Hth; destruct Hth as (q & -> & _); reflexivity. }
  destruct HP as [HP1 HP2]. constructor; rewrite ?HL, ?HP1, ?HP2; cbn [ll_init chcap chlen lcount lrel]; auto; lia.
Qed.
Lemma logged_set p len cap n r t th th' ths : ths !! t = Some th ->
  logged p (LLConf len cap n r (<[t := th']> ths)) =
  sumZ (fun th => Z.of_nat (length (List.filter p (llog th)))) ths
    - Z.of_nat (length (List.filter p (llog th))) + Z.of_nat (length (List.filter p (llog th'))).
Proof. intros Ht. unfold logged. cbn [lths]. rewrite (sumZ_insert _ _ _ th); auto. Qed.

Lemma ll_step_inv limit c a : 0 <= limit -> llinv limit c -> llinv limit (ll_step c a).
Proof.
  intros H0 HI. pose proof HI as [Hcap Hlen Hrng Hcnt Hrel]. unfold logged, nsent, nrecv in *. destruct a as [t tmo|t t']; cbn [ll_step].
  - destruct (lths c !! t) as [th|] eqn:Et; [|auto].
    destruct th as [td pc lg]. cbn [lpc ltodo llog].
    destruct pc as [| | |cc]; [destruct td as [|[] td]; [auto|..]|..].
    all: repeat match goal with |- context [if ?b then _ else _] => destruct b eqn:? end; try exact HI.
    all: constructor; unfold logged, nsent, nrecv; cbn [chcap chlen lcount lrel lths]; rewrite ?(sumZ_insert _ _ _ _ _ Et);
      cbn [llog lpc List.filter is_ok is_unlocked length]; auto; try lia.
    all: rewrite ?Hcnt, ?Hrel, ?i64_succ; f_equal; lia.
  - destruct (lths c !! t) as [[[|[] td] [] lg]|] eqn:Et; try exact HI.
    destruct (lths c !! t') as [[[|[] td'] [] lg']|] eqn:Et'; try exact HI.
    destruct (_ && _) eqn:Eb; [|exact HI]. apply andb_prop in Eb. destruct Eb as [E1 E2].
    apply negb_true_iff, Nat.eqb_neq in E2.
    assert (Et2 : <[t := LLTh td LSent lg]> (lths c) !! t' = Some (LLTh (CUnlock :: td') LIdle lg')) by (rewrite list_lookup_insert_ne; auto).
    constructor; unfold logged, nsent, nrecv; cbn [chcap chlen lcount lrel lths]; rewrite ?(sumZ_insert _ _ _ _ _ Et2), ?(sumZ_insert _ _ _ _ _ Et);
      cbn [llog lpc List.filter is_ok is_unlocked length]; auto; try lia.
    + rewrite Hcnt. f_equal. lia.
    + rewrite Hrel. f_equal. lia.
Qed.
Lemma ll_run_inv limit progs sched : 0 <= limit -> llinv limit (ll_run (ll_init limit progs) sched).
Proof.
  intros H0. unfold ll_run. induction sched as [|a s IH] using rev_ind; [apply ll_init_inv; auto|].
  rewrite foldl_app. cbn [foldl]. apply ll_step_inv; auto.
Qed.
