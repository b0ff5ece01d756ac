(** C169: how much room there is for keys that equal themselves. *)
From Coq Require Import ZArith List Bool Arith Lia.
From Verif Require Import NanMap_Model NanMap_Spec NanMap_Proofs NanLimit_Model NanLimit_Proofs.
Import ListNotations.

Lemma NoDup_snoc {A} (l : list A) x : NoDup l -> ~ In x l -> NoDup (l ++ [x]).
Proof.
  intros N H. apply (NoDup_Add (a := x) (l := l)); [| now split].
  rewrite <- (app_nil_r l) at 1. apply Add_app.
Qed.

Section room.
Context {K V : Type} (same : K -> K -> bool) (capacity : Z) (G : go_equality same).
Notation lmap := (@lmap K V). Notation step := (step same capacity).

(** At most one entry is found by a key, each entry leads to its own element of its own key; the elements in the list are those of entries, and those of all keys that equal themselves (hashmap/limitmap.go:47-78). *)
Record fit (m : lmap) : Prop := {
  one : forall k, (hits same k (cache m) <= 1)%nat;
  own : NoDup (map snd (cache m));
  key : forall k e, In (k, e) (cache m) -> option_map fst (nth_error (elems m) e) = Some k;
  kept : forall k e, In (k, e) (cache m) -> same k k = true -> In e (order m);
  known : forall e, In e (order m) -> In e (map snd (cache m));
  once : NoDup (order m) }.

Lemma self_of a k : same a k = true -> same k k = true /\ same a a = true.
Proof. destruct G as [S T]. intros H. pose proof H as H'. rewrite S in H'. split; eapply T; eassumption. Qed.

Lemma remove_split k (l : list (K * nat)) e : load same k l = Some e -> exists l1 a l2, l = l1 ++ (a, e) :: l2 /\ same a k = true /\ remove same k l = l1 ++ l2.
Proof.
  induction l as [| [a x] l IH]; cbn; [discriminate |]. destruct (same a k) eqn:A.
  - intros H. inversion H; subst. exists [], a, l. now repeat split.
  - intros H. destruct (IH H) as (l1 & b & l2 & -> & B & ->). exists ((a, x) :: l1), b, l2. now repeat split.
Qed.

Lemma unlink_in e x l : In x (unlink e l) <-> In x l /\ x <> e.
Proof. unfold unlink. rewrite filter_In. rewrite negb_true_iff, Nat.eqb_neq. tauto. Qed.

Lemma unlink_NoDup e l : NoDup l -> NoDup (unlink e l).
Proof. apply NoDup_filter. Qed.

(** An entry and its element go together. *)
Lemma fit_drop k e (m : lmap) : fit m -> load same k (cache m) = Some e -> fit (MkLMap (remove same k (cache m)) (elems m) (unlink e (order m))).
Proof.
  intros F L. destruct (remove_split k (cache m) e L) as (l1 & a & l2 & E & A & R). destruct F as [F1 F2 F3 F4 F5 F6].
  assert (forall x, In x (l1 ++ l2) -> In x (cache m)) as I by (intros x; rewrite E, !in_app_iff; cbn; tauto).
  rewrite E, map_app in F2. cbn in F2. pose proof F2 as F2'. apply NoDup_remove in F2' as [N X].
  split; cbn.
  - intros k'. pose proof (hits_remove same k' k (cache m)). specialize (F1 k'). lia.
  - rewrite R, map_app. assumption.
  - intros k' x H. rewrite R in H. apply F3. now apply I.
  - intros k' x H S. rewrite R in H. apply unlink_in. split; [now apply (F4 k'); [apply I |] |].
    intros ->. apply X. rewrite <- map_app. now apply (in_map snd _ (k', e)).
  - intros x H. apply unlink_in in H as [H D]. specialize (F5 x H). rewrite R. rewrite E, map_app in F5. cbn in F5.
    rewrite map_app. rewrite in_app_iff in *. cbn in F5. destruct F5 as [| [|]]; [now left | congruence | now right].
  - now apply unlink_NoDup.
Qed.

(** An element of a key that equals nothing leaves the list. *)
Lemma fit_unlink k e (m : lmap) : fit m -> In (k, e) (cache m) -> same k k = false -> fit (MkLMap (cache m) (elems m) (unlink e (order m))).
Proof.
  intros [F1 F2 F3 F4 F5 F6] I S. split; cbn; try assumption.
  - intros k' x H S'. apply unlink_in. split; [now apply (F4 k') |]. intros ->.
    pose proof (F3 _ _ H) as A. pose proof (F3 _ _ I) as B. rewrite A in B. inversion B; subst. congruence.
  - intros x H. apply unlink_in in H as [H _]. now apply F5.
  - now apply unlink_NoDup.
Qed.

Lemma hits_in k e (l : list (K * nat)) : (hits same k l <= 1)%nat -> In (k, e) l -> same k k = true -> load same k l = Some e.
Proof.
  intros H I S. induction l as [| [a x] l IH]; [destruct I |]. cbn in *. destruct I as [I | I].
  - inversion I; subst. now rewrite S.
  - destruct (same a k) eqn:A; [| now apply IH]. exfalso.
    assert (hits same k l = O) as Z by lia. apply hits_load in Z. clear -Z I S.
    induction l as [| [b y] l IH]; [destruct I |]. cbn in *. destruct I as [I | I]; [inversion I; subst; rewrite S in Z; discriminate |].
    destruct (same b k); [discriminate | now apply IH].
Qed.

Lemma load_self k e (l : list (K * nat)) : load same k l = Some e -> same k k = true.
Proof. intros L. destruct (remove_split k l e L) as (? & a & ? & _ & A & _). apply (self_of a k A). Qed.

Lemma fit_room (m : lmap) : fit m -> let m' := make_room same capacity m in
  fit m' /\ elems m' = elems m
  /\ ((capacity < Z.of_nat (length (cache m)))%Z -> length (order m') = pred (length (order m))) /\ (length (order m') <= length (order m))%nat.
Proof.
  intros F m'. subst m'. unfold make_room. destruct (Z.ltb_spec capacity (Z.of_nat (length (cache m)))) as [C | C]; [| repeat split; try assumption; try apply F; lia].
  destruct (rev (order m)) as [| e es] eqn:R.
  - assert (order m = []) as O by (rewrite <- (rev_involutive (order m)), R; reflexivity).
    split; [assumption |]. rewrite O. cbn. repeat split; lia.
  - assert (order m = rev es ++ [e]) as O by (rewrite <- (rev_involutive (order m)), R; reflexivity).
    assert (unlink e (order m) = rev es) as U by (rewrite O; apply unlink_last; rewrite <- O; apply F).
    assert (In e (order m)) as I by (rewrite O; apply in_or_app; right; now left).
    pose proof (known m F e I) as J. apply in_map_iff in J as ([k x] & E & J). cbn in E. subst x.
    pose proof (key m F _ _ J) as N. destruct (nth_error (elems m) e) as [[k' w] |]; [| discriminate]. cbn in N. inversion N; subst k'.
    assert (fit (MkLMap (remove same k (cache m)) (elems m) (unlink e (order m)))) as X.
    { destruct (same k k) eqn:S.
      - apply fit_drop; [assumption |]. apply hits_in; [apply F | assumption | assumption].
      - rewrite remove_absent; [now apply (fit_unlink k) |].
        destruct (load same k (cache m)) eqn:L; [| reflexivity]. apply load_self in L. congruence. }
    split; [exact X |]. cbn. rewrite U, O, app_length. cbn. repeat split; lia.
Qed.

Lemma load_in k k' e (l : list (K * nat)) : In (k', e) l -> load same k l = None -> same k' k = false.
Proof.
  intros I L. induction l as [| [a x] l IH]; [destruct I |]. cbn in *. destruct (same a k) eqn:A; [discriminate |].
  destruct I as [I | I]; [inversion I; now subst | now apply IH].
Qed.

Lemma set_value_key (l : list (K * V)) e v x : option_map fst (nth_error (set_value l e v) x) = option_map fst (nth_error l x).
Proof. revert e x. induction l as [| [k w] l IH]; intros [| e] [| x]; cbn; try reflexivity. apply IH. Qed.

Lemma fit_step c (m : lmap) : fit m -> sound m -> fit (step m c).
Proof.
  intros F W. destruct c as [k v | k]; cbn.
  - unfold Put. destruct (load same k (cache m)) as [e |] eqn:L.
    + destruct F as [F1 F2 F3 F4 F5 F6]. split; cbn; try assumption.
      * intros k' x H. rewrite set_value_key. now apply F3.
      * intros k' x H S. unfold to_front. destruct (existsb (Nat.eqb e) (order m)); [| now apply (F4 k')].
        destruct (Nat.eq_dec x e) as [-> | D]; [now left |]. right. apply unlink_in. split; [now apply (F4 k') | assumption].
      * intros x. unfold to_front. destruct (existsb (Nat.eqb e) (order m)) eqn:X; [| apply F5].
        apply existsb_exists in X as (y & Y & Z). apply Nat.eqb_eq in Z. subst y.
        intros [<- | H]; [now apply F5 | apply unlink_in in H; now apply F5].
      * unfold to_front. destruct (existsb (Nat.eqb e) (order m)); [| assumption]. constructor; [rewrite unlink_in; tauto | now apply unlink_NoDup].
    + pose proof (fit_room m F) as (X & E & _). pose proof (room_load same capacity k m L) as L'.
      destruct (room_sound same capacity m W) as [W' _]. cbv zeta. set (r := make_room same capacity m) in *.
      destruct X as [F1 F2 F3 F4 F5 F6]. unfold sound in W'. rewrite Forall_forall in W'.
      assert (forall x, In x (map snd (cache r)) -> (x < length (elems r))%nat) as B by (intros x H; apply in_map_iff in H as (y & <- & H); now apply W').
      split; cbn [cache elems order]; try rewrite store_absent by assumption.
      * intros k'. rewrite <- (store_absent same k (length (elems r)) (cache r) L'). now apply hits_store.
      * rewrite map_app. cbn. apply NoDup_snoc; [assumption |]. intros H. specialize (B _ H). lia.
      * intros k' x H. apply in_app_iff in H as [H | [H | []]].
        -- rewrite nth_error_app1 by (apply (W' _ H)). now apply F3.
        -- inversion H; subst. rewrite nth_error_app2, Nat.sub_diag by lia. reflexivity.
      * intros k' x H S. apply in_app_iff in H as [H | [H | []]]; [right; now apply (F4 k') | left; now inversion H].
      * intros x [<- | H]; rewrite map_app, in_app_iff; [right; now left | left; now apply F5].
      * constructor; [| assumption]. intros H. specialize (B _ (F5 _ H)). lia.
  - unfold Del. destruct (load same k (cache m)) eqn:L; [now apply fit_drop | assumption].
Qed.

(** The list is never longer than capacity + 1, or 1. *)
Lemma order_step c (m : lmap) : fit m -> (length (order m) <= Z.to_nat capacity + 1)%nat -> (length (order (step m c)) <= Z.to_nat capacity + 1)%nat.
Proof.
  intros F H. assert (forall e, length (unlink e (order m)) <= length (order m))%nat as U.
  { intros e. unfold unlink. clear. induction (order m) as [| x l IH]; cbn; [lia |]. destruct (negb _); cbn; lia. }
  destruct c as [k v | k]; cbn.
  - unfold Put. destruct (load same k (cache m)) as [e |]; cbn.
    + unfold to_front. destruct (existsb (Nat.eqb e) (order m)) eqn:X; [| assumption].
      apply existsb_exists in X as (y & Y & Z). apply Nat.eqb_eq in Z. subst y. cbn.
      apply in_split in Y as (l1 & l2 & Y). pose proof (once m F) as N. rewrite Y in N, H |- *. apply NoDup_remove in N as [_ N].
      unfold unlink. rewrite filter_app. cbn. rewrite Nat.eqb_refl. cbn. rewrite <- filter_app. fold (unlink e (l1 ++ l2)).
      rewrite unlink_absent by assumption. rewrite app_length in *. cbn in H. lia.
    + destruct (fit_room m F) as (X & E & P & Q). destruct (Z.ltb_spec capacity (Z.of_nat (length (cache m)))) as [C | C]; [rewrite P by assumption; lia |].
      assert (length (order m) <= length (cache m))%nat as Y.
      { rewrite <- (map_length snd (cache m)). apply NoDup_incl_length; [apply F | intros e; apply (known m F)]. }
      lia.
  - unfold Del. destruct (load same k (cache m)); cbn; [specialize (U n); lia | assumption].
Qed.

Lemma fit_run cs : fit (lrun same capacity cs) /\ (length (order (lrun same capacity cs)) <= Z.to_nat capacity + 1)%nat.
Proof.
  induction cs as [| c cs [F O]] using rev_ind.
  - split; [| cbn; lia]. split; cbn; try constructor; try contradiction; lia.
  - unfold lrun in *. rewrite fold_left_app. cbn [fold_left]. split; [apply fit_step; [assumption | apply run_sound] | now apply order_step].
Qed.

(** The entries of keys that equal themselves. *)
Lemma selfs_bound (m : lmap) : fit m -> (length (filter (fun x => same (fst x) (fst x)) (cache m)) <= length (order m))%nat.
Proof.
  intros F. rewrite <- (map_length snd). apply NoDup_incl_length.
  - pose proof (own m F) as N. clear F. induction (cache m) as [| [k e] l IH]; cbn; [constructor |].
    inversion N; subst. destruct (same k k); cbn; [| now apply IH]. constructor; [| now apply IH].
    intros H. apply in_map_iff in H as (x & E & H). apply filter_In in H as [H _]. apply H1. apply in_map_iff. now exists x.
  - intros e H. apply in_map_iff in H as ([k x] & E & H). cbn in E. subst x. apply filter_In in H as [H S]. now apply (kept m F k).
Qed.
Lemma found_in_order (m : lmap) k e : fit m -> load same k (cache m) = Some e -> In e (order m).
Proof.
  intros F L. destruct (remove_split k (cache m) e L) as (l1 & a & l2 & E & A & _).
  apply (kept m F a); [rewrite E; apply in_or_app; right; now left | apply (self_of a k A)].
Qed.

Lemma found_same (m : lmap) k k' e : fit m -> load same k (cache m) = Some e -> load same k' (cache m) = Some e -> same k k' = true.
Proof.
  intros F L L'. destruct (remove_split k (cache m) e L) as (l1 & a & l2 & E & A & _). destruct (remove_split k' (cache m) e L') as (l3 & b & l4 & E' & B & _).
  assert (In (a, e) (cache m)) as I by (rewrite E; apply in_or_app; right; now left).
  assert (In (b, e) (cache m)) as J by (rewrite E'; apply in_or_app; right; now left).
  pose proof (key m F _ _ I) as X. rewrite (key m F _ _ J) in X. inversion X; subst.
  destruct G as [S T]. rewrite S in A. now apply (T _ a).
Qed.

Lemma found_bound (m : lmap) ks : fit m -> ForallOrdPairs (fun a b => same a b = false) ks -> Forall (fun k => load same k (cache m) <> None) ks -> (length ks <= length (order m))%nat.
Proof.
  intros F P H.
  set (f := fun k => match load same k (cache m) with Some e => e | None => O end).
  rewrite <- (map_length f). apply NoDup_incl_length.
  - induction P as [| k ks A P IH]; cbn; [constructor |]. inversion H as [| ? ? X Y]; subst. constructor; [| now apply IH].
    intros I. apply in_map_iff in I as (k' & E & I). rewrite Forall_forall in A, Y. specialize (A _ I). specialize (Y _ I). unfold f in E.
    destruct (load same k (cache m)) as [e |] eqn:L; [| contradiction]. destruct (load same k' (cache m)) as [e' |] eqn:L'; [| contradiction]. subst.
    rewrite (found_same m k k' e F L L') in A. discriminate.
  - intros e I. apply in_map_iff in I as (k & E & I). rewrite Forall_forall in H. specialize (H _ I). unfold f in E.
    destruct (load same k (cache m)) eqn:L; [| contradiction]. subst. now apply (found_in_order m k).
Qed.

Lemma split_selfs (l : list (K * nat)) : length l = (length (filter (fun x => same (fst x) (fst x)) l) + marks (fun k => negb (same k k)) l)%nat.
Proof. induction l as [| [k e] l IH]; cbn; [reflexivity |]. destruct (same k k); cbn; lia. Qed.

Lemma not_self k : negb (same k k) = true -> equals_nothing same k.
Proof.
  intros H. apply negb_true_iff in H. intros a. split.
  - destruct (same k a) eqn:X; [| reflexivity]. apply self_of in X as [_ X]. congruence.
  - destruct (same a k) eqn:X; [| reflexivity]. apply self_of in X as [X _]. congruence.
Qed.
End room.
