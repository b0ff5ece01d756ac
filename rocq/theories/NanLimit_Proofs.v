(** Proofs for C169. *)
From Coq Require Import ZArith List Bool Arith Lia.
From Verif Require Import NanMap_Model NanMap_Spec NanMap_Proofs NanLimit_Model.
Import ListNotations.

Section limit.
Context {K V : Type} (same : K -> K -> bool) (zero : V) (capacity : Z).
Notation lmap := (@lmap K V). Notation step := (step same capacity). Notation Put := (Put same capacity). Notation Del := (Del same).

(** How often NaN is a key (hashmap/limitmap.go:65). *)
Fixpoint marks (p : K -> bool) (l : list (K * nat)) : nat := match l with [] => O | (k, _) :: r => ((if p k then 1 else 0) + marks p r)%nat end.

Lemma marks_length p l : (marks p l <= length l)%nat.
Proof. induction l as [| [k e] l IH]; cbn; [lia |]. destruct (p k); lia. Qed.

Lemma marks_remove p k l : (forall a, p a = true -> same a k = false) -> marks p (remove same k l) = marks p l.
Proof.
  intros H. induction l as [| [a e] l IH]; cbn; [reflexivity |].
  destruct (same a k) eqn:A; cbn; [| now rewrite IH].
  destruct (p a) eqn:P; [| reflexivity]. rewrite (H _ P) in A. discriminate.
Qed.

Lemma store_absent k (e : nat) l : load same k l = None -> store same k e l = l ++ [(k, e)].
Proof. induction l as [| [a w] l IH]; cbn; [reflexivity |]. destruct (same a k); [discriminate |]. intros H. now rewrite IH. Qed.

Lemma remove_absent k (l : list (K * nat)) : load same k l = None -> remove same k l = l.
Proof. induction l as [| [a w] l IH]; cbn; [reflexivity |]. destruct (same a k); [discriminate |]. intros H. now rewrite IH. Qed.

Lemma remove_last k (e : nat) l : load same k l = None -> same k k = true -> remove same k (l ++ [(k, e)]) = l.
Proof. intros H R. induction l as [| [a w] l IH]; cbn in *; [now rewrite R |]. destruct (same a k); [discriminate |]. now rewrite IH. Qed.

Lemma load_last k k' (e : nat) l : load same k l = None -> load same k (l ++ [(k', e)]) = if same k' k then Some e else None.
Proof. intros H. induction l as [| [a w] l IH]; cbn in *; [reflexivity |]. destruct (same a k); [discriminate |]. now apply IH. Qed.

Lemma marks_app p l l' : marks p (l ++ l') = (marks p l + marks p l')%nat.
Proof. induction l as [| [k e] l IH]; cbn; [reflexivity |]. rewrite IH. lia. Qed.

(** Keys that equal nothing stay in the map, and there is one more for each Put. *)
Lemma marks_step p (m : lmap) c : (forall a, p a = true -> equals_nothing same a) ->
  marks p (cache (step m c)) = (marks p (cache m) + match c with CPut k _ => if p k then 1 else 0 | CDel _ => 0 end)%nat.
Proof.
  intros H. assert (forall a k, p a = true -> same a k = false) as H' by (intros a k P; apply (H a P)).
  destruct c as [k v | k]; cbn.
  - unfold NanLimit_Model.Put. destruct (load same k (cache m)) eqn:L; cbn [cache].
    + destruct (p k) eqn:P; [| lia]. rewrite (load_nan same k _ (H _ P)) in L. discriminate.
    + assert (load same k (cache (make_room same capacity m)) = None /\ marks p (cache (make_room same capacity m)) = marks p (cache m)) as [L' M].
      { unfold make_room. destruct (capacity <? _)%Z; [| now split]. destruct (rev (order m)) as [| e es]; [now split |]. cbn.
        destruct (nth_error (elems m) e) as [[k' w] |]; [| now split]. split; [| apply marks_remove; intros a P; now apply H'].
        clear -L. induction (cache m) as [| [a x] l IH]; cbn in *; [reflexivity |]. destruct (same a k) eqn:A; [discriminate |].
        destruct (same a k'); cbn; [assumption |]. rewrite A. now apply IH. }
      rewrite store_absent by assumption. rewrite marks_app. cbn. lia.
  - unfold NanLimit_Model.Del. destruct (load same k (cache m)); cbn [cache]; [| lia].
    rewrite marks_remove; [lia |]. intros a P. now apply H'.
Qed.

Lemma unlink_absent e l : ~ In e l -> unlink e l = l.
Proof.
  induction l as [| x l IH]; cbn; intros H; [reflexivity |].
  destruct (Nat.eqb_spec x e); [subst; exfalso; apply H; now left |]. cbn. f_equal. apply IH. tauto.
Qed.

Lemma unlink_bound e l n : Forall (fun x => (x < n)%nat) l -> Forall (fun x => (x < n)%nat) (unlink e l).
Proof. intros H. apply Forall_forall. intros x I. unfold unlink in I. apply filter_In in I as [I _]. rewrite Forall_forall in H. now apply H. Qed.

Lemma unlink_last e l : NoDup (l ++ [e]) -> unlink e (l ++ [e]) = l.
Proof.
  intros N. apply NoDup_remove in N as [_ N]. rewrite app_nil_r in N.
  unfold unlink. rewrite filter_app. cbn. rewrite Nat.eqb_refl. cbn. rewrite app_nil_r. now apply unlink_absent.
Qed.

(** The map holds more than [capacity] NaN and no other key; [n] elements are in the list (hashmap/limitmap.go:56-65). *)
Definition clogged (nan : K) (m : lmap) (n : nat) : Prop :=
  Forall (fun e => fst e = nan) (cache m) /\ (capacity < Z.of_nat (length (cache m)))%Z /\ NoDup (order m)
  /\ Forall (fun e => (e < length (elems m))%nat) (order m) /\ length (order m) = n
  /\ Forall (fun e => option_map fst (nth_error (elems m) e) = Some nan) (order m).

Lemma load_clogged nan k (l : list (K * nat)) : equals_nothing same nan -> Forall (fun e => fst e = nan) l -> load same k l = None.
Proof. intros N H. induction H as [| [a e] l E H IH]; cbn in *; [reflexivity |]. subst. now rewrite (proj1 (N k)). Qed.

Lemma put_nan nan v (m : lmap) : equals_nothing same nan -> (Z.of_nat (length (cache m)) <= capacity)%Z ->
  Put m nan v = MkLMap (cache m ++ [(nan, length (elems m))]) (elems m ++ [(nan, v)]) (length (elems m) :: order m).
Proof.
  intros N L. unfold NanLimit_Model.Put. rewrite (load_nan same nan _ N). unfold make_room.
  destruct (Z.ltb_spec capacity (Z.of_nat (length (cache m)))); [lia |]. cbv zeta. rewrite store_absent by now apply load_nan. reflexivity.
Qed.

Lemma fill nan (v : V) n : equals_nothing same nan -> (Z.of_nat n <= capacity + 1)%Z ->
  let m := fold_left step (repeat (CPut nan v) n) NewLimitMap in
  Forall (fun e => fst e = nan) (cache m) /\ length (cache m) = n /\ length (elems m) = n /\ NoDup (order m)
  /\ Forall (fun e => (e < n)%nat) (order m) /\ length (order m) = n /\ Forall (fun e => e = (nan, v)) (elems m).
Proof.
  intros N. induction n as [| n IH]; intros L.
  - cbn. repeat split; constructor.
  - replace (S n) with (n + 1)%nat by lia. rewrite repeat_app. cbv zeta. rewrite fold_left_app. cbn [repeat fold_left].
    destruct IH as (A & B & C & D & E & F & G); [lia |]. set (m := fold_left step (repeat (CPut nan v) n) NewLimitMap) in *.
    cbn [NanLimit_Model.step]. rewrite put_nan by (assumption || lia). cbn [cache elems order].
    rewrite !app_length, C, B. cbn [length]. repeat split.
    + apply Forall_app. split; [assumption |]. repeat constructor.
    + constructor; [| assumption]. intros I. rewrite Forall_forall in E. specialize (E _ I). lia.
    + constructor; [lia |]. eapply Forall_impl; [| exact E]. cbn. intros; lia.
    + lia.
    + apply Forall_app. split; [assumption |]. repeat constructor.
Qed.

Lemma filled nan (v : V) : equals_nothing same nan -> (0 <= capacity)%Z ->
  clogged nan (fold_left step (repeat (CPut nan v) (Z.to_nat (capacity + 1))) NewLimitMap) (Z.to_nat (capacity + 1)).
Proof.
  intros N C. destruct (fill nan v (Z.to_nat (capacity + 1)) N) as (A & B & D & E & F & G & H); [lia |].
  unfold clogged. rewrite B, D. repeat split; try assumption; [lia |].
  eapply Forall_impl; [| exact F]. intros e L. cbn in L. rewrite <- D in L. apply nth_error_Some in L.
  destruct (nth_error _ e) as [x |] eqn:X; [| contradiction]. rewrite Forall_forall in H. now rewrite (H _ (nth_error_In _ _ X)).
Qed.

Lemma room_clogged nan (m : lmap) n : equals_nothing same nan -> clogged nan m n -> exists o,
  make_room same capacity m = MkLMap (cache m) (elems m) o /\ clogged nan (MkLMap (cache m) (elems m) o) (pred n).
Proof.
  intros N (A & B & C & D & E & F). unfold make_room. destruct (Z.ltb_spec capacity (Z.of_nat (length (cache m)))); [| lia].
  destruct (order m) as [| x l _] eqn:O using rev_ind.
  - cbn in *. exists []. subst n. destruct m as [ca el o]; cbn in *. subst o. split; [reflexivity |]. repeat split; try assumption.
  - rewrite rev_unit. apply Forall_app in F as [F1 F2]. inversion F2 as [| ? ? X _]; subst.
    exists l. destruct (nth_error (elems m) x) as [[k w] |] eqn:Y; [| discriminate]. cbn in X. inversion X; subst.
    rewrite remove_absent by now apply load_nan. rewrite unlink_last by assumption.
    split; [reflexivity |]. apply Forall_app in D as [D1 _]. apply NoDup_remove in C as [C _]. rewrite app_nil_r in C.
    unfold clogged. cbn. rewrite app_length. cbn. repeat split; try assumption. lia.
Qed.

Lemma put_clogged nan k v (m : lmap) n : equals_nothing same nan -> clogged nan m n -> exists o,
  Put m k v = MkLMap (cache m ++ [(k, length (elems m))]) (elems m ++ [(k, v)]) (length (elems m) :: o)
  /\ clogged nan (MkLMap (cache m) (elems m) o) (pred n).
Proof.
  intros N C. destruct (room_clogged nan m n N C) as (o & R & C'). exists o. split; [| assumption].
  pose proof (load_clogged nan k (cache m) N (proj1 C)) as L.
  unfold NanLimit_Model.Put. rewrite L, R. cbv zeta. cbn [cache elems order]. now rewrite store_absent by assumption.
Qed.

Lemma round nan k v (m : lmap) n : equals_nothing same nan -> same k k = true -> clogged nan m n -> clogged nan (Del (Put m k v) k) (pred n).
Proof.
  intros N R C. destruct (put_clogged nan k v m n N C) as (o & -> & C').
  pose proof (load_clogged nan k (cache m) N (proj1 C)) as L.
  unfold NanLimit_Model.Del. cbn [cache elems order]. rewrite load_last, R by assumption. rewrite remove_last by assumption.
  destruct C' as (A & B & D & E & F & G). cbn [cache elems order] in A, B, D, E, F, G.
  assert (~ In (length (elems m)) o) as I by (intros I; rewrite Forall_forall in E; specialize (E _ I); lia).
  assert (unlink (length (elems m)) (length (elems m) :: o) = o) as -> by (cbn; rewrite Nat.eqb_refl; cbn; now apply unlink_absent).
  unfold clogged. cbn. rewrite app_length. cbn. repeat split; try assumption.
  - eapply Forall_impl; [| exact E]. cbn. intros; lia.
  - rewrite Forall_forall in *. intros e J. rewrite nth_error_app1 by now apply E. now apply G.
Qed.

Lemma rounds nan k v j : forall (m : lmap) n, equals_nothing same nan -> same k k = true -> clogged nan m n ->
  clogged nan (fold_left step (concat (repeat [CPut k v; CDel k] j)) m) (n - j).
Proof.
  induction j as [| j IH]; intros m n N R C; cbn [repeat concat fold_left app]; [now rewrite Nat.sub_0_r |].
  replace (n - S j)%nat with (pred n - j)%nat by lia. apply IH; try assumption. now apply round.
Qed.
Lemma rounds_cache nan k v j : forall (m : lmap) n, equals_nothing same nan -> same k k = true -> clogged nan m n ->
  length (cache (fold_left step (concat (repeat [CPut k v; CDel k] j)) m)) = length (cache m).
Proof.
  induction j as [| j IH]; intros m n N R C; [reflexivity |]. cbn [repeat concat fold_left app].
  rewrite (IH _ (pred n)); [| assumption | assumption | now apply round].
  cbn [NanLimit_Model.step]. destruct (put_clogged nan k v m n N C) as (o & -> & _).
  pose proof (load_clogged nan k (cache m) N (proj1 C)) as L.
  unfold NanLimit_Model.Del. cbn [cache]. rewrite load_last, R by assumption. cbn [cache]. now rewrite remove_last by assumption.
Qed.

Lemma set_value_length (l : list (K * V)) e v : length (set_value l e v) = length l.
Proof. revert e. induction l as [| [k w] l IH]; intros [| e]; cbn; try reflexivity. now rewrite IH. Qed.

Lemma set_value_same (l : list (K * V)) e v : (e < length l)%nat -> exists k, nth_error (set_value l e v) e = Some (k, v).
Proof. revert e. induction l as [| [k w] l IH]; intros [| e] H; cbn in *; try lia; [now exists k |]. apply IH. lia. Qed.

Lemma remove_Forall (P : K * nat -> Prop) k l : Forall P l -> Forall P (remove same k l).
Proof. intros H. induction H as [| [a e] l X H IH]; cbn; [constructor |]. destruct (same a k); [assumption | now constructor]. Qed.

(** Every key leads to an element that was made (hashmap/limitmap.go:63-65). *)
Definition sound (m : lmap) : Prop := Forall (fun x => (snd x < length (elems m))%nat) (cache m).

Lemma load_sound k e (m : lmap) : sound m -> load same k (cache m) = Some e -> (e < length (elems m))%nat.
Proof.
  unfold sound. intros H. induction H as [| [a x] l X H IH]; cbn; [discriminate |].
  destruct (same a k); [intros E; inversion E; subst; exact X | exact IH].
Qed.

Lemma room_sound (m : lmap) : sound m -> sound (make_room same capacity m) /\ elems (make_room same capacity m) = elems m.
Proof.
  intros H. unfold make_room. destruct (capacity <? _)%Z; [| now split]. destruct (rev (order m)) as [| e es]; [now split |].
  cbn. split; [| reflexivity]. unfold sound. cbn. destruct (nth_error (elems m) e) as [[k w] |]; [now apply remove_Forall | exact H].
Qed.

Lemma room_load k (m : lmap) : load same k (cache m) = None -> load same k (cache (make_room same capacity m)) = None.
Proof.
  intros L. unfold make_room. destruct (capacity <? _)%Z; [| assumption]. destruct (rev (order m)) as [| e es]; [assumption |]. cbn.
  destruct (nth_error (elems m) e) as [[k' w] |]; [| assumption].
  induction (cache m) as [| [a x] l IH]; cbn in *; [reflexivity |]. destruct (same a k) eqn:A; [discriminate |].
  destruct (same a k'); cbn; [assumption |]. rewrite A. now apply IH.
Qed.

Lemma step_sound c (m : lmap) : sound m -> sound (step m c).
Proof.
  intros H. destruct c as [k v | k]; cbn.
  - unfold NanLimit_Model.Put. destruct (load same k (cache m)) eqn:L.
    + unfold sound. cbn. now rewrite set_value_length.
    + destruct (room_sound m H) as [S E]. unfold sound in *. cbn. rewrite store_absent by now apply room_load.
      rewrite app_length. apply Forall_app. split; [eapply Forall_impl; [| exact S]; cbn; intros; lia |]. constructor; [cbn; lia | constructor].
  - unfold NanLimit_Model.Del. destruct (load same k (cache m)); [| assumption]. unfold sound. cbn. now apply remove_Forall.
Qed.

Lemma run_sound cs : sound (lrun same capacity cs).
Proof.
  unfold lrun. induction cs as [| c cs IH] using rev_ind; [constructor |]. rewrite fold_left_app. cbn. now apply step_sound.
Qed.

Lemma put_get k v (m : lmap) : sound m -> same k k = true -> Get same zero (Put m k v) k = (v, true).
Proof.
  intros S R. unfold Get, NanLimit_Model.Put. destruct (load same k (cache m)) as [e |] eqn:L; cbn [cache elems].
  - rewrite L. destruct (set_value_same (elems m) e v (load_sound _ _ _ S L)) as [k' ->]. reflexivity.
  - cbv zeta. cbn [cache elems]. rewrite store_absent by now apply room_load. rewrite load_last, R by now apply room_load.
    rewrite nth_error_app2, Nat.sub_diag by lia. reflexivity.
Qed.
End limit.
