(** Helpers for models with goroutines: sums over the list of goroutines. *)
From stdpp Require Import list.
From Coq Require Import ZArith Lia.
Local Open Scope Z_scope.

Definition sumZ {A} (f : A -> Z) (l : list A) : Z := foldr (fun x s => f x + s) 0 l.

Section sums.
Context {A : Type}.
Implicit Types (f g : A -> Z) (l : list A).
Lemma sumZ_cons f x l : sumZ f (x :: l) = f x + sumZ f l.
Proof. reflexivity. Qed.
Lemma sumZ_app f l1 l2 : sumZ f (l1 ++ l2) = sumZ f l1 + sumZ f l2.
Proof. induction l1 as [|x l1 IH]; cbn [app]; rewrite ?sumZ_cons; [reflexivity|lia]. Qed.
Lemma sumZ_insert f l i x y : l !! i = Some x -> sumZ f (<[i := y]> l) = sumZ f l - f x + f y.
Proof.
  revert i. induction l as [|z l IH]; intros [|i] Hi; try discriminate.
  - injection Hi as ->. change (<[0%nat := y]> (x :: l)) with (y :: l). rewrite !sumZ_cons. lia.
  - change (<[S i := y]> (z :: l)) with (z :: <[i := y]> l). rewrite !sumZ_cons. rewrite (IH i); [lia|exact Hi].
Qed.
Lemma sumZ_nonneg f l : (forall x, x ∈ l -> 0 <= f x) -> 0 <= sumZ f l.
Proof.
  induction l as [|x l IH]; intros Hf; [reflexivity|]. rewrite sumZ_cons.
  pose proof (Hf x ltac:(left)). specialize (IH ltac:(intros; apply Hf; right; auto)). lia.
Qed.
Lemma sumZ_le f g l : (forall x, x ∈ l -> f x <= g x) -> sumZ f l <= sumZ g l.
Proof.
  induction l as [|x l IH]; intros Hf; [reflexivity|]. rewrite !sumZ_cons.
  pose proof (Hf x ltac:(left)). specialize (IH ltac:(intros; apply Hf; right; auto)). lia.
Qed.
Lemma sumZ_ext f g l : (forall x, x ∈ l -> f x = g x) -> sumZ f l = sumZ g l.
Proof.
  induction l as [|x l IH]; intros Hf; [reflexivity|]. rewrite !sumZ_cons.
  pose proof (Hf x ltac:(left)). specialize (IH ltac:(intros; apply Hf; right; auto)). lia.
Qed.
Lemma sumZ_zero f l : (forall x, x ∈ l -> f x = 0) -> sumZ f l = 0.
Proof.
  induction l as [|x l IH]; intros Hf; [reflexivity|]. rewrite sumZ_cons.
  pose proof (Hf x ltac:(left)). specialize (IH ltac:(intros; apply Hf; right; auto)). lia.
Qed.
Lemma sumZ_lookup f l i x : (forall x, x ∈ l -> 0 <= f x) -> l !! i = Some x -> f x <= sumZ f l.
Proof.
  intros Hf Hi. pose proof (sumZ_insert f l i x x Hi) as HS.
  revert i Hi HS. induction l as [|z l IH]; intros [|i] Hi HS; try discriminate; rewrite sumZ_cons.
  - injection Hi as ->. pose proof (sumZ_nonneg f l ltac:(intros; apply Hf; right; auto)). lia.
  - pose proof (Hf z ltac:(left)). specialize (IH ltac:(intros; apply Hf; right; auto) i Hi).
    pose proof (IH (sumZ_insert f l i x x Hi)). lia.
Qed.
End sums.
Lemma sumZ_fmap {A B} (f : B -> Z) (g : A -> B) (l : list A) : sumZ f (g <$> l) = sumZ (fun x => f (g x)) l.
Proof. induction l as [|x l IH]; [reflexivity|]. rewrite fmap_cons, !sumZ_cons, IH. reflexivity. Qed.
