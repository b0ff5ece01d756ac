(** Linearizability (Herlihy and Wing 1990) of a history of calls and returns. *)
From stdpp Require Import list.
From Verif Require Import Lin_Model.

Section spec.
Context {St Op Res : Type}.
(** One operation after the other: results and final state. *)
Fixpoint in_turn (step : St -> Op -> Res * St) (s : St) (os : list Op) : list Res * St :=
  match os with
  | [] => ([], s)
  | o :: r => let '(x, s1) := step s o in let '(xs, s2) := in_turn step s1 r in (x :: xs, s2)
  end.
(** In [h] the call [j] comes after the return of [i]. *)
Definition returned_before (h : list (event Op Res)) (i j : id) : Prop :=
  exists m n r o, (m < n)%nat /\ h !! m = Some (Return i r) /\ h !! n = Some (Call j o).
(** Operations with their results in some order. *)
Definition order : Type := list (id * Op * Res).
Definition before (l : order) (i j : id) : Prop := exists m n, (m < n)%nat /\ (fst ∘ fst <$> l) !! m = Some i /\ (fst ∘ fst <$> l) !! n = Some j.
(** The calls of [h] can be put in an order (calls that did not return may be left out or be given a result) such that made in this order, one after
    the other, they give the results they gave; and a call made after another returned comes after it. *)
Definition linearizable (step : St -> Op -> Res * St) (s0 : St) (h : list (event Op Res)) : Prop := exists l : order,
  NoDup (fst ∘ fst <$> l) /\
  fst (in_turn step s0 (snd ∘ fst <$> l)) = (snd <$> l) /\
  (forall i o r, (i, o, r) ∈ l -> Call i o ∈ h) /\
  (forall i r, Return i r ∈ h -> exists o, (i, o, r) ∈ l) /\
  (forall i j o r, returned_before h i j -> (j, o, r) ∈ l -> before l i j).
End spec.
(** All goroutines have made all their calls. *)
Definition all_returned {St Op Res} (g : cfg St Op Res) : Prop := forall t th, threads g !! t = Some th -> todo th = [] /\ at_ th = Idle.
(** A call of [o] is still to be made, or was made and has not returned. *)
Definition pending {St Op Res} (g : cfg St Op Res) (o : Op) : Prop := exists t th, threads g !! t = Some th /\
  (o ∈ todo th \/ match at_ th with Idle => False | At o' _ | In o' _ _ _ => o' = o end).
