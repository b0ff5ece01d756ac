(** A finite map by its history, and what it is to traverse it in order. *)
From stdpp Require Import prelude.
From Verif Require Import TreeMap_Model.

(** [lt] is a strict total order (true of every Go integer and string type; of floats without NaN). *)
Record strict_total {K} (lt : K -> K -> bool) : Prop := {
  st_irrefl : forall a, lt a a = false;
  st_trans : forall a b c, lt a b = true -> lt b c = true -> lt a c = true;
  st_total : forall a b, lt a b = false -> lt b a = false -> a = b
}.

Section spec.
Context {K V : Type} `{EqDecision K}.

(** The value of [k] after a history. *)
Fixpoint value_after (k : K) (os : list (top K V)) (now : option V) : option V :=
  match os with
  | [] => now
  | TPut k' v :: r => value_after k r (if decide (k' = k) then Some v else now)
  | TDel k' :: r => value_after k r (if decide (k' = k) then None else now)
  | TGet _ :: r => value_after k r now
  end.

(** The answer of a call after a history. *)
Definition tree_answer (os : list (top K V)) (o : top K V) : tres V :=
  match o with
  | TPut k _ | TGet k => TVal (value_after k os None)
  | TDel _ => TUnit
  end.

(** [vs] is the traversal in the order [before] of the map [m], cut after the first entry refused by [f]:
    its keys are strictly ordered, its entries are entries of the map, nothing follows a refused entry,
    and every entry of the map that is missing comes after a refused one. *)
Record traversal (before : K -> K -> bool) (m : K -> option V) (f : K -> V -> bool) (vs : list (K * V)) : Prop := {
  tr_sorted : forall p1 a p2 b p3, vs = p1 ++ a :: p2 ++ b :: p3 -> before a.1 b.1 = true;
  tr_sound : forall k v, (k, v) ∈ vs -> m k = Some v;
  tr_stop : forall pre k v post, vs = pre ++ (k, v) :: post -> f k v = false -> post = [];
  tr_all : forall k v, m k = Some v -> (k, v) ∈ vs \/
             exists k' v', last vs = Some (k', v') /\ f k' v' = false /\ before k' k = true
}.
End spec.
