(** What a file held, and when. *)
From Coq Require Import ZArith List Bool.
From Verif Require Import ReadFile_Model.
Import ListNotations.
Local Open Scope Z_scope.

(** What the others do: byte k of the file after a write and after a cut, [None] behind its end. *)
Definition at_byte (c : list Z) (k : nat) : option Z := nth_error c k.
Definition written (c : list Z) (off : nat) (bs : list Z) (c' : list Z) : Prop :=
  (bs = [] -> c' = c) /\
  (bs <> [] -> length c' = Nat.max (length c) (off + length bs) /\
  forall k, (k < length c')%nat -> at_byte c' k = if (off <=? k)%nat && (k <? off + length bs)%nat then nth_error bs (k - off) else match at_byte c k with Some b => Some b | None => Some 0 end).
Definition cut (c : list Z) (n : nat) (c' : list Z) : Prop :=
  length c' = n /\ forall k, (k < n)%nat -> at_byte c' k = match at_byte c k with Some b => Some b | None => Some 0 end.
(** [held c es h]: beginning with [c], the file held the contents [h], one after the other, while [es] happened. *)
Inductive held : list Z -> list event -> list (list Z) -> Prop :=
| held_nil c : held c [] [c]
| held_write c off bs es c' h : written c off bs c' -> held c' es h -> held c (Write off bs :: es) (c :: h)
| held_cut c n es c' h : cut c n c' -> held c' es h -> held c (Truncate n :: es) (c :: h)
| held_copy c k es h : held c es h -> held c (Copy k :: es) (c :: h).
(** Nobody writes or cuts. *)
Definition quiet (es : list event) : Prop := Forall (fun e => exists k, e = Copy k) es.
