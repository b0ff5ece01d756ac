(** What strings and slices show, and which programs leave strings alone. *)
From Coq Require Import ZArith List Bool Arith.
From Verif Require Import Fast_Model.
Import ListNotations.

(** The text of string number [k] and the bytes of slice number [k]. *)
Definition text (st : state) (k : nat) : option (list Z) := option_map (fun s => bytes_at (mem st) (sptr s) (slen s)) (nth_error (strings st) k).
Definition content (st : state) (k : nat) : option (list Z) := option_map (fun v => bytes_at (mem st) (vptr v) (vlen v)) (nth_error (slices st) k).
(** No assignment to an element, no slice made shorter at its end. *)
Definition careful (o : op) : Prop := match o with Put _ _ _ | Reslice _ _ _ => False | _ => True end.
(** Strings do not change: what string [k] is after a part of the program it is at the end. *)
Definition unchanged (st st' : state) : Prop := forall k t, text st k = Some t -> text st' k = Some t.
