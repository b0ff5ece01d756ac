(** What the helpers of util promise, without reference to their model. *)
From stdpp Require Import list.
From Coq Require Import ZArith.
From Verif Require Import GoInt.
Local Open Scope Z_scope.

(** [s] is the text of [d] in upper case hexadecimal: two of the characters 0-9, A-F for each byte. *)
Definition digit (c : Z) : option Z :=
  if (48 <=? c) && (c <=? 57) then Some (c - 48) else if (65 <=? c) && (c <=? 70) then Some (c - 65 + 10) else None.
Inductive hex_of : list Z -> list Z -> Prop :=
| hex_nil : hex_of [] []
| hex_byte hi lo h l d s : digit hi = Some h -> digit lo = Some l -> hex_of d s -> hex_of (16 * h + l :: d) (hi :: lo :: s).

(** A directory tree as os.Stat sees it: there, not there, or there but below a directory one may not search. *)
Inductive presence := Present | Absent | Hidden.
