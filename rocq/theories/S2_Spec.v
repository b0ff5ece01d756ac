(** The S2 block format without dictionaries, from its description (README of klauspost/compress/s2): snappy, where an offset of 0 in the short form of a copy
    stands for the offset of the copy before, with longer lengths; nothing of the model is used. *)
From stdpp Require Import list.
From Coq Require Import ZArith.
From Verif Require Import Snappy_Spec.
Local Open Scope Z_scope.

(** The bytes of a copy of [len] bytes from the last offset. *)
Inductive wire_repeat : nat -> list Z -> Prop :=
| wr_short len l : Z.of_nat len = l + 4 -> 0 <= l < 5 -> wire_repeat len [1 + 4 * l; 0]
| wr_1 len n : Z.of_nat len = n + 8 -> 0 <= n < 256 -> wire_repeat len ([1 + 4 * 5; 0] ++ le_bytes 1 n)
| wr_2 len n : Z.of_nat len = n + 260 -> 0 <= n < 256 ^ 2 -> wire_repeat len ([1 + 4 * 6; 0] ++ le_bytes 2 n)
| wr_3 len n : Z.of_nat len = n + 65540 -> 0 <= n < 256 ^ 3 -> wire_repeat len ([1 + 4 * 7; 0] ++ le_bytes 3 n).
(** The last offset after an element. *)
Definition last_off (last : nat) (e : elem) : nat := match e with Lit _ => last | Copy off _ => off end.
(** [stream2 last out w res]: the elements written in [w] turn [out] to [res]. *)
Inductive stream2 : nat -> list Z -> list Z -> list Z -> Prop :=
| s2_end last out : stream2 last out [] out
| s2_elem last out e w ws res : valid out e -> wire e w -> stream2 (last_off last e) (exec out e) ws res -> stream2 last out (w ++ ws) res
| s2_rep last out len w ws res : valid out (Copy last len) -> wire_repeat len w -> stream2 last (exec out (Copy last len)) ws res -> stream2 last out (w ++ ws) res.
(** [w] is S2 for [out]. *)
Definition s2 (w out : list Z) : Prop :=
  exists h body, w = h ++ body /\ uvarint (Z.of_nat (length out)) h /\ (length h <= 10)%nat /\ Z.of_nat (length out) < 2 ^ 32 /\ stream2 0 [] body out.
