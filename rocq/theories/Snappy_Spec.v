(** Snappy's block format, from its format description (format_description.txt of google/snappy); nothing of the model is used. *)
From stdpp Require Import list.
From Coq Require Import ZArith.
Local Open Scope Z_scope.

(** An element: bytes to add, or [len] bytes to copy from [off] bytes back (they may overlap). *)
Inductive elem := Lit (bs : list Z) | Copy (off len : nat).
(** One byte copied from [off] bytes back. *)
Definition copy_byte (off : nat) (out : list Z) : list Z := out ++ [nth (length out - off) out 0].
(** What an element does to the output. *)
Definition exec (out : list Z) (e : elem) : list Z :=
  match e with Lit bs => out ++ bs | Copy off len => Nat.iter len (copy_byte off) out end.
(** An element that makes sense after this output. *)
Definition valid (out : list Z) (e : elem) : Prop := match e with Lit bs => bs <> [] | Copy off _ => (1 <= off <= length out)%nat end.
(** [k] little-endian bytes. *)
Fixpoint le_bytes (k : nat) (n : Z) : list Z := match k with O => [] | S k => n mod 256 :: le_bytes k (n / 256) end.
(** The bytes of an element: the low two bits of the first tell the kind. *)
Inductive wire : elem -> list Z -> Prop :=
| w_lit_short bs n : Z.of_nat (length bs) = n + 1 -> 0 <= n < 60 -> wire (Lit bs) (4 * n :: bs)
| w_lit_long k bs n : Z.of_nat (length bs) = n + 1 -> (1 <= k <= 4)%nat -> 0 <= n < 256 ^ Z.of_nat k -> wire (Lit bs) (4 * (59 + Z.of_nat k) :: le_bytes k n ++ bs)
| w_copy1 off len o l : Z.of_nat off = o -> Z.of_nat len = l + 4 -> 0 <= l < 8 -> 0 <= o < 2048 -> wire (Copy off len) [1 + 4 * l + 32 * (o / 256); o mod 256]
| w_copy2 off len o l : Z.of_nat off = o -> Z.of_nat len = l + 1 -> 0 <= l < 64 -> 0 <= o < 256 ^ 2 -> wire (Copy off len) (2 + 4 * l :: le_bytes 2 o)
| w_copy4 off len o l : Z.of_nat off = o -> Z.of_nat len = l + 1 -> 0 <= l < 64 -> 0 <= o < 256 ^ 4 -> wire (Copy off len) (3 + 4 * l :: le_bytes 4 o).
(** [stream out w res]: the elements written in [w] turn [out] to [res]. *)
Inductive stream : list Z -> list Z -> list Z -> Prop :=
| s_end out : stream out [] out
| s_elem out e w ws res : valid out e -> wire e w -> stream (exec out e) ws res -> stream out (w ++ ws) res.
(** A number in groups of seven bits, the lowest first; the last byte is below 128. *)
Inductive uvarint : Z -> list Z -> Prop :=
| uv_last b : 0 <= b < 128 -> uvarint b [b]
| uv_more b n w : 0 <= b < 128 -> uvarint n w -> uvarint (b + 128 * n) (128 + b :: w).
(** [w] is snappy for [out]: the length (below 2^32, in at most ten bytes) and elements that yield [out]. *)
Definition snappy (w out : list Z) : Prop :=
  exists h body, w = h ++ body /\ uvarint (Z.of_nat (length out)) h /\ (length h <= 10)%nat /\ Z.of_nat (length out) < 2 ^ 32 /\ stream [] body out.
