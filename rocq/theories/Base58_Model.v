(** Model of base58/base58.go. *)
From Coq Require Import ZArith List Bool.
From Verif Require Import GoInt.
Import ListNotations.
Local Open Scope Z_scope.

(** base58/base58.go:13 [b58Alphabet], the ASCII codes of the literal
    "123456789ABCDEFGHJKLMNPQRSTUVWXYZabcdefghijkmnopqrstuvwxyz". *)
Definition b58Alphabet : list Z :=
  [49; 50; 51; 52; 53; 54; 55; 56; 57;
   65; 66; 67; 68; 69; 70; 71; 72; 74; 75; 76; 77; 78; 80; 81; 82; 83; 84; 85; 86; 87; 88; 89; 90;
   97; 98; 99; 100; 101; 102; 103; 104; 105; 106; 107; 109; 110; 111; 112; 113; 114; 115; 116; 117;
   118; 119; 120; 121; 122].

(** base58/base58.go:17-21, the [for v > 0] loop appending the digit characters to [_r].
    [fuel] makes the recursion structural; [EncodeForInt64] supplies more than enough
    ([Base58_Proofs.encode_loop_fuel]). *)
Fixpoint encode_loop (fuel : nat) (v : Z) (r : list Z) : list Z :=
  match fuel with
  | O => r
  | S f =>
      if 0 <? v then
        let m := v mod 58 in
        encode_loop f (v / 58) (r ++ [nth (Z.to_nat m) b58Alphabet 0])
      else r
  end.

(** base58/base58.go:25-30, the in-place swap loop from index [i], [n] iterations. *)
Fixpoint reverse_loop (n i : nat) (bs : list Z) : list Z :=
  match n with
  | O => bs
  | S n' =>
      let j := (length bs - 1 - i)%nat in
      let a := nth j bs 0 in
      let b := nth i bs 0 in
      reverse_loop n' (S i) (upd j b (upd i a bs))
  end.

(** base58/base58.go:25-30 [reverseBytes]. *)
Definition reverseBytes (bs : list Z) : list Z :=
  reverse_loop (length bs / 2) 0 bs.

(** base58/base58.go:16-23 [EncodeForInt64] (a nil slice and an empty slice are both []). *)
Definition EncodeForInt64 (v : Z) : list Z :=
  reverseBytes (encode_loop (S (Z.to_nat (Z.log2 v))) v []).

(** bytes.IndexByte as used at base58/base58.go:36: first position or -1. *)
Fixpoint index_byte (l : list Z) (b : Z) (i : Z) : Z :=
  match l with
  | [] => -1
  | x :: r => if x =? b then i else index_byte r b (i + 1)
  end.

(** base58/base58.go:35-42, the range loop; [None] is the early [return 0, false]. *)
Fixpoint decode_loop (bs : list Z) (r : Z) : option Z :=
  match bs with
  | [] => Some r
  | b :: rest =>
      let idx := index_byte b58Alphabet b 0 in
      if 0 <=? idx then decode_loop rest (u64 (u64 (r * 58) + u64 idx)) else None
  end.

(** base58/base58.go:33-45 [DecodeForInt64]; the deferred recover never triggers. *)
Definition DecodeForInt64 (bs : list Z) : Z * bool :=
  match decode_loop bs 0 with
  | Some r => (r, true)
  | None => (0, false)
  end.
