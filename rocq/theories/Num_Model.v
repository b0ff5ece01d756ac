(** Model of util/num.go: fixed width big-endian integer codecs. *)
From Coq Require Import ZArith List Bool.
From Verif Require Import GoInt.
Import ListNotations.
Local Open Scope Z_scope.

(** The loop body shared by util/num.go:17-19, 40-42 and 48-50:
    [bs[i] = byte(n >> (8 * (w-1-i)))] for i = 0..w-1, [w] the array length. [n] is already a
    value of the signed type, [>>] is the arithmetic shift. *)
Definition put_bytes (w : nat) (n : Z) : list Z :=
  map (fun i => u8 (Z.shiftr n (8 * Z.of_nat (w - 1 - i)))) (seq 0 w).

(** util/num.go:15-21 [Int64ToBytes]. *)
Definition Int64ToBytes (n : Z) : list Z := put_bytes 8 n.
(** util/num.go:38-44 [Int32ToBytes]. *)
Definition Int32ToBytes (n : Z) : list Z := put_bytes 4 n.
(** util/num.go:46-52 [Int16ToBytes]. *)
Definition Int16ToBytes (n : Z) : list Z := put_bytes 2 n.

(** The loop shared by util/num.go:25-27, 56-58 and 71-73:
    [_r = _r | intN(bs[i]) << (8*(w-1-i))] for i = i0..i0+k-1, N = 8*w. *)
Fixpoint or_loop (w : nat) (bs : list Z) (k i : nat) (r : Z) : Z :=
  match k with
  | O => r
  | S k' =>
      let b := wrapS (8 * Z.of_nat w) (nth i bs 0) in
      let sh := wrapS (8 * Z.of_nat w) (Z.shiftl b (8 * Z.of_nat (w - 1 - i))) in
      or_loop w bs k' (S i) (Z.lor r sh)
  end.

(** The padding loop of util/num.go:30-32, 61-63 and 76-78: [a[i+w-len(bs)] = b]. *)
Fixpoint pad_loop (w len i : nat) (bs : list Z) (a : list Z) : list Z :=
  match bs with
  | [] => a
  | b :: rest => pad_loop w len (S i) rest (upd (i + w - len) b a)
  end.

(** util/num.go:23-36 (and 54-67, 69-82): long slices use the loop, short ones are padded
    into a zeroed [w]-byte array which then takes the long branch. *)
Definition get_int (w : nat) (bs : list Z) : Z :=
  if Nat.leb w (length bs)
  then or_loop w bs w 0 0
  else or_loop w (pad_loop w (length bs) 0 bs (repeat 0 w)) w 0 0.

(** util/num.go:23-36 [BytesToInt64]. *)
Definition BytesToInt64 (bs : list Z) : Z := get_int 8 bs.
(** util/num.go:54-67 [BytesToInt32]. *)
Definition BytesToInt32 (bs : list Z) : Z := get_int 4 bs.
(** util/num.go:69-82 [BytesToInt16]. *)
Definition BytesToInt16 (bs : list Z) : Z := get_int 2 bs.

(** util/num.go:84-88 [IntArrayToBytes]; encoding/binary.Write of a []int64 with BigEndian
    emits PutUint64(uint64(x)) for each element (byte(v>>56) ... byte(v)). *)
Definition IntArrayToBytes (xs : list Z) : list Z :=
  flat_map (fun x => put_bytes 8 (u64 x)) xs.

(** encoding/binary bigEndian.Uint64 converted to int64. *)
Definition be_uint64_as_int64 (bs : list Z) : Z :=
  i64 (fold_left (fun acc i => Z.lor acc (Z.shiftl (nth i bs 0) (8 * Z.of_nat (7 - i)))) (seq 0 8) 0).

(** The element loop of encoding/binary.Read over [make([]int64, n)] (util/num.go:92-93). *)
Fixpoint read_words (n : nat) (bs : list Z) : list Z :=
  match n with
  | O => []
  | S n' => be_uint64_as_int64 (firstn 8 bs) :: read_words n' (skipn 8 bs)
  end.

(** util/num.go:90-95 [BytesToIntArray]; [len(bs)/8] elements, so the read is never short. *)
Definition BytesToIntArray (bs : list Z) : list Z := read_words (length bs / 8) bs.
