(** Model of uuid/uuid.go. A UUID is the list of its 16 bytes, a string the list of its bytes. *)
From Coq Require Import ZArith List Bool.
From Verif Require Import GoInt Num_Model Base58_Model.
Import ListNotations.
Local Open Scope Z_scope.

(** uuid/uuid.go:171-175 [int64ToBytes] filling an 8-byte window; same loop as util/num.go:17-19. *)
Definition int64ToBytes (n : Z) : list Z := put_bytes 8 n.

(** uuid/uuid.go:177-190 [bytesToInt64]; same code as util/num.go:23-36. *)
Definition bytesToInt64 (bs : list Z) : Z := get_int 8 bs.

(** uuid/uuid.go:32-40 [NewUUID], as a function of the two results of [base.uniq()]:
    [h64] is whatever the hash returned, [seq] the int64 sequence value. *)
Definition NewUUID (h64 seq : Z) : list Z :=
  let u := int64ToBytes (i64 h64) ++ int64ToBytes seq in
  let u := upd 6 (Z.lor (Z.land (nth 6 u 0) 15) 64) u in
  upd 8 (Z.lor (Z.land (nth 8 u 0) 63) 128) u.

(** encoding/hex hextable[n] for a nibble. *)
Definition hexdigit (n : Z) : Z := if n <? 10 then 48 + n else 87 + n.

(** encoding/hex.Encode: two characters per byte. *)
Definition hex_encode (bs : list Z) : list Z :=
  flat_map (fun b => [hexdigit (Z.shiftr b 4); hexdigit (Z.land b 15)]) bs.

(** Copy [src] into [dst] starting at [off] (slice writes of hex.Encode). *)
Fixpoint write_at (off : nat) (src dst : list Z) : list Z :=
  match src with
  | [] => dst
  | b :: rest => write_at (S off) rest (upd off b dst)
  end.

(** Go slice expression [u[lo:hi]]. *)
Definition slice (lo hi : nat) (u : list Z) : list Z := firstn (hi - lo) (skipn lo u).

(** uuid/uuid.go:42-54 [String]. *)
Definition String_ (u : list Z) : list Z :=
  let dst := repeat 0 36 in
  let dst := write_at 0 (hex_encode (slice 0 4 u)) dst in
  let dst := upd 8 45 dst in
  let dst := write_at 9 (hex_encode (slice 4 6 u)) dst in
  let dst := upd 13 45 dst in
  let dst := write_at 14 (hex_encode (slice 6 8 u)) dst in
  let dst := upd 18 45 dst in
  let dst := write_at 19 (hex_encode (slice 8 10 u)) dst in
  let dst := upd 23 45 dst in
  write_at 24 (hex_encode (slice 10 16 u)) dst.

(** uuid/uuid.go:56-58 [Int64]. *)
Definition Int64_ (u : list Z) : Z := bytesToInt64 (slice 0 8 u).

(** uuid/uuid.go:69-71 [Version]. *)
Definition Version (u : list Z) : Z := Z.shiftr (nth 6 u 0) 4.

(** uuid/uuid.go:73-75 [Base58]. *)
Definition Base58_ (u : list Z) : list Z := EncodeForInt64 (u64 (Int64_ u)).

(** uuid/uuid.go:77-82 [Equals]: pointer comparison; pointers are numbers, [None] is nil. The
    contents behind the pointers are not read. *)
Definition Equals (u : nat) (other : option nat) : bool :=
  match other with None => false | Some o => Nat.eqb u o end.

(** uuid/uuid.go:84-93 [Variant]. *)
Definition Variant (u : list Z) : Z :=
  let v := Z.land (nth 8 u 0) 224 in
  if v =? 128 then 1 else if v =? 192 then 2 else 0.

(** encoding/hex fromHexChar: [None] for a character that is not a hex digit. *)
Definition unhex (c : Z) : option Z :=
  if (48 <=? c) && (c <=? 57) then Some (c - 48)
  else if (97 <=? c) && (c <=? 102) then Some (c - 97 + 10)
  else if (65 <=? c) && (c <=? 70) then Some (c - 65 + 10)
  else None.

(** encoding/hex.Decode on an even-length source; [None] is the error. *)
Fixpoint hex_decode (s : list Z) : option (list Z) :=
  match s with
  | a :: b :: rest =>
      match unhex a, unhex b with
      | Some x, Some y =>
          match hex_decode rest with
          | Some r => Some (Z.lor (Z.shiftl x 4) y :: r)
          | None => None
          end
      | _, _ => None
      end
  | _ => Some []
  end.

(** uuid/uuid.go:95-105 [Parse]; [None] is a non-nil error. *)
Definition Parse (s : list Z) : option (list Z) :=
  if negb (Nat.eqb (length s) 36) then None
  else hex_decode (slice 0 8 s ++ slice 9 13 s ++ slice 14 18 s ++ slice 19 23 s ++ slice 24 36 s).

(** ** Concurrent generation (uuid/uuid.go:32-40, 144-156)

    [atomic.AddUint64(&b.seq, 1)] is one step; everything after it only reads the thread's own
    [seq] and the hash, whose value is an arbitrary oracle [h] of the finishing step (so the racy
    [scale] and the hash seed need no model). *)
Record gen := mkGen {
  ctr : Z;                      (** b.seq *)
  pend : list (nat * Z);        (** goroutines between getSeq and return, with their seq *)
  out : list (list Z)           (** UUIDs returned so far, latest first *)
}.

(** [EAdd t]: goroutine t executes the atomic add. [EFin t h]: goroutine t returns, the hash was h. *)
Inductive gen_event := EAdd (t : nat) | EFin (t : nat) (h : Z).

(** Local lookup of the goroutine's seq (local variable of uuid/uuid.go:34). *)
Fixpoint find_pend (t : nat) (l : list (nat * Z)) : option Z :=
  match l with
  | [] => None
  | (t', s) :: r => if Nat.eqb t t' then Some s else find_pend t r
  end.
Definition drop_pend (t : nat) (l : list (nat * Z)) : list (nat * Z) :=
  filter (fun p => negb (Nat.eqb t (fst p))) l.

(** One step of uuid/uuid.go:32-40 / 150-156 by one goroutine. *)
Definition gen_step (g : gen) (e : gen_event) : gen :=
  match e with
  | EAdd t =>
      match find_pend t (pend g) with
      | Some _ => g
      | None => let s := u64 (ctr g + 1) in mkGen s ((t, i64 s) :: pend g) (out g)
      end
  | EFin t h =>
      match find_pend t (pend g) with
      | Some s => mkGen (ctr g) (drop_pend t (pend g)) (NewUUID h s :: out g)
      | None => g
      end
  end.

(** Any interleaving, from the start value chosen in newBase (uuid/uuid.go:126). *)
Definition gen_run (start : Z) (es : list gen_event) : gen :=
  fold_left gen_step es (mkGen start [] []).
