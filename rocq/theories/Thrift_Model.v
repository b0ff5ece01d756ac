(** The part of Thrift's compact protocol that keystore/store.go uses, as published (Apache Thrift, compact protocol
    specification and lib/go/thrift/compact_protocol.go); the library itself is not part of /repo.

    A reader is a function from the bytes left to a result and the bytes left.  Simplification: a failed read says nothing but that
    it failed; TDecode's caller (keystore/keystore.go:33-36) looks at no more than that. *)
From stdpp Require Import list.
From Coq Require Import ZArith Lia.
From Verif Require Import GoInt.
Local Open Scope Z_scope.

(** The outcome of a read (util/gob.go:54-59): a value and the bytes left, or an error.  [RFuel] is the artefact of a loop that was given too few
    rounds; it is proved not to occur. *)
Inductive rres (A : Type) := ROk (a : A) (rest : list Z) | RErr | RFuel.
Arguments ROk {A} a rest. Arguments RErr {A}. Arguments RFuel {A}.
(** A reader on a thrift.TMemoryBuffer (util/gob.go:55). *)
Definition reader (A : Type) := list Z -> rres A.
(** Go's "if err != nil return err" after each read (keystore/store.go:64-66 and throughout). *)
Definition bind {A B} (p : reader A) (f : A -> reader B) : reader B :=
  fun bs => match p bs with ROk a r => f a r | RErr => RErr | RFuel => RFuel end.
(** Return without reading (keystore/store.go:123). *)
Definition ret {A} (a : A) : reader A := fun bs => ROk a bs.
(** Return an error (keystore/store.go:115). *)
Definition fail {A} : reader A := fun _ => RErr.
Notation "'do' x <- p ; q" := (bind p (fun x => q)) (at level 100, x binder, p at level 99, q at level 200).

(** A "for" loop that ends by itself (keystore/store.go:62-110): [body] either goes on with a new state or ends it.  The number of
    rounds is bounded by the bytes there are, as each round reads at least one. *)
Fixpoint iter {S R} (fuel : nat) (body : S -> reader (S + R)) (s : S) : reader R :=
  fun bs => match fuel with
  | O => RFuel
  | Datatypes.S fuel =>
      match body s bs with
      | ROk (inl s') r => iter fuel body s' r
      | ROk (inr x) r => ROk x r
      | RErr => RErr
      | RFuel => RFuel
      end
  end.
(** See [iter] (keystore/store.go:62-110). *)
Definition loop {S R} (body : S -> reader (S + R)) (s : S) : reader R := fun bs => iter (Datatypes.S (length bs)) body s bs.
(** "for i := 0; i < size; i++" (keystore/store.go:348-361). *)
Fixpoint times {A} (n : nat) (body : A -> reader A) (a : A) : reader A :=
  match n with O => ret a | S n => do a' <- body a; times n body a' end.

(** readByteDirect. (compact_protocol.go; keystore/store.go:145 ReadByte) *)
Definition readByteDirect : reader Z := fun bs => match bs with [] => RErr | b :: r => ROk b r end.
(** readVarint64 (compact_protocol.go; keystore/store.go:127,342): seven bits a byte, low ones first, while the top bit is set; the value as its
    64 bits. *)
Fixpoint readVarint (shift acc : Z) (bs : list Z) : rres Z :=
  match bs with
  | [] => RErr
  | b :: r =>
      let acc := Z.lor acc (u64 (Z.shiftl (Z.land b 127) shift)) in
      if Z.land b 128 =? 128 then readVarint (shift + 7) acc r else ROk acc r
  end.
(** readVarint32 (compact_protocol.go; keystore/store.go:127,342): int32 of readVarint64. *)
Definition readVarint32 : reader Z := do v <- readVarint 0 0; ret (i32 v).
(** checkSizeForProtocol with the default MaxMessageSize of a thrift.TConfiguration (util/gob.go:43). *)
Definition MaxMessageSize : Z := 104857600.
(** See [MaxMessageSize] (util/gob.go:43). *)
Definition size_ok (n : Z) : bool := (0 <=? n) && (n <=? MaxMessageSize).
(** Reading exactly [n] bytes (io.ReadFull; keystore/store.go:127). *)
Definition readFull (n : Z) : reader (list Z) :=
  fun bs => if (length bs <? Z.to_nat n)%nat then RErr else ROk (firstn (Z.to_nat n) bs) (skipn (Z.to_nat n) bs).
(** ReadString (compact_protocol.go; keystore/store.go:127,136,350). *)
Definition ReadString : reader (list Z) := do n <- readVarint32; if size_ok n then readFull n else fail.
(** ReadByte (compact_protocol.go; keystore/store.go:145). *)
Definition ReadByte : reader Z := do b <- readByteDirect; ret (i8 b).
(** zigzagToInt32 (compact_protocol.go; keystore/store.go:63). *)
Definition zigzagToInt32 (n : Z) : Z := i32 (Z.lxor (Z.shiftr (u32 n) 1) (- (Z.land n 1))).
(** ReadI16 (compact_protocol.go; keystore/store.go:63). *)
Definition ReadI16 : reader Z := do n <- readVarint32; ret (i16 (zigzagToInt32 n)).

(** The types of fields (thrift.TType; keystore/store.go:70,81,92). *)
Inductive ttype := STOP | BOOL | BYTE | I16 | I32 | I64 | DOUBLE | STRING | LIST | SET | MAP | STRUCT.
(** getTType: the four type bits (compact_protocol.go; keystore/store.go:63).  The type 13 (UUID) of newer versions is left out: an error. *)
Definition getTType (t : Z) : option ttype :=
  match t with
  | 0 => Some STOP | 1 => Some BOOL | 2 => Some BOOL | 3 => Some BYTE | 4 => Some I16 | 5 => Some I32 | 6 => Some I64 | 7 => Some DOUBLE
  | 8 => Some STRING | 9 => Some LIST | 10 => Some SET | 11 => Some MAP | 12 => Some STRUCT | _ => None
  end.
(** ReadFieldBegin (compact_protocol.go; keystore/store.go:63,280): the type and the id of the next field, given the id of the last one. *)
Definition ReadFieldBegin (last : Z) : reader (ttype * Z) :=
  do t <- readByteDirect;
  if Z.land t 15 =? 0 then ret (STOP, 0)
  else
    do id <- (if Z.shiftr (Z.land t 240) 4 =? 0 then ReadI16 else ret (i16 (last + Z.shiftr (Z.land t 240) 4)));
    match getTType (Z.land t 15) with Some ty => ret (ty, id) | None => fail end.
(** ReadMapBegin (compact_protocol.go; keystore/store.go:342): the size, and the two types (the error of getTType is dropped there). *)
Definition ReadMapBegin : reader (ttype * ttype * Z) :=
  do n <- readVarint32;
  if size_ok n then
    do kv <- (if n =? 0 then ret 0 else readByteDirect);
    ret (match getTType (Z.shiftr kv 4) with Some t => t | None => STOP end,
         match getTType (Z.land kv 15) with Some t => t | None => STOP end, n)
  else fail.
(** ReadListBegin, ReadSetBegin (compact_protocol.go; keystore/store.go:327 Skip). *)
Definition ReadListBegin : reader (ttype * Z) :=
  do st <- readByteDirect;
  do n <- (if Z.land (Z.shiftr st 4) 15 =? 15 then do n <- readVarint32; (if size_ok n then ret n else fail) else ret (Z.land (Z.shiftr st 4) 15));
  match getTType (Z.land st 15) with Some t => ret (t, n) | None => fail end.

(** Skip (protocol.go; keystore/store.go:76,103,327): reads a value and forgets it, at most [depth] levels deep.  [field]: called for the value of a
    field, where a bool takes no bytes (ReadBool). *)
Fixpoint Skip (depth : nat) (field : bool) (t : ttype) : reader unit :=
  match depth with
  | O => fail
  | S depth =>
      match t with
      | STOP => fail
      | BOOL => if field then ret tt else do _ <- readByteDirect; ret tt
      | BYTE => do _ <- readByteDirect; ret tt
      | I16 | I32 | I64 => do _ <- readVarint 0 0; ret tt
      | DOUBLE => do _ <- readFull 8; ret tt
      | STRING => do _ <- ReadString; ret tt
      | STRUCT =>
          loop (fun last => bind (ReadFieldBegin last) (fun '(ty, id) =>
                            match ty with STOP => ret (inr tt) | _ => do _ <- Skip depth true ty; ret (inl id) end)) 0
      | MAP =>
          bind ReadMapBegin (fun '(kt, vt, n) => times (Z.to_nat n) (fun _ => do _ <- Skip depth false kt; Skip depth false vt) tt)
      | SET | LIST =>
          bind ReadListBegin (fun '(et, n) => times (Z.to_nat n) (fun _ => Skip depth false et) tt)
      end
  end.
(** SkipDefaultDepth: 64 levels (protocol.go; keystore/store.go:76). *)
Definition SkipDefault (t : ttype) : reader unit := Skip 64 true t.

(** writeVarint32 (compact_protocol.go; keystore/store.go:172,467): [n] as uint32, five bytes at most. *)
Fixpoint putVarint (fuel : nat) (n : Z) : list Z :=
  match fuel with
  | O => []
  | S fuel => if Z.land n (Z.lnot 127) =? 0 then [n] else Z.lor (Z.land n 127) 128 :: putVarint fuel (Z.shiftr n 7)
  end.
(** See [putVarint] (keystore/store.go:172,467). *)
Definition WriteVarint32 (n : Z) : list Z := putVarint 5 (u32 n).
(** WriteString (compact_protocol.go; keystore/store.go:172): the length is converted to int32. *)
Definition WriteString (s : list Z) : list Z := WriteVarint32 (Z.of_nat (length s)) ++ s.
(** int32ToZigzag (compact_protocol.go; keystore/store.go:170). *)
Definition int32ToZigzag (n : Z) : Z := i32 (Z.lxor (Z.shiftl n 1) (Z.shiftr n 31)).
(** WriteFieldBegin (compact_protocol.go; keystore/store.go:170,465): type and id of a field, the id relative to the last one if that fits. *)
Definition WriteFieldBegin (last id t : Z) : list Z :=
  if (last <? id) && (id - last <=? 15) then [Z.lor (Z.shiftl (id - last) 4) t] else t :: WriteVarint32 (int32ToZigzag id).
(** WriteMapBegin (compact_protocol.go; keystore/store.go:467). *)
Definition WriteMapBegin (kt vt : Z) (n : nat) : list Z :=
  if (n =? 0)%nat then [0] else WriteVarint32 (Z.of_nat n) ++ [Z.lor (Z.shiftl kt 4) vt].
(** The wire types of keystore/store.go (compact_protocol.go; keystore/store.go:190). *)
Definition C_BYTE : Z := 3.
(** See [C_BYTE] (keystore/store.go:170). *)
Definition C_BINARY : Z := 8.
(** See [C_BYTE] (keystore/store.go:465). *)
Definition C_MAP : Z := 11.
(** See [C_BYTE] (keystore/store.go:467). *)
Definition C_STRUCT : Z := 12.
(** WriteFieldStop (compact_protocol.go; keystore/store.go:162). *)
Definition WriteFieldStop : list Z := [0].
