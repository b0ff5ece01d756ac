(** Model of hashmap/limithashmap.go (the body of each method, executed under the segment's lock).
    [V] is the Go type parameter; [is_nil v] says that [any(v)] is the nil interface, which is possible
    only when V is an interface type. Len is an unbounded integer (Go int). *)
From stdpp Require Import gmap.
From Coq Require Import ZArith.
From Verif Require Import GoInt GoList_Model.
Local Open Scope Z_scope.

(** Key types accepted by hashmap/limithashmap.go:26, without float32 (hashed through float64). *)
Inductive ktype := TUint64 | TUint32 | TUint16 | TInt64 | TInt32 | TInt16 | TInt | TUint | TFloat64
  | TInt8 | TUint8 | TUintptr | TString.

(** The 64-bit FNV-1a hash of the standard library hash/fnv, called at hashmap/limithashmap.go:125-127. *)
Definition fnv64a (bs : list Z) : Z :=
  fold_left (fun h b => u64 (Z.lxor h b * 1099511628211)) bs 14695981039346656037.

(** A key: an integer, the bit pattern of a float64, or the bytes of a string
    (hashmap/limithashmap.go:26, type parameter K). *)
Inductive key := KNum (n : Z) | KStr (bs : list Z).

(** hashmap/limithashmap.go:69-131, the selected hashFunc. Conversions of signed integers to uint64
    sign-extend, i.e. reduce modulo 2^64. math.Float64bits is the identity on bit patterns. *)
Definition hashFunc (ty : ktype) (k : key) : Z :=
  match k with
  | KStr bs => fnv64a bs
  | KNum n =>
      match ty with
      | TUint64 | TFloat64 | TUint | TUintptr => n
      | TUint32 | TUint16 | TUint8 => n
      | TInt64 | TInt32 | TInt16 | TInt8 | TInt => u64 n
      | TString => 0
      end
  end.

Section limithash.
Context {K V : Type} (hash : K -> Z) (is_nil : V -> bool).

(** hashmap/limithashmap.go:19-23 and 33-37; an entry is (hashedKey, (key, value)). *)
Record segment := Seg { cache : gmap Z nat; order : dlist (Z * (K * V)) }.

(** hashmap/limithashmap.go:26-31 (hashFunc is the section variable [hash]). *)
Record lhmap := LHMap { capacity : Z; segments : list segment; segmentNumber : Z }.

(** hashmap/limithashmap.go:63-66, a new segment. *)
Definition new_segment : segment := Seg ∅ list_New.

(** hashmap/limithashmap.go:51-139 [NewLimitHashMapWithSegment]; [None] is a panic: make with a negative
    length (61) or division by zero (134). *)
Definition NewLimitHashMapWithSegment (cap segs : Z) : option lhmap :=
  if segs <=? 0 then None
  else Some (LHMap (Z.quot cap segs) (replicate (Z.to_nat segs) new_segment) segs).

(** hashmap/limithashmap.go:39-49 and 17 [NewLimitHashMap], numSegments = 64. *)
Definition NewLimitHashMap (cap : Z) : option lhmap := NewLimitHashMapWithSegment cap 64.

(** hashmap/limithashmap.go:141-144 [getSegment], as an index into [segments]. *)
Definition getSegment (c : lhmap) (k : K) : nat := Z.to_nat (hash k mod segmentNumber c).

(** Outcome of a call of hashmap/limithashmap.go:146-224: [None] inside is b = false. *)
Inductive hres := HVal (r : option V) | HBool (b : bool) | HNum (n : Z) | HUnit | HPanic.

(** hashmap/limithashmap.go:146-158 [Get], on the selected segment. *)
Definition seg_get (h : Z) (s : segment) : hres :=
  match cache s !! h with
  | Some ele =>
      match vals (order s) !! ele with
      | Some (_, (_, v)) => if is_nil v then HVal None else HVal (Some v)
      | None => HPanic
      end
  | None => HVal None
  end.

(** hashmap/limithashmap.go:160-183 [Put], on the selected segment. The type assertion of line 167 on a nil
    interface panics before anything is changed. *)
Definition seg_put (cap : Z) (h : Z) (k : K) (v : V) (s : segment) : hres * segment :=
  match cache s !! h with
  | Some ele =>
      match vals (order s) !! ele with
      | Some (h0, (k0, prev)) =>
          if is_nil prev then (HPanic, s)
          else (HVal (Some prev), Seg (cache s) (set_value ele (h0, (k0, v)) (order s)))
      | None => (HPanic, s)
      end
  | None =>
      let s1 :=
        if cap <=? list_Len (order s) then
          match list_Back (order s) with
          | Some oldest =>
              let l := list_Remove oldest (order s) in
              match vals l !! oldest with
              | Some (ho, _) => Seg (delete ho (cache s)) l
              | None => Seg (cache s) l
              end
          | None => s
          end
        else s in
      let '(ele, l) := list_PushFront (h, (k, v)) (order s1) in
      (HVal None, Seg (<[h := ele]> (cache s1)) l)
  end.

(** hashmap/limithashmap.go:185-195 [Del], on the selected segment. *)
Definition seg_del (h : Z) (s : segment) : segment :=
  match cache s !! h with
  | Some ele => Seg (delete h (cache s)) (list_Remove ele (order s))
  | None => s
  end.

(** hashmap/limithashmap.go:197-205 [Contains], on the selected segment. *)
Definition seg_contains (h : Z) (s : segment) : bool :=
  match cache s !! h with Some _ => true | None => false end.

(** hashmap/limithashmap.go:210-211, the loop body of [Clear]. *)
Definition seg_clear (s : segment) : segment := Seg ∅ (list_Init (order s)).

(** A call of a method of hashmap/limithashmap.go:146-224. *)
Inductive hop := HPut (k : K) (v : V) | HGet (k : K) | HDel (k : K) | HContains (k : K) | HClear | HLen.

(** hashmap/limithashmap.go:146-224: select the segment (an out-of-range index panics), run the method on it. *)
Definition hstep (c : lhmap) (o : hop) : hres * lhmap :=
  let with_seg (k : K) (f : segment -> hres * segment) :=
    match segments c !! getSegment c k with
    | None => (HPanic, c)
    | Some s => let '(r, s') := f s in
                (r, LHMap (capacity c) (<[getSegment c k := s']> (segments c)) (segmentNumber c))
    end in
  match o with
  | HPut k v => with_seg k (fun s => seg_put (capacity c) (hash k) k v s)
  | HGet k => with_seg k (fun s => (seg_get (hash k) s, s))
  | HDel k => with_seg k (fun s => (HUnit, seg_del (hash k) s))
  | HContains k => with_seg k (fun s => (HBool (seg_contains (hash k) s), s))
  | HClear => (HUnit, LHMap (capacity c) (map seg_clear (segments c)) (segmentNumber c))
  | HLen => (HNum (fold_left (fun total s => total + list_Len (order s)) (segments c) 0), c)
  end.

(** A history of calls of hashmap/limithashmap.go:146-224. *)
Fixpoint hrun (c : lhmap) (os : list hop) : list hres * lhmap :=
  match os with
  | [] => ([], c)
  | o :: r => let '(x, c1) := hstep c o in let '(xs, c2) := hrun c1 r in (x :: xs, c2)
  end.
End limithash.
Arguments hop : clear implicits. Arguments hres : clear implicits. Arguments segment : clear implicits.
Arguments lhmap : clear implicits.
