(** Model of cache/bloom.go.  maphash with a random seed is an arbitrary function [h i item] of the seed number and
    the item.  The results [m] and [k] of the floating point sizing of the constructor (lines 31-32) are parameters
    here; BloomRate_Model.v computes them. *)
From Coq Require Import ZArith List Bool.
From Verif Require Import GoInt.
Import ListNotations.
Local Open Scope Z_scope.

(** cache/bloom.go:19-27; [None] is a nil slice; a [[]uint64] is the list of its words. *)
Record bloom := Bloom {
  b0 : option (list Z); b1 : option (list Z); b2 : option (list Z);
  hashCount : Z; numCount : Z; arraySize : Z; expectedItems : Z }.

(** Reading and writing one of the three arrays (cache/bloom.go:63,73,108-114). *)
Definition get_arr (bf : bloom) (id : Z) : option (list Z) :=
  if id =? 0 then b0 bf else if id =? 1 then b1 bf else b2 bf.
Definition set_arr (bf : bloom) (id : Z) (a : option (list Z)) : bloom :=
  if id =? 0 then Bloom a (b1 bf) (b2 bf) (hashCount bf) (numCount bf) (arraySize bf) (expectedItems bf)
  else if id =? 1 then Bloom (b0 bf) a (b2 bf) (hashCount bf) (numCount bf) (arraySize bf) (expectedItems bf)
  else Bloom (b0 bf) (b1 bf) a (hashCount bf) (numCount bf) (arraySize bf) (expectedItems bf).

(** cache/bloom.go:98-107: index, array to drop, previous index. *)
Definition gen_index (bf : bloom) : Z * Z * Z :=
  let f := numCount bf mod u64 (expectedItems bf * 3 + 1) in
  if f <? expectedItems bf then (0, 1, 2)
  else if f <? u64 (expectedItems bf * 2) then (1, 2, 0)
  else (2, 0, 1).

(** cache/bloom.go:98-119 [getBitIndex]: the index, the previous index, and the rotation if it is due. *)
Definition getBitIndex (bf : bloom) : Z * Z * bloom :=
  let '(index, rmIndex, prevIndex) := gen_index bf in
  match get_arr bf index with
  | Some _ => (index, prevIndex, bf)
  | None =>
      let bf := set_arr bf index (Some (repeat 0 (Z.to_nat (arraySize bf)))) in
      (index, prevIndex, set_arr bf rmIndex None)
  end.

(** cache/bloom.go:33-37: the clamp of the number of hash functions. *)
Definition clamp_k (k : Z) : Z := if k =? 0 then 1 else if 29 <? k then 30 else k.
(** cache/bloom.go:38-39: words for [m] bits. *)
Definition words (m : Z) : Z := u64 (m + 64 - 1) / 64.
(** cache/bloom.go:30-52 [NewBloomFilter], from [m] and [k] on. *)
Definition NewBloomFilter (E m k : Z) : bloom :=
  snd (getBitIndex (Bloom None None None (clamp_k k) 0 (words m) E)).

(** cache/bloom.go:59-64 [setBit]; [None] is an index out of range panic (the recovery is Add's). *)
Definition setBit (bf : bloom) (index : Z) : bloom * bool :=
  let w := index / 64 in let b := index mod 64 in
  let '(id, _, bf) := getBitIndex bf in
  match get_arr bf id with
  | Some a => if w <? Z.of_nat (length a)
              then (set_arr bf id (Some (upd (Z.to_nat w) (Z.lor (nth (Z.to_nat w) a 0) (Z.shiftl 1 b)) a)), true)
              else (bf, false)
  | None => (bf, false)
  end.

(** cache/bloom.go:67-74 [testBit]; a panic (nil or short array) is recovered and the result is false. *)
Definition testBit (bf : bloom) (index : Z) : bool * bloom :=
  let w := index / 64 in let b := index mod 64 in
  let '(id, prevId, bf) := getBitIndex bf in
  let offset := Z.shiftl 1 b in
  let bit id := match get_arr bf id with
                | Some a => if w <? Z.of_nat (length a) then Some (negb (Z.land (nth (Z.to_nat w) a 0) offset =? 0)) else None
                | None => None
                end in
  (match bit id with
   | None => false
   | Some true => true
   | Some false => match bit prevId with Some r => r | None => false end
   end, bf).

Section hash.
Context {item : Type} (h : Z -> item -> Z).

(** cache/bloom.go:81 and 90; [None] is the division by zero panic. *)
Definition bit_of (bf : bloom) (i : Z) (x : item) : option Z :=
  let d := u64 (arraySize bf * 64) in if d =? 0 then None else Some (h i x mod d).

(** cache/bloom.go:80-83: the loop of Add over the hash functions [i .. i+n); it ends at the first panic. *)
Fixpoint add_loop (bf : bloom) (n : nat) (i : Z) (x : item) : bloom :=
  match n with
  | O => bf
  | S n => match bit_of bf i x with
           | None => bf
           | Some ix => let '(bf, ok) := setBit bf ix in if ok then add_loop bf n (i + 1) x else bf
           end
  end.

(** cache/bloom.go:77-84 [Add]. *)
Definition Add (bf : bloom) (x : item) : bloom :=
  let bf := Bloom (b0 bf) (b1 bf) (b2 bf) (hashCount bf) (u64 (numCount bf + 1)) (arraySize bf) (expectedItems bf) in
  add_loop bf (Z.to_nat (hashCount bf)) 0 x.

(** cache/bloom.go:89-95: the loop of Contains. *)
Fixpoint contains_loop (bf : bloom) (n : nat) (i : Z) (x : item) : bool * bloom :=
  match n with
  | O => (true, bf)
  | S n => match bit_of bf i x with
           | None => (false, bf)
           | Some ix => let '(r, bf) := testBit bf ix in if r then contains_loop bf n (i + 1) x else (false, bf)
           end
  end.

(** cache/bloom.go:87-96 [Contains]. *)
Definition Contains (bf : bloom) (x : item) : bool * bloom := contains_loop bf (Z.to_nat (hashCount bf)) 0 x.

(** Histories of calls (cache/bloom.go:77,87). *)
Inductive bop := BAdd (x : item) | BContains (x : item).
(** cache/bloom.go:77,87. *)
Definition bstep (bf : bloom) (o : bop) : bloom :=
  match o with BAdd x => Add bf x | BContains x => snd (Contains bf x) end.
(** cache/bloom.go:30,77,87: a history on a new filter. *)
Definition brun (E m k : Z) (os : list bop) : bloom := fold_left bstep os (NewBloomFilter E m k).
End hash.
Arguments bop : clear implicits.

(** *** Concurrent Adds.  Shared-memory steps of cache/bloom.go:77-84: the atomic counter, getBitIndex (taken as one
    step, its rotation is under the mutex), the load of the word and the store of the word at line 63.
    A store goes to the array the slot holds at that time (the slice header is not kept in the thread). *)
Section conc.
Context {item : Type} (h : Z -> item -> Z).
(** Where a goroutine is in cache/bloom.go:78-84. *)
Inductive bpc :=
| PIdle                                   (* between two calls of Add *)
| PNext (x : item) (i : Z)                (* line 80, about to compare i with hashCount *)
| PGot (x : item) (i id ix : Z)           (* line 63, about to load the word *)
| PRead (x : item) (i id ix val : Z).     (* line 63, about to store the word *)
(** A goroutine: calls to make, where it is, and (for the statements only) the items whose Add has returned. *)
Record bthread := BTh { btodo : list item; bpos : bpc; bdone : list item }.
(** The filter and the goroutines (cache/bloom.go:19-27). *)
Record bconf := BConf { bf_of : bloom; bths : list bthread }.

(** cache/bloom.go:78-84 and 59-64: next step of one goroutine. *)
Definition bthread_step (bf : bloom) (th : bthread) : bloom * bthread :=
  match bpos th with
  | PIdle =>
      match btodo th with
      | [] => (bf, th)
      | x :: r => (Bloom (b0 bf) (b1 bf) (b2 bf) (hashCount bf) (u64 (numCount bf + 1)) (arraySize bf) (expectedItems bf),
                   BTh r (PNext x 0) (bdone th))
      end
  | PNext x i =>
      if hashCount bf <=? i then (bf, BTh (btodo th) PIdle (bdone th ++ [x]))
      else match bit_of h bf i x with
           | None => (bf, BTh (btodo th) PIdle (bdone th ++ [x]))
           | Some ix => let '(id, _, bf) := getBitIndex bf in (bf, BTh (btodo th) (PGot x i id ix) (bdone th))
           end
  | PGot x i id ix =>
      match get_arr bf id with
      | Some a => if ix / 64 <? Z.of_nat (length a)
                  then (bf, BTh (btodo th) (PRead x i id ix (nth (Z.to_nat (ix / 64)) a 0)) (bdone th))
                  else (bf, BTh (btodo th) PIdle (bdone th ++ [x]))
      | None => (bf, BTh (btodo th) PIdle (bdone th ++ [x]))
      end
  | PRead x i id ix val =>
      (match get_arr bf id with
       | Some a => set_arr bf id (Some (upd (Z.to_nat (ix / 64)) (Z.lor val (Z.shiftl 1 (ix mod 64))) a))
       | None => bf
       end, BTh (btodo th) (PNext x (i + 1)) (bdone th))
  end.
(** A step of goroutine [t] (cache/bloom.go:77-84). *)
Definition bconf_step (c : bconf) (t : nat) : bconf :=
  match nth_error (bths c) t with
  | None => c
  | Some th => let '(bf, th) := bthread_step (bf_of c) th in BConf bf (upd t th (bths c))
  end.
(** Any interleaving, from a new filter (cache/bloom.go:30,77). *)
Definition bconf_run (E m k : Z) (progs : list (list item)) (sched : list nat) : bconf :=
  fold_left bconf_step sched (BConf (NewBloomFilter E m k) (map (fun p => BTh p PIdle []) progs)).
End conc.
Arguments bpc : clear implicits. Arguments bthread : clear implicits. Arguments bconf : clear implicits.
