(** Model of hashmap/consistenthash.go.  The hash is a parameter [h] of the ring operations;
    [crc64] below is the one the code uses. *)
From stdpp Require Import gmap sorting.
From Coq Require Import ZArith.
From Verif Require Import GoInt.
Local Open Scope Z_scope.

(** hash/crc64 (Go standard library, used at hashmap/consistenthash.go:25-27): crc64.ECMA, reversed. *)
Definition ecma : Z := 0xC96C5795D7870F42.
(** One bit of the reflected CRC, as crc64.MakeTable computes the table (hashmap/consistenthash.go:26). *)
Definition crc_bit (c : Z) : Z := if Z.odd c then Z.lxor (Z.shiftr c 1) ecma else Z.shiftr c 1.
(** One byte: crc64.Update's [tab[byte(crc)^v] ^ (crc >> 8)], unrolled to its eight bits (hashmap/consistenthash.go:26). *)
Definition crc_byte (c b : Z) : Z := Nat.iter 8 crc_bit (Z.lxor c b).
(** All bytes, without the complements (hashmap/consistenthash.go:26). *)
Definition crc_raw (c : Z) (bs : list Z) : Z := fold_left crc_byte bs c.
(** hashmap/consistenthash.go:25-27 [hash]: crc64.Checksum complements before and after. *)
Definition crc64 (bs : list Z) : Z := Z.lxor (crc_raw (2^64 - 1) bs) (2^64 - 1).

(** hashmap/consistenthash.go:17-23 [int64ToBytes]. *)
Definition int64ToBytes (n : Z) : list Z := map (fun i => u8 (Z.shiftr n (8 * (7 - i)))) [0; 1; 2; 3; 4; 5; 6; 7].

(** hashmap/consistenthash.go:29-35; [keys = None] is the nil slice. The mutex is not represented: every method holds it. *)
Record ring := Ring { replicas : Z; keys : option (list Z); rm : gmap Z Z; nodes : gset Z }.

(** hashmap/consistenthash.go:37-45 [NewConsistenthash]. *)
Definition new_ring (replicas : Z) : ring := Ring replicas None ∅ ∅.

(** sort.Slice of a slice of uint64 (hashmap/consistenthash.go:64,139). *)
Definition usort (l : list Z) : list Z := merge_sort Z.le l.

(** Go's append: appending at least one element to a nil slice makes it non-nil (hashmap/consistenthash.go:59). *)
Definition append1 (ks : option (list Z)) (p : Z) : option (list Z) := Some (default [] ks ++ [p]).

(** Outcome of a lookup: Go panics with index out of range, or returns. *)
Inductive lres := LPanic | LRet (node : Z) (ok : bool).
(** Outcome of GetNextNodeStr. *)
Inductive nres := NPanic | NRet (nodes : list Z) (ok : bool).

(** sort.Search of the Go standard library, on indices [i <= x < j] (hashmap/consistenthash.go:74,89,104). *)
Fixpoint search (fuel : nat) (f : Z -> bool) (i j : Z) : Z :=
  match fuel with
  | O => i
  | S fuel => if i <? j then let x := (i + j) / 2 in if f x then search fuel f i x else search fuel f (x + 1) j else i
  end.

Section ring.
Context (h : list Z -> Z).

(** hashmap/consistenthash.go:54-57: the [i]-th virtual point of node [key]. *)
Definition point (i key : Z) : Z := h (int64ToBytes i ++ int64ToBytes key).

(** hashmap/consistenthash.go:53-61: the loop over the replicas, [n] of them left, the next being [i]. *)
Fixpoint add_points (n : nat) (i key : Z) (ks : option (list Z)) (m : gmap Z Z) : option (list Z) * gmap Z Z :=
  match n with
  | O => (ks, m)
  | S n => let p := point i key in add_points n (i + 1) key (append1 ks p) (<[p := key]> m)
  end.

(** hashmap/consistenthash.go:50-63: one iteration of the loop of Add. *)
Definition add_one (t : ring) (key : Z) : ring :=
  if decide (key ∈ nodes t) then t
  else let '(ks, m) := add_points (Z.to_nat (replicas t)) 0 key (keys t) (rm t) in
       Ring (replicas t) ks m (nodes t ∪ {[ key ]}).

(** hashmap/consistenthash.go:47-65 [Add]. *)
Definition Add (t : ring) (ks : list Z) : ring :=
  let t := fold_left add_one ks t in Ring (replicas t) (usort <$> keys t) (rm t) (nodes t).

(** hashmap/consistenthash.go:125-142 [Del]; [keys[:0]] of a nil slice is nil, and appends in the callback of Range
    go in the order of Range, which the sort forgets. *)
Definition Del (t : ring) (key : Z) : ring :=
  if decide (key ∈ nodes t) then
    let left := filter (fun kv => kv.2 <> key) (map_to_list (rm t)) in
    let ks := fold_left append1 (map fst left) (match keys t with None => None | Some _ => Some [] end) in
    Ring (replicas t) (usort <$> ks) (filter (fun kv => kv.2 <> key) (rm t)) (nodes t ∖ {[ key ]})
  else t.

(** hashmap/consistenthash.go:74-77: index of the first point at or after [hv], wrapping to 0. *)
Definition find_idx (ks : list Z) (hv : Z) : Z :=
  let n := Z.of_nat (length ks) in
  let idx := search (S (length ks)) (fun i => hv <=? nth (Z.to_nat i) ks 0) 0 n in
  if n <=? idx then 0 else idx.

(** hashmap/consistenthash.go:70-79 and 85-94, after the hash of the value. *)
Definition lookup_hash (t : ring) (hv : Z) : lres :=
  match keys t with
  | None => LRet 0 false
  | Some ks =>
      match ks !! Z.to_nat (find_idx ks hv) with
      | None => LPanic
      | Some p => match rm t !! p with Some n => LRet n true | None => LRet 0 false end
      end
  end.

(** hashmap/consistenthash.go:67-80 [Get]. *)
Definition Get (t : ring) (value : Z) : lres := lookup_hash t (h (int64ToBytes value)).
(** hashmap/consistenthash.go:82-95 [GetStr]; the value is the bytes of the string. *)
Definition GetStr (t : ring) (value : list Z) : lres := lookup_hash t (h value).

(** hashmap/consistenthash.go:111-122: the loop over the points after [idx]; [acc] is [nodes] ([m] holds the same nodes). *)
Fixpoint next_loop (t : ring) (n1 : Z) (step : Z) (rest : list Z) (acc : list Z) : list Z :=
  match rest with
  | [] => acc
  | p :: rest =>
      let acc := match rm t !! p with
                 | Some n => if decide (n <> n1 /\ n ∉ acc) then acc ++ [n] else acc
                 | None => acc
                 end in
      if Z.of_nat (length acc) =? step then acc else next_loop t n1 step rest acc
  end.

(** hashmap/consistenthash.go:97-123 [GetNextNodeStr]; [nodes] is nil, here [], when the ring is new. *)
Definition GetNextNodeStr (t : ring) (value : list Z) (step : Z) : nres :=
  match keys t with
  | None => NRet [] false
  | Some ks =>
      let idx := find_idx ks (h value) in
      match ks !! Z.to_nat idx with
      | None => NPanic
      | Some p =>
          let '(n1, ok) := match rm t !! p with Some n => (n, true) | None => (0, false) end in
          NRet (next_loop t n1 step (drop (S (Z.to_nat idx)) ks) []) ok
      end
  end.

(** hashmap/consistenthash.go:144-152 [Nodes]: in any order. *)
Definition Nodes (t : ring) : list Z := elements (nodes t).

(** Histories of the mutating methods (hashmap/consistenthash.go:47,125). *)
Inductive cop := CAdd (ks : list Z) | CDel (k : Z).
(** hashmap/consistenthash.go:47,125. *)
Definition cstep (t : ring) (o : cop) : ring := match o with CAdd ks => Add t ks | CDel k => Del t k end.
(** hashmap/consistenthash.go:37-65,125-142: a history on a new ring. *)
Definition crun (replicas : Z) (os : list cop) : ring := fold_left cstep os (new_ring replicas).
End ring.
