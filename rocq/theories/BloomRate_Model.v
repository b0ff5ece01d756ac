(** Model of the sizes that cache/bloom.go computes in floating point (lines 31-37).  [Log] is math.Log. *)
From Coq Require Import ZArith Bool.
From Flocq Require Import BinarySingleNaN.
From Verif Require Import GoInt GoFloat Bloom_Model.
Local Open Scope Z_scope.

(** -x (cache/bloom.go:31). *)
Definition fopp (x : f64) : f64 := Bopp x.
(** uint(x): towards zero; [None] where the result depends on the machine (Go specification; cache/bloom.go:31). *)
Definition to_uint (x : f64) : option Z :=
  if is_finite x then if (0 <=? Btrunc x) && (Btrunc x <? 2 ^ 64) then Some (Btrunc x) else None else None.
(** What NewBloomFilter does: a filter, a panic in make, or what depends on the machine (cache/bloom.go:30). *)
Inductive made := Made (bf : bloom) | MakePanics | Unspecified.

Section log.
Context (Log : f64 -> f64).
(** math.Log(2) (cache/bloom.go:31-32). *)
Definition log2 : f64 := Log (of_int 2).
(** m (cache/bloom.go:31). *)
Definition bits_for (n : Z) (p : f64) : option Z := to_uint (fdiv (fmul (fopp (of_int n)) (Log p)) (fmul log2 log2)).
(** k before the clamp (cache/bloom.go:32). *)
Definition hashes_for (n m : Z) : Z := to_int (fmul (fdiv (of_int m) (of_int n)) log2).
(** cache/bloom.go:30-52 [NewBloomFilter]: make of a negative length panics (40).  Simplification: there is memory enough. *)
Definition NewBloom (n : Z) (p : f64) : made :=
  match bits_for n p with
  | None => Unspecified
  | Some m => let k := hashes_for n m in if clamp_k k <? 0 then MakePanics else Made (NewBloomFilter n m k)
  end.
End log.
