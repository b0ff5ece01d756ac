(** Model of pool/buffer/buffer.go (BufferPool, a pool of bytes.Buffer by size) and of the variables of pool/buffer/pool.go.

    sync.Pool is a bag: Get takes any element or makes a new one.  Losing elements is not modelled here: it only makes bags smaller,
    which [pick] out of range covers. *)
From stdpp Require Import list.
From Coq Require Import ZArith.
From Verif Require Import GoInt.
Local Open Scope Z_scope.

(** pool/buffer/buffer.go:26: 8 * (1 << i) in int (64 bits): a shift by 64 or more gives 0. *)
Definition route (i : nat) : Z := i64 (8 * i64 (2 ^ Z.of_nat i)).
(** pool/buffer/buffer.go:20-29: the router of [NewBufferPool(n)]. *)
Definition router (n : nat) : list Z := route <$> seq 0 n.
(** pool/buffer/buffer.go:48-54: the loop of [getRouter], from index [i] on. *)
Fixpoint getRouter_from (i : nat) (rs : list Z) (len : Z) : nat :=
  match rs with
  | [] => 0%nat
  | v :: rs => if decide (v <= len) then i else getRouter_from (S i) rs len
  end.
(** pool/buffer/buffer.go:47-55 [getRouter]. *)
Definition getRouter (n : nat) (len : Z) : nat := getRouter_from 0 (router n) len.

(** A bytes.Buffer: its bytes and its capacity (bytes.NewBuffer, pool/buffer/buffer.go:25). *)
Record bbuf := BB { bdata : list Z; bcap : Z }.
(** pool/buffer/buffer.go:15-18: all buffers ever made, and the content of each pool. *)
Record pst := PS { pobjs : list bbuf; pbags : list (list nat) }.
(** pool/buffer/buffer.go:20-29 [NewBufferPool]. *)
Definition pnew (n : nat) : pst := PS [] (replicate n []).
(** [POGet len pick], [POPut o], [POPutNil]; [POWrite o bs cap]: the user writes to the buffer, whose capacity is then [cap].
    pool/buffer/buffer.go:31-45. *)
Inductive pop := POGet (len : Z) (pick : nat) | POPut (o : nat) | POPutNil | POWrite (o : nat) (bs : list Z) (cap : Z).
(** Which buffer a call gives, what Put answers, or a panic (pool/buffer/buffer.go:31-45). *)
Inductive pres := RGot (o : nat) | RBool (b : bool) | RNone | RPanic.
(** pool/buffer/buffer.go:31-45 [Get] and [Put]. *)
Definition pstep (n : nat) (s : pst) (op : pop) : pst * pres :=
  match op with
  | POGet len pick =>
      let pre := getRouter n len in
      match pbags s !! pre with
      | None => (s, RPanic)
      | Some bag =>
          match bag !! pick with
          | Some o =>
              match pobjs s !! o with
              | Some x => (PS (<[o := BB [] (bcap x)]> (pobjs s)) (<[pre := delete pick bag]> (pbags s)), RGot o)
              | None => (s, RNone)
              end
          | None => (PS (pobjs s ++ [BB [] 0]) (pbags s), RGot (length (pobjs s)))
          end
      end
  | POPut o =>
      match pobjs s !! o with
      | Some x =>
          let pre := getRouter n (bcap x) in
          match pbags s !! pre with
          | None => (s, RPanic)
          | Some bag => (PS (pobjs s) (<[pre := bag ++ [o]]> (pbags s)), RBool true)
          end
      | None => (s, RNone)
      end
  | POPutNil => (s, RBool true)
  | POWrite o bs cap =>
      match pobjs s !! o with
      | Some x => (PS (<[o := BB (bdata x ++ bs) cap]> (pobjs s)) (pbags s), RNone)
      | None => (s, RNone)
      end
  end.
(** A history and its results (pool/buffer/buffer.go:31-45). *)
Fixpoint prun (n : nat) (s : pst) (ops : list pop) : pst * list pres :=
  match ops with
  | [] => (s, [])
  | op :: ops => let r := pstep n s op in let q := prun n r.1 ops in (q.1, r.2 :: q.2)
  end.

(** ** Variables holding elements of the generic pool *)
(** pool/buffer/pool.go:14-17: number of elements made, the bag, and the user's variables of type *T. *)
Record gst := GS { gnext : nat; gbag : list nat; gvars : list (option nat) }.
(** p := pool.Get() into variable [x]; pool.Put(&x); y = x.  pool/buffer/pool.go:35-52. *)
Inductive gop := GGet (x pick : nat) | GPut (x : nat) | GCopy (x y : nat).
(** Get gives an element, Put answers a boolean (pool/buffer/pool.go:35-52). *)
Inductive gres := GGot (o : nat) | GBool (b : bool) | GNone.
(** pool/buffer/pool.go:35-52.  What reset does to the element is not shown. *)
Definition gstep (s : gst) (op : gop) : gst * gres :=
  match op with
  | GGet x pick =>
      match gbag s !! pick with
      | Some o => (GS (gnext s) (delete pick (gbag s)) (<[x := Some o]> (gvars s)), GGot o)
      | None => (GS (S (gnext s)) (gbag s) (<[x := Some (gnext s)]> (gvars s)), GGot (gnext s))
      end
  | GPut x =>
      match gvars s !! x with
      | Some (Some o) => (GS (gnext s) (gbag s ++ [o]) (<[x := None]> (gvars s)), GBool true)
      | Some None => (s, GBool false)
      | None => (s, GNone)
      end
  | GCopy x y => match gvars s !! x with Some p => (GS (gnext s) (gbag s) (<[y := p]> (gvars s)), GNone) | None => (s, GNone) end
  end.
(** A history (pool/buffer/pool.go:35-52). *)
Fixpoint grun (s : gst) (ops : list gop) : gst * list gres :=
  match ops with
  | [] => (s, [])
  | op :: ops => let r := gstep s op in let q := grun r.1 ops in (q.1, r.2 :: q.2)
  end.
