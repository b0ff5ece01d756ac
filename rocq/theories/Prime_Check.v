(** A checker of certificates of primality, after H. W. Lenstra, "Primality testing algorithms" (Séminaire Bourbaki 576), for the two numbers of 512 bits in the built-in private key.
    Nothing here models the code: it serves keystore/key.go:21-35 [defaultPriKey], whose primes crypto/rsa relies on.  Soundness is in Prime_Proofs.v.
    It computes with the library Bignums, hence with the primitive integers of Coq. *)
From Coq Require Import ZArith List.
From Bignums Require Import BigZ.
Import ListNotations.
Local Open Scope bool_scope.
Local Open Scope Z_scope.

Section ring.
  (** The ring Z/N[x] / (x^d + f), where d is the length of [f] and [f] lists its coefficients, the constant first (for keystore/key.go:21-35). *)
  Context (N : BigZ.t) (f : list BigZ.t).
  (** Sum, coefficient by coefficient (for keystore/key.go:21-35). *)
  Fixpoint addl (a b : list BigZ.t) : list BigZ.t :=
    match a, b with [], _ => b | _, [] => a | x :: a, y :: b => BigZ.add x y :: addl a b end.
  (** Product by an integer (for keystore/key.go:21-35). *)
  Definition scale (c : BigZ.t) (a : list BigZ.t) : list BigZ.t := map (BigZ.mul c) a.
  (** Coefficients reduced modulo [N] (for keystore/key.go:21-35). *)
  Definition norm (a : list BigZ.t) : list BigZ.t := map (fun x => BigZ.modulo x N) a.
  (** Product by x; x^d is replaced when it arises (for keystore/key.go:21-35). *)
  Definition mulx (a : list BigZ.t) : list BigZ.t :=
    if (length a =? length f)%nat then addl (BigZ.zero :: removelast a) (scale (BigZ.opp (last a BigZ.zero)) f) else BigZ.zero :: a.
  (** Product (for keystore/key.go:21-35). *)
  Definition mulA (a b : list BigZ.t) : list BigZ.t := norm (fold_right (fun c acc => addl (scale c b) (mulx acc)) [] a).
  (** a, a^2, a^4 … (for keystore/key.go:21-35). *)
  Fixpoint squares (n : nat) (a : list BigZ.t) : list (list BigZ.t) := match n with O => [] | S n => a :: squares n (mulA a a) end.
  (** Power, from that table (for keystore/key.go:21-35). *)
  Fixpoint powT (tbl : list (list BigZ.t)) (e : positive) : list BigZ.t :=
    match tbl with
    | [] => []
    | b :: tbl => match e with xH => b | xO e => powT tbl e | xI e => mulA b (powT tbl e) end
    end.
  (** Equality in the ring (for keystore/key.go:21-35); [true] is always right. *)
  Definition eqA (a b : list BigZ.t) : bool := forallb (fun x => BigZ.eqb (BigZ.modulo x N) BigZ.zero) (addl a (scale BigZ.minus_one b)).
  (** Sum of polynomials in Y over the ring (for keystore/key.go:21-35). *)
  Fixpoint addPoly (P Q : list (list BigZ.t)) : list (list BigZ.t) :=
    match P, Q with [], _ => Q | _, [] => P | a :: P, b :: Q => addl a b :: addPoly P Q end.
  (** The product of all Y - a (for keystore/key.go:21-35). *)
  Fixpoint prodPoly (rs : list (list BigZ.t)) : list (list BigZ.t) :=
    match rs with [] => [[BigZ.one]] | a :: rs => let P := prodPoly rs in addPoly ([] :: P) (map (mulA (scale BigZ.minus_one a)) P) end.
  (** Whether the coefficients are the integers given (for keystore/key.go:21-35). *)
  Fixpoint eqPoly (P : list (list BigZ.t)) (c : list BigZ.t) : bool :=
    match P, c with [], [] => true | a :: P, x :: c => eqA a [x] && eqPoly P c | _, _ => false end.
  (** 1, N, N^2 … modulo [s] (for keystore/key.go:21-35). *)
  Fixpoint powers (d : nat) (s e : BigZ.t) : list BigZ.t := match d with O => [] | S d => e :: powers d s (BigZ.modulo (BigZ.mul e N) s) end.
End ring.

(** One ring, an element [c_a] and what is claimed of it (for keystore/key.go:21-35): its order is the product of the l^e for the (l, e, b) in [c_fac], where b is the inverse of
    a^(order/l) - 1; and [c_g] is the product of the Y - a^(N^i).  [c_inv]: the inverse, modulo that order, of the product of the orders of the certificates that follow. *)
Record cert := Cert { c_f : list BigZ.t; c_a : list BigZ.t; c_g : list BigZ.t; c_fac : list (Z * Z * list BigZ.t); c_inv : BigZ.t }.
(** The order claimed (for keystore/key.go:21-35). *)
Definition c_s (c : cert) : Z := fold_right (fun '(l, e, _) s => l ^ e * s) 1 (c_fac c).
(** The residues that a prime divisor of [N] may have (for keystore/key.go:21-35). *)
Definition residues (N : BigZ.t) (c : cert) : list BigZ.t := powers N (length (c_f c)) (BigZ.of_Z (c_s c)) BigZ.one.
(** Whether an exponent is positive and not too long for the table (for keystore/key.go:21-35). *)
Definition fits (n : nat) (e : Z) : bool := (0 <? e) && (Pos.size_nat (Z.to_pos e) <=? n)%nat.
(** The claims of one certificate (for keystore/key.go:21-35). *)
Definition check1 (N : BigZ.t) (c : cert) : bool :=
  let s := c_s c in let f := c_f c in let n := Pos.size_nat (Z.to_pos s) in
  let tbl := squares N f n (c_a c) in
  let es := map BigZ.to_Z (residues N c) in
  (1 <? s) && (0 <? Z.of_nat (length f)) &&
  eqA N (powT N f tbl (Z.to_pos s)) [BigZ.one] &&
  forallb (fun '(l, e, b) => (1 <? l) && (0 <? e) && fits n (s / l) &&
    eqA N (mulA N f b (addl (powT N f tbl (Z.to_pos (s / l))) [BigZ.minus_one])) [BigZ.one]) (c_fac c) &&
  forallb (fits n) es &&
  eqPoly N (prodPoly N f (map (fun e => powT N f tbl (Z.to_pos e)) es)) (c_g c).
(** The product of the orders (for keystore/key.go:21-35). *)
Definition modulus (cs : list cert) : Z := fold_right (fun c m => c_s c * m) 1 cs.
(** The residues modulo that product, by the Chinese remainder theorem (for keystore/key.go:21-35). *)
Fixpoint candidates (N : BigZ.t) (cs : list cert) : list BigZ.t :=
  match cs with
  | [] => [BigZ.zero]
  | c :: cs =>
      let M := BigZ.of_Z (modulus cs) in let s := BigZ.of_Z (c_s c) in
      flat_map (fun a => map (fun b => BigZ.add a (BigZ.mul M (BigZ.modulo (BigZ.mul (BigZ.sub b a) (c_inv c)) s))) (residues N c)) (candidates N cs)
  end.
(** Whether the inverses are right (for keystore/key.go:21-35). *)
Fixpoint inverses (cs : list cert) : bool :=
  match cs with
  | [] => true
  | c :: cs => BigZ.eqb (BigZ.modulo (BigZ.mul (BigZ.of_Z (modulus cs)) (c_inv c)) (BigZ.of_Z (c_s c))) BigZ.one && (0 <? modulus cs) && inverses cs
  end.
(** The whole test (for keystore/key.go:21-35): no candidate is a divisor of [N] up to the square root, and all divisors up to there are candidates. *)
Definition checkN (N : BigZ.t) (cs : list cert) : bool :=
  BigZ.ltb BigZ.one N && forallb (check1 N) cs && inverses cs && (let M := BigZ.of_Z (modulus cs) in BigZ.ltb N (BigZ.mul M M)) &&
  forallb (fun a => BigZ.leb a BigZ.one || negb (BigZ.eqb (BigZ.modulo N a) BigZ.zero) || BigZ.ltb N (BigZ.mul a a)) (candidates N cs).
(** The numbers taken to be prime (for keystore/key.go:21-35). *)
Definition needs (cs : list cert) : list Z := flat_map (fun c => map (fun '(l, _, _) => l) (c_fac c)) cs.
(** Trial division (for keystore/key.go:21-35). *)
Definition trial_div (n : Z) : bool :=
  (1 <? n) && forallb (fun i => negb (n mod (Z.of_nat i + 2) =? 0)) (seq 0 (Z.to_nat (Z.sqrt n) - 1)).
