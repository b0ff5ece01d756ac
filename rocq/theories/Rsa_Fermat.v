(** Fermat's little theorem for Z, from mathcomp's Euler_exp_totient. *)
From Coq Require Import ZArith Znumtheory Lia.
From mathcomp Require Import ssreflect ssrfun ssrbool eqtype ssrnat div prime cyclic.

Lemma of_expn (x k : nat) : Z.of_nat (expn x k) = (Z.of_nat x ^ Z.of_nat k)%Z.
Proof. elim: k => [|k IH]; first by rewrite expn0. rewrite expnS Nat2Z.inj_mul IH Nat2Z.inj_succ Z.pow_succ_r //. lia. Qed.
Lemma prime_mc (p : nat) : Znumtheory.prime (Z.of_nat p) -> prime.prime p.
Proof.
  move=> Hp. apply/primeP. split. { apply/ltP. destruct Hp. lia. }
  move=> d /dvdnP [k Hk]. have Hd : (Z.of_nat d | Z.of_nat p)%Z. { exists (Z.of_nat k). rewrite Hk. rewrite Nat2Z.inj_mul. done. }
  have [?|[?|[?|?]]] := prime_divisors _ Hp _ Hd; try (exfalso; destruct Hp; lia).
  - apply/orP; left; apply/eqP. lia.
  - apply/orP; right; apply/eqP. lia.
Qed.
Lemma fermat_nat (p x : nat) : Znumtheory.prime (Z.of_nat p) -> ~ (Z.of_nat p | Z.of_nat x)%Z -> (Z.of_nat x ^ (Z.of_nat p - 1) mod Z.of_nat p = 1)%Z.
Proof.
  move=> Hp Hx. have Hm := prime_mc p Hp. have Hc : coprime x p.
  { rewrite coprime_sym (prime_coprime _ Hm). apply/negP => /dvdnP [k Hk]. apply: Hx. exists (Z.of_nat k). rewrite Hk. rewrite Nat2Z.inj_mul. done. }
  have := Euler_exp_totient Hc. rewrite (totient_prime Hm) => E. have Hp1 : (1 < Z.of_nat p)%Z by destruct Hp.
  have -> : (Z.of_nat p - 1 = Z.of_nat p.-1)%Z by lia. rewrite -of_expn.
  rewrite (divn_eq (expn x p.-1) p) E (@modn_small 1); last by (apply/ltP; lia).
  rewrite Nat2Z.inj_add Nat2Z.inj_mul Z.add_comm Z_mod_plus_full. apply: Z.mod_small. lia.
Qed.
Lemma fermat (p x : Z) : Znumtheory.prime p -> (0 <= x)%Z -> ~ (p | x)%Z -> (x ^ (p - 1) mod p = 1)%Z.
Proof.
  move=> Hp Hx Hd. have Hp1 : (1 < p)%Z by destruct Hp. rewrite -(Z2Nat.id p); last lia. rewrite -(Z2Nat.id x); last lia.
  apply: fermat_nat; rewrite !Z2Nat.id; try lia; done.
Qed.
