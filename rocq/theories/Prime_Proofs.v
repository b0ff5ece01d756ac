(** Soundness of the checker of Prime_Check.v: a number that passes, with the factors named by its certificates prime, is prime. *)
From Coq Require Import ZArith Znumtheory Zpow_facts List Lia.
From mathcomp Require Import ssreflect ssrfun ssrbool eqtype ssrnat seq div prime choice fintype bigop ssralg poly zmodp mxpoly countalg closed_field.
From Bignums Require Import BigZ.
From Verif Require Import Prime_Check Rsa_Fermat.
Set Implicit Arguments. Unset Strict Implicit. Unset Printing Implicit Defensive.
Import GRing.Theory.
Local Open Scope ring_scope.

(** The integers in a ring. *)
Definition zK (K : ringType) (z : Z) : K := (Z.to_nat z)%:R - (Z.to_nat (- z))%:R.
Arguments zK {K} z.

Section field.
  Variable K : fieldType.
  Implicit Types (a b : list BigZ.t) (x y z : Z).
  Lemma zK_nat (n : nat) : zK (Z.of_nat n) = n%:R :> K.
  Proof. rewrite /zK Nat2Z.id. have -> : Z.to_nat (- Z.of_nat n) = 0%N by lia. by rewrite subr0. Qed.
  Lemma natr_eq (m n p q : nat) : (m + q = p + n)%coq_nat -> m%:R - n%:R = p%:R - q%:R :> K.
  Proof. move=> E. apply/eqP. rewrite subr_eq addrAC eq_sym subr_eq eq_sym -!natrD. apply/eqP. by congr (_%:R). Qed.
  Lemma zK0 : zK 0 = 0 :> K. Proof. exact: (zK_nat 0). Qed.
  Lemma zK1 : zK 1 = 1 :> K. Proof. exact: (zK_nat 1). Qed.
  Lemma zKD x y : zK (x + y) = zK x + zK y :> K.
  Proof. rewrite /zK addrACA -opprD -!natrD. apply: natr_eq. rewrite -!plusE. lia. Qed.
  Lemma zKN x : zK (- x) = - zK x :> K.
  Proof. rewrite /zK Z.opp_involutive opprB. done. Qed.
  Lemma zKM_nat (m : nat) y : zK (Z.of_nat m * y) = m%:R * zK y :> K.
  Proof.
    elim: m => [|m IH]; first by rewrite mul0r -zK0; congr zK; lia.
    have -> : (Z.of_nat m.+1 * y = y + Z.of_nat m * y)%Z by lia. by rewrite zKD IH mulrS mulrDl mul1r.
  Qed.
  Lemma zKM x y : zK (x * y) = zK x * zK y :> K.
  Proof.
    have [H|H] : (0 <= x \/ x <= 0)%Z by lia.
    - have -> : (x = Z.of_nat (Z.to_nat x))%Z by lia. by rewrite zKM_nat zK_nat.
    - have -> : (x = - Z.of_nat (Z.to_nat (- x)))%Z by lia. by rewrite zKN Z.mul_opp_l zKN zKM_nat zK_nat mulNr.
  Qed.
  (** The same for the integers of the checker. *)
  Lemma kB_def : {k : BigZ.t -> K | forall u, k u = zK (BigZ.to_Z u)}. Proof. by exists (fun u => zK (BigZ.to_Z u)). Qed.
  Definition kB : BigZ.t -> K := sval kB_def.
  Lemma kBE u : kB u = zK (BigZ.to_Z u). Proof. exact: (svalP kB_def). Qed.
  Lemma kBD u v : kB (BigZ.add u v) = kB u + kB v. Proof. by rewrite !kBE BigZ.spec_add zKD. Qed.
  Lemma kBM u v : kB (BigZ.mul u v) = kB u * kB v. Proof. by rewrite !kBE BigZ.spec_mul zKM. Qed.
  Lemma kBN u : kB (BigZ.opp u) = - kB u. Proof. by rewrite !kBE BigZ.spec_opp zKN. Qed.
  Lemma kB0 : kB BigZ.zero = 0. Proof. by rewrite !kBE BigZ.spec_0 zK0. Qed.
  Lemma kB1 : kB BigZ.one = 1. Proof. by rewrite !kBE BigZ.spec_1 zK1. Qed.
  Lemma kBm1 : kB BigZ.minus_one = -1. Proof. by rewrite !kBE BigZ.spec_m1 (zKN 1) zK1. Qed.
  (** The value at [t] of a polynomial with integer coefficients. *)
  Fixpoint ev (t : K) (l : list BigZ.t) : K := match l with nil => 0 | cons c l => kB c + t * ev t l end.
  Section at_root.
  Variables (N : BigZ.t) (f : list BigZ.t) (t : K).
  Hypothesis HN : kB N = 0.
  Hypothesis Hf : ev t f + t ^+ length f = 0.
  Lemma kB_mod u : kB (BigZ.modulo u N) = kB u.
  Proof.
    rewrite !kBE BigZ.spec_modulo. have [->|H] : (BigZ.to_Z N = 0 \/ BigZ.to_Z N <> 0)%Z by lia. { by rewrite Zmod_0_r. }
    rewrite {2}(Z_div_mod_eq_full (BigZ.to_Z u) (BigZ.to_Z N)) zKD zKM. have -> : zK (BigZ.to_Z N) = 0 :> K by rewrite -kBE. by rewrite mul0r add0r.
  Qed.
  Lemma ev_add a b : ev t (addl a b) = ev t a + ev t b.
  Proof.
    elim: a b => [|x a IH] [|y b] /=; rewrite ?add0r ?addr0 //. by rewrite kBD IH mulrDr addrACA.
  Qed.
  Lemma ev_scale c a : ev t (scale c a) = kB c * ev t a.
  Proof. rewrite /scale. elim: a => [|x a IH] /=; first by rewrite mulr0. by rewrite kBM IH mulrDr mulrCA. Qed.
  Lemma ev_norm a : ev t (norm N a) = ev t a.
  Proof. rewrite /norm. elim: a => [|x a IH] //=. by rewrite kB_mod IH. Qed.
  Lemma ev_app a b : ev t (a ++ b)%list = ev t a + t ^+ length a * ev t b.
  Proof. elim: a => [|x a IH] /=; first by rewrite expr0 mul1r add0r. by rewrite IH mulrDr addrA exprS mulrA. Qed.
  Lemma ev_mulx a : ev t (mulx f a) = t * ev t a.
  Proof.
    rewrite /mulx. case E: (Nat.eqb _ _); last by rewrite /= kB0 add0r.
    move/PeanoNat.Nat.eqb_eq: E => E. case Ea: a => [|x a'].
    { rewrite ev_add ev_scale. change (List.last nil BigZ.zero) with BigZ.zero. rewrite kBN kB0 oppr0 /= kB0 mulr0 mul0r !addr0. done. }
    have Hne : a <> nil by rewrite Ea. rewrite -Ea.
    have Ha := app_removelast_last BigZ.zero Hne. rewrite {3}Ha ev_add ev_scale ev_app /= mulr0 addr0 kB0 add0r mulrDr kBN. congr (_ + _).
    have Hl : length f = S (length (removelast a)). { rewrite -E {1}Ha app_length /= PeanoNat.Nat.add_comm. done. }
    have -> : ev t f = - (t ^+ length f) by apply/eqP; rewrite -addr_eq0 Hf.
    rewrite Hl mulrNN exprS mulrC mulrA. done.
  Qed.
  Lemma ev_mul a b : ev t (mulA N f a b) = ev t a * ev t b.
  Proof.
    rewrite /mulA ev_norm. elim: a => [|x a IH] /=; first by rewrite mul0r.
    by rewrite ev_add ev_scale ev_mulx IH mulrDl mulrA.
  Qed.
  Lemma ev_pow n a e : (Pos.size_nat e <= n)%coq_nat -> ev t (powT N f (squares N f n a) e) = ev t a ^+ Pos.to_nat e.
  Proof.
    elim: n a e => [|n IH] a e Hn; first by exfalso; destruct e; cbn in Hn; lia. cbn [squares powT]. destruct e as [e|e|].
    - have Hn' : (Pos.size_nat e <= n)%coq_nat by (cbn in Hn; lia).
      rewrite ev_mul (IH _ _ Hn') ev_mul -expr2 -exprM -exprS Pos2Nat.inj_xI. done.
    - have Hn' : (Pos.size_nat e <= n)%coq_nat by (cbn in Hn; lia).
      rewrite (IH _ _ Hn') ev_mul -expr2 -exprM Pos2Nat.inj_xO. done.
    - by rewrite expr1.
  Qed.
  Lemma ev_zero a : forallb (fun u => BigZ.eqb (BigZ.modulo u N) BigZ.zero) a -> ev t a = 0.
  Proof.
    elim: a => [|x a IH] //= /andP [E /IH ->]. rewrite mulr0 addr0 -kB_mod. move: E. rewrite BigZ.spec_eqb => /Z.eqb_eq E. rewrite kBE E -kBE kB0. done.
  Qed.
  Lemma ev_eqA a b : eqA N a b -> ev t a = ev t b.
  Proof. move/ev_zero. rewrite ev_add ev_scale. rewrite kBm1. move/eqP. rewrite mulN1r subr_eq0. by move/eqP. Qed.
  (** The value at [y] of a polynomial over the ring. *)
  Fixpoint evP (P : list (list BigZ.t)) (y : K) : K := match P with nil => 0 | cons a P => ev t a + y * evP P y end.
  Lemma evP_add P Q (y : K) : evP (addPoly P Q) y = evP P y + evP Q y.
  Proof. elim: P Q => [|a P IH] [|b Q] /=; rewrite ?add0r ?addr0 //. by rewrite ev_add IH mulrDr addrACA. Qed.
  Lemma evP_map a P (y : K) : evP (map (mulA N f a) P) y = ev t a * evP P y.
  Proof. elim: P => [|b P IH] /=; first by rewrite mulr0. by rewrite ev_mul IH mulrDr mulrCA. Qed.
  Lemma evP_prod rs (y : K) : evP (prodPoly N f rs) y = \prod_(a <- rs) (y - ev t a).
  Proof.
    elim: rs => [|a rs IH]; first by rewrite /= big_nil kB1 !mulr0 !addr0.
    change (prodPoly N f (a :: rs)) with (addPoly (nil :: prodPoly N f rs) (map (mulA N f (scale BigZ.minus_one a)) (prodPoly N f rs)))%list.
    rewrite big_cons evP_add evP_map IH ev_scale /= add0r IH kBm1 mulN1r -mulrDl. done.
  Qed.
  Lemma evP_eq P c (y : K) : eqPoly N P c -> evP P y = ev y c.
  Proof.
    elim: P c => [|a P IH] [|x c] //= /andP [/ev_eqA E /IH ->]. by rewrite E /= mulr0 addr0.
  Qed.
  End at_root.
  Lemma ev_sum t l : ev t l = \sum_(i < length l) kB (List.nth i l BigZ.zero) * t ^+ i.
  Proof.
    elim: l => [|c l IH] /=; first by rewrite big_ord0.
    rewrite big_ord_recl expr0 mulr1 IH big_distrr /=. congr (_ + _). apply: eq_bigr => i _. by rewrite exprS mulrCA.
  Qed.
  Lemma ev_frob r (charK : r \in [char K]) t l : (ev t l) ^+ r = ev (t ^+ r) l.
  Proof.
    rewrite -(Frobenius_autE charK). elim: l => [|c l IH] /=; first by rewrite Frobenius_aut0.
    rewrite (Frobenius_autD_comm _ (mulrC _ _)) (Frobenius_autM_comm _ (mulrC _ _)) IH. congr (_ + _).
    by rewrite kBE /zK (Frobenius_autB_comm _ (mulrC _ _)) !Frobenius_aut_nat.
  Qed.
End field.

Lemma prime_in_fac (fac : list (Z * Z * list BigZ.t)) (l : Z) : (forall k e b, List.In (k, e, b) fac -> Znumtheory.prime k) -> (forall k e b, List.In (k, e, b) fac -> (0 < e)%Z) ->
  Znumtheory.prime l -> (l | fold_right (fun '(k, e, _) s => k ^ e * s) 1 fac)%Z -> exists e b, List.In (l, e, b) fac.
Proof.
  elim: fac => [|[[k e] b] fac IH] Hp He Hl /= Hd.
  { exfalso. have H1 := Z.divide_1_r _ Hd. destruct Hl. lia. }
  have [Hk|Hk] := prime_mult _ Hl _ _ Hd.
  - exists e, b. left. have -> : l = k; last done. apply: (@prime_power_prime l k e) => //; [have := He k e b (or_introl (erefl _)); lia|by apply: (Hp k e b); left].
  - have [||e' [b' H]] := IH _ _ Hl Hk; [move=> k' e' b' H; apply: (Hp k' e' b'); by right|move=> k' e' b' H; apply: (He k' e' b'); by right|].
    exists e', b'. by right.
Qed.
Lemma mc_prime (p : nat) : prime.prime p -> Znumtheory.prime (Z.of_nat p).
Proof.
  move=> Hp. have H1 := prime_gt1 Hp. apply: prime_intro; first by move/ltP: H1; lia.
  move=> n [H0 Hn]. apply (proj1 (Zgcd_1_rel_prime _ _)). have Hg := Z.gcd_divide_r n (Z.of_nat p). have Hg' := Z.gcd_divide_l n (Z.of_nat p).
  have Hp0 := Z.gcd_nonneg n (Z.of_nat p). have [k Hk] := Hg.
  have Hd : (Z.to_nat (Z.gcd n (Z.of_nat p)) %| p)%N.
  { apply/dvdnP. exists (Z.to_nat k). rewrite -multE. nia. }
  move/primeP: Hp => [_ /(_ _ Hd) /orP [/eqP ?|/eqP ?]]; first lia.
  have := Z.divide_pos_le _ _ _ Hg'. lia.
Qed.

Lemma topos z : (0 < z)%Z -> Pos.to_nat (Z.to_pos z) = Z.to_nat z.
Proof. move=> H. by rewrite -Z2Nat.inj_pos Z2Pos.id. Qed.
Lemma prod_In (K : fieldType) (T : Type) (F : T -> K) (rs : list T) : \prod_(a <- rs) F a = 0 -> exists a, List.In a rs /\ F a = 0.
Proof.
  elim: rs => [|a rs IH]; first by rewrite big_nil => /eqP; rewrite oner_eq0.
  rewrite big_cons => /eqP. rewrite mulf_eq0 => /orP [/eqP E|/eqP /IH [b [Hb E]]]; first by exists a; split; [left|].
  exists b. by split; [right|].
Qed.
Lemma modn_Z (a b : nat) : (0 < b)%N -> Z.of_nat (a %% b) = (Z.of_nat a mod Z.of_nat b)%Z.
Proof.
  move=> Hb. have := ltn_pmod a Hb. move/ltP => H1. apply: (Z.mod_unique_pos _ _ (Z.of_nat (a %/ b))); first lia.
  rewrite {1}(divn_eq a b) -plusE -multE. lia.
Qed.
(** Every prime divisor of [N] is, modulo the order, one of the residues. *)
Lemma lenstra N c (r : nat) : check1 N c = true -> (forall l e b, List.In (l, e, b) (c_fac c) -> Znumtheory.prime l) -> prime.prime r -> (Z.of_nat r | BigZ.to_Z N)%Z ->
  exists x, List.In x (residues N c) /\ (Z.of_nat r mod c_s c = BigZ.to_Z x mod c_s c)%Z.
Proof.
  move=> Hc Hfac Hr [k HN']. move: Hc. rewrite /check1. set s := c_s c. set f := c_f c. set n := Pos.size_nat (Z.to_pos s).
  move=> /andP [/andP [/andP [/andP [/andP [/Z.ltb_lt Hs /Z.ltb_lt Hd] H1] Hl] Hpos] Hprod].
  have Hfits e : fits n e -> (0 < e)%Z /\ (Pos.size_nat (Z.to_pos e) <= n)%coq_nat by move=> /andP [/Z.ltb_lt ? /PeanoNat.Nat.leb_le ?].
  have [K [phi _]] := countable_algebraic_closure [countFieldType of 'F_r].
  have charK : r \in [char K] := rmorph_char phi (char_Fp Hr).
  have HN : kB K N = 0 by rewrite kBE HN' zKM zK_nat (charf0 charK) mulr0.
  have Hd' : (0 < length f)%N by apply/ltP; lia.
  have [t0 Ht] := @solve_monicpoly K (length f) (fun i => - kB K (List.nth i f BigZ.zero)) Hd'.
  have Hf : ev t0 f + t0 ^+ length f = 0.
  { rewrite Ht ev_sum -big_split /=. apply: big1 => i _. by rewrite mulNr subrr. }
  set t := ev t0 (c_a c).
  set S := Z.to_nat s.
  have HS : (0 < S)%N by apply/ltP; rewrite /S; lia.
  have Ht1 : t ^+ S = 1.
  { have := ev_eqA t0 HN H1. rewrite (ev_pow HN Hf) // -/t /= kB1 mulr0 addr0 topos //; lia. }
  have [m Hm Hdiv] := prim_order_exists HS Ht1.
  have Em : m = S.
  { apply/eqP. apply/negPn/negP => Hne.
    have Hq : (1 < S %/ m)%N. { rewrite ltn_neqAle divn_gt0 ?(prim_order_gt0 Hm) // (dvdn_leq HS Hdiv) andbT. apply/eqP => E. move/eqP: Hne. apply. rewrite -(divnK Hdiv) -E. by rewrite mul1n. }
    have Hpd := pdiv_prime Hq. have Hpd' := pdiv_dvd (S %/ m).
    have Hds : (pdiv (S %/ m) * m %| S)%N. { rewrite -{2}(divnK Hdiv). by apply: dvdn_mul. }
    set l := pdiv (S %/ m) in Hpd Hpd' Hds *.
    have HlS : (l %| S)%N by apply: dvdn_trans Hds; apply: dvdn_mulr.
    have HlZ : (Z.of_nat l | s)%Z. { move/dvdnP: HlS => [q Hq']. exists (Z.of_nat q). rewrite -Nat2Z.inj_mul. move: Hq'. rewrite /S -multE. lia. }
    have He : forall k e b, List.In (k, e, b) (c_fac c) -> (0 < e)%Z.
    { move=> k' e b Hin. have Hl' := proj1 (forallb_forall _ _) Hl. move: (Hl' _ Hin) => /andP [/andP [/andP [_ /Z.ltb_lt ?] _] _]. done. }
    have [e [b Hin]] := prime_in_fac Hfac He (mc_prime Hpd) HlZ.
    have Hl' := proj1 (forallb_forall _ _) Hl. move: (Hl' _ Hin) => /andP [/andP [_ /Hfits [_ Hft]] Hinv].
    have := ev_eqA t0 HN Hinv. rewrite (ev_mul HN Hf) ev_add (ev_pow HN Hf) // -/t /=.
    have -> : Pos.to_nat (Z.to_pos (s / Z.of_nat l)) = (S %/ l)%N.
    { move/dvdnP: HlS => [q Hq']. have Hl0 : (0 < l)%N := prime_gt0 Hpd. have Es : s = (Z.of_nat q * Z.of_nat l)%Z by (move: Hq'; rewrite /S -multE; lia).
      rewrite Hq' (mulnK _ Hl0) Es Z.div_mul; last by (move/ltP: Hl0; lia). rewrite topos; first lia. have : q <> 0%N by move=> E; move: Hs; rewrite Es E; lia. lia. }
    have -> : t ^+ (S %/ l) = 1. { apply/eqP. rewrite -(prim_order_dvd Hm) (dvdn_divRL _ HlS) mulnC. done. }
    rewrite kBm1 kB1 !mulr0 !addr0 subrr mulr0 => /esym /eqP. by rewrite oner_eq0. }
  have Hev y : \prod_(a <- List.map (fun e => powT N f (squares N f n (c_a c)) (Z.to_pos e)) (List.map BigZ.to_Z (residues N c))) (y - ev t0 a) = ev y (c_g c).
  { by rewrite -(evP_eq t0 HN y Hprod) (evP_prod HN Hf). }
  have Hg0 : ev t (c_g c) = 0.
  { rewrite -Hev. have -> : residues N c = (BigZ.one :: List.tl (residues N c))%list. { rewrite /residues. case E: (length (c_f c)) => [|d] //. move: Hd. by rewrite /f E. }
    rewrite /= big_cons. have -> : ev t0 (powT N f (squares N f n (c_a c)) 1) = t; last by rewrite subrr mul0r.
    rewrite (ev_pow HN Hf) ?expr1 //. rewrite /n. destruct (Z.to_pos s); cbn; lia. }
  have := Hev (t ^+ r). rewrite -(ev_frob charK) Hg0 expr0n (gtn_eqF (prime_gt0 Hr)).
  move/prod_In => [a [/List.in_map_iff [e [<- He']] /eqP]].
  have [He0 He1] := Hfits _ (proj1 (forallb_forall _ _) Hpos _ He'). move/List.in_map_iff: He' => [e' [Ee He]].
  rewrite subr_eq0 (ev_pow HN Hf) // -/t.
  rewrite topos // (eq_prim_root_expr Hm) Em => /eqP Emod. exists e'. split=> //. rewrite Ee.
  have : Z.of_nat (r %% S) = Z.of_nat (Z.to_nat e %% S) by rewrite Emod.
  rewrite !modn_Z // /S !Z2Nat.id; try lia.
Qed.

Local Close Scope ring_scope.
Local Open Scope Z_scope.
Lemma candidates_ok N cs (r : Z) : inverses cs = true -> (forall c, List.In c cs -> 1 < c_s c /\ exists x, List.In x (residues N c) /\ r mod c_s c = BigZ.to_Z x mod c_s c) ->
  0 < modulus cs /\ exists a, List.In a (candidates N cs) /\ BigZ.to_Z a = r mod modulus cs.
Proof.
  elim: cs => [|c cs IH].
  { move=> _ _. split=> //. exists BigZ.zero. split; [by left|]. by rewrite Z.mod_1_r. }
  cbn [inverses modulus candidates List.fold_right]. fold (modulus cs).
  move=> /andP [/andP [Hinv' /Z.ltb_lt HM] Hi] Hc. have [Hs [x [Hx Ex]]] := Hc c (or_introl (erefl _)).
  have [_ [a [Hin Ha']]] := IH Hi (fun c' H => Hc c' (or_intror H)). split; first nia.
  have Hinv : modulus cs * BigZ.to_Z (c_inv c) mod c_s c = 1.
  { move: Hinv'. rewrite BigZ.spec_eqb BigZ.spec_modulo BigZ.spec_mul !BigZ.spec_of_Z BigZ.spec_1. by move/Z.eqb_eq. }
  exists (BigZ.add a (BigZ.mul (BigZ.of_Z (modulus cs)) (BigZ.modulo (BigZ.mul (BigZ.sub x a) (c_inv c)) (BigZ.of_Z (c_s c))))).
  split. { apply List.in_flat_map. exists a. split=> //. apply List.in_map_iff. by exists x. }
  rewrite BigZ.spec_add BigZ.spec_mul BigZ.spec_modulo BigZ.spec_mul BigZ.spec_sub !BigZ.spec_of_Z {}Ha'.
  move: (BigZ.to_Z x) Ex (BigZ.to_Z (c_inv c)) Hinv => x' Ex v Hinv. set M := modulus cs in HM Hinv *. set s := c_s c in Hs Hinv Ex *.
  have Er := Z_div_mod_eq_full r M. set q := r / M in Er. set a' := r mod M in Er *. have Ha : 0 <= a' < M := Z.mod_pos_bound r M HM.
  have Eq : (x' - a') * v mod s = q mod s.
  { rewrite -(Z.mul_mod_idemp_l (x' - a') v s); last lia. rewrite Zminus_mod -Ex -Zminus_mod Z.mul_mod_idemp_l; last lia.
    have -> : (r - a') * v = q * (M * v) by rewrite Er; ring. rewrite -Z.mul_mod_idemp_r; last lia. by rewrite Hinv Z.mul_1_r. }
  rewrite Eq. have Hq := Z.mod_pos_bound q s ltac:(lia). have Eqs := Z_div_mod_eq_full q s. rewrite {1}Er {2}Eqs.
  apply: (Z.mod_unique_pos _ _ (q / s)); first nia. ring.
Qed.

(** A number that passes is prime. *)
Theorem checkN_prime N cs : checkN N cs = true -> (forall l, List.In l (needs cs) -> Znumtheory.prime l) -> Znumtheory.prime (BigZ.to_Z N).
Proof.
  rewrite /checkN => /andP [/andP [/andP [/andP [HN Hc] Hi] HM] Hcand] Hl.
  move: HN HM. rewrite !BigZ.spec_ltb BigZ.spec_mul !BigZ.spec_of_Z BigZ.spec_1 => /Z.ltb_lt HN /Z.ltb_lt HM.
  have Hpd : forall r : nat, prime.prime r -> (Z.of_nat r | BigZ.to_Z N) -> BigZ.to_Z N < Z.of_nat r * Z.of_nat r.
  { move=> r Hr Hd. have [//|Hle] := Z.lt_ge_cases (BigZ.to_Z N) (Z.of_nat r * Z.of_nat r). exfalso.
    have Hr1 := prime_gt1 Hr. move/ltP in Hr1.
    have [HM0 [a [Hin Ha]]] : 0 < modulus cs /\ exists a, List.In a (candidates N cs) /\ BigZ.to_Z a = Z.of_nat r mod modulus cs.
    { apply: candidates_ok => // c Hin. have Hc' := proj1 (forallb_forall _ _) Hc c Hin. split.
      { move: Hc'. rewrite /check1 => /andP [/andP [/andP [/andP [/andP [/Z.ltb_lt ? _] _] _] _] _]. done. }
      apply: lenstra => // l e b Hf. apply: Hl. apply List.in_flat_map. exists c. split=> //. apply List.in_map_iff. by exists (l, e, b). }
    rewrite Z.mod_small in Ha; last nia.
    have := proj1 (forallb_forall _ _) Hcand _ Hin. rewrite BigZ.spec_leb BigZ.spec_eqb BigZ.spec_ltb BigZ.spec_modulo BigZ.spec_mul BigZ.spec_0 BigZ.spec_1 Ha.
    move=> /orP [/orP [/Z.leb_le ?|/negP Hn]|/Z.ltb_lt ?]; try lia.
    apply: Hn. apply/Z.eqb_eq. apply Z.mod_divide; [lia|done]. }
  move: (BigZ.to_Z N) HN Hpd => n HN Hpd.
  have EN : n = Z.of_nat (Z.to_nat n) by lia. rewrite EN. apply: mc_prime. apply/negPn/negP => Hnp.
  have H1 : (1 < Z.to_nat n)%N by apply/ltP; lia.
  have Hp := pdiv_prime H1. have Hd := pdiv_dvd (Z.to_nat n). have H0 : (0 < Z.to_nat n)%N by apply/ltP; lia.
  have Hsq : (pdiv (Z.to_nat n) ^ 2 <= Z.to_nat n)%N. { have := Hnp. move/primePns. case; [by move: H1; case: (Z.to_nat n) => [|[|]]|]. move=> [p [Hp1 Hp2 Hp3]].
    apply: leq_trans Hp2. rewrite leq_exp2r //. by apply: pdiv_min_dvd => //; apply: prime_gt1. }
  have Hz : (Z.of_nat (pdiv (Z.to_nat n)) | n). { move/dvdnP: Hd => [k Hk]. exists (Z.of_nat k). rewrite -Nat2Z.inj_mul. move: Hk. rewrite -multE. lia. }
  have := Hpd _ Hp Hz. move: Hsq. rewrite -mulnn -multE => /leP. lia.
Qed.
Lemma trial_div_prime n : trial_div n = true -> Znumtheory.prime n.
Proof.
  rewrite /trial_div => /andP [/Z.ltb_lt Hn H]. apply prime_alt. split=> // m Hm [k Hk].
  have Hs := Z.sqrt_spec n ltac:(lia). have Hk1 : 1 < k < n by nia.
  have Hno : forall d, 1 < d <= Z.sqrt n -> n mod d <> 0.
  { move=> d Hd E. have Hin : List.In (Z.to_nat (d - 2)) (List.seq 0 (Z.to_nat (Z.sqrt n) - 1)%coq_nat) by apply List.in_seq; lia.
    have := proj1 (forallb_forall _ _) H _ Hin. have -> : Z.of_nat (Z.to_nat (d - 2)) + 2 = d by lia. by rewrite E. }
  have [Hle|Hgt] := Z.le_gt_cases m (Z.sqrt n).
  - apply: (Hno m); first lia. by rewrite Hk Z.mod_mul; [|lia].
  - have Hkle : k <= Z.sqrt n.
    { have [//|Hge] := Z.le_gt_cases k (Z.sqrt n). exfalso. move: (Z.sqrt n) (Z.sqrt_nonneg n) Hs Hgt Hge => q Hq0 Hs Hgt Hge.
      cbv zeta in Hs. have H3 := Z.mul_le_mono_nonneg (Z.succ q) k (Z.succ q) m ltac:(lia) ltac:(lia) ltac:(lia) ltac:(lia). rewrite -Hk in H3. lia. }
    apply: (Hno k); first lia. rewrite Hk Z.mul_comm Z.mod_mul; [done|lia].
Qed.
Print Assumptions checkN_prime.
