(** Characters, strings and numbers of JSON. *)
From Coq Require Import ZArith List Bool Lia ZifyBool.
From Verif Require Import Uuid_Model Json_Model Json_Spec.
Import ListNotations.
Local Open Scope Z_scope.

Lemma in_spec lo hi b : in_ lo hi b = true <-> lo <= b <= hi. Proof. unfold in_. lia. Qed.
Lemma in_false lo hi b : in_ lo hi b = false <-> ~ lo <= b <= hi. Proof. unfold in_. lia. Qed.
Lemma utf8_len c u r : utf8 c u -> rune_len (u ++ r) = length u.
Proof.
  destruct 1; cbn [app rune_len length].
  - rewrite (proj2 (in_spec 0 127 c)) by lia. reflexivity.
  - rewrite (proj2 (in_false 0 127 _)) by lia. match goal with |- context [if ?q then _ else _] => assert (q = true) as -> by (rewrite !andb_true_iff, !in_spec; lia) end. reflexivity.
  - rewrite (proj2 (in_false 0 127 _)) by lia. rewrite (proj2 (in_false 0xC2 0xDF _)) by lia. cbn [andb]. unfold scalar in *.
    match goal with |- context [if in_ ?p ?q ?r && ?x && ?y then _ else _] => assert (in_ p q r && x && y = true) as ->; [|reflexivity] end. rewrite !andb_true_iff, !in_spec. destruct (Z.eqb_spec (0xE0 + a) 0xE0), (Z.eqb_spec (0xE0 + a) 0xED); lia.
  - rewrite (proj2 (in_false 0 127 _)) by lia. rewrite (proj2 (in_false 0xC2 0xDF _)) by lia. rewrite (proj2 (in_false 0xE0 0xEF _)) by lia. cbn [andb].
    match goal with |- context [if in_ ?p ?q ?r && ?x && ?y && ?z then _ else _] => assert (in_ p q r && x && y && z = true) as ->; [|reflexivity] end. rewrite !andb_true_iff, !in_spec. destruct (Z.eqb_spec (0xF0 + a) 0xF0), (Z.eqb_spec (0xF0 + a) 0xF4); lia.
Qed.
Lemma utf8_pos c u : utf8 c u -> exists k, length u = S k. Proof. destruct 1; eexists; reflexivity. Qed.
Lemma firstn_app_exact {A} (u r : list A) : firstn (length u) (u ++ r) = u. Proof. rewrite firstn_app, Nat.sub_diag, firstn_all. cbn. apply app_nil_r. Qed.
Lemma skipn_app_exact {A} (u r : list A) : skipn (length u) (u ++ r) = r. Proof. rewrite skipn_app, Nat.sub_diag, skipn_all. reflexivity. Qed.
Lemma rune_sound l k : rune_len l = S k -> exists c u r, utf8 c u /\ l = u ++ r /\ length u = S k.
Proof.
  unfold rune_len. destruct l as [|a l]; [discriminate|]. destruct (in_ 0 127 a) eqn:A1. { apply in_spec in A1. intros [= <-]. exists a, [a], l. split; [constructor; lia|split; reflexivity]. }
  destruct l as [|b l]; [discriminate|]. destruct (in_ 0xC2 0xDF a && in_ 128 191 b) eqn:A2. { apply andb_true_iff in A2 as [B1 B2]. apply in_spec in B1, B2. intros [= <-]. exists ((a - 0xC0) * 64 + (b - 0x80)), [0xC0 + (a - 0xC0); 0x80 + (b - 0x80)], l. split; [apply utf8_2; lia|]. split; [|reflexivity]. cbn [app]. repeat (f_equal; try lia). }
  destruct l as [|c l]; [discriminate|]. cbv zeta. match goal with |- (if ?q then _ else _) = _ -> _ => destruct q eqn:A3 end.
  { apply andb_true_iff in A3 as [B1 B3]. apply andb_true_iff in B1 as [B1 B2]. apply in_spec in B1, B2, B3. intros [= <-]. exists ((a - 0xE0) * 4096 + (b - 0x80) * 64 + (c - 0x80)), [0xE0 + (a - 0xE0); 0x80 + (b - 0x80); 0x80 + (c - 0x80)], l.
    split; [|split; [cbn [app]; repeat (f_equal; try lia)|reflexivity]]. clear A1 A2. assert ((a = 0xE0 -> 0xA0 <= b) /\ (a = 0xED -> b <= 0x9F) /\ 128 <= b <= 191) as (Q1 & Q2 & Q3) by (destruct (Z.eqb_spec a 0xE0), (Z.eqb_spec a 0xED); lia). apply utf8_3; unfold scalar; lia. }
  destruct l as [|d l]; [discriminate|]. match goal with |- (if ?q then _ else _) = _ -> _ => destruct q eqn:A4 end; [|discriminate].
  apply andb_true_iff in A4 as [B1 B4]. apply andb_true_iff in B1 as [B1 B3]. apply andb_true_iff in B1 as [B1 B2]. apply in_spec in B1, B2, B3, B4. intros [= <-].
  exists ((a - 0xF0) * 262144 + (b - 0x80) * 4096 + (c - 0x80) * 64 + (d - 0x80)), [0xF0 + (a - 0xF0); 0x80 + (b - 0x80); 0x80 + (c - 0x80); 0x80 + (d - 0x80)], l.
  split; [|split; [cbn [app]; repeat (f_equal; try lia)|reflexivity]]. clear A1 A2 A3. assert ((a = 0xF0 -> 0x90 <= b) /\ (a = 0xF4 -> b <= 0x8F) /\ 128 <= b <= 191) as (Q1 & Q2 & Q3) by (destruct (Z.eqb_spec a 0xF0), (Z.eqb_spec a 0xF4); lia). apply utf8_4; lia.
Qed.
Lemma utf8_scalar c u : utf8 c u -> scalar c. Proof. destruct 1; unfold scalar in *; lia. Qed.
Lemma runeBytes_utf8 c : scalar c -> utf8 c (runeBytes c).
Proof.
  intros H. unfold scalar in H. unfold runeBytes. destruct (Z.ltb_spec c 0x80); [constructor; lia|]. destruct (Z.ltb_spec c 0x800).
  { assert (c = c / 64 * 64 + c mod 64) as E by (Z.div_mod_to_equations; lia). rewrite E at 1. constructor; Z.div_mod_to_equations; lia. }
  destruct (Z.ltb_spec c 0x10000).
  { assert (c = c / 4096 * 4096 + c / 64 mod 64 * 64 + c mod 64) as E by (Z.div_mod_to_equations; lia). rewrite E at 1. constructor; try rewrite <- E; unfold scalar; try (Z.div_mod_to_equations; lia). }
  assert (c = c / 262144 * 262144 + c / 4096 mod 64 * 4096 + c / 64 mod 64 * 64 + c mod 64) as E by (Z.div_mod_to_equations; lia). rewrite E at 1. constructor; try rewrite <- E; try (Z.div_mod_to_equations; lia).
Qed.
Lemma utf8_bytes c u : utf8 c u -> u = runeBytes c.
Proof.
  intros H. assert (scalar c) as S by exact (utf8_scalar c u H). destruct H; unfold runeBytes, scalar in *.
  - rewrite (proj2 (Z.ltb_lt _ _)) by lia. reflexivity.
  - rewrite (proj2 (Z.ltb_ge _ 0x80)), (proj2 (Z.ltb_lt _ 0x800)) by lia. repeat f_equal; Z.div_mod_to_equations; lia.
  - rewrite (proj2 (Z.ltb_ge _ 0x80)), (proj2 (Z.ltb_ge _ 0x800)), (proj2 (Z.ltb_lt _ _)) by lia. repeat f_equal; Z.div_mod_to_equations; lia.
  - rewrite (proj2 (Z.ltb_ge _ 0x80)), (proj2 (Z.ltb_ge _ 0x800)), (proj2 (Z.ltb_ge _ _)) by lia. repeat f_equal; Z.div_mod_to_equations; lia.
Qed.
(** Characters above 127 have no bytes below. *)
Lemma utf8_high c b u : utf8 c (b :: u) -> 128 <= b -> Forall (fun x => 128 <= x) (b :: u).
Proof. intros H. remember (b :: u) as w eqn:E. destruct H; injection E as <- _; intros; repeat (apply Forall_cons; [lia|]); apply Forall_nil. Qed.
Lemma utf8_first c u : utf8 c u -> exists b q, u = b :: q /\ (c < 128 -> b = c) /\ (128 <= c -> 128 <= b) /\ 0 <= b.
Proof. intros H. destruct H; eexists; eexists; (split; [reflexivity|]); unfold scalar in *; repeat split; intros; lia. Qed.

(** ** Hex digits *)
Lemma hexval_unhex b x : hexval b x <-> unhex b = Some x.
Proof.
  unfold unhex. split.
  - destruct 1; repeat (match goal with |- context [if ?q then _ else _] => destruct q eqn:? end); try lia; f_equal; lia.
  - repeat (match goal with |- context [if ?q then _ else _] => destruct q eqn:? end); intros [= <-]; [apply hex_digit; lia|replace (b - 97 + 10) with (b - 87) by lia; apply hex_lower; lia|replace (b - 65 + 10) with (b - 55) by lia; apply hex_upper; lia].
Qed.
Lemma hexval_range b x : hexval b x -> 0 <= x < 16 /\ b <> 34 /\ b <> 92. Proof. destruct 1; lia. Qed.
Lemma hexes_hex4 h c r : hexes h c -> hex4 (h ++ r) = Some c /\ skipn 4 (h ++ r) = r /\ length h = 4%nat.
Proof. destruct 1 as [a b e d x y z w H1 H2 H3 H4]. apply hexval_unhex in H1, H2, H3, H4. cbn [app hex4 skipn length]. rewrite H1, H2, H3, H4. repeat split. f_equal. lia. Qed.
Lemma hex4_hexes l c : hex4 l = Some c -> exists h, l = h ++ skipn 4 l /\ hexes h c.
Proof.
  destruct l as [|a [|b [|e [|d r]]]]; try discriminate. cbn [hex4]. destruct (unhex a) as [x|] eqn:H1, (unhex b) as [y|] eqn:H2, (unhex e) as [z|] eqn:H3, (unhex d) as [w|] eqn:H4; try discriminate. intros [= <-].
  exists [a; b; e; d]. split; [reflexivity|]. replace (((x * 16 + y) * 16 + z) * 16 + w) with (x * 4096 + y * 256 + z * 16 + w) by lia. constructor; apply hexval_unhex; assumption.
Qed.
Lemma hexes_range h c : hexes h c -> 0 <= c < 65536. Proof. destruct 1 as [a b e d x y z w H1 H2 H3 H4]. apply hexval_range in H1, H2, H3, H4. lia. Qed.
Lemma hexes_no h c : hexes h c -> Forall (fun b => b <> 34 /\ b <> 92) h. Proof. destruct 1 as [a b e d x y z w H1 H2 H3 H4]. apply hexval_range in H1, H2, H3, H4. repeat (constructor; [tauto|]). constructor. Qed.
Lemma letter_spec e x : letter e = Some x <-> stands_for e x.
Proof.
  unfold letter. split.
  - repeat (match goal with |- context [if ?q then _ else _] => destruct q eqn:? end); intros [= <-].
    + apply orb_true_iff in Heqb as [Heqb|Heqb]; [apply orb_true_iff in Heqb as [Heqb|Heqb]|]; apply Z.eqb_eq in Heqb; subst; constructor.
    + apply Z.eqb_eq in Heqb0; subst; constructor.
    + apply Z.eqb_eq in Heqb1; subst; constructor.
    + apply Z.eqb_eq in Heqb2; subst; constructor.
    + apply Z.eqb_eq in Heqb3; subst; constructor.
    + apply Z.eqb_eq in Heqb4; subst; constructor.
  - destruct 1; reflexivity.
Qed.
Lemma word_spec w l r : word w l = Some r <-> l = w ++ r.
Proof.
  revert l. induction w as [|a w IH]; intros l; [cbn; split; [intros [= ->]; reflexivity|intros ->; reflexivity]|]. destruct l as [|b l]; [cbn; split; discriminate|]. cbn [word app]. destruct (Z.eqb_spec a b) as [->|Hn].
  - rewrite IH. split; [intros ->; reflexivity|intros [= ->]; reflexivity].
  - split; [discriminate|intros [= -> _]; congruence].
Qed.
Lemma word_none c l : word [c] l = None <-> forall r, l <> c :: r.
Proof. split; [intros H r ->; cbn in H; rewrite Z.eqb_refl in H; discriminate|]. intros H. destruct (word [c] l) as [r|] eqn:E; [|reflexivity]. apply word_spec in E. exfalso. exact (H r E). Qed.
Lemma escape_surrogates u lo (q : unit) : (in_ 0xD800 0xDBFF u && in_ 0xDC00 0xDFFF lo = true) <-> (high u /\ low lo).
Proof. clear q. unfold high, low. rewrite andb_true_iff, !in_spec. lia. Qed.

(** ** Strings *)
Lemma str_complete lenient s t : spells lenient s t -> forall r n, (length (t ++ 34%Z :: r) <= n)%nat -> str n (t ++ 34 :: r) = Some (s, r).
Proof.
  induction 1 as [|c u s t Hu H1 H2 H3 Hs IH|e x s t He Hs IH|h c u s t Hh Hu Hs IH|h hi g lo u s t Hh Hg Hhi Hlo Hu Hs IH|h c s t Hl Hh Hc Hno Hs IH|b s t Hl Hb Hno Hs IH]; intros r n L; (destruct n as [|n]; [cbn in L; rewrite ?app_length in L; cbn in L; lia|]).
  - reflexivity.
  - rewrite <- app_assoc in *. destruct (utf8_first c u Hu) as (b & q & -> & F1 & F2 & F3). assert (b <> 34 /\ b <> 92 /\ 32 <= b) as (N1 & N2 & N3) by (destruct (Z_lt_dec c 128); lia).
    pose proof (utf8_len c (b :: q) (t ++ 34 :: r) Hu) as RL. cbn [app] in *. cbn [str]. rewrite (proj2 (Z.eqb_neq b 34)), (proj2 (Z.ltb_ge b 32)), (proj2 (Z.eqb_neq b 92)) by assumption.
    rewrite RL. cbn [length]. change (b :: q ++ t ++ 34 :: r) with ((b :: q) ++ (t ++ 34 :: r)). change (S (length q)) with (length (b :: q)). rewrite firstn_app_exact, skipn_app_exact. rewrite IH by (cbn in L; rewrite !app_length in *; cbn in *; lia). reflexivity.
  - cbn [app] in *. cbn [str]. change (92 =? 34) with false. change (92 <? 32) with false. change (92 =? 92) with true. cbn iota. assert (e =? 117 = false) as -> by (destruct He; reflexivity). rewrite (proj2 (letter_spec e x) He). rewrite IH by (cbn in L; lia). reflexivity.
  - cbn [app] in *. rewrite <- app_assoc in *. cbn [str]. change (92 =? 34) with false. change (92 <? 32) with false. change (92 =? 92) with true. change (117 =? 117) with true. cbn iota.
    destruct (hexes_hex4 h c (t ++ 34 :: r) Hh) as (E1 & E2 & E3). rewrite E1, E2. pose proof (utf8_scalar c u Hu) as Sc. assert (in_ 0xD800 0xDFFF c = false) as -> by (apply in_false; unfold scalar in Sc; lia).
    rewrite IH by (cbn in L; rewrite !app_length in *; cbn in *; lia). rewrite (utf8_bytes c u Hu). reflexivity.
  - cbn [app] in *. rewrite <- app_assoc in *. cbn [app] in *. rewrite <- app_assoc in *. cbn [str]. change (92 =? 34) with false. change (92 <? 32) with false. change (92 =? 92) with true. change (117 =? 117) with true. cbn iota.
    destruct (hexes_hex4 h hi (92 :: 117 :: g ++ t ++ 34 :: r) Hh) as (E1 & E2 & E3). rewrite E1, E2. assert (in_ 0xD800 0xDFFF hi = true) as -> by (apply in_spec; unfold high in Hhi; lia).
    cbn [word]. change (92 =? 92) with true. change (117 =? 117) with true. cbn iota. destruct (hexes_hex4 g lo (t ++ 34 :: r) Hg) as (G1 & G2 & G3). rewrite G1, G2. rewrite (proj2 (escape_surrogates hi lo tt) (conj Hhi Hlo)).
    rewrite IH by (cbn in L; rewrite !app_length in *; cbn in L; rewrite !app_length in *; cbn in *; lia). rewrite (utf8_bytes _ u Hu). reflexivity.
  - cbn [app] in *. rewrite <- app_assoc in *. cbn [str]. change (92 =? 34) with false. change (92 <? 32) with false. change (92 =? 92) with true. change (117 =? 117) with true. cbn iota.
    destruct (hexes_hex4 h c (t ++ 34 :: r) Hh) as (E1 & E2 & E3). rewrite E1, E2. assert (in_ 0xD800 0xDFFF c = true) as -> by (apply in_spec; unfold high, low in Hc; lia).
    assert (match word [92; 117] (t ++ 34 :: r) with Some q => match hex4 q with Some lo => if in_ 0xD800 0xDBFF c && in_ 0xDC00 0xDFFF lo then Some (0x10000 + (c - 0xD800) * 1024 + (lo - 0xDC00), skipn 4 q) else None | None => None end | None => None end = None) as ->.
    { destruct (word [92; 117] (t ++ 34 :: r)) as [q|] eqn:W; [|reflexivity]. destruct (hex4 q) as [lo|] eqn:G; [|reflexivity]. destruct (in_ 0xD800 0xDBFF c && in_ 0xDC00 0xDFFF lo) eqn:S; [|reflexivity]. exfalso. apply (escape_surrogates c lo tt) in S as [S1 S2].
      apply word_spec in W. apply hex4_hexes in G as (g & Eq & Hg). pose proof (hexes_no g lo Hg) as Ng. destruct (hexes_hex4 g lo [] Hg) as (_ & _ & Lg). rewrite Eq in W. cbn [app] in W.
      destruct t as [|t0 [|t1 t]]; cbn [app] in W; try discriminate. injection W as -> -> W.
      assert (exists t', t = g ++ t') as [t' ->]; [|exact (Hno g lo t' S1 eq_refl Hg S2)].
      clear - W Ng. revert t W. induction g as [|x g IHg]; intros t W; [exists t; reflexivity|]. inversion Ng as [|? ? Nx Ng']; subst. destruct t as [|y t]; cbn [app] in W; [injection W as W _; destruct Nx; congruence|]. injection W as -> W. destruct (IHg Ng' t W) as [t' ->]. exists t'. reflexivity. }
    rewrite IH by (cbn in L; rewrite !app_length in *; cbn in *; lia). reflexivity.
  - cbn [app] in *. cbn [str]. rewrite (proj2 (Z.eqb_neq b 34)), (proj2 (Z.ltb_ge b 32)), (proj2 (Z.eqb_neq b 92)) by lia.
    destruct (rune_len (b :: t ++ 34 :: r)) as [|k] eqn:RL. { rewrite IH by (cbn in L; lia). reflexivity. }
    exfalso. apply rune_sound in RL as (c & u & q & Hu & E & _). destruct u as [|b' u]; [inversion Hu|]. cbn [app] in E. injection E as <- E. pose proof (utf8_high c b u Hu Hb) as Hh. inversion Hh as [|? ? _ Hh']; subst.
    assert (exists t', t = u ++ t') as [t' ->]; [|exact (Hno c (b :: u) t' Hu eq_refl)].
    clear - E Hh'. revert t E. induction u as [|x u IHu]; intros t E; [exists t; reflexivity|]. inversion Hh' as [|? ? Nx Nu]; subst. destruct t as [|y t]; cbn [app] in E; [injection E as E _; lia|]. injection E as -> E. destruct (IHu Nu t E) as [t' ->]. exists t'. reflexivity.
Qed.
Lemma om (c : list Z) o s (r : list Z) : option_map (fun p : list Z * list Z => (c ++ fst p, snd p)) o = Some (s, r) -> exists s', o = Some (s', r) /\ s = c ++ s'.
Proof. destruct o as [[s' r']|]; [|discriminate]. cbn [option_map fst snd]. intros H. inversion H. exists s'. split; reflexivity. Qed.
Lemma str_sound n : forall l s r, str n l = Some (s, r) -> exists t, l = t ++ 34 :: r /\ spells true s t.
Proof.
  induction n as [|n IH]; intros l s r H; [discriminate|]. destruct l as [|b l]; [discriminate|]. cbn [str] in H. destruct (Z.eqb_spec b 34) as [->|N34]. { injection H as <- <-. exists []. split; [reflexivity|constructor]. }
  destruct (Z.ltb_spec b 32) as [|G32]; [discriminate|]. destruct (Z.eqb_spec b 92) as [->|N92].
  - destruct l as [|e l]; [discriminate|]. destruct (Z.eqb_spec e 117) as [->|N117].
    + destruct (hex4 l) as [u|] eqn:Hh; [|discriminate]. apply hex4_hexes in Hh as (h & El & Hh). set (q := skipn 4 l) in *. clearbody q. subst l. pose proof (hexes_range h u Hh) as Ru. destruct (in_ 0xD800 0xDFFF u) eqn:Su.
      * apply in_spec in Su. destruct (word [92; 117] q) as [q'|] eqn:W.
        -- apply word_spec in W. subst q. change ([92; 117] ++ q') with (92 :: 117 :: q') in *. destruct (hex4 q') as [lo|] eqn:Hg.
           ++ destruct (in_ 0xD800 0xDBFF u && in_ 0xDC00 0xDFFF lo) eqn:S.
              ** apply (escape_surrogates u lo tt) in S as [S1 S2]. apply hex4_hexes in Hg as (g & Eg & Hg). set (q2 := skipn 4 q') in *. clearbody q2. subst q'. apply om in H as (s' & E & ->). apply IH in E as (t & -> & Ht).
                 exists (92 :: 117 :: h ++ 92 :: 117 :: g ++ t). split; [cbn [app]; rewrite <- app_assoc; cbn [app]; rewrite <- app_assoc; reflexivity|]. apply (sp_pair true h u g lo); auto. apply runeBytes_utf8. unfold scalar, high, low in *. lia.
              ** apply om in H as (s' & E & ->). apply IH in E as (t & Et & Ht). rewrite Et. exists (92 :: 117 :: h ++ t). split; [cbn [app]; rewrite <- app_assoc; reflexivity|].
                 apply (sp_single true h u); auto; [unfold high, low; lia|]. intros g lo' t' Hi -> Hg' Hlo. cbn [app] in Et. injection Et as Et. rewrite <- app_assoc in Et. destruct (hexes_hex4 g lo' (t' ++ 34 :: r) Hg') as (E1 & _ & _). rewrite <- Et in E1. rewrite Hg in E1. injection E1 as ->.
                 rewrite (proj2 (escape_surrogates u lo' tt) (conj Hi Hlo)) in S. discriminate.
           ++ apply om in H as (s' & E & ->). apply IH in E as (t & Et & Ht). rewrite Et. exists (92 :: 117 :: h ++ t). split; [cbn [app]; rewrite <- app_assoc; reflexivity|].
              apply (sp_single true h u); auto; [unfold high, low; lia|]. intros g lo' t' Hi -> Hg' Hlo. cbn [app] in Et. injection Et as Et. rewrite <- app_assoc in Et. destruct (hexes_hex4 g lo' (t' ++ 34 :: r) Hg') as (E1 & _ & _). rewrite <- Et in E1. congruence.
        -- apply om in H as (s' & E & ->). apply IH in E as (t & -> & Ht). exists (92 :: 117 :: h ++ t). split; [cbn [app]; rewrite <- app_assoc; reflexivity|].
           apply (sp_single true h u); auto; [unfold high, low; lia|]. intros g lo' t' Hi -> Hg' Hlo. cbn [app] in W. cbn [word] in W. change (92 =? 92) with true in W. change (117 =? 117) with true in W. discriminate.
      * apply in_false in Su. apply om in H as (s' & E & ->). apply IH in E as (t & -> & Ht). exists (92 :: 117 :: h ++ t). split; [cbn [app]; rewrite <- app_assoc; reflexivity|].
        apply (sp_hex true h u); auto. apply runeBytes_utf8. unfold scalar. lia.
    + destruct (letter e) as [x|] eqn:Le; [|discriminate]. apply letter_spec in Le. apply om in H as (s' & E & ->). apply IH in E as (t & -> & Ht). exists (92 :: e :: t). split; [reflexivity|]. cbn [app]. constructor; assumption.
  - destruct (rune_len (b :: l)) as [|k] eqn:RL.
    + apply om in H as (s' & E & ->). apply IH in E as (t & -> & Ht). exists (b :: t). split; [reflexivity|]. apply sp_bad; auto.
      * destruct (Z_lt_dec b 128); [|lia]. cbn [rune_len] in RL. rewrite (proj2 (in_spec 0 127 b)) in RL by lia. discriminate.
      * intros c u t' Hu E. pose proof (utf8_len c u (t' ++ 34 :: r) Hu) as X. rewrite app_assoc, <- E in X. cbn [app] in X. rewrite RL in X. destruct (utf8_pos c u Hu) as [k' Hk]. lia.
    + destruct (rune_sound _ _ RL) as (c & u & q & Hu & E & Lu). rewrite E in H. rewrite <- Lu in H. rewrite firstn_app_exact, skipn_app_exact in H. apply om in H as (s' & E' & ->). apply IH in E' as (t & -> & Ht). exists (u ++ t). split; [rewrite E, app_assoc; reflexivity|].
      destruct u as [|b' u]; [inversion Hu|]. cbn [app] in E. injection E as <- E. destruct (utf8_first c (b :: u) Hu) as (b' & q' & [= <- <-] & F1 & F2 & F3). apply (sp_char true c (b :: u)); auto; destruct (Z_lt_dec c 128); lia.
Qed.
Lemma spells_lenient s t : spells false s t -> spells true s t.
Proof. induction 1; [constructor|eapply sp_char; eauto|eapply sp_letter; eauto|eapply sp_hex; eauto|eapply sp_pair; eauto|discriminate|discriminate]. Qed.
