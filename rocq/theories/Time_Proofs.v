(** Lemmas for StrToTimeFormat. *)
From stdpp Require Import list.
From Coq Require Import ZArith Lia Bool ZifyBool.
From Verif Require Import GoInt Time_Model Time_Spec.
Local Open Scope Z_scope.
Ltac Zify.zify_post_hook ::= Z.to_euclidean_division_equations.

(** Calendar. *)
Lemma isLeap_spec y : isLeap y = true <-> leap y.
Proof.
  unfold isLeap, leap. rewrite andb_true_iff, orb_true_iff, negb_true_iff, !Z.eqb_eq, Z.eqb_neq.
  rewrite <- !Z.mod_divide by lia. tauto.
Qed.
Lemma isLeap_no y : ~ leap y -> isLeap y = false.
Proof. intros H. destruct (isLeap y) eqn:E; [|done]. apply isLeap_spec in E. done. Qed.

Lemma month_days_spec y m n : month_days y m n <-> 1 <= m <= 12 /\ n = daysIn m y.
Proof.
  unfold month_days, daysIn. split.
  - intros [[H ->] | [[H ->] | [(-> & H & ->) | (-> & H & ->)]]].
    + destruct H as [->|[->|[->|[->|[->|[->| ->]]]]]]; (split; [lia|reflexivity]).
    + destruct H as [->|[->|[->| ->]]]; (split; [lia|reflexivity]).
    + apply isLeap_spec in H. rewrite H. split; [lia|reflexivity].
    + apply isLeap_no in H. rewrite H. split; [lia|reflexivity].
  - intros [H ->].
    assert (m = 1 \/ m = 2 \/ m = 3 \/ m = 4 \/ m = 5 \/ m = 6 \/ m = 7 \/ m = 8 \/ m = 9 \/ m = 10 \/ m = 11 \/ m = 12) as HM by lia.
    clear H. repeat (destruct HM as [-> | HM]); try subst m;
      try (left; split; [tauto|reflexivity]); try (right; left; split; [tauto|reflexivity]).
    destruct (isLeap y) eqn:E; [apply isLeap_spec in E; right; right; left; done|].
    right. right. right. split; [done|]. split; [|done]. intros L. apply isLeap_spec in L. congruence.
Qed.

(** Days before a date, counted from the first day of the year 1; the closed form. *)
Definition dayno (x : Z * Z * Z) : Z :=
  let '(y, m, d) := x in
  365 * (y - 1) + (y - 1) / 4 - (y - 1) / 100 + (y - 1) / 400 +
  daysBefore (m - 1) + (if isLeap y && (3 <=? m) then 1 else 0) + (d - 1).

Lemma year_length y : dayno (y + 1, 1, 1) = dayno (y, 12, 31) + 1.
Proof.
  unfold dayno. cbn [daysBefore]. replace (daysBefore (1 - 1)) with 0 by done. replace (daysBefore (12 - 1)) with 334 by done.
  replace (3 <=? 1) with false by done. replace (3 <=? 12) with true by done. rewrite andb_false_r, andb_true_r.
  destruct (isLeap y) eqn:E; unfold isLeap in E; rewrite ?andb_true_iff, ?andb_false_iff, ?orb_true_iff, ?orb_false_iff, ?negb_true_iff, ?negb_false_iff in E; lia.
Qed.
Lemma month_step y m : 1 <= m < 12 -> dayno (y, m + 1, 1) = dayno (y, m, daysIn m y) + 1.
Proof.
  intros H.
  assert (m = 1 \/ m = 2 \/ m = 3 \/ m = 4 \/ m = 5 \/ m = 6 \/ m = 7 \/ m = 8 \/ m = 9 \/ m = 10 \/ m = 11) as HM by lia.
  clear H. unfold dayno, daysIn.
  repeat (destruct HM as [-> | HM]); try subst m; destruct (isLeap y);
    lazymatch goal with |- _ + _ + (if ?b then _ else _) + _ = _ => idtac end;
    repeat lazymatch goal with
    | |- context [daysBefore ?x] => let v := eval vm_compute in (daysBefore x) in change (daysBefore x) with v
    | |- context [andb ?a ?b] => let v := eval vm_compute in (andb a b) in change (andb a b) with v
    end; cbv iota; lia.
Qed.
Lemma next_dayno a b : next_day a b -> dayno b = dayno a + 1.
Proof.
  intros [y m d n H R | y m n H L | y].
  - unfold dayno. lia.
  - apply month_days_spec in H as [H ->]. apply month_step. lia.
  - apply year_length.
Qed.
Lemma apart_dayno a b n : days_apart a b n -> dayno b = dayno a + n.
Proof. induction 1 as [|b c n H IH N]; [lia|]. rewrite (next_dayno _ _ N). lia. Qed.

Lemma apart_trans a b c n k : days_apart a b n -> days_apart b c k -> days_apart a c (n + k).
Proof. intros H. induction 1 as [|c d k K IH N]; [by rewrite Z.add_0_r|]. rewrite Z.add_assoc. by eapply apart_S. Qed.
Definition reach a b := exists n, 0 <= n /\ days_apart a b n.
Lemma reach_trans a b c : reach a b -> reach b c -> reach a c.
Proof. intros (n & N & A) (k & K & B). exists (n + k). split; [lia|]. by eapply apart_trans. Qed.
Lemma reach_step a b : next_day a b -> reach a b.
Proof. intros H. exists (0 + 1). split; [lia|]. eapply apart_S; [constructor|done]. Qed.
Lemma reach_refl a : reach a a.
Proof. exists 0. split; [lia|]. constructor. Qed.
Lemma reach_in_month y m d e : 1 <= m <= 12 -> 1 <= d <= e -> e <= daysIn m y -> reach (y, m, d) (y, m, e).
Proof.
  intros M [D DE] E. remember (Z.to_nat (e - d)) as k eqn:Ek. revert e Ek DE E. induction k as [|k IH]; intros e Ek DE E.
  - assert (e = d) as -> by lia. apply reach_refl.
  - eapply reach_trans; [apply (IH (e - 1)); lia|]. apply reach_step. replace e with (e - 1 + 1) at 2 by lia.
    eapply next_in_month; [apply month_days_spec; eauto|]. lia.
Qed.
Lemma daysIn_range m y : 1 <= m <= 12 -> 28 <= daysIn m y <= 31.
Proof.
  intros H.
  assert (m = 1 \/ m = 2 \/ m = 3 \/ m = 4 \/ m = 5 \/ m = 6 \/ m = 7 \/ m = 8 \/ m = 9 \/ m = 10 \/ m = 11 \/ m = 12) as HM by lia.
  clear H. unfold daysIn. repeat (destruct HM as [-> | HM]); try subst m; try (vm_compute; split; discriminate).
  destruct (isLeap y); vm_compute; split; discriminate.
Qed.
Lemma reach_month y m d m' : 1 <= m <= m' -> m' <= 12 -> 1 <= d <= daysIn m y -> m < m' -> reach (y, m, d) (y, m', 1).
Proof.
  intros [M MM] M' D L. remember (Z.to_nat (m' - m - 1)) as k eqn:Ek. revert m' MM M' L Ek. induction k as [|k IH]; intros m' MM M' L Ek.
  - assert (m' = m + 1) as -> by lia. eapply reach_trans; [apply (reach_in_month y m d (daysIn m y)); lia|].
    apply reach_step. eapply next_month; [apply month_days_spec; split; [lia|done]|lia].
  - pose proof (daysIn_range (m' - 1) y ltac:(lia)).
    eapply reach_trans; [apply (IH (m' - 1)); lia|]. eapply reach_trans; [apply (reach_in_month y (m' - 1) 1 (daysIn (m' - 1) y)); lia|].
    apply reach_step. replace m' with (m' - 1 + 1) at 3 by lia. eapply next_month; [apply month_days_spec; split; [lia|done]|lia].
Qed.
Lemma reach_date y m d m' d' : 1 <= m <= 12 -> 1 <= d <= daysIn m y -> 1 <= m' <= 12 -> 1 <= d' <= daysIn m' y ->
  m < m' \/ (m = m' /\ d <= d') -> reach (y, m, d) (y, m', d').
Proof.
  intros M D M' D' [L | [-> L]].
  - eapply reach_trans; [apply (reach_month y m d m'); lia|]. apply reach_in_month; lia.
  - apply reach_in_month; lia.
Qed.
Lemma reach_next_year y m d : 1 <= m <= 12 -> 1 <= d <= daysIn m y -> reach (y, m, d) (y + 1, 1, 1).
Proof.
  intros M D. assert (E : daysIn 12 y = 31) by done. eapply reach_trans; [apply (reach_date y m d 12 31)|apply reach_step, next_year]; try lia.
  destruct (decide (m = 12)) as [-> | ]; lia.
Qed.
Lemma reach_years y k : 0 <= k -> reach (y, 1, 1) (y + k, 1, 1).
Proof.
  intros H. remember (Z.to_nat k) as j eqn:Ej. revert k H Ej. induction j as [|j IH]; intros k H Ej.
  - assert (k = 0) as -> by lia. rewrite Z.add_0_r. apply reach_refl.
  - eapply reach_trans; [apply (IH (k - 1)); lia|].
    replace (y + k) with (y + (k - 1) + 1) by lia. apply reach_next_year; [lia|]. pose proof (daysIn_range 1 (y + (k - 1)) ltac:(lia)). lia.
Qed.
Lemma reach_epoch y m d : 1 <= m <= 12 -> 1 <= d <= daysIn m y ->
  reach (1970, 1, 1) (y, m, d) \/ reach (y, m, d) (1970, 1, 1).
Proof.
  intros M D. destruct (Z_lt_le_dec y 1970) as [L|L].
  - right. eapply reach_trans; [apply reach_next_year; done|]. replace 1970 with (y + 1 + (1969 - y)) by lia. apply reach_years. lia.
  - left. eapply reach_trans; [apply (reach_years 1970 (y - 1970)); lia|]. replace (1970 + (y - 1970)) with y by lia.
    pose proof (daysIn_range 1 y ltac:(lia)). apply reach_date; lia.
Qed.

(** The code computes the number of the day. *)
Lemma daysSinceEpoch_spec y : 0 <= y <= 9999 -> daysSinceEpoch y = 146097 * 730692556 + dayno (y, 1, 1).
Proof.
  intros H. unfold daysSinceEpoch, dayno. change (daysBefore (1 - 1)) with 0. change (3 <=? 1) with false. rewrite andb_false_r. cbv iota zeta.
  rewrite (u64_id (y - absoluteZeroYear)) by (unfold is_u64, absoluteZeroYear; lia).
  unfold absoluteZeroYear. replace (y - -292277022399) with ((y - 1) + 730692556 * 400) by lia.
  rewrite Z.div_add by lia. remember (y - 1) as z eqn:Ez.
  rewrite u64_id by (unfold is_u64; lia). lia.
Qed.
Lemma daysBefore_range m : 0 <= m <= 11 -> 0 <= daysBefore m <= 334.
Proof.
  intros H. assert (m = 0 \/ m = 1 \/ m = 2 \/ m = 3 \/ m = 4 \/ m = 5 \/ m = 6 \/ m = 7 \/ m = 8 \/ m = 9 \/ m = 10 \/ m = 11) as HM by lia.
  clear H. repeat (destruct HM as [-> | HM]); try subst m; vm_compute; split; discriminate.
Qed.
Lemma dayno_range y m d : 0 <= y <= 9999 -> 1 <= m <= 12 -> 1 <= d <= 31 -> -366 <= dayno (y, m, d) <= 3652424 + 31.
Proof. intros Y M D. unfold dayno. pose proof (daysBefore_range (m - 1) ltac:(lia)). destruct (isLeap y && (3 <=? m)); lia. Qed.

Lemma valid_range f : valid_time f -> 0 <= fyear f <= 9999 /\ 1 <= fmonth f <= 12 /\ 1 <= fday f <= daysIn (fmonth f) (fyear f) /\
  1 <= fday f <= 31 /\ 0 <= clock f < 86400.
Proof.
  intros (Y & (n & M & D) & H & Mi & S). apply month_days_spec in M as [M ->]. pose proof (daysIn_range (fmonth f) (fyear f) M).
  unfold clock. lia.
Qed.
Lemma i64_wrap_add a b : i64 (i64 a + b) = i64 (a + b).
Proof.
  unfold i64. apply wrapS_eq_mod; [lia|]. rewrite <- Zplus_mod_idemp_l, wrapS_mod by lia. apply Zplus_mod_idemp_l.
Qed.
Lemma i64_small x : - 2^63 <= x < 2^63 -> i64 x = x.
Proof. intros H. unfold i64. apply wrapS_id; [lia|]. exact H. Qed.
Lemma absoluteToUnix_value : absoluteToUnix = - (146097 * 730692556 + 719162) * 86400.
Proof. reflexivity. Qed.
Lemma dateSeconds_spec f : valid_time f -> dateSeconds f = (dayno (fyear f, fmonth f, fday f) - 719162) * 86400 + clock f.
Proof.
  intros V. destruct (valid_range f V) as (Y & M & _ & D & C).
  pose proof (dayno_range _ _ _ Y M D) as R. unfold dateSeconds. rewrite absoluteToUnix_value.
  rewrite (daysSinceEpoch_spec _ Y).
  pose proof (daysBefore_range (fmonth f - 1) ltac:(lia)) as B.
  pose proof (dayno_range (fyear f) 1 1 Y ltac:(lia) ltac:(lia)) as R1.
  assert (E : dayno (fyear f, fmonth f, fday f) = dayno (fyear f, 1, 1) + daysBefore (fmonth f - 1) + (if isLeap (fyear f) && (3 <=? fmonth f) then 1 else 0) + (fday f - 1)).
  { unfold dayno. change (daysBefore (1 - 1)) with 0. change (3 <=? 1) with false. rewrite andb_false_r. lia. }
  remember (dayno (fyear f, 1, 1)) as A eqn:EA. remember (daysBefore (fmonth f - 1)) as Bf eqn:EB.
  rewrite (u64_id (146097 * 730692556 + A + Bf)) by (unfold is_u64; lia).
  cbv zeta.
  assert (E2 : (if isLeap (fyear f) && (3 <=? fmonth f) then u64 (146097 * 730692556 + A + Bf + 1) else 146097 * 730692556 + A + Bf) =
    146097 * 730692556 + dayno (fyear f, fmonth f, fday f) - (fday f - 1)).
  { rewrite E. destruct (isLeap (fyear f) && (3 <=? fmonth f)); [rewrite u64_id by (unfold is_u64; lia)|]; lia. }
  rewrite E2. clear E E2. remember (dayno (fyear f, fmonth f, fday f)) as N eqn:EN.
  rewrite (u64_id (146097 * 730692556 + N - (fday f - 1) + (fday f - 1))) by (unfold is_u64; lia).
  replace (146097 * 730692556 + N - (fday f - 1) + (fday f - 1)) with (146097 * 730692556 + N) by lia.
  rewrite (u64_id ((146097 * 730692556 + N) * 86400)) by (unfold is_u64; lia).
  fold (clock f). rewrite u64_id by (unfold is_u64; lia).
  rewrite i64_wrap_add. rewrite i64_small by lia. lia.
Qed.

(** Zones. *)
Fixpoint spaced (prev : Z) (tx : list (Z * Z)) : bool :=
  match tx with
  | [] => true
  | (w, o) :: r => (prev + 36000 <=? w) && (w <? omega) && (28800 <=? o) && (o <=? 32400) && spaced w r
  end.
Lemma spaced_in prev tx w o : spaced prev tx = true -> (w, o) ∈ tx -> prev + 36000 <= w < omega /\ 28800 <= o <= 32400.
Proof.
  revert prev. induction tx as [|[w1 o1] r IH]; intros prev H I; [by apply elem_of_nil in I|].
  cbn [spaced] in H. rewrite !andb_true_iff in H. destruct H as ((((A & B) & C) & D) & E).
  apply elem_of_cons in I as [[= -> ->] | I]; [lia|]. specialize (IH _ E I). lia.
Qed.
Lemma lookup_zone_in tx : forall s o x o1 s1 e1, spaced s tx = true -> 28800 <= o <= 32400 -> s <= x < omega ->
  lookup_from s o tx x = (o1, s1, e1) ->
  s <= s1 <= x /\ x < e1 /\ 28800 <= o1 <= 32400 /\ (forall y, s1 <= y < e1 -> lookup_from s o tx y = (o1, s1, e1)) /\
  (s1 = s \/ s + 36000 <= s1 /\ exists o0 s0, forall y, s1 - 36000 <= y < s1 -> lookup_from s o tx y = (o0, s0, s1)).
Proof.
  induction tx as [|[w o'] r IH]; intros s o x o1 s1 e1 H HO R L; cbn [lookup_from] in *.
  - injection L as <- <- <-. repeat split; try lia; auto.
  - cbn [spaced] in H. rewrite !andb_true_iff in H. destruct H as ((((A & B) & C) & D) & E).
    destruct (x <? w) eqn:EW.
    + injection L as <- <- <-. repeat split; try lia; auto. intros y Y. assert (y <? w = true) as -> by lia. done.
    + destruct (IH w o' x o1 s1 e1 E ltac:(lia) ltac:(lia) L) as (P1 & P2 & P3 & P4 & P5).
      repeat split; try lia.
      * intros y Y. assert (y <? w = false) as -> by lia. by apply P4.
      * right. split; [lia|]. destruct P5 as [-> | (Q & o0 & s0 & P5)].
        -- exists o, s. intros y Y. assert (y <? w = true) as -> by lia. done.
        -- exists o0, s0. intros y Y. assert (y <? w = false) as -> by lia. by apply P5.
Qed.
Lemma lookup_offset_at first tx : forall s x o1 s1 e1, spaced s tx = true -> s <= x ->
  lookup_from s first tx x = (o1, s1, e1) -> offset_at (Loc first tx) x o1.
Proof.
  assert (G : forall pre s o x o1 s1 e1 tx, spaced s tx = true -> s <= x -> lookup_from s o tx x = (o1, s1, e1) ->
    (forall w' o', (w', o') ∈ pre -> w' <= s) -> ((s, o) ∈ pre \/ (pre = [] /\ o = first)) -> offset_at (Loc first (pre ++ tx)) x o1).
  { intros pre s o x o1 s1 e1 tx0. revert pre s o. induction tx0 as [|[w o'] r IH]; intros pre s o H Hx L HP HS; cbn [lookup_from] in L.
    - injection L as <- <- <-. destruct HS as [I | [-> ->]].
      + eapply offset_tx with (w := s); cbn; [by rewrite app_nil_r|lia|]. intros w' o' I' _. rewrite app_nil_r in I'. eauto.
      + apply offset_first. cbn. intros w' o' I'. by apply elem_of_nil in I'.
    - cbn [spaced] in H. pose proof H as H'. rewrite !andb_true_iff in H. destruct H as ((((A & B) & C) & D) & E).
      destruct (x <? w) eqn:EW.
      + injection L as <- <- <-.
        assert (LT : forall w' o2, (w', o2) ∈ (w, o') :: r -> x < w').
        { intros w' o2 I'. apply elem_of_cons in I' as [[= -> ->] | I']; [lia|]. pose proof (spaced_in _ _ _ _ E I'). lia. }
        destruct HS as [I | [-> ->]].
        * eapply offset_tx with (w := s); cbn; [by apply elem_of_app; left|lia|]. intros w' o2 I' W.
          apply elem_of_app in I' as [I' | I']; [eauto|]. specialize (LT _ _ I'). lia.
        * apply offset_first. cbn. exact LT.
      + replace (pre ++ (w, o') :: r) with ((pre ++ [(w, o')]) ++ r) by (rewrite <- app_assoc; done).
        eapply IH; [exact E|lia|exact L| |].
        * intros w2 o2 I'. apply elem_of_app in I' as [I' | I']; [specialize (HP _ _ I'); lia|].
          apply elem_of_list_singleton in I' as [= -> ->]. lia.
        * left. apply elem_of_app. right. by apply elem_of_list_singleton. }
  intros s x o1 s1 e1 H Hx L. apply (G [] s first x o1 s1 e1 tx H Hx L); [|by right].
  intros w' o' I'. by apply elem_of_nil in I'.
Qed.
Lemma offset_at_unique l prev t o o' : spaced prev (ltx l) = true -> offset_at l t o -> offset_at l t o' -> o = o'.
Proof.
  intros H A B. destruct l as [first tx]. cbn in H.
  assert (U : forall w a b, (w, a) ∈ tx -> (w, b) ∈ tx -> a = b).
  { clear A B. revert prev H. induction tx as [|[w1 o1] r IH]; intros prev H w a b I J; [by apply elem_of_nil in I|].
    cbn [spaced] in H. rewrite !andb_true_iff in H. destruct H as ((((A & B) & C) & D) & E).
    apply elem_of_cons in I as [I | I]; apply elem_of_cons in J as [J | J]; [congruence| | |eauto].
    - injection I as -> ->. pose proof (spaced_in _ _ _ _ E J). lia.
    - injection J as -> ->. pose proof (spaced_in _ _ _ _ E I). lia. }
  inversion A as [A0 EA | w o2 A1 A2 A3 EA]; inversion B as [B0 EB | w' o3 B1 B2 B3 EB]; subst; cbn in *;
    [done|specialize (A0 _ _ B1); lia|specialize (B0 _ _ A1); lia|].
  assert (w = w') as -> by (specialize (A3 _ _ B1 B2); specialize (B3 _ _ A1 A2); lia). eauto.
Qed.

(** The choice of the instant. *)
Definition good_zone (l : location) : Prop := spaced alpha (ltx l) = true /\ 28800 <= lfirst l <= 32400.
Definition pick (l : location) (unix : Z) : Z :=
  let '(off, start, stop) := lookup_zone l unix in
  if off =? 0 then unix
  else
    let utc := i64 (unix - off) in
    let off := if (utc <? start) || (stop <=? utc) then let '(o, _, _) := lookup_zone l utc in o else off in
    i64 (unix - off).
Lemma pick_shows l x : good_zone l -> -2^50 <= x <= 2^50 ->
  28800 <= x - pick l x <= 32400 /\
  ((shows l (pick l x) x) \/
   (exists o0 o1, shows l (pick l x) (x + (o1 - o0)) /\ o0 < o1 /\ 28800 <= o0 /\ o1 <= 32400 /\ forall t, ~ shows l t x)).
Proof.
  intros [HS HF] R. destruct l as [first tx]. cbn [ltx lfirst] in *. unfold pick, lookup_zone. cbn [ltx lfirst].
  destruct (lookup_from alpha first tx x) as [[o1 s1] e1] eqn:E1.
  assert (Ra : alpha + 2^60 <= x < omega) by (unfold alpha, omega; lia).
  destruct (lookup_zone_in tx alpha first x o1 s1 e1 HS HF ltac:(lia) E1) as (P1 & P2 & P3 & P4 & P5).
  assert (o1 =? 0 = false) as -> by lia. cbv zeta. rewrite (i64_small (x - o1)) by lia.
  assert (x - o1 <? e1 = true) by lia. assert (e1 <=? x - o1 = false) as -> by lia. rewrite orb_false_r.
  destruct (x - o1 <? s1) eqn:EL.
  - (* the zone has changed less than o1 ago *)
    destruct P5 as [-> | (Q & o0 & s0 & P5)]; [unfold alpha in *; lia|].
    rewrite (P5 (x - o1)) by lia.
    assert (O0 : 28800 <= o0 <= 32400).
    { destruct (lookup_zone_in tx alpha first (x - o1) o0 s0 s1 HS HF ltac:(unfold alpha, omega in *; lia) (P5 (x - o1) ltac:(lia))) as (_ & _ & ? & _). done. }
    rewrite i64_small by lia. split; [lia|].
    destruct (Z_lt_le_dec (x - o0) s1) as [L0|L0].
    + left. exists o0. split; [|lia]. eapply lookup_offset_at; [exact HS| |apply P5; lia]. unfold alpha in *; lia.
    + right. exists o0, o1. split; [|split; [lia|split; [lia|split; [lia|]]]].
      * exists o1. split; [|lia]. eapply lookup_offset_at; [exact HS| |apply P4; lia]. unfold alpha in *; lia.
      * intros t (o & A & B).
        assert (T : 28800 <= o <= 32400).
        { inversion A as [? | w o2 I]; subst; [done|]. pose proof (spaced_in _ _ _ _ HS I). lia. }
        destruct (Z_lt_le_dec t s1) as [Lt|Lt].
        -- assert (o = o0).
           { apply (offset_at_unique (Loc first tx) alpha t); [exact HS|exact A|]. eapply lookup_offset_at; [exact HS| |apply P5; lia]. unfold alpha in *; lia. }
           lia.
        -- assert (o = o1).
           { apply (offset_at_unique (Loc first tx) alpha t); [exact HS|exact A|]. eapply lookup_offset_at; [exact HS| |apply P4; lia]. unfold alpha in *; lia. }
           lia.
  - rewrite i64_small by lia. split; [lia|]. left. exists o1. split; [|lia].
    eapply lookup_offset_at; [exact HS| |apply P4; lia]. unfold alpha in *; lia.
Qed.
Lemma shanghai_good : good_zone shanghai.
Proof. split; [vm_compute; reflexivity|]. cbn. lia. Qed.

(** Parsing. *)
Lemma digit_spec c : digit c = true <-> 48 <= c <= 57.
Proof. unfold digit. lia. Qed.
Lemma dd_digits n : 0 <= n <= 99 -> digit (48 + n / 10) = true /\ digit (48 + n mod 10) = true.
Proof. intros H. rewrite !digit_spec. lia. Qed.
Lemma getnum_dd n r fixed : 0 <= n <= 99 -> getnum (dd n ++ r) fixed = Some (n, r).
Proof.
  intros H. destruct (dd_digits n H) as [A B]. cbn [dd app getnum]. rewrite A, B. do 2 f_equal. lia.
Qed.
Lemma getnum_1 n c r : 0 <= n <= 9 -> digit c = false -> getnum ((48 + n) :: c :: r) false = Some (n, c :: r).
Proof. intros H D. cbn [getnum]. assert (digit (48 + n) = true) as -> by (apply digit_spec; lia). rewrite D. do 2 f_equal. lia. Qed.
Lemma getnum_true_inv s n r : getnum s true = Some (n, r) -> 0 <= n <= 99 /\ s = dd n ++ r.
Proof.
  unfold getnum. destruct s as [|c0 r0]; [done|]. destruct (digit c0) eqn:D0; [|done]. destruct r0 as [|c1 r1]; [done|].
  destruct (digit c1) eqn:D1; [|done]. intros [= <- <-]. apply digit_spec in D0, D1. split; [lia|]. unfold dd. cbn. f_equal; [lia|]. f_equal. lia.
Qed.
Lemma getnum_false_inv s n r : getnum s false = Some (n, r) -> (0 <= n <= 99 /\ s = dd n ++ r) \/ (0 <= n <= 9 /\ s = (48 + n) :: r).
Proof.
  unfold getnum. destruct s as [|c0 r0]; [done|]. destruct (digit c0) eqn:D0; [|done]. apply digit_spec in D0.
  destruct r0 as [|c1 r1].
  - intros [= <- <-]. right. split; [lia|]. f_equal. lia.
  - destruct (digit c1) eqn:D1; intros [= <- <-].
    + apply digit_spec in D1. left. split; [lia|]. unfold dd. cbn. f_equal; [lia|]. f_equal. lia.
    + right. split; [lia|]. f_equal. lia.
Qed.
Lemma getyear_dddd y r : 0 <= y <= 9999 -> getyear (dddd y ++ r) = Some (y, r).
Proof.
  intros H. destruct (dd_digits (y / 100) ltac:(lia)) as [A B]. destruct (dd_digits (y mod 100) ltac:(lia)) as [C D].
  unfold dddd, dd. cbn [app getyear]. rewrite A, B, C, D. cbn [andb]. do 2 f_equal. lia.
Qed.
Lemma getyear_inv s y r : getyear s = Some (y, r) -> 0 <= y <= 9999 /\ s = dddd y ++ r.
Proof.
  unfold getyear. destruct s as [|a [|b [|c [|d s]]]]; try done.
  destruct (digit a) eqn:A; [|done]. destruct (digit b) eqn:B; [|done]. destruct (digit c) eqn:C; [|done]. destruct (digit d) eqn:D; [|done].
  cbn [andb]. intros [= <- <-]. apply digit_spec in A, B, C, D. split; [lia|]. unfold dddd, dd. cbn [app].
  f_equal; [lia|]. f_equal; [lia|]. f_equal; [lia|]. f_equal. lia.
Qed.
Lemma skip_char s p r : p <> 32 -> skip s p = Some r <-> s = p :: r.
Proof.
  intros N. unfold skip. assert (p =? 32 = false) as -> by lia. destruct s as [|c s]; [done|].
  destruct (c =? p) eqn:E.
  - assert (c = p) as -> by lia. split; congruence.
  - split; [done|]. intros [= ->]. lia.
Qed.
Lemma cutspace_spec s : exists k, s = replicate k 32 ++ cutspace s /\ forall r, cutspace s <> 32 :: r.
Proof.
  induction s as [|c s IH]; [exists 0%nat; split; [done|]; intros r [=]|].
  destruct (decide (c = 32)) as [-> | N].
  - destruct IH as (k & E & F). exists (S k). cbn [cutspace replicate app]. split; [|done]. f_equal. exact E.
  - exists 0%nat. assert (E : cutspace (c :: s) = c :: s).
    { cbn. destruct c as [|c|c]; try done. do 6 (destruct c as [c|c|]; try done). }
    rewrite E. split; [done|]. intros r [= -> _]. done.
Qed.
Lemma cutspace_blanks k s : (forall r, s <> 32 :: r) -> cutspace (replicate k 32 ++ s) = s.
Proof.
  intros H. induction k as [|k IH]; [|exact IH]. cbn [replicate app]. destruct (cutspace_spec s) as ([|k] & E & _); [done|].
  exfalso. cbn in E. by eapply H.
Qed.
Lemma span_digits_app ds s : is_digits ds -> (forall c r, s = c :: r -> digit c = false) -> span_digits (ds ++ s) = (ds, s).
Proof.
  intros H N. induction H as [|c ds C D IH]; cbn.
  - destruct s as [|c r]; [done|]. cbn. rewrite (N c r eq_refl). done.
  - assert (digit c = true) as -> by (by apply digit_spec). rewrite IH. done.
Qed.
Lemma span_digits_inv s ds r : span_digits s = (ds, r) -> s = ds ++ r /\ is_digits ds.
Proof.
  revert ds r. induction s as [|c s IH]; intros ds r; cbn; [intros [= <- <-]; split; [done|constructor]|].
  destruct (digit c) eqn:D; [|intros [= <- <-]; split; [done|constructor]].
  destruct (span_digits s) as [a b] eqn:E. intros [= <- <-]. destruct (IH _ _ eq_refl) as [-> I]. split; [done|].
  constructor; [by apply digit_spec|done].
Qed.
Lemma digits_value_app a b : digits_value (a ++ b) = fold_left (fun v c => v * 10 + (c - 48)) b (digits_value a).
Proof. unfold digits_value. apply fold_left_app. Qed.
Lemma digits_zeros k : forall v, fold_left (fun v c => v * 10 + (c - 48)) (replicate k 48) v = v * 10 ^ Z.of_nat k.
Proof.
  induction k as [|k IH]; intros v; cbn [replicate fold_left]; [cbn; lia|]. rewrite IH, Nat2Z.inj_succ, Z.pow_succ_r by lia. lia.
Qed.
Lemma nanoseconds_spec ds : nanoseconds ds = digits_value (take 9 (ds ++ replicate 9 48)).
Proof.
  unfold nanoseconds. cbv zeta. rewrite firstn_app, take_replicate, digits_value_app, digits_zeros. fold (digits_value (take 9 ds)).
  rewrite take_length. f_equal. f_equal. lia.
Qed.

Lemma getfrac_inv s ns : getfrac s = (ns, []) -> fraction_text ns s.
Proof.
  unfold getfrac, fraction_text. destruct s as [|p [|c r]]; [intros [= <-]; by left|done|].
  destruct (((p =? 46) || (p =? 44)) && digit c) eqn:E; [|done].
  destruct (span_digits (c :: r)) as [ds rest] eqn:S. intros [= <- ->]. apply span_digits_inv in S as [Ed D]. rewrite app_nil_r in Ed.
  apply andb_true_iff in E as [E1 E2]. right. exists p, ds. split; [lia|]. split; [by destruct ds|].
  split; [done|]. split; [congruence|]. apply nanoseconds_spec.
Qed.
Lemma getfrac_text s ns : fraction_text ns s -> getfrac s = (ns, []).
Proof.
  intros [[-> ->] | (p & ds & P & N & D & -> & ->)]; [done|]. unfold getfrac. destruct ds as [|c r]; [done|].
  inversion D as [|? ? C R]; subst. assert ((p =? 46) || (p =? 44) = true) as -> by lia.
  assert (digit c = true) as -> by (by apply digit_spec). cbn [andb].
  rewrite <- (app_nil_r (c :: r)) at 1. rewrite (span_digits_app (c :: r) []) by (done || (intros ? ? [=])). rewrite nanoseconds_spec. done.
Qed.
Lemma bind_Some {A B} (o : option A) (f : A -> option B) b : bind o f = Some b <-> exists a, o = Some a /\ f a = Some b.
Proof. destruct o; cbn; [naive_solver|]. split; [done|]. by intros (a & [=] & _). Qed.

Definition fits (f : fields) : Prop :=
  0 <= fyear f <= 9999 /\ 1 <= fmonth f <= 12 /\ 1 <= fday f <= daysIn (fmonth f) (fyear f) /\ 0 <= fhour f < 24 /\ 0 <= fmin f < 60 /\ 0 <= fsec f < 60.
Lemma fits_valid f : fits f <-> valid_time f.
Proof.
  unfold fits, valid_time, valid_date. split.
  - intros (Y & M & D & R). split; [done|]. split; [|done]. exists (daysIn (fmonth f) (fyear f)). rewrite month_days_spec. done.
  - intros (Y & (n & M & D) & R). apply month_days_spec in M as [M ->]. done.
Qed.
Lemma parse_inv s f : parse s = Some f -> fits f /\ accepted f s.
Proof.
  unfold parse. rewrite bind_Some. intros ([y s1] & Y & H). apply getyear_inv in Y as [RY ->].
  apply bind_Some in H as (s2 & H1 & H). apply skip_char in H1; [subst s1|done].
  apply bind_Some in H as ([mo s3] & H1 & H). apply getnum_true_inv in H1 as [RM ->].
  destruct ((mo <=? 0) || (12 <? mo)) eqn:EM; [done|].
  apply bind_Some in H as (s4 & H1 & H). apply skip_char in H1; [subst s3|done].
  apply bind_Some in H as ([d s5] & H1 & H). apply getnum_true_inv in H1 as [RD ->].
  apply bind_Some in H as (s6 & H1 & H).
  apply bind_Some in H as ([h s7] & HH & H).
  destruct (24 <=? h) eqn:EH; [done|].
  apply bind_Some in H as (s8 & H2 & H). apply skip_char in H2; [subst s7|done].
  apply bind_Some in H as ([mi s9] & H2 & H). apply getnum_true_inv in H2 as [RMi ->].
  destruct (60 <=? mi) eqn:EMi; [done|].
  apply bind_Some in H as (s10 & H2 & H). apply skip_char in H2; [subst s9|done].
  apply bind_Some in H as ([sec s11] & H2 & H). apply getnum_true_inv in H2 as [RS ->].
  destruct (60 <=? sec) eqn:ES; [done|].
  destruct (getfrac s11) as [ns s12] eqn:EF. destruct s12; [|done].
  destruct ((d <? 1) || (daysIn mo y <? d)) eqn:ED; [done|]. injection H as <-.
  apply getfrac_inv in EF.
  assert (HR : 0 <= h /\ exists ht, hour_text h ht /\ s6 = ht ++ 58 :: dd mi ++ 58 :: dd sec ++ s11).
  { apply getnum_false_inv in HH as [[R ->] | [R ->]]; (split; [lia|]).
    - exists (dd h). split; [by left|done].
    - exists [48 + h]. split; [right; split; [lia|done]|done]. }
  destruct HR as (H0 & ht & HT & ->).
  assert (HS : exists k, s5 = replicate (S k) 32 ++ ht ++ 58 :: dd mi ++ 58 :: dd sec ++ s11).
  { unfold skip in H1. change (32 =? 32) with true in H1. cbv iota in H1. destruct s5 as [|c s5].
    - injection H1 as H1. exfalso. destruct ht; done.
    - destruct (c =? 32) eqn:EC; [|done]. assert (c = 32) as -> by lia.
      destruct (cutspace_spec (32 :: s5)) as ([|k] & E1 & E2).
      + exfalso. by apply (E2 s5).
      + exists k. injection H1 as H1. change (cutspace (32 :: s5)) with (cutspace s5) in E1. rewrite H1 in E1. exact E1. }
  destruct HS as (k & ->).
  split.
  - unfold fits. cbn. lia.
  - exists k, ht, s11. cbn [fhour fnano fyear fmonth fday fmin fsec]. split; [done|]. split; [done|]. done.
Qed.
Lemma parse_accepted s f : fits f -> accepted f s -> parse s = Some f.
Proof.
  intros (RY & RM & RD & RH & RMi & RS) (k & ht & ft & HT & FT & ->). destruct f as [y mo d h mi sec ns]. cbn [fhour fnano fyear fmonth fday fmin fsec] in *.
  pose proof (daysIn_range mo y RM) as DI.
  unfold parse. rewrite getyear_dddd by lia. cbn [bind].
  rewrite (proj2 (skip_char ([45] ++ _) 45 _ ltac:(done)) eq_refl). cbn [bind].
  rewrite getnum_dd by lia. cbn [bind]. assert ((mo <=? 0) || (12 <? mo) = false) as -> by lia.
  rewrite (proj2 (skip_char ([45] ++ _) 45 _ ltac:(done)) eq_refl). cbn [bind].
  rewrite getnum_dd by lia. cbn [bind].
  remember (ht ++ [58] ++ dd mi ++ [58] ++ dd sec ++ ft) as rest eqn:ER.
  assert (SK : skip (replicate (S k) 32 ++ rest) 32 = Some rest).
  { unfold skip. change (32 =? 32) with true. cbv iota. cbn [replicate app]. change (32 =? 32) with true. cbv iota. f_equal.
    change (32 :: replicate k 32 ++ rest) with (replicate (S k) 32 ++ rest). apply cutspace_blanks. intros r Er. subst rest.
    destruct HT as [-> | [L ->]]; unfold dd in Er; cbn [app] in Er; injection Er as Er _; lia. }
  rewrite SK. cbn [bind].
  assert (GN : getnum rest false = Some (h, [58] ++ dd mi ++ [58] ++ dd sec ++ ft)).
  { subst rest. destruct HT as [-> | [L ->]]; [apply getnum_dd; lia|]. apply (getnum_1 h 58); [lia|done]. }
  rewrite GN. cbn [bind]. assert (24 <=? h = false) as -> by lia.
  rewrite (proj2 (skip_char ([58] ++ _) 58 _ ltac:(done)) eq_refl). cbn [bind].
  rewrite getnum_dd by lia. cbn [bind]. assert (60 <=? mi = false) as -> by lia.
  rewrite (proj2 (skip_char ([58] ++ _) 58 _ ltac:(done)) eq_refl). cbn [bind].
  rewrite getnum_dd by lia. cbn [bind]. assert (60 <=? sec = false) as -> by lia.
  rewrite (getfrac_text ft ns FT). assert ((d <? 1) || (daysIn mo y <? d) = false) as -> by lia. done.
Qed.
Lemma canonical_accepted f : fits f -> fnano f = 0 -> accepted f (canonical f).
Proof.
  intros H N. exists 0%nat, (dd (fhour f)), []. split; [by left|]. split; [left; done|]. unfold canonical. rewrite app_nil_r. done.
Qed.

(** Order. *)
Lemma str_lt_app p a b : str_lt (p ++ a) (p ++ b) <-> str_lt a b.
Proof.
  induction p as [|x p IH]; [done|]. cbn. rewrite <- IH. split; [|apply lt_tail]. intros H. inversion H; subst; [lia|done].
Qed.
Lemma str_lt_dd n k a b : 0 <= n <= 99 -> 0 <= k <= 99 -> str_lt (dd n ++ a) (dd k ++ b) <-> n < k \/ (n = k /\ str_lt a b).
Proof.
  intros N K. split.
  - intros H. unfold dd in H. cbn in H. inversion H as [|? ? ? ? L|? ? ? L]; subst; [left; lia|].
    inversion L as [|? ? ? ? L'|? ? ? L']; subst; [left; lia|]. right. split; [lia|done].
  - intros [L | [-> L]]; [|by apply str_lt_app]. unfold dd. cbn.
    destruct (Z_lt_le_dec (n / 10) (k / 10)); [apply lt_head; lia|]. assert (n / 10 = k / 10) as -> by lia. apply lt_tail, lt_head. lia.
Qed.
Lemma str_lt_dddd n k a b : 0 <= n <= 9999 -> 0 <= k <= 9999 -> str_lt (dddd n ++ a) (dddd k ++ b) <-> n < k \/ (n = k /\ str_lt a b).
Proof.
  intros N K. unfold dddd. rewrite <- !app_assoc. rewrite !str_lt_dd by lia. split.
  - intros [L | [E [L | [E2 L]]]]; [left; lia|left; lia|right; split; [lia|done]].
  - intros [L | [-> L]]; [lia|]. right. split; [done|]. right. done.
Qed.
Definition before (f g : fields) : Prop :=
  fyear f < fyear g \/ (fyear f = fyear g /\ (fmonth f < fmonth g \/ (fmonth f = fmonth g /\ (fday f < fday g \/ (fday f = fday g /\
  (fhour f < fhour g \/ (fhour f = fhour g /\ (fmin f < fmin g \/ (fmin f = fmin g /\ fsec f < fsec g))))))))).
Lemma canonical_lt f g : fits f -> fits g -> str_lt (canonical f) (canonical g) <-> before f g.
Proof.
  intros (Y & M & D & H & Mi & S) (Y' & M' & D' & H' & Mi' & S').
  pose proof (daysIn_range (fmonth f) (fyear f) M). pose proof (daysIn_range (fmonth g) (fyear g) M').
  unfold canonical, before. rewrite str_lt_dddd by lia. rewrite str_lt_app, str_lt_dd by lia. rewrite str_lt_app, str_lt_dd by lia.
  rewrite str_lt_app, str_lt_dd by lia. rewrite str_lt_app, str_lt_dd by lia. rewrite str_lt_app.
  rewrite <- (app_nil_r (dd (fsec f))), <- (app_nil_r (dd (fsec g))), str_lt_dd by lia.
  assert (str_lt [] [] <-> False) as -> by (split; [intros HH; inversion HH|done]). tauto.
Qed.
Lemma daysBefore_step m : 1 <= m <= 11 -> daysBefore (m - 1) + 28 <= daysBefore m.
Proof.
  intros H. assert (m = 1 \/ m = 2 \/ m = 3 \/ m = 4 \/ m = 5 \/ m = 6 \/ m = 7 \/ m = 8 \/ m = 9 \/ m = 10 \/ m = 11) as HM by lia.
  clear H. repeat (destruct HM as [-> | HM]); try subst m; vm_compute; discriminate.
Qed.
Lemma reach_le a b : reach a b -> dayno a <= dayno b.
Proof. intros (n & N & A). rewrite (apart_dayno _ _ _ A). lia. Qed.
Lemma dayno_lt y m d y' m' d' : 1 <= m <= 12 -> 1 <= d <= daysIn m y -> 1 <= m' <= 12 -> 1 <= d' <= daysIn m' y' ->
  y < y' \/ (y = y' /\ (m < m' \/ (m = m' /\ d < d'))) -> dayno (y, m, d) < dayno (y', m', d').
Proof.
  intros M D M' D' [L | [<- [L | [<- L]]]].
  - pose proof (reach_le _ _ (reach_date y m d 12 31 M D ltac:(lia) ltac:(change (daysIn 12 y) with 31; lia) ltac:(destruct (decide (m = 12)) as [-> | ]; [change (daysIn 12 y) with 31 in D|]; lia))).
    pose proof (year_length y). pose proof (reach_le _ _ (reach_years (y + 1) (y' - (y + 1)) ltac:(lia))).
    replace (y + 1 + (y' - (y + 1))) with y' in * by lia.
    pose proof (daysIn_range 1 y' ltac:(lia)).
    pose proof (reach_le _ _ (reach_date y' 1 1 m' d' ltac:(lia) ltac:(lia) M' D' ltac:(lia))). lia.
  - pose proof (reach_le _ _ (reach_in_month y m d (daysIn m y) M ltac:(lia) ltac:(lia))).
    pose proof (month_step y m ltac:(lia)).
    pose proof (daysIn_range (m + 1) y ltac:(lia)).
    pose proof (reach_le _ _ (reach_date y (m + 1) 1 m' d' ltac:(lia) ltac:(lia) M' D' ltac:(lia))). lia.
  - unfold dayno. lia.
Qed.
Lemma dateSeconds_lt f g : fits f -> fits g -> before f g -> dateSeconds f < dateSeconds g.
Proof.
  intros F G B. rewrite !dateSeconds_spec by (by apply fits_valid).
  destruct F as (Y & M & D & H & Mi & S), G as (Y' & M' & D' & H' & Mi' & S').
  unfold clock. destruct B as [B | [E B]].
  { pose proof (dayno_lt _ _ _ _ _ _ M D M' D' (or_introl B)). lia. }
  destruct B as [B | [E2 B]].
  { pose proof (dayno_lt _ _ _ _ _ _ M D M' D' (or_intror (conj E (or_introl B)))). lia. }
  destruct B as [B | [E3 B]].
  { pose proof (dayno_lt _ _ _ _ _ _ M D M' D' (or_intror (conj E (or_intror (conj E2 B))))). lia. }
  rewrite E, E2, E3. lia.
Qed.
Lemma before_total f g : before f g \/ before g f \/
  (fyear f = fyear g /\ fmonth f = fmonth g /\ fday f = fday g /\ fhour f = fhour g /\ fmin f = fmin g /\ fsec f = fsec g).
Proof. unfold before. lia. Qed.
Lemma dateUnix_pick f l : dateUnix f l = pick l (dateSeconds f).
Proof. reflexivity. Qed.
