(** The properties of StrToTimeFormat, C128 to C131. *)
From stdpp Require Import list.
From Coq Require Import ZArith Lia Bool.
From Verif Require Import GoInt Time_Model Time_Spec Time_Proofs.
Local Open Scope Z_scope.

(** Every date has its place on the calendar, and the code computes it. *)
Lemma local_seconds_code f : valid_time f -> forall L, local_seconds f L -> L = dateSeconds f.
Proof.
  intros V L (n & [[A ->] | [A ->]]); apply apart_dayno in A; rewrite (dateSeconds_spec f V); change (dayno (1970, 1, 1)) with 719162 in A; lia.
Qed.
Lemma local_seconds_exists f : valid_time f -> local_seconds f (dateSeconds f).
Proof.
  intros V. pose proof (valid_range f V) as (Y & M & D & _).
  destruct (reach_epoch (fyear f) (fmonth f) (fday f) M D) as [(n & N & A) | (n & N & A)]; exists n; [left|right];
    (split; [done|]); rewrite (dateSeconds_spec f V); pose proof (apart_dayno _ _ _ A) as B; change (dayno (1970, 1, 1)) with 719162 in B; lia.
Qed.
Lemma dateSeconds_range f : valid_time f -> -2^50 <= dateSeconds f <= 2^50.
Proof.
  intros V. rewrite (dateSeconds_spec f V). pose proof (valid_range f V) as (Y & M & _ & D & C). pose proof (dayno_range _ _ _ Y M D). lia.
Qed.
Lemma code_canonical f tz : valid_time f -> fnano f = 0 ->
  StrToTimeFormat (Some tz) (canonical f) = TOk (dateUnix f tz) 0.
Proof.
  intros V N. apply fits_valid in V. unfold StrToTimeFormat. rewrite (parse_accepted _ f V (canonical_accepted f V N)), N. done.
Qed.

(** The calendar of the spec is a function on the dates. *)
Theorem c128_calendar : forall f, valid_time f -> exists L, local_seconds f L /\ forall L', local_seconds f L' -> L' = L.
Proof. intros f V. exists (dateSeconds f). split; [by apply local_seconds_exists|]. intros L'. by apply local_seconds_code. Qed.
Print Assumptions c128_calendar.

(** C128.  The text of a valid date and time gives an instant at which clocks in Shanghai show it, if there is one; if there is none,
    the hour having been skipped, an instant at which they show a time up to an hour later. *)
Theorem c128_shows : forall f L, valid_time f -> fnano f = 0 -> local_seconds f L ->
  exists t, StrToTimeFormat (Some shanghai) (canonical f) = TOk t 0 /\
    ((exists t', shows shanghai t' L) -> shows shanghai t L) /\
    ((forall t', ~ shows shanghai t' L) -> exists k, 0 < k <= 3600 /\ shows shanghai t (L + k)).
Proof.
  intros f L V N HL. apply local_seconds_code in HL as ->; [|done]. exists (dateUnix f shanghai). split; [by apply code_canonical|].
  rewrite (dateUnix_pick f shanghai).
  destruct (pick_shows shanghai (dateSeconds f) shanghai_good (dateSeconds_range f V)) as [_ [S | (o0 & o1 & S & B & C & D & E)]].
  - split; [done|]. intros H. by apply H in S.
  - split; [intros [t' H]; by apply E in H|]. intros _. exists (o1 - o0). split; [lia|done].
Qed.
Print Assumptions c128_shows.

Lemma shanghai_modern x : 684867600 <= x -> lookup_zone shanghai x = (28800, 684867600, omega).
Proof.
  intros H. unfold lookup_zone, shanghai. cbn [ltx lfirst].
  repeat (cbn [lookup_from]; match goal with |- context [x <? ?w] => replace (x <? w) with false by lia end). reflexivity.
Qed.
Lemma modern_seconds f : valid_time f -> 1992 <= fyear f -> 694224000 <= dateSeconds f.
Proof.
  intros V Y. rewrite (dateSeconds_spec f V). pose proof (valid_range f V) as (_ & M & D & _ & C).
  destruct (decide (fyear f = 1992 /\ fmonth f = 1 /\ fday f = 1)) as [(E1 & E2 & E3) | N].
  - rewrite E1, E2, E3. change (dayno (1992, 1, 1)) with 727197. lia.
  - pose proof (dayno_lt 1992 1 1 (fyear f) (fmonth f) (fday f) ltac:(lia) ltac:(change (daysIn 1 1992) with 31; lia) M D ltac:(lia)) as L.
    change (dayno (1992, 1, 1)) with 727197 in L. lia.
Qed.
Lemma modern_unix f : valid_time f -> 1992 <= fyear f -> dateUnix f shanghai = dateSeconds f - 28800.
Proof.
  intros V Y. pose proof (modern_seconds f V Y). pose proof (dateSeconds_range f V).
  rewrite (dateUnix_pick f shanghai). unfold pick. rewrite shanghai_modern by lia.
  change (28800 =? 0) with false. cbv iota zeta. rewrite (i64_small (dateSeconds f - 28800)) by lia.
  assert ((dateSeconds f - 28800 <? 684867600) || (omega <=? dateSeconds f - 28800) = false) as -> by (unfold omega; lia).
  apply i64_small. lia.
Qed.
(** From 1992 on it is that instant eight hours before the same text in UTC. *)
Theorem c128_since_1992 : forall f L, valid_time f -> fnano f = 0 -> 1992 <= fyear f -> local_seconds f L ->
  StrToTimeFormat (Some shanghai) (canonical f) = TOk (L - 8 * 3600) 0.
Proof.
  intros f L V N Y HL. apply local_seconds_code in HL as ->; [|done]. rewrite (code_canonical f shanghai V N), (modern_unix f V Y). done.
Qed.
Print Assumptions c128_since_1992.

(** 2024-02-29 12:34:56; the start of 1970; and in the skipped hour of 1986-05-04, 02:30:00, which gives 03:30:00 of summer time. *)
Example c128_ex :
  valid_time (Fields 2024 2 29 12 34 56 0) /\
  canonical (Fields 2024 2 29 12 34 56 0) = [50;48;50;52;45;48;50;45;50;57;32;49;50;58;51;52;58;53;54] /\
  StrToTimeFormat (Some shanghai) (canonical (Fields 2024 2 29 12 34 56 0)) = TOk 1709181296 0 /\
  StrToTimeFormat (Some shanghai) (canonical (Fields 1970 1 1 0 0 0 0)) = TOk (-28800) 0 /\
  StrToTimeFormat (Some shanghai) (canonical (Fields 1986 5 4 2 30 0 0)) = TOk 515529000 0 /\
  StrToTimeFormat (Some shanghai) (canonical (Fields 2023 2 29 12 34 56 0)) = TErr.
Proof.
  split; [|vm_compute; done]. apply fits_valid. unfold fits. cbn. change (daysIn 2 2024) with 29. lia.
Qed.

(** C129, as stated: the alphabetical order of the texts is the order of the times.  False in the hours skipped and repeated by summer
    time: 02:30:00 of 1986-05-04 comes out later than 03:10:00 of that day, and as the same instant as 03:30:00. *)
Theorem c129_order_refuted : exists f g h tf tg,
  valid_time f /\ valid_time g /\ valid_time h /\ fnano f = 0 /\ fnano g = 0 /\ fnano h = 0 /\
  StrToTimeFormat (Some shanghai) (canonical f) = TOk tf 0 /\ StrToTimeFormat (Some shanghai) (canonical g) = TOk tg 0 /\
  StrToTimeFormat (Some shanghai) (canonical h) = TOk tf 0 /\
  str_lt (canonical f) (canonical g) /\ tg < tf /\ str_lt (canonical f) (canonical h).
Proof.
  exists (Fields 1986 5 4 2 30 0 0), (Fields 1986 5 4 3 10 0 0), (Fields 1986 5 4 3 30 0 0), 515529000, 515527800.
  assert (F : fits (Fields 1986 5 4 2 30 0 0) /\ fits (Fields 1986 5 4 3 10 0 0) /\ fits (Fields 1986 5 4 3 30 0 0)).
  { unfold fits. cbn [fyear fmonth fday fhour fmin fsec]. change (daysIn 5 1986) with 31. lia. }
  destruct F as (A & B & C). rewrite <- !fits_valid.
  do 3 (split; [done|]). do 3 (split; [done|]). do 3 (split; [vm_compute; reflexivity|]).
  split; [apply canonical_lt; [done|done|]; unfold before; cbn; lia|]. split; [lia|].
  apply canonical_lt; [done|done|]. unfold before. cbn. lia.
Qed.
Print Assumptions c129_order_refuted.
(** True from 1992 on: earlier text, earlier time; so different texts give different times. *)
Theorem c129_order_partial : forall f g tf tg, valid_time f -> valid_time g -> fnano f = 0 -> fnano g = 0 -> 1992 <= fyear f -> 1992 <= fyear g ->
  StrToTimeFormat (Some shanghai) (canonical f) = TOk tf 0 -> StrToTimeFormat (Some shanghai) (canonical g) = TOk tg 0 ->
  (str_lt (canonical f) (canonical g) <-> tf < tg) /\ (canonical f = canonical g <-> tf = tg).
Proof.
  intros f g tf tg Vf Vg Nf Ng Yf Yg. rewrite (code_canonical f shanghai Vf Nf), (code_canonical g shanghai Vg Ng).
  rewrite (modern_unix f Vf Yf), (modern_unix g Vg Yg). intros [= <-] [= <-].
  apply fits_valid in Vf, Vg. rewrite (canonical_lt f g Vf Vg).
  pose proof (dateSeconds_lt f g Vf Vg) as L1. pose proof (dateSeconds_lt g f Vg Vf) as L2.
  assert (EQ : canonical f = canonical g -> ~ before f g /\ ~ before g f).
  { intros E. rewrite <- (canonical_lt f g Vf Vg), <- (canonical_lt g f Vg Vf), E.
    assert (NL : forall s, ~ str_lt s s) by (induction s as [|x s IH]; intros H; inversion H; subst; [lia|done]). split; apply NL. }
  destruct (before_total f g) as [B | [B | (A & B & C & D & E & F)]].
  - specialize (L1 B). split; split; intros; [lia|done|destruct (EQ H); done|lia].
  - specialize (L2 B). split; split; intros; [specialize (L1 H); lia|lia|destruct (EQ H); done|lia].
  - assert (f = g) as <- by (destruct f, g; cbn in *; congruence). split; split; intros; try done; [specialize (L1 H); lia|lia].
Qed.
Print Assumptions c129_order_partial.
Example c129_ex : valid_time (Fields 2024 12 31 23 59 59 0) /\ str_lt (canonical (Fields 2024 12 31 23 59 59 0)) (canonical (Fields 2025 1 1 0 0 0 0)) /\
  StrToTimeFormat (Some shanghai) (canonical (Fields 2024 12 31 23 59 59 0)) = TOk 1735660799 0 /\
  StrToTimeFormat (Some shanghai) (canonical (Fields 2025 1 1 0 0 0 0)) = TOk 1735660800 0.
Proof.
  assert (A : fits (Fields 2024 12 31 23 59 59 0)) by (unfold fits; cbn [fyear fmonth fday fhour fmin fsec]; change (daysIn 12 2024) with 31; lia).
  split; [by apply fits_valid|]. split; [|vm_compute; done]. apply canonical_lt; [done| |left; cbn; lia].
  unfold fits; cbn [fyear fmonth fday fhour fmin fsec]; change (daysIn 1 2025) with 31; lia.
Qed.

(** C130, as stated: exactly the texts YYYY-MM-DD HH:MM:SS of valid dates and times are accepted.  False: "2024-01-02   3:04:05,5" is. *)
Theorem c130_format_refuted : exists s t ns, StrToTimeFormat (Some shanghai) s = TOk t ns /\ forall f, valid_time f -> s <> canonical f.
Proof.
  exists [50;48;50;52;45;48;49;45;48;50;32;32;32;51;58;48;52;58;48;53;44;53], 1704135845, 500000000. split; [vm_compute; reflexivity|].
  intros f V E. apply (f_equal length) in E. unfold canonical, dddd, dd in E. cbn in E. lia.
Qed.
Print Assumptions c130_format_refuted.
(** What is accepted: in addition any number of blanks, an hour of one digit, and a fraction of a second behind a point or comma,
    which counts to nine digits.  Nothing else, in whatever zone. *)
Theorem c130_format_partial : forall tz s t ns, StrToTimeFormat (Some tz) s = TOk t ns <->
  exists f, valid_time f /\ accepted f s /\ fnano f = ns /\ t = dateUnix f tz.
Proof.
  intros tz s t ns. unfold StrToTimeFormat. split.
  - destruct (parse s) as [f|] eqn:E; [|done]. intros [= <- <-]. apply parse_inv in E as [F A]. exists f. rewrite <- fits_valid. done.
  - intros (f & V & A & <- & ->). apply fits_valid in V. rewrite (parse_accepted _ _ V A). done.
Qed.
Print Assumptions c130_format_partial.
(** All ways to write the same numbers give the same time, and all others an error. *)
Theorem c130_numbers_decide : forall tz f s, valid_time f -> accepted f s -> StrToTimeFormat (Some tz) s = TOk (dateUnix f tz) (fnano f).
Proof. intros tz f s V A. apply c130_format_partial. exists f. done. Qed.
Print Assumptions c130_numbers_decide.
Theorem c130_otherwise_error : forall tz s, (forall f, valid_time f -> ~ accepted f s) <-> StrToTimeFormat tz s = TErr.
Proof.
  intros tz s. unfold StrToTimeFormat. destruct (parse s) as [f|] eqn:E.
  - apply parse_inv in E as [F A]. apply fits_valid in F. split; [intros H; by destruct (H f F)|]. by destruct tz.
  - split; [done|]. intros _ f V A. apply fits_valid in V. rewrite (parse_accepted _ _ V A) in E. done.
Qed.
Print Assumptions c130_otherwise_error.
Example c130_ex : valid_time (Fields 2024 1 2 3 4 5 500000000) /\
  accepted (Fields 2024 1 2 3 4 5 500000000) [50;48;50;52;45;48;49;45;48;50;32;32;32;51;58;48;52;58;48;53;44;53] /\
  StrToTimeFormat (Some shanghai) [50;48;50;52;45;48;49;45;48;50] = TErr.
Proof.
  split; [|split; [|vm_compute; done]].
  - apply fits_valid. unfold fits. cbn [fyear fmonth fday fhour fmin fsec]. change (daysIn 1 2024) with 31. lia.
  - exists 2%nat, [51], [44; 53]. split; [right; split; [cbn; lia|done]|]. split; [|done].
    right. exists 44, [53]. split; [tauto|]. split; [done|]. split; [repeat constructor; lia|]. split; [done|]. vm_compute. done.
Qed.

(** C131, as stated: StrToTimeFormat answers every string with a time or an error.  False on a system without a time zone database:
    the error of LoadLocation is dropped and every valid text panics. *)
Theorem c131_no_panic_refuted : forall f s, valid_time f -> accepted f s -> StrToTimeFormat None s = TPanic.
Proof. intros f s V A. apply fits_valid in V. unfold StrToTimeFormat. rewrite (parse_accepted _ _ V A). done. Qed.
Print Assumptions c131_no_panic_refuted.
Theorem c131_no_panic_partial : forall tz s, StrToTimeFormat tz s = TPanic <-> tz = None /\ exists f, valid_time f /\ accepted f s.
Proof.
  intros tz s. unfold StrToTimeFormat. split.
  - destruct (parse s) as [f|] eqn:E; [|done]. destruct tz; [done|]. intros _. split; [done|]. apply parse_inv in E as [F A].
    exists f. rewrite <- fits_valid. done.
  - intros (-> & f & V & A). apply fits_valid in V. rewrite (parse_accepted _ _ V A). done.
Qed.
Print Assumptions c131_no_panic_partial.
Example c131_ex : StrToTimeFormat None (canonical (Fields 2024 1 2 3 4 5 0)) = TPanic /\ StrToTimeFormat None [] = TErr /\
  valid_time (Fields 2024 1 2 3 4 5 0).
Proof.
  split; [vm_compute; done|]. split; [done|]. apply fits_valid. unfold fits. cbn [fyear fmonth fday fhour fmin fsec].
  change (daysIn 1 2024) with 31. lia.
Qed.
