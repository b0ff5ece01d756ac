(** ReadFile under all interleavings. *)
From Coq Require Import ZArith List Bool Lia ZifyBool.
From Verif Require Import ReadFile_Model ReadFile_Spec.
Import ListNotations.
Local Open Scope Z_scope.

Lemma ext_eq {A} (a : list A) : forall b, length a = length b -> (forall k, (k < length a)%nat -> nth_error a k = nth_error b k) -> a = b.
Proof.
  induction a as [|x a IH]; intros [|y b] L H; try discriminate; [reflexivity|]. pose proof (H 0%nat ltac:(cbn; lia)) as H0. cbn in H0. injection H0 as ->. f_equal. apply IH; [cbn in L; lia|]. intros k Hk. apply (H (S k)). cbn. lia.
Qed.
Lemma nth_zeros n k : (k < n)%nat -> nth_error (repeat 0 n) k = Some 0.
Proof. revert k. induction n as [|n IH]; intros k H; [lia|]. destruct k; [reflexivity|]. apply IH. lia. Qed.
Lemma nth_first {A} (l : list A) n k : (k < n)%nat -> nth_error (firstn n l) k = nth_error l k.
Proof. revert l k. induction n as [|n IH]; intros l k H; [lia|]. destruct l; [destruct k; reflexivity|]. destruct k; [reflexivity|]. cbn. apply IH. lia. Qed.
Lemma nth_skip {A} (l : list A) n k : nth_error (skipn n l) k = nth_error l (n + k).
Proof. revert l. induction n as [|n IH]; intros l; [reflexivity|]. destruct l; [destruct k; reflexivity|]. apply IH. Qed.
Lemma nth_end {A} (l : list A) k : (length l <= k)%nat -> nth_error l k = None. Proof. apply nth_error_None. Qed.
Lemma nth_in {A} (l : list A) k : (k < length l)%nat -> exists x, nth_error l k = Some x.
Proof. intros H. destruct (nth_error l k) eqn:E; [eauto|]. apply nth_error_None in E. lia. Qed.
Lemma pwrite_written c off bs : written c off bs (pwrite c off bs).
Proof.
  split; [intros ->; reflexivity|]. intros NB. assert (pwrite c off bs = firstn off (c ++ repeat 0 (off - length c)) ++ bs ++ skipn (off + length bs) c) as -> by (destruct bs; [congruence|reflexivity]).
  assert (length (firstn off (c ++ repeat 0 (off - length c)) ++ bs ++ skipn (off + length bs) c) = Nat.max (length c) (off + length bs)) as L.
  { rewrite !app_length, firstn_length, skipn_length, app_length, repeat_length. destruct bs; [congruence|]; cbn [length] in *; lia. }
  split; [exact L|]. intros k Hk. rewrite L in Hk. unfold at_byte. assert (length (firstn off (c ++ repeat 0 (off - length c))) = off) as Lf by (rewrite firstn_length, app_length, repeat_length; lia).
  destruct (Nat.leb_spec off k).
  - rewrite nth_error_app2 by lia. rewrite Lf. destruct (Nat.ltb_spec k (off + length bs)); cbn [andb].
    + rewrite nth_error_app1 by lia. reflexivity.
    + rewrite nth_error_app2 by lia. rewrite nth_skip. replace (off + length bs + (k - off - length bs))%nat with k by lia. destruct (nth_in c k) as [x ->]; [lia|reflexivity].
  - cbn [andb]. rewrite nth_error_app1 by lia. rewrite nth_first by lia. destruct (Nat.lt_ge_cases k (length c)).
    + rewrite nth_error_app1 by lia. destruct (nth_in c k) as [x ->]; [lia|reflexivity].
    + rewrite nth_error_app2, nth_zeros, nth_end by lia. reflexivity.
Qed.
Lemma ftruncate_cut c n : cut c n (ftruncate c n).
Proof.
  unfold cut, at_byte, ftruncate. split; [rewrite app_length, firstn_length, repeat_length; lia|]. intros k Hk. destruct (Nat.lt_ge_cases k (length c)).
  - rewrite nth_error_app1 by (rewrite firstn_length; lia). rewrite nth_first by lia. destruct (nth_in c k) as [x ->]; [lia|reflexivity].
  - rewrite nth_error_app2 by (rewrite firstn_length; lia). rewrite firstn_length, nth_zeros by lia. rewrite nth_end by lia. reflexivity.
Qed.
Lemma written_unique c off bs c' : written c off bs c' -> c' = pwrite c off bs.
Proof.
  intros [E HW]. destruct bs as [|b0 bs0] eqn:EB; [rewrite E; reflexivity|]. rewrite <- EB in *. assert (bs <> []) as NB by (rewrite EB; discriminate). destruct (HW NB) as [L H]. destruct (proj2 (pwrite_written c off bs) NB) as [L' H']. apply ext_eq; [lia|]. intros k Hk. specialize (H k Hk). specialize (H' k ltac:(lia)). unfold at_byte in *. congruence. Qed.
Lemma cut_unique c n c' : cut c n c' -> c' = ftruncate c n.
Proof. intros [L H]. destruct (ftruncate_cut c n) as [L' H']. apply ext_eq; [lia|]. intros k Hk. specialize (H k ltac:(lia)). specialize (H' k ltac:(lia)). unfold at_byte in *. congruence. Qed.

Lemma set_length k b l : length (set k b l) = length l. Proof. revert k. induction l as [|x l IH]; intros [|k]; cbn; auto. Qed.
Lemma set_nth k b l j : (k < length l)%nat -> nth_error (set k b l) j = if (j =? k)%nat then Some (Some b) else nth_error l j.
Proof. revert k j. induction l as [|x l IH]; intros [|k] [|j] H; cbn in *; try lia; try reflexivity. apply IH. lia. Qed.
Lemma filled_spec l r : filled l = Some r <-> l = map Some r.
Proof.
  revert r. induction l as [|[b|] l IH]; intros r; cbn; [destruct r; split; try discriminate; auto| |destruct r; split; discriminate]. destruct (filled l) as [q|]; cbn.
  - specialize (IH q). assert (l = map Some q) as -> by (apply IH; reflexivity). split; [intros [= <-]; reflexivity|]. destruct r as [|x r]; [discriminate|]. cbn. intros H. injection H as -> H. f_equal. f_equal. revert H. clear. revert r. induction q; intros [|y r] H; try discriminate; auto. cbn in H. injection H as -> H. f_equal. auto.
  - split; [discriminate|]. destruct r as [|x r]; [discriminate|]. cbn. intros [= -> H]. apply IH in H. discriminate.
Qed.
(** The bytes so far are from the past [past] of the file or made up. *)
Definition from (ok : nat -> Z -> Prop) (l : list (option Z)) : Prop := forall k b, nth_error l k = Some (Some b) -> ok k b.
Lemma from_set ok l k b : from ok l -> ok k b -> (k < length l)%nat -> from ok (set k b l).
Proof. intros H Hb L j x. rewrite set_nth by exact L. destruct (Nat.eqb_spec j k) as [->|]; [intros [= <-]; exact Hb|apply H]. Qed.
Lemma held_head c es h : held c es h -> In c h. Proof. destruct 1; left; reflexivity. Qed.
(** Any promise about single bytes that holds for what the mapping shows of each content holds for the result. *)
Lemma reading_from (ok : nat -> Z -> Prop) es : forall c bs h, held c es h -> from ok bs -> (forall c', In c' h -> forall k b, (k < length bs)%nat -> peek c' k = Some b -> ok k b) ->
  forall r, reading es c bs = Bytes r -> length r = length bs /\ forall k b, nth_error r k = Some b -> ok k b.
Proof.
  assert (forall bs r, from ok bs -> filled bs = Some r -> length r = length bs /\ forall k b, nth_error r k = Some b -> ok k b) as Fin.
  { intros bs r Hf E. apply filled_spec in E. subst bs. split; [rewrite map_length; reflexivity|]. intros k b Hk. apply Hf. rewrite nth_error_map, Hk. reflexivity. }
  induction es as [|e es IH]; intros c bs h Hh Hf Hp r; cbn [reading]; (destruct (filled bs) as [q|] eqn:E; [intros [= <-]; apply Fin; assumption|]); [discriminate|].
  inversion Hh as [|? off w ? c' h' Hw Hh'|? n ? c' h' Hc Hh'|? k ? h' Hh']; subst.
  - apply written_unique in Hw. subst c'. apply (IH _ bs h'); [exact Hh'|exact Hf|]. intros c' Hc'. apply Hp. right. exact Hc'.
  - apply cut_unique in Hc. subst c'. apply (IH _ bs h'); [exact Hh'|exact Hf|]. intros c' Hc'. apply Hp. right. exact Hc'.
  - destruct (Nat.ltb_spec k (length bs)) as [L|L].
    + destruct (peek c k) as [b|] eqn:P; [|discriminate]. intros Hr. destruct (IH c (set k b bs) h' Hh') with (r := r) as [R1 R2]; [apply from_set; [exact Hf|apply (Hp c); [left; reflexivity|exact L|exact P]|exact L]| |exact Hr|].
      * intros c' Hc' j x. rewrite set_length. apply Hp. right. exact Hc'.
      * rewrite set_length in R1. auto.
    + apply (IH c bs h'); [exact Hh'|exact Hf|]. intros c' Hc'. apply Hp. right. exact Hc'.
Qed.
(** SIGBUS is for pages behind the end. *)
Lemma reading_killed es : forall c bs h, held c es h -> reading es c bs = Killed -> exists c' k, In c' h /\ (k < length bs)%nat /\ peek c' k = None.
Proof.
  induction es as [|e es IH]; intros c bs h Hh; cbn [reading]; (destruct (filled bs) as [q|] eqn:E; [discriminate|]); [discriminate|].
  inversion Hh as [|? off w ? c' h' Hw Hh'|? n ? c' h' Hc Hh'|? k ? h' Hh']; subst.
  - apply written_unique in Hw. subst c'. intros H. destruct (IH _ _ _ Hh' H) as (c' & j & H1 & H2). exists c', j. split; [right; exact H1|exact H2].
  - apply cut_unique in Hc. subst c'. intros H. destruct (IH _ _ _ Hh' H) as (c' & j & H1 & H2). exists c', j. split; [right; exact H1|exact H2].
  - destruct (Nat.ltb_spec k (length bs)) as [L|L].
    + destruct (peek c k) as [b|] eqn:P; intros H; [|exists c, k; split; [left; reflexivity|split; assumption]]. destruct (IH _ _ _ Hh' H) as (c' & j & H1 & H2 & H3). rewrite set_length in H2. exists c', j. split; [right; exact H1|split; assumption].
    + intros H. destruct (IH _ _ _ Hh' H) as (c' & j & H1 & H2). exists c', j. split; [right; exact H1|exact H2].
Qed.
Lemma peek_in c k : (k < length c)%nat -> peek c k = nth_error c k. Proof. intros H. unfold peek. destruct (nth_in c k H) as [x ->]. reflexivity. Qed.
Lemma peek_none c k : peek c k = None <-> Z.of_nat (length c) <= Z.of_nat k / 4096 * 4096.
Proof.
  unfold peek, pageSize. assert (Z.of_nat k / 4096 * 4096 <= Z.of_nat k) by (pose proof (Z.mul_div_le (Z.of_nat k) 4096 ltac:(lia)); lia). destruct (nth_error c k) eqn:E.
  - split; [discriminate|]. assert (k < length c)%nat by (apply nth_error_Some; congruence). lia.
  - destruct (Z.ltb_spec (Z.of_nat k / 4096 * 4096) (Z.of_nat (length c))); split; try discriminate; try lia; auto.
Qed.
Lemma from_none n ok : from ok (repeat None n).
Proof. intros k b H. exfalso. revert k H. induction n as [|n IH]; intros [|k] H; cbn in H; try discriminate. apply (IH k H). Qed.
