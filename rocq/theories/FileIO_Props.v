(** C106 to C108: files of fastio used by one goroutine. *)
From stdpp Require Import list.
From Coq Require Import ZArith Lia.
From Verif Require Import FileIO_Model.
Local Open Scope Z_scope.

(** No Close, and, for files not opened for appending, no WriteAt. *)
Definition plain (app : bool) (op : fop) : Prop := match op with FClose => False | FWriteAt _ _ => app = true | _ => True end.
(** A handle whose file holds [c] and whose next write appends and is reported at the end. *)
Definition at_end (app : bool) (c : list Z) (h : handle) : Prop :=
  contents (hfile h) = c /\ appendMode (hfile h) = app /\ closed (hfile h) = false /\ hoffset h = Z.of_nat (length c) /\ pos (hfile h) = length c.
(** The bytes a call appends. *)
Definition appended (op : fop) : list Z := match op with FWrite bs | FWriteSync bs => bs | _ => [] end.

Lemma overwrite_end f bs : overwrite f (length f) bs = f ++ bs.
Proof.
  unfold overwrite. destruct bs as [|b bs]; [rewrite app_nil_r; reflexivity|]. rewrite Nat.sub_diag. cbn [replicate]. rewrite app_nil_r, take_ge by lia.
  rewrite drop_ge by lia. rewrite app_nil_r. reflexivity.
Qed.
Lemma fstep_end app c h op : at_end app c h -> plain app op -> at_end app (c ++ appended op) (fstep h op).1.
Proof.
  intros (Hc & Ha & Hcl & Ho & Hp) Hpl. destruct h as [[f p a cl] off]. cbn [hfile contents pos appendMode closed hoffset] in *. subst c a cl off p.
  assert (forall bs, bs <> [] -> at_end app (f ++ bs) (Handle (OsFile (overwrite f (if app then length f else length f) bs) ((if app then length f else length f) + length bs) app false) (Z.of_nat (length f) + Z.of_nat (length bs)))) as HW.
  { intros bs Hb. unfold at_end. cbn [hfile contents pos appendMode closed hoffset]. rewrite app_length. replace (if app then length f else length f) with (length f) by (destruct app; reflexivity).
    rewrite overwrite_end. repeat split; lia. }
  destruct op as [bs|bs|bs off|n|n off|]; cbn [fstep appended plain] in *; unfold os_Write, os_WriteAt, os_Read, os_ReadAt; cbn [hfile contents pos appendMode closed hoffset].
  - destruct bs as [|b bs]; cbn [fst].
    + unfold at_end. cbn. rewrite app_nil_r. repeat split; lia.
    + assert (0 <? Z.of_nat (length (b :: bs)) = true) as -> by (apply Z.ltb_lt; change (length (b :: bs)) with (S (length bs)); lia). apply (HW (b :: bs)). discriminate.
  - destruct bs as [|b bs]; cbn [fst].
    + unfold at_end. cbn. rewrite app_nil_r. repeat split; lia.
    + apply (HW (b :: bs)). discriminate.
  - subst app. unfold at_end. cbn. rewrite app_nil_r. repeat split; lia.
  - rewrite drop_ge by lia. rewrite take_nil. unfold at_end. cbn. rewrite app_nil_r. repeat split; lia.
  - destruct (off <? 0); unfold at_end; cbn; rewrite app_nil_r; repeat split; lia.
  - contradiction.
Qed.
Lemma frun_end app ops : forall c h, at_end app c h -> Forall (plain app) ops -> at_end app (c ++ concat (map appended ops)) (frun h ops).1.
Proof.
  induction ops as [|op ops IH]; intros c h H Hf; cbn [frun map concat]; [rewrite app_nil_r; exact H|]. apply Forall_cons in Hf as [Hop Hf].
  pose proof (fstep_end app c h op H Hop) as H1. destruct (fstep h op) as [h1 r] eqn:E1. cbn [fst] in H1. specialize (IH _ _ H1 Hf). destruct (frun h1 ops) as [h2 rs]. cbn [fst] in *.
  rewrite app_assoc. exact IH.
Qed.
Lemma New_end o h : New o = Some h -> at_end (appendMode o) (contents o) h.
Proof. unfold New. destruct (closed o); [discriminate|]. intros [= <-]. unfold at_end. cbn. repeat split; lia. Qed.
Lemma readat_part c a bs : forall app h, at_end app c h -> bs `prefix_of` drop a c -> (a + length bs <= length c)%nat -> fstep h (FReadAt (length bs) (Z.of_nat a)) = (h, FBytes bs false).
Proof.
  intros app h (Hc & _ & Hcl & _) [r Hr] Hl. cbn [fstep]. unfold os_ReadAt. rewrite Hcl, Hc. assert (Z.of_nat a <? 0 = false) as -> by lia. rewrite Nat2Z.id, Hr, take_app. 
  assert ((length bs <? length bs)%nat = false) as -> by (apply Nat.ltb_ge; lia). reflexivity.
Qed.

(** C106.  On a file from Open, after any history without Close: WriteSync reports no error and the length the file had, the bytes of the file are those it had at first
    followed by everything written, in order, and what WriteSync wrote can be read by ReadAt at the offset it returned, whatever is called in between. *)
Theorem c106_read_back : forall bytes h ops1 bs ops2, Open bytes = Some h -> Forall (plain true) ops1 -> Forall (plain true) ops2 ->
  let h1 := (frun h ops1).1 in let h2 := (frun (fstep h1 (FWriteSync bs)).1 ops2).1 in
  let off := Z.of_nat (length (bytes ++ concat (map appended ops1))) in
  (fstep h1 (FWriteSync bs)).2 = FNum off false /\
  contents (hfile h2) = bytes ++ concat (map appended ops1) ++ bs ++ concat (map appended ops2) /\
  (fstep h2 (FReadAt (length bs) off)).2 = FBytes bs false.
Proof.
  intros bytes h ops1 bs ops2 Ho H1 H2 h1 h2 off. pose proof (New_end _ _ Ho) as He. cbn [appendMode contents] in He.
  pose proof (frun_end true ops1 _ _ He H1) as E1. fold h1 in E1. pose proof (fstep_end true _ _ (FWriteSync bs) E1 I) as E2. cbn [appended] in E2.
  pose proof (frun_end true ops2 _ _ E2 H2) as E3. fold h2 in E3. split; [|split].
  - destruct E1 as (_ & _ & Hcl & Hof & _). cbn [fstep]. unfold os_Write. rewrite Hcl. cbn [snd]. rewrite Hof. reflexivity.
  - destruct E3 as (-> & _). rewrite <- !app_assoc. reflexivity.
  - unfold off. rewrite (readat_part _ (length (bytes ++ concat (map appended ops1))) bs true h2 E3); [reflexivity| |rewrite !app_length; lia].
    exists (concat (map appended ops2)). rewrite <- (app_assoc (bytes ++ _)). apply drop_app.
Qed.
Print Assumptions c106_read_back.
(** C106, the same for New of a file not opened for appending, if WriteAt is not used. *)
Theorem c106_new_partial : forall o h ops1 bs ops2, appendMode o = false -> New o = Some h -> Forall (plain false) ops1 -> Forall (plain false) ops2 ->
  let h1 := (frun h ops1).1 in let h2 := (frun (fstep h1 (FWriteSync bs)).1 ops2).1 in
  let off := Z.of_nat (length (contents o ++ concat (map appended ops1))) in
  (fstep h1 (FWriteSync bs)).2 = FNum off false /\ (fstep h2 (FReadAt (length bs) off)).2 = FBytes bs false.
Proof.
  intros o h ops1 bs ops2 Ha Ho H1 H2 h1 h2 off. pose proof (New_end _ _ Ho) as He. rewrite Ha in He.
  pose proof (frun_end false ops1 _ _ He H1) as E1. fold h1 in E1. pose proof (fstep_end false _ _ (FWriteSync bs) E1 I) as E2. cbn [appended] in E2.
  pose proof (frun_end false ops2 _ _ E2 H2) as E3. fold h2 in E3. split.
  - destruct E1 as (_ & _ & Hcl & Hof & _). cbn [fstep]. unfold os_Write. rewrite Hcl. cbn [snd]. rewrite Hof. reflexivity.
  - unfold off. rewrite (readat_part _ (length (contents o ++ concat (map appended ops1))) bs false h2 E3); [reflexivity| |rewrite !app_length; lia].
    exists (concat (map appended ops2)). rewrite <- (app_assoc (contents o ++ _)). apply drop_app.
Qed.
Print Assumptions c106_new_partial.
(** C106 is false of New with a file not opened for appending once WriteAt is used: the bytes WriteAt put at the end are overwritten by the next Write; and after a Read of
    them WriteSync reports an offset at which its bytes are not. *)
Theorem c106_new_refuted : forall bytes b c, b <> c -> exists h, New (OsFile bytes 0 false false) = Some h /\
  let n := Z.of_nat (length bytes) in
  (frun h [FWriteAt [b; b] n; FWrite [c]; FReadAt 2 n]).2 = [FNum 2 false; FNum 1 false; FBytes [c; b] false] /\
  (frun h [FWriteAt [b; b] n; FRead 1; FWriteSync [c]; FReadAt 1 n]).2 = [FNum 2 false; FBytes [b] false; FNum n false; FBytes [b] false].
Proof.
  intros bytes b c Hbc. eexists. split; [reflexivity|]. cbn zeta.
  assert (overwrite bytes (Z.to_nat (Z.of_nat (length bytes))) [b; b] = bytes ++ [b; b]) as EW by (rewrite Nat2Z.id; apply overwrite_end).
  assert (Z.of_nat (length bytes) <? 0 = false) as Hz by (apply Z.ltb_ge; clear; lia).
  assert (drop (length bytes) (bytes ++ [b; b]) = [b; b]) as Hd by apply drop_app.
  split.
  - cbn [frun fstep]. unfold os_WriteAt. cbn [hfile contents pos appendMode closed hoffset]. rewrite Hz, EW. unfold os_Write. cbn [hfile contents pos appendMode closed hoffset fstep].
    unfold os_ReadAt. cbn [hfile contents pos appendMode closed hoffset]. rewrite Hz, Nat2Z.id.
    assert (overwrite (bytes ++ [b; b]) (length bytes) [c] = bytes ++ [c; b]) as ->.
    { unfold overwrite. rewrite app_length. replace (length bytes - (length bytes + length [b; b]))%nat with 0%nat by lia. cbn [replicate]. rewrite app_nil_r, take_app. cbn [length].
      rewrite drop_app_ge by lia. replace (length bytes + 1 - length bytes)%nat with 1%nat by lia. reflexivity. }
    rewrite drop_app. reflexivity.
  - cbn [frun fstep]. unfold os_WriteAt. cbn [hfile contents pos appendMode closed hoffset]. rewrite Hz, EW. unfold os_Read. cbn [hfile contents pos appendMode closed hoffset]. rewrite Hd. cbn [take].
    change (take 1 [b; b]) with [b]. cbn [length fstep]. unfold os_Write. cbn [hfile contents pos appendMode closed hoffset]. unfold os_ReadAt. cbn [hfile contents pos appendMode closed hoffset fstep].
    rewrite Hz, Nat2Z.id.
    assert (overwrite (bytes ++ [b; b]) (length bytes + 1) [c] = bytes ++ [b; c]) as ->.
    { unfold overwrite. rewrite app_length. cbn [length]. replace (length bytes + 1 - (length bytes + 2))%nat with 0%nat by lia. cbn [replicate]. rewrite app_nil_r.
      rewrite take_app_ge by lia. replace (length bytes + 1 - length bytes)%nat with 1%nat by lia. rewrite drop_ge by (rewrite app_length; cbn; lia). rewrite <- app_assoc. reflexivity. }
    rewrite drop_app. reflexivity.
Qed.
Print Assumptions c106_new_refuted.
(** C106.  After Close every call fails. *)
Theorem c106_closed : forall h op, match (fstep (fstep h FClose).1 op).2 with FNum _ err | FBytes _ err | FErr err => err = true end.
Proof. intros h op. destruct op; reflexivity. Qed.
Print Assumptions c106_closed.
Example c106_ex : exists h, Open [1; 2] = Some h /\
  (frun h [FWrite [3]; FWriteSync [4; 5]; FRead 1; FWriteAt [9] 0; FWriteSync []; FWrite [6]; FReadAt 2 3; FReadAt 9 5; FClose; FWrite [7]]).2 =
  [FNum 1 false; FNum 3 false; FBytes [] true; FNum 0 true; FNum 5 false; FNum 1 false; FBytes [4; 5] false; FBytes [6] true; FErr false; FNum 0 true].
Proof. eexists. split; reflexivity. Qed.

(** C107 is false: on a file from Open every WriteAt fails and changes nothing, whatever happened before. *)
Theorem c107_write_at_refuted : forall bytes h ops bs off, Open bytes = Some h -> Forall (plain true) ops ->
  let h1 := (frun h ops).1 in fstep h1 (FWriteAt bs off) = (h1, FNum 0 true).
Proof.
  intros bytes h ops bs off Ho Hf h1. pose proof (New_end _ _ Ho) as He. cbn [appendMode contents] in He. pose proof (frun_end true ops _ _ He Hf) as (_ & Ha & Hcl & _). fold h1 in Ha, Hcl.
  cbn [fstep]. unfold os_WriteAt. rewrite Ha, Hcl. reflexivity.
Qed.
Print Assumptions c107_write_at_refuted.
(** C107, what does hold: on an open file not opened for appending WriteAt puts its bytes where it is told and changes no other byte of the file; a gap reads as zeros;
    negative offsets fail.  Missing: files opened for appending, as by Open. *)
Theorem c107_write_at_partial : forall h bs off, closed (hfile h) = false -> appendMode (hfile h) = false -> bs <> [] ->
  (off < 0 -> fstep h (FWriteAt bs off) = (h, FNum 0 true)) /\
  (0 <= off -> let h' := (fstep h (FWriteAt bs off)).1 in
     (fstep h (FWriteAt bs off)).2 = FNum (Z.of_nat (length bs)) false /\
     (forall i, (i < length bs)%nat -> contents (hfile h') !! (Z.to_nat off + i)%nat = bs !! i) /\
     (forall j, (j < Z.to_nat off)%nat -> contents (hfile h') !! j = Some (default 0 (contents (hfile h) !! j))) /\
     (forall j, (Z.to_nat off + length bs <= j)%nat -> contents (hfile h') !! j = contents (hfile h) !! j)).
Proof.
  intros h bs off Hcl Ha Hb. cbn [fstep]. unfold os_WriteAt. rewrite Ha, Hcl. split; intros Ho.
  - assert (off <? 0 = true) as -> by lia. reflexivity.
  - assert (off <? 0 = false) as -> by lia. cbn [fst snd hfile contents]. split; [reflexivity|]. set (f := contents (hfile h)). set (a := Z.to_nat off). unfold overwrite. destruct bs as [|b bs]; [contradiction|].
    set (B := b :: bs) in *. clearbody B f a. assert (length (take a (f ++ replicate (a - length f) 0)) = a) as La by (rewrite take_length, app_length, replicate_length; lia).
    split; [|split].
    + intros i Hi. rewrite lookup_app_r by lia. rewrite La. replace (a + i - a)%nat with i by lia. apply lookup_app_l. assumption.
    + intros j Hj. rewrite lookup_app_l by lia. rewrite lookup_take by lia. destruct (decide (j < length f)%nat).
      * rewrite lookup_app_l by lia. destruct (lookup_lt_is_Some_2 f j) as [x ->]; [lia|]. reflexivity.
      * rewrite lookup_app_r by lia. rewrite lookup_replicate_2 by lia. rewrite lookup_ge_None_2 by lia. reflexivity.
    + intros j Hj. rewrite lookup_app_r by lia. rewrite La. rewrite lookup_app_r by lia. rewrite lookup_drop. f_equal. lia.
Qed.
Print Assumptions c107_write_at_partial.
Example c107_ex : (exists h, Open [1; 2; 3] = Some h /\ (fstep h (FWriteAt [9] 1)).2 = FNum 0 true) /\
  exists h, New (OsFile [1; 2; 3] 0 false false) = Some h /\ (frun h [FWriteAt [9] 1; FReadAt 3 0; FWriteAt [8] 5; FReadAt 6 0; FWriteAt [7] (-1)]).2 =
    [FNum 1 false; FBytes [1; 9; 3] false; FNum 1 false; FBytes [1; 9; 3; 0; 0; 8] false; FNum 0 true].
Proof. split; eexists; (split; [reflexivity|]); reflexivity. Qed.

(** C108 is false: on a file from Open, or from New without WriteAt, Read never gives a byte, whatever is in the file and whatever was written: it is at the end. *)
Theorem c108_read_refuted : forall o h ops n, New o = Some h -> Forall (plain (appendMode o)) ops ->
  (fstep (frun h ops).1 (FRead (S n))).2 = FBytes [] true.
Proof.
  intros o h ops n Ho Hf. pose proof (frun_end _ ops _ _ (New_end _ _ Ho) Hf) as (Hc & _ & Hcl & _ & Hp). cbn [fstep]. unfold os_Read. rewrite Hcl, Hp, <- Hc. rewrite drop_ge by lia. reflexivity.
Qed.
Print Assumptions c108_read_refuted.
(** C108, what does hold: ReadAt gives every part of what the file held at first and what was written since, in order, and says io.EOF exactly if there are fewer bytes. *)
Theorem c108_read_at_partial : forall o h ops n off, New o = Some h -> Forall (plain (appendMode o)) ops -> 0 <= off ->
  let all := contents o ++ concat (map appended ops) in
  (fstep (frun h ops).1 (FReadAt n off)).2 = FBytes (take n (drop (Z.to_nat off) all)) (bool_decide (Z.of_nat (length all) - off < Z.of_nat n /\ (0 < n)%nat)).
Proof.
  intros o h ops n off Ho Hf Hoff all. pose proof (frun_end _ ops _ _ (New_end _ _ Ho) Hf) as (Hc & _ & Hcl & _). fold all in Hc. cbn [fstep]. unfold os_ReadAt. rewrite Hcl, Hc.
  assert (off <? 0 = false) as -> by lia. cbn [snd]. f_equal. rewrite take_length, drop_length. case_bool_decide; [apply Nat.ltb_lt|apply Nat.ltb_ge]; lia.
Qed.
Print Assumptions c108_read_at_partial.
Example c108_ex : exists h, Open [1; 2] = Some h /\ (frun h [FRead 1; FWrite [3]; FRead 1; FReadAt 2 1; FReadAt 3 1]).2 =
  [FBytes [] true; FNum 1 false; FBytes [] true; FBytes [2; 3] false; FBytes [2; 3] true].
Proof. eexists. split; reflexivity. Qed.
