(** Properties C54, C55, C56, C82, C83. *)
From stdpp Require Import list list_numbers.
From Coq Require Import ZArith Lia.
From Verif Require Import GoInt GoSlice Num_Spec Num_Model Num_Proofs Buffer_Model Buffer_Spec Buffer_Proofs.
Local Open Scope Z_scope.

(** C54.  WriteInt32 puts the four bytes of int32(i), most significant first. *)
Lemma c54_int32_bytes : forall i, be4 i (int32ToBytes i).
Proof.
  intros i. assert (E : int32ToBytes i = put_bytes 4 (i32 i)) by reflexivity. unfold be4. rewrite E. split; [apply put_bytes_length|]. split; [apply put_bytes_bytes|].
  rewrite put_bytes_value. change (256 ^ Z.of_nat 4) with (2 ^ 32). apply (wrapS_mod 32). lia.
Qed.
Print Assumptions c54_int32_bytes.
Example c54_int32_ex : int32ToBytes (-2) = [255; 255; 255; 254] /\ int32ToBytes (2 ^ 32 + 258) = [0; 0; 1; 2].
Proof. vm_compute. auto. Qed.

Lemma vrun_enc enc ops : (forall i, enc i = int32ToBytes i) -> forall v, vrun enc v ops = vrun int32ToBytes v ops.
Proof.
  intros He. induction ops as [|op ops IH]; intros v; cbn [vrun]; [reflexivity|].
  assert (E : vstep enc v op = vstep int32ToBytes v op) by (destruct op as [| | | | | | | | |[b|] i g| | | | | | |]; cbn [vstep]; rewrite ?He; reflexivity).
  rewrite E. destruct (vstep int32ToBytes v op) as [[v' o]|]; [rewrite IH|]; reflexivity.
Qed.
Lemma enc_unique enc : (forall i, be4 i (enc i)) -> forall i, enc i = int32ToBytes i.
Proof.
  intros He i. destruct (He i) as (L1 & B1 & V1), (c54_int32_bytes i) as (L2 & B2 & V2). apply be_value_inj; try assumption; congruence.
Qed.

(** C54, C56.  To a program that keeps to the rules, every buffer it gets, from the pool or not, is a fresh sequence of bytes of its
    own: all it sees is what the machine without arrays, capacities or pool ([vrun]) shows. *)
Theorem c54_values : forall enc ops v os, (forall i, be4 i (enc i)) -> vrun enc vinit ops = Some (v, os) -> (brun binit ops).2 = os.
Proof.
  intros enc ops v os He H. rewrite (vrun_enc _ _ (enc_unique _ He)) in H. exact (proj1 (rel_run _ _ _ _ _ rel_init H)).
Qed.
Print Assumptions c54_values.

(** Two buffers, one from the pool with the array of a freed one; a slice from Bytes is written to the other buffer. *)
Definition c54_prog : list bop :=
  [NPool 0; BWriteString (Some 0%nat) [1; 2; 3] 5; BFree (Some 0%nat); NPool 0; BLen (Some 1%nat); BWriteByte (Some 1%nat) 7 0; NNew 2; BBytes (Some 1%nat);
   BWrite (Some 2%nat) 0 3; BWriteInt32 (Some 2%nat) 258 0; BWriteString (Some 1%nat) [8; 9] 0; BWrite (Some 2%nat) 0 3; BString (Some 2%nat); BRead (Some 1%nat) 2; BString (Some 1%nat);
   BReset (Some 2%nat); BWriteByte (Some 2%nat) 4 0; BString (Some 2%nat); BWriteByte None 1 0].
Example c54_values_ex : exists v, vrun int32ToBytes vinit c54_prog = Some (v,
    [ok; Ob 3 [] ENil; ok; ok; Ob 0 [] ENil; ok; ok; Ob 0 [7] ENil; Ob 1 [] ENil; Ob 8 [] ENil; Ob 2 [] ENil; Ob 1 [] ENil; Ob 0 [7; 0; 0; 1; 2; 7] ENil; Ob 2 [7; 8] ENil; Ob 0 [9] ENil;
     ok; ok; Ob 0 [4] ENil; Ob 0 [] EErr]) /\ hnd (brun binit c54_prog).1 = [0; 0; 1]%nat.
Proof. eexists. vm_compute. auto. Qed.

(** C54.  Whatever happened before, a new buffer then shows exactly what was written to it since its last Reset. *)
Lemma vlook_set v b x y : vbufs v !! b = Some y -> vlive x = true -> vlook (vset v b x) b = Some x.
Proof. intros H Hl. apply vlook_Some. cbn [vset vbufs]. split; [apply list_lookup_insert; apply lookup_lt_Some in H; exact H|exact Hl]. Qed.
Lemma vrun_app enc a : forall v b v' os, vrun enc v a = Some (v', os) ->
  vrun enc v (a ++ b) = match vrun enc v' b with Some (v2, os2) => Some (v2, os ++ os2) | None => None end.
Proof.
  induction a as [|op a IH]; intros v b v' os H; cbn [vrun app] in *; [simplify_eq; destruct (vrun enc v' b) as [[? ?]|]; reflexivity|].
  destruct (vstep enc v op) as [[v1 o]|]; [|discriminate]. destruct (vrun enc v1 a) as [[v2 os2]|] eqn:E; [|discriminate]. simplify_eq.
  rewrite (IH _ b _ _ E). destruct (vrun enc v' b) as [[? ?]|]; reflexivity.
Qed.
Lemma vrun_length enc ops : forall v v' os, vrun enc v ops = Some (v', os) -> length os = length ops.
Proof.
  induction ops as [|op ops IH]; intros v v' os H; cbn [vrun] in H; [simplify_eq; reflexivity|]. destruct (vstep enc v op) as [[v1 o]|]; [|discriminate].
  destruct (vrun enc v1 ops) as [[v2 os2]|] eqn:E; [|discriminate]. simplify_eq. cbn. f_equal. eauto.
Qed.
Lemma writes_run enc b ws : forall v x, vlook v b = Some x -> exists v' os x', vrun enc v (on b <$> ws) = Some (v', os) /\ length os = length ws /\ vlook v' b = Some x' /\
  vbytes x' = fold_left (fun acc w => match w with WStr bs _ => acc ++ bs | WByte c _ => acc ++ [c] | WInt i _ => acc ++ enc i | WReset => [] end) ws (vbytes x).
Proof.
  induction ws as [|w ws IH]; intros v x Hx; [exists v, [], x; auto|]. apply vlook_Some in Hx as Hv. destruct Hv as [Hv _].
  assert (Hstep : exists o x1, vstep enc v (on b w) = Some (vset v b x1, o) /\ vlive x1 = true /\
    vbytes x1 = match w with WStr bs _ => vbytes x ++ bs | WByte c _ => vbytes x ++ [c] | WInt i _ => vbytes x ++ enc i | WReset => [] end).
  { destruct w; cbn [on vstep]; unfold vwrite; rewrite Hx; do 2 eexists; (split; [reflexivity|split; reflexivity]). }
  destruct Hstep as (o & x1 & Hs & Hl & Hb1). destruct (IH (vset v b x1) x1 (vlook_set _ _ _ _ Hv Hl)) as (v' & os & x' & H1 & H2 & H3 & H4).
  exists v', (o :: os), x'. cbn [fmap list_fmap vrun]. rewrite Hs. cbn [fmap] in H1. rewrite H1. cbn [length fold_left]. rewrite <- Hb1. auto.
Qed.
Theorem c54_concatenation : forall enc ops v os pooled k ws, (forall i, be4 i (enc i)) -> vrun enc vinit ops = Some (v, os) ->
  let b := length (vbufs v) in
  let prog := ops ++ [if pooled : bool then NPool k else NNew k] ++ (on b <$> ws) in
  drop (length prog) (brun binit (prog ++ [BString (Some b); BLen (Some b); BBytes (Some b)])).2 =
    [Ob 0 (since enc ws) ENil; Ob (Z.of_nat (length (since enc ws))) [] ENil; Ob 0 (since enc ws) ENil].
Proof.
  intros enc ops v os pooled k ws He H b prog. set (op := if pooled then NPool k else NNew k) in *. set (v1 := V (vbufs v ++ [VB [] true 0]) (vsls v)).
  assert (Hop : vrun enc v [op] = Some (v1, [ok])) by (unfold op; destruct pooled; reflexivity).
  assert (Hx : vlook v1 b = Some (VB [] true 0)) by (apply vlook_Some; split; [apply list_lookup_middle; reflexivity|reflexivity]).
  destruct (writes_run enc b ws v1 _ Hx) as (v2 & os2 & x' & Hr & Hl & Hx' & Hb). cbn [vbytes] in Hb. fold (since enc ws) in Hb.
  assert (Hp : vrun enc vinit prog = Some (v2, os ++ [ok] ++ os2)).
  { unfold prog. rewrite (vrun_app _ _ _ _ _ _ H), (vrun_app _ _ _ _ _ _ Hop), Hr. reflexivity. }
  eassert (Hq : vrun enc vinit (prog ++ [BString (Some b); BLen (Some b); BBytes (Some b)]) = Some (_, (os ++ [ok] ++ os2) ++ _)).
  { rewrite (vrun_app _ _ _ _ _ _ Hp). do 3 (cbn [vrun vstep]; rewrite Hx'). reflexivity. }
  rewrite (c54_values _ _ _ _ He Hq). rewrite <- (vrun_length _ _ _ _ _ Hp). rewrite drop_app. rewrite Hb. reflexivity.
Qed.
Print Assumptions c54_concatenation.
Example c54_concatenation_ex : since int32ToBytes [WStr [1; 2] 0; WReset; WByte 3 1; WInt (-1) 0; WStr [4] 2] = [3; 255; 255; 255; 255; 4] /\
  drop 24 (brun binit (c54_prog ++ NNew 1 :: (on 3 <$> [WStr [1; 2] 0; WReset; WByte 3 1; WStr [4] 2]) ++ [BString (Some 3%nat)])).2 = [Ob 0 [3; 4] ENil].
Proof. vm_compute. auto. Qed.

(** C54.  Every write to a nil *Buffer is an error and changes nothing. *)
Theorem c54_nil : forall s e bs c i g,
  bstep s (BWrite None e g) = (s, Ob 0 [] EErr) /\ bstep s (BWriteString None bs g) = (s, Ob 0 [] EErr) /\
  bstep s (BWriteByte None c g) = (s, Ob 0 [] EErr) /\ bstep s (BWriteInt32 None i g) = (s, Ob 0 [] EErr).
Proof. intros. repeat split. Qed.
Print Assumptions c54_nil.

(** ** C55 *)
Lemma reads_run enc b ns : forall v x, vlook v b = Some x -> exists v' os, vrun enc v ((fun n => BRead (Some b) n) <$> ns) = Some (v', os) /\
  Forall (fun o => oerr o = ENil) os /\
  (vbytes x <> [] -> Forall (fun n => 0 < n)%nat ns -> Forall (fun o => 1 <= onum o) os) /\
  (sum_list ns < length (vbytes x) -> mjoin (obytes <$> os) = take (sum_list ns) (vbytes x) /\ exists x', vlook v' b = Some x' /\ vbytes x' = drop (sum_list ns) (vbytes x))%nat.
Proof.
  induction ns as [|n ns IH]; intros v x Hx.
  - exists v, []. split; [reflexivity|]. split; [constructor|]. split; [constructor|]. intros _. split; [reflexivity|]. eauto.
  - apply vlook_Some in Hx as Hv. destruct Hv as [Hv _]. set (k := Nat.min n (length (vbytes x))).
    assert (Hstep : exists x1 v1, vstep enc v (BRead (Some b) n) = Some (v1, Ob (Z.of_nat k) (take k (vbytes x)) ENil) /\ vlook v1 b = Some x1 /\
      ((k < length (vbytes x))%nat -> vbytes x1 = drop k (vbytes x)) /\ ((length (vbytes x) <= k)%nat -> x1 = x)).
    { cbn [vstep]. rewrite Hx. cbn zeta. fold k. destruct (decide (k < length (vbytes x))%nat) as [Hk|Hk].
      - do 2 eexists. split; [reflexivity|]. split; [eapply vlook_set; [exact Hv|reflexivity]|]. split; [reflexivity|lia].
      - exists x, v. split; [reflexivity|]. split; [exact Hx|]. split; [lia|reflexivity]. }
    destruct Hstep as (x1 & v1 & Hs & Hx1 & Hc1 & Hc2). destruct (IH v1 x1 Hx1) as (v' & os & H1 & H2 & H3 & H4).
    exists v', (Ob (Z.of_nat k) (take k (vbytes x)) ENil :: os). cbn [fmap list_fmap vrun]. rewrite Hs. cbn [fmap] in H1. rewrite H1. split; [reflexivity|]. split; [constructor; [reflexivity|exact H2]|]. split.
    + intros Hne Hns. apply Forall_cons in Hns as [Hn Hns]. assert (0 < length (vbytes x))%nat by (destruct (vbytes x); [congruence|cbn; lia]).
      constructor; [cbn [onum]; lia|]. apply H3; [|exact Hns]. destruct (decide (k < length (vbytes x))%nat) as [Hk|Hk]; [|rewrite Hc2 by lia; exact Hne].
      intros E. apply (f_equal length) in E. rewrite Hc1, drop_length in E by exact Hk. cbn in E. lia.
    + change (sum_list (n :: ns)) with (n + sum_list ns)%nat. intros Hlt. assert (Hk : k = n) by lia. rewrite Hk in *. assert (Hnl : (n < length (vbytes x))%nat) by lia. rewrite (Hc1 Hnl) in H4.
      destruct H4 as [J (x' & Hx' & Hb')]; [rewrite drop_length; lia|]. split.
      * change (take n (vbytes x) ++ mjoin (obytes <$> os) = take (n + sum_list ns) (vbytes x)). rewrite J. apply take_take_drop.
      * exists x'. split; [exact Hx'|]. rewrite Hb', drop_drop. reflexivity.
Qed.

(** Reads that stop short of the end are right: they give the bytes in order, each once. *)
Theorem c55_reads_partial : forall enc ops v os b x ns, (forall i, be4 i (enc i)) -> vrun enc vinit ops = Some (v, os) -> vlook v b = Some x ->
  (sum_list ns < length (vbytes x))%nat ->
  let rs := drop (length os) (brun binit (ops ++ ((fun n => BRead (Some b) n) <$> ns))).2 in
  mjoin (obytes <$> rs) = take (sum_list ns) (vbytes x) /\ Forall (fun o => oerr o = ENil) rs /\
  drop (length os + length ns) (brun binit (ops ++ ((fun n => BRead (Some b) n) <$> ns) ++ [BString (Some b)])).2 = [Ob 0 (drop (sum_list ns) (vbytes x)) ENil].
Proof.
  intros enc ops v os b x ns He H Hx Hlt. destruct (reads_run enc b ns v x Hx) as (v' & os' & H1 & H2 & _ & H4). destruct (H4 Hlt) as (Hj & x' & Hx' & Hb').
  assert (Hp : vrun enc vinit (ops ++ ((fun n => BRead (Some b) n) <$> ns)) = Some (v', os ++ os')) by (rewrite (vrun_app _ _ _ _ _ _ H), H1; reflexivity).
  cbn zeta. rewrite (c54_values _ _ _ _ He Hp), drop_app. split; [exact Hj|]. split; [exact H2|].
  eassert (Hq : vrun enc vinit ((ops ++ ((fun n => BRead (Some b) n) <$> ns)) ++ [BString (Some b)]) = Some (_, (os ++ os') ++ _)).
  { rewrite (vrun_app _ _ _ _ _ _ Hp). cbn [vrun vstep]. rewrite Hx'. reflexivity. }
  rewrite <- app_assoc in Hq. rewrite (c54_values _ _ _ _ He Hq).
  assert (Hl : length os' = length ns) by (apply vrun_length in H1; rewrite fmap_length in H1; exact H1).
  rewrite <- Hl, <- app_length, drop_app, Hb'. reflexivity.
Qed.
Print Assumptions c55_reads_partial.
Example c55_reads_ex : drop 2 (brun binit ([NNew 0; BWriteString (Some 0%nat) [1; 2; 3; 4; 5] 0] ++ [BRead (Some 0%nat) 2; BRead (Some 0%nat) 1; BString (Some 0%nat)])).2 =
  [Ob 2 [1; 2] ENil; Ob 1 [3] ENil; Ob 0 [4; 5] ENil].
Proof. reflexivity. Qed.

(** C55 as stated is false: the last bytes are delivered again and again. *)
Theorem c55_reads_refuted : exists ops b l ns, (exists v os x, vrun int32ToBytes vinit ops = Some (v, os) /\ vlook v b = Some x /\ vbytes x = l) /\
  drop (length ops) (brun binit (ops ++ ((fun n => BRead (Some b) n) <$> ns))).2 <> proper_reads l ns /\
  drop (length ops) (brun binit (ops ++ ((fun n => BRead (Some b) n) <$> ns))).2 = [Ob 2 [5; 6] ENil; Ob 2 [5; 6] ENil].
Proof.
  exists [NNew 0; BWriteString (Some 0%nat) [5; 6] 0], 0%nat, [5; 6], [2; 2]%nat. split; [|split; [vm_compute; discriminate|reflexivity]].
  do 3 eexists. vm_compute. auto.
Qed.
Print Assumptions c55_reads_refuted.
Example c55_proper_ex : proper_reads [5; 6] [2; 2]%nat = [Ob 2 [5; 6] ENil; Ob 0 [] EEof].
Proof. reflexivity. Qed.

(** Reading to the end never ends: from a buffer that is not empty every read of at least one byte gives at least one byte and no
    error, however many reads there are; and io.EOF is never given. *)
Theorem c55_read_all_never_ends_refuted : forall enc ops v os b x ns, (forall i, be4 i (enc i)) -> vrun enc vinit ops = Some (v, os) -> vlook v b = Some x ->
  let rs := drop (length os) (brun binit (ops ++ ((fun n => BRead (Some b) n) <$> ns))).2 in
  Forall (fun o => oerr o = ENil) rs /\ (vbytes x <> [] -> Forall (fun n => 0 < n)%nat ns -> Forall (fun o => 1 <= onum o) rs).
Proof.
  intros enc ops v os b x ns He H Hx. destruct (reads_run enc b ns v x Hx) as (v' & os' & H1 & H2 & H3 & _).
  assert (Hp : vrun enc vinit (ops ++ ((fun n => BRead (Some b) n) <$> ns)) = Some (v', os ++ os')) by (rewrite (vrun_app _ _ _ _ _ _ H), H1; reflexivity).
  cbn zeta. rewrite (c54_values _ _ _ _ He Hp), drop_app. split; [exact H2|exact H3].
Qed.
Print Assumptions c55_read_all_never_ends_refuted.
Example c55_never_ends_ex : drop 2 (brun binit ([NNew 0; BWriteString (Some 0%nat) [1; 2; 3] 0] ++ ((fun n => BRead (Some 0%nat) n) <$> [2; 2; 2; 2]%nat))).2 =
  [Ob 2 [1; 2] ENil; Ob 1 [3] ENil; Ob 1 [3] ENil; Ob 1 [3] ENil].
Proof. reflexivity. Qed.

(** ** C56 *)
(** Buffers in use are different objects, with arrays of their own, and none of them is in the pool. *)
Theorem c56_exclusive : forall enc ops v os b b' x x', (forall i, be4 i (enc i)) -> vrun enc vinit ops = Some (v, os) -> vlook v b = Some x -> vlook v b' = Some x' ->
  let s := (brun binit ops).1 in
  exists o z o' z', obj s b = Some (o, z) /\ obj s b' = Some (o', z') /\ o ∉ bag s /\ o' ∉ bag s /\ (b <> b' -> o <> o' /\ sarr z <> sarr z').
Proof.
  intros enc ops v os b b' x x' He H Hx Hx' s. rewrite (vrun_enc _ _ (enc_unique _ He)) in H. destruct (rel_run _ _ _ _ _ rel_init H) as [_ R]. fold s in R.
  destruct (obj_live _ _ _ _ R Hx) as (o & z & Hob & Ho & Hz & _ & Hn & _), (obj_live _ _ _ _ R Hx') as (o' & z' & Hob' & Ho' & Hz' & _ & Hn' & _).
  exists o, z, o', z'. split; [exact Hob|]. split; [exact Hob'|]. split; [exact Hn|]. split; [exact Hn'|]. intros Hne.
  assert (o <> o') by (intros ->; apply Hne; exact (r_dist _ _ R _ _ _ _ _ Ho Ho' Hx Hx')). split; [assumption|]. intros Hs. apply H0. exact (r_arr _ _ R _ _ _ _ Hz Hz' Hs).
Qed.
Print Assumptions c56_exclusive.
Example c56_exclusive_ex : exists v os x x', vrun int32ToBytes vinit c54_prog = Some (v, os) /\ vlook v 1 = Some x /\ vlook v 2 = Some x' /\ vbytes x = [9] /\ vbytes x' = [4].
Proof. do 4 eexists. vm_compute. auto. Qed.

(** A buffer from the pool starts empty. *)
Theorem c56_starts_empty : forall enc ops v os k, (forall i, be4 i (enc i)) -> vrun enc vinit ops = Some (v, os) ->
  let b := length (vbufs v) in drop (length os) (brun binit (ops ++ [NPool k; BString (Some b); BLen (Some b)])).2 = [ok; Ob 0 [] ENil; Ob 0 [] ENil].
Proof.
  intros enc ops v os k He H b.
  eassert (Hq : vrun enc vinit (ops ++ [NPool k; BString (Some b); BLen (Some b)]) = Some (_, os ++ _)).
  { rewrite (vrun_app _ _ _ _ _ _ H). cbn [vrun vstep]. assert (E : vlook (V (vbufs v ++ [VB [] true 0]) (vsls v)) b = Some (VB [] true 0)).
    { apply vlook_Some. split; [apply list_lookup_middle; reflexivity|reflexivity]. } rewrite !E. reflexivity. }
  rewrite (c54_values _ _ _ _ He Hq), drop_app. reflexivity.
Qed.
Print Assumptions c56_starts_empty.
Example c56_starts_empty_ex : exists v os, vrun int32ToBytes vinit [NPool 0; BWriteString (Some 0%nat) [1; 2; 3] 5; BFree (Some 0%nat)] = Some (v, os) /\
  hnd (brun binit [NPool 0; BWriteString (Some 0%nat) [1; 2; 3] 5; BFree (Some 0%nat); NPool 0]).1 = [0; 0]%nat.
Proof. do 2 eexists. vm_compute. auto. Qed.

(** Freed twice, a buffer is handed out twice: what one user writes the other reads. *)
Theorem c56_double_free_refuted : exists ops, ops = [NPool 0; BFree (Some 0%nat); BFree (Some 0%nat); NPool 0; NPool 0; BWriteString (Some 1%nat) [7] 0; BString (Some 2%nat)] /\
  last (brun binit ops).2 = Some (Ob 0 [7] ENil) /\ hnd (brun binit ops).1 = [0; 0; 0]%nat.
Proof. eexists. split; [reflexivity|]. vm_compute. auto. Qed.
Print Assumptions c56_double_free_refuted.

(** ** C82 *)
Lemma bytes_fixed enc ops : forall v v' os e y b n, vsls v !! e = Some y -> vfrom y = Some (b, n) -> vrun enc v ops = Some (v', os) -> vsls v' !! e = Some y.
Proof.
  induction ops as [|op ops IH]; intros v v' os e y b n Hy Hf H; cbn [vrun] in H; [simplify_eq; exact Hy|].
  destruct (vstep enc v op) as [[v1 o1]|] eqn:E; [|discriminate]. destruct (vrun enc v1 ops) as [[v2 os2]|] eqn:E2; [|discriminate]. simplify_eq.
  assert (Hy1 : vsls v1 !! e = Some y); [|exact (IH _ _ _ _ _ _ _ Hy1 Hf E2)]. clear IH E2.
  destruct op as [cap|i|e2|data extra|e2 lo hi|e2 i c|bb e2 g|bb bs g|bb c g|bb i g|bb|bb|bb|bb k|bb|bb|i]; cbn [vstep] in E; try destruct bb as [bb|]; unfold vwrite in E;
    repeat match type of E with context [match ?q with _ => _ end] => destruct q eqn:? end; simplify_eq; cbn [vset vsls]; try exact Hy; try (apply lookup_app_l_Some; exact Hy).
  rewrite list_lookup_insert_ne; [exact Hy|]. intros ->. simplify_eq.
Qed.
(** The slice Bytes gave keeps its bytes until its buffer is reset or freed, whatever is written to the buffer, read from it or done
    with other buffers meanwhile. *)
Theorem c82_bytes_stable : forall enc ops ops' b v os v' os' x x', (forall i, be4 i (enc i)) -> vrun enc vinit ops = Some (v, os) -> vlook v b = Some x ->
  vrun enc vinit (ops ++ BBytes (Some b) :: ops') = Some (v', os') -> vlook v' b = Some x' -> vresets x' = vresets x ->
  let s := (brun binit (ops ++ BBytes (Some b) :: ops')).1 in
  exists z, sls s !! length (vsls v) = Some z /\ rd (hp s) z = vbytes x.
Proof.
  intros enc ops ops' b v os v' os' x x' He H Hx H' Hx' Hr s.
  set (y := VS (vbytes x) (Some (b, vresets x))). set (v1 := V (vbufs v) (vsls v ++ [y])).
  assert (Hy : vsls v' !! length (vsls v) = Some y).
  { rewrite (vrun_app _ _ _ _ _ _ H) in H'. cbn [vrun vstep] in H'. rewrite Hx in H'. fold y in H'. fold v1 in H'. destruct (vrun enc v1 ops') as [[v2 os2]|] eqn:E; [|discriminate]. simplify_eq.
    eapply bytes_fixed; [|reflexivity|exact E]. apply list_lookup_middle. reflexivity. }
  rewrite (vrun_enc _ _ (enc_unique _ He)) in H'. destruct (rel_run _ _ _ _ _ rel_init H') as [_ R]. fold s in R.
  destruct (slice_at _ _ _ _ R Hy) as [z Hz]. exists z. split; [exact Hz|].
  assert (Hu : usable v' y = true).
  { unfold usable. cbn [vfrom y]. apply vlook_Some in Hx' as [-> ->]. rewrite Hr. apply bool_decide_eq_true. reflexivity. }
  exact (proj1 (proj2 (r_slc _ _ R _ _ _ Hy Hz Hu))).
Qed.
Print Assumptions c82_bytes_stable.
Example c82_ex : exists v os x v' os' x', vrun int32ToBytes vinit [NNew 8; BWriteString (Some 0%nat) [1; 2; 3] 0] = Some (v, os) /\ vlook v 0 = Some x /\
  vrun int32ToBytes vinit ([NNew 8; BWriteString (Some 0%nat) [1; 2; 3] 0] ++ BBytes (Some 0%nat) :: [BWriteByte (Some 0%nat) 9 0; BRead (Some 0%nat) 2; BWriteByte (Some 0%nat) 8 0]) = Some (v', os') /\
  vlook v' 0 = Some x' /\ vresets x' = vresets x /\ vbytes x' = [3; 9; 8].
Proof. do 6 eexists. vm_compute. repeat split. Qed.

(** After Reset the old slice is overwritten by the next write; after Free, by a stranger's. *)
Theorem c82_stale_refuted : exists s s' z, s = (brun binit [NNew 8; BWriteString (Some 0%nat) [1; 2; 3] 0; BBytes (Some 0%nat)]).1 /\
  s' = (brun s [BReset (Some 0%nat); BWriteString (Some 0%nat) [7; 7] 0]).1 /\ sls s !! 0%nat = Some z /\ sls s' !! 0%nat = Some z /\ rd (hp s) z = [1; 2; 3] /\ rd (hp s') z = [7; 7; 3].
Proof. do 3 eexists. split; [reflexivity|]. split; [reflexivity|]. vm_compute. auto. Qed.
Print Assumptions c82_stale_refuted.

(** ** C83 *)
(** NewBufferBySlice does not copy: writing to the buffer changes memory the caller still holds (another slice of the same array). *)
Theorem c83_by_slice_refuted : exists ops s s' z, ops = [NMake [1; 2; 3; 4] 0; NSub 0 0 2; NBySlice 1] /\ s = (brun binit ops).1 /\ s' = (brun s [BWriteString (Some 0%nat) [9; 9] 0]).1 /\
  sls s !! 0%nat = Some z /\ sls s' !! 0%nat = Some z /\ rd (hp s) z = [1; 2; 3; 4] /\ rd (hp s') z = [1; 2; 9; 9].
Proof. do 4 eexists. split; [reflexivity|]. split; [reflexivity|]. split; [reflexivity|]. vm_compute. auto. Qed.
Print Assumptions c83_by_slice_refuted.

(** What is true: the bytes the slice itself had are kept by any number of writes, and the buffer holds them followed by what was
    written. *)
Lemma by_slice_writes b o x : forall ws s acc z, hnd s !! b = Some o -> objs s !! o = Some z -> wf (hp s) z -> wf (hp s) x ->
  (sarr z <> sarr x \/ soff x + slen x <= soff z + slen z)%nat -> rd (hp s) z = acc ->
  let s' := (brun s ((fun w : list Z * nat => BWriteString (Some b) w.1 w.2) <$> ws)).1 in
  rd (hp s') x = rd (hp s) x /\ exists z', obj s' b = Some (o, z') /\ rd (hp s') z' = acc ++ mjoin (fst <$> ws) /\ sls s' = sls s.
Proof.
  induction ws as [|[bs g] ws IH]; intros s acc z Hb Hz Hw Hx Hor Hr.
  - cbn. split; [reflexivity|]. exists z. unfold obj. rewrite Hb, Hz. cbn. rewrite app_nil_r. auto.
  - set (s1 := (bstep s (BWriteString (Some b) bs g)).1). assert (E : s1 = BS (append (hp s) z bs g).1 (<[o := (append (hp s) z bs g).2]> (objs s)) (bag s) (hnd s) (sls s)).
    { unfold s1. cbn [bstep]. unfold bappend, obj. rewrite Hb, Hz. reflexivity. }
    pose proof (append_other (hp s) z bs g x Hw Hx ltac:(destruct Hor; auto)) as Ho. pose proof (append_rd (hp s) z bs g Hw) as Hr1. cbn zeta in Hr1.
    edestruct (IH s1 (acc ++ bs) (append (hp s) z bs g).2) as (H1 & z' & H2 & H3 & H4); rewrite ?E; cbn [hnd objs hp].
    + exact Hb.
    + apply list_lookup_insert. apply lookup_lt_Some in Hz. exact Hz.
    + apply append_wf, Hw.
    + apply append_wf_other; assumption.
    + destruct (append_arr (hp s) z bs g) as [Ha|Ha]; [|left; rewrite Ha; destruct Hx as (Hx & _); lia]. rewrite Ha. destruct Hor as [Hor|Hor]; [left; exact Hor|right].
      pose proof (append_end (hp s) z bs g Ha ltac:(apply Hw)). lia.
    + rewrite Hr1, Hr. reflexivity.
    + set (f := fun w : list Z * nat => BWriteString (Some b) w.1 w.2) in *. change (brun s (f <$> (bs, g) :: ws)).1 with (brun s1 (f <$> ws)).1.
      split; [rewrite H1, E; exact Ho|]. exists z'. split; [exact H2|]. split; [rewrite H3, <- app_assoc; reflexivity|rewrite H4, E; reflexivity].
Qed.
Theorem c83_by_slice_partial : forall s e x ws, sls s !! e = Some x -> wf (hp s) x ->
  let b := length (hnd s) in
  let s' := (brun s (NBySlice e :: ((fun w : list Z * nat => BWriteString (Some b) w.1 w.2) <$> ws))).1 in
  sls s' !! e = Some x /\ rd (hp s') x = rd (hp s) x /\ (bstep s' (BString (Some b))).2 = Ob 0 (rd (hp s) x ++ mjoin (fst <$> ws)) ENil.
Proof.
  intros s e x ws He Hw b s'. unfold s'. cbn [brun fst bstep]. rewrite He. cbn [fst].
  edestruct (by_slice_writes b (length (objs s)) x ws (BS (hp s) (objs s ++ [x]) (bag s) (hnd s ++ [length (objs s)]) (sls s)) (rd (hp s) x) x) as (H1 & z' & H2 & H3 & H4); cbn [hnd objs hp].
  - apply list_lookup_middle. reflexivity.
  - apply list_lookup_middle. reflexivity.
  - exact Hw.
  - exact Hw.
  - right. lia.
  - reflexivity.
  - cbn [fmap] in *. rewrite H4. split; [exact He|]. split; [exact H1|]. rewrite H2. cbn [snd]. rewrite H3. reflexivity.
Qed.
Print Assumptions c83_by_slice_partial.
Example c83_ex : let s := (brun binit [NMake [1; 2; 3] 4]).1 in exists x, sls s !! 0%nat = Some x /\ wf (hp s) x /\ rd (hp s) x = [1; 2; 3].
Proof. eexists. split; [reflexivity|]. split; [|reflexivity]. unfold wf. cbn. lia. Qed.
