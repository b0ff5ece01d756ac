(** C144 to C146: snappy blocks decoded by compress.UnSnappy, and the memory that decoding takes. *)
From stdpp Require Import list.
From Coq Require Import ZArith Lia.
From Verif Require Import GoInt Snappy_Spec Snappy_Model Snappy_Proofs S2_Spec S2_Model S2_Proofs.
Local Open Scope Z_scope.

(** C144.  UnSnappy decodes every snappy block, as SnappyDecode of util does. *)
Theorem c144_decodes : forall w out, is_bytes w -> snappy w out -> UnSnappy w = Some out /\ SnappyDecode w = out.
Proof.
  intros w out Hw H. split; [apply UnSnappy_iff, snappy_s2; assumption|]. unfold SnappyDecode. rewrite (proj2 (Decode_iff w out Hw) H). reflexivity.
Qed.
Print Assumptions c144_decodes.
(** C144.  So it gives back what util.SnappyEncode was given, and both give back what any encoder of the format was given ([enc] for that of klauspost/compress). *)
Theorem c144_round_trips : forall src, is_bytes src ->
  (32 + Z.of_nat (length src) + Z.of_nat (length src) / 6 < 2 ^ 32 -> exists w, SnappyEncode src = Some w /\ UnSnappy w = Some src) /\
  (forall enc : list Z -> list Z, is_bytes (enc src) -> snappy (enc src) src -> UnSnappy (enc src) = Some src /\ SnappyDecode (enc src) = src).
Proof.
  intros src Hb. split.
  - intros Hl. change (2 ^ 32) with 4294967296 in Hl. destruct (encode_ok src Hb ltac:(lia)) as (w & He & Hs & Hw & _). exists w. split; [exact He|]. apply (c144_decodes w src Hw Hs).
  - intros enc He Hs. apply (c144_decodes _ _ He Hs).
Qed.
Print Assumptions c144_round_trips.
Example c144_ex : snappy [5; 4; 97; 98; 2 + 4 * 2; 2; 0] [97; 98; 97; 98; 97] /\ UnSnappy [5; 4; 97; 98; 2 + 4 * 2; 2; 0] = Some [97; 98; 97; 98; 97].
Proof. split; [apply Decode_iff; [apply (bool_decide_unpack _); vm_compute; exact I|reflexivity]|reflexivity]. Qed.

(** C145.  Bytes that are not snappy are accepted: here a copy with an offset of 0, which no snappy decoder accepts. *)
Theorem c145_reports_refuted : exists w out, is_bytes w /\ ~ (exists o, snappy w o) /\ UnSnappy w = Some out /\ SnappyDecode w = [].
Proof.
  exists [9; 0; 97; 1; 1; 1; 0], (replicate 9 97). assert (is_bytes [9; 0; 97; 1; 1; 1; 0]) as H by (apply (bool_decide_unpack _); vm_compute; exact I). split; [exact H|].
  split; [|split; reflexivity]. intros (o & Ho). apply Decode_iff in Ho; [discriminate Ho|exact H].
Qed.
Print Assumptions c145_reports_refuted.
(** C145.  What is accepted is exactly S2, with its meaning; everything else is an error. *)
Theorem c145_reports_partial : forall w, is_bytes w -> (forall out, UnSnappy w = Some out <-> s2 w out) /\ (UnSnappy w = None <-> ~ exists out, s2 w out).
Proof.
  intros w Hw. split; [intros out; apply UnSnappy_iff, Hw|]. split.
  - intros H (out & Ho). apply UnSnappy_iff in Ho; [congruence|exact Hw].
  - intros H. destruct (UnSnappy w) as [out|] eqn:E; [|reflexivity]. exfalso. apply H. exists out. apply UnSnappy_iff; assumption.
Qed.
Print Assumptions c145_reports_partial.
(** C145.  A block has one meaning, and that of snappy if it is snappy. *)
Theorem c145_one_meaning_partial : forall w a b, is_bytes w -> s2 w a -> (s2 w b -> a = b) /\ (snappy w b -> a = b).
Proof.
  intros w a b Hw Ha. assert (H : s2 w b -> a = b) by (intros Hb; apply UnSnappy_iff in Ha; [|exact Hw]; apply UnSnappy_iff in Hb; [congruence|exact Hw]). split; [exact H|]. intros Hb. apply H, snappy_s2, Hb.
Qed.
Print Assumptions c145_one_meaning_partial.
(** A repeat with a length of two more bytes. *)
Example c145_ex : UnSnappy ([141; 2; 0; 97; 1; 1] ++ [1 + 4 * 6; 0; 4; 0]) = Some (replicate 269 97) /\ ~ (exists out, s2 [4; 1; 0] out).
Proof.
  split; [vm_compute; reflexivity|]. intros (out & H). apply UnSnappy_iff in H; [discriminate H|apply (bool_decide_unpack _); vm_compute; exact I].
Qed.

(** C146.  Five bytes, which are not even snappy, make both decoders allocate any size up to 4 GiB. *)
Theorem c146_memory_refuted : forall n, 0 < n < 2 ^ 32 -> exists w, is_bytes w /\ (length w <= 5)%nat /\ Decode w = None /\ UnSnappy w = None /\ allocated w = n.
Proof.
  intros n Hn. change (2 ^ 32) with 4294967296 in Hn. destruct (PutUvarint_ok 5 n ltac:(change (128 ^ Z.of_nat 5) with 34359738368; lia) ltac:(lia)) as [Hu Hl]. set (w := PutUvarint 5 n) in *. clearbody w. exists w.
  pose proof (uvarint_bytes _ _ Hu) as Hb. assert (decodedLen w = Some (n, Z.of_nat (length w))) as E.
  { apply decodedLen_spec; [exact Hb|]. exists w, []. rewrite app_nil_r. repeat split; auto; lia. }
  split; [exact Hb|]. split; [exact Hl|]. unfold Decode, UnSnappy, allocated. rewrite E, Nat2Z.id, drop_all. cbn [decode s2Decode length]. assert (Z.of_nat 0 =? n = false) as -> by lia. auto.
Qed.
Print Assumptions c146_memory_refuted.
Example c146_ex : Forall is_u8 [255; 255; 255; 255; 15] /\ allocated [255; 255; 255; 255; 15] = 4294967295.
Proof. split; [apply (bool_decide_unpack _); vm_compute; exact I|reflexivity]. Qed.
Lemma wire_ratio e w : wire e w -> 3 * Z.of_nat (esize e) <= 64 * Z.of_nat (length w).
Proof. destruct 1; cbn [esize length]; rewrite ?app_length, ?le_bytes_length; lia. Qed.
Lemma stream_ratio out w res : stream out w res -> 3 * Z.of_nat (length res) <= 3 * Z.of_nat (length out) + 64 * Z.of_nat (length w).
Proof. induction 1 as [out|out e w ws res Hv Hw Hs IH]; [lia|]. rewrite exec_length in IH. pose proof (wire_ratio _ _ Hw). rewrite app_length. lia. Qed.
Lemma stream2_ratio last out w res : stream2 last out w res -> 5 * Z.of_nat (length res) <= 5 * Z.of_nat (length out) + 16842755 * Z.of_nat (length w).
Proof.
  induction 1 as [last out|last out e w ws res Hv Hw Hs IH|last out len w ws res Hv Hw Hs IH]; [lia| |]; rewrite exec_length in IH; rewrite app_length.
  - pose proof (wire_ratio _ _ Hw). lia.
  - assert (5 * Z.of_nat len <= 16842755 * Z.of_nat (length w)); [|cbn [esize] in IH; lia]. destruct Hw; rewrite ?app_length, ?le_bytes_length; cbn [length]; change (256 ^ 2) with 65536 in *; change (256 ^ 3) with 16777216 in *; lia.
Qed.
(** C146.  A snappy block holds at most 64 bytes for every three, S2 at most 3368551 for each; less than 4 GiB are allocated, and exactly what
    is returned if something is. *)
Theorem c146_memory_partial : forall w, is_bytes w ->
  (forall out, Decode w = Some out -> 3 * Z.of_nat (length out) <= 64 * Z.of_nat (length w) /\ allocated w = Z.of_nat (length out)) /\
  (forall out, UnSnappy w = Some out -> 5 * Z.of_nat (length out) <= 16842755 * Z.of_nat (length w) /\ allocated w = Z.of_nat (length out)) /\
  0 <= allocated w < 2 ^ 32.
Proof.
  intros w Hw. assert (A : forall h body (out : list Z), w = h ++ body -> uvarint (Z.of_nat (length out)) h -> (length h <= 10)%nat -> Z.of_nat (length out) < 2 ^ 32 -> allocated w = Z.of_nat (length out)).
  { intros h body out Ew Hu Hl Hv. unfold allocated. assert (decodedLen w = Some (Z.of_nat (length out), Z.of_nat (length h))) as ->; [|reflexivity]. apply decodedLen_spec; [exact Hw|]. exists h, body. auto. }
  split; [|split].
  - intros out H. apply Decode_iff in H; [|exact Hw]. destruct H as (h & body & E & Hu & Hl & Hv & Hs). split; [|apply (A h body); assumption]. apply stream_ratio in Hs. rewrite E, app_length. cbn [length] in Hs. lia.
  - intros out H. apply UnSnappy_iff in H; [|exact Hw]. destruct H as (h & body & E & Hu & Hl & Hv & Hs). split; [|apply (A h body); assumption]. apply stream2_ratio in Hs. rewrite E, app_length. cbn [length] in Hs. lia.
  - unfold allocated. destruct (decodedLen w) as [[v n]|] eqn:E; [|lia]. apply decodedLen_spec in E as (h & rest & _ & Hu & _ & _ & Hv); [|exact Hw]. apply uvarint_range in Hu. change (2 ^ 32) with 4294967296 in *. lia.
Qed.
Print Assumptions c146_memory_partial.
