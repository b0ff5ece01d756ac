(** Properties C65-C67: zlib and gzip helpers of compress/compress.go and util/compress.go. *)
From stdpp Require Import list.
From Coq Require Import ZArith Lia.
From Verif Require Import GoInt Hash_Model Compress_Model Compress_Proofs.
Local Open Scope Z_scope.

(** The contract can be met: streams of stored blocks do. *)
Theorem c65_contract_is_met : exists c, conforming c.
Proof. exists stored. exact stored_conforming. Qed.
Print Assumptions c65_contract_is_met.

(** C65. What Zlib and Gzip make, UnZlib and UnGzip turn back into the input, with nil errors. *)
Theorem c65_zlib_round_trip : forall c x, conforming c -> is_bytes x ->
  (Zlib c x).2 = false /\ UnZlib c (Zlib c x).1 = (x, false).
Proof.
  intros c x Hc Bx. split; [reflexivity|]. unfold UnZlib, Zlib. cbn [fst].
  destruct (conf_closed c Hc DefaultCompression x Closed Bx (or_introl eq_refl)) as (r & -> & Hd & He).
  unfold ReadFrom. rewrite Hd, He. reflexivity.
Qed.
Print Assumptions c65_zlib_round_trip.
(** C65. *)
Theorem c65_gzip_round_trip : forall c x, conforming c -> is_bytes x ->
  (Gzip c x).2 = false /\ UnGzip c (Gzip c x).1 = (x, false).
Proof. exact c65_zlib_round_trip. Qed.
Print Assumptions c65_gzip_round_trip.
(** C65. A stream that lost its end is reported: no bytes and an error, wherever it was cut. *)
Theorem c65_truncated_is_reported : forall c x p, conforming c -> is_bytes x -> p `prefix_of` (Zlib c x).1 -> p <> (Zlib c x).1 ->
  UnZlib c p = ([], true) /\ UnGzip c p = ([], true).
Proof.
  intros c x p Hc Bx Hp Hn. pose proof (conf_cut c Hc DefaultCompression x Closed p Bx (or_introl eq_refl) Hp Hn) as H.
  unfold UnZlib, UnGzip. destruct (reader c p) as [r|]; [|auto]. destruct H as [_ He].
  unfold ReadFrom. rewrite He. auto.
Qed.
Print Assumptions c65_truncated_is_reported.
(** C65. Two inputs never share a compressed form. *)
Theorem c65_zlib_injective : forall c x y, conforming c -> is_bytes x -> is_bytes y -> (Zlib c x).1 = (Zlib c y).1 -> x = y.
Proof.
  intros c x y Hc Bx By E. pose proof (proj2 (c65_zlib_round_trip c x Hc Bx)) as H1. pose proof (proj2 (c65_zlib_round_trip c y Hc By)) as H2.
  rewrite E in H1. congruence.
Qed.
Print Assumptions c65_zlib_injective.
Example c65_ex : conforming stored /\
  (Zlib stored [104; 105]).1 = [120; 156; 0; 1; 0; 254; 255; 104; 0; 1; 0; 254; 255; 105; 1; 0; 0; 255; 255; 1; 59; 0; 210] /\
  UnZlib stored (Zlib stored [104; 105]).1 = ([104; 105], false) /\
  UnZlib stored (removelast (Zlib stored [104; 105]).1) = ([], true) /\
  UnZlib stored [31; 139] = ([], true).
Proof. split; [exact stored_conforming|]. repeat split; vm_compute; reflexivity. Qed.

(** C66 is false: whatever the input and the level, UnZlib refuses what ZlibLevel made ... *)
Theorem c66_zliblevel_never_decompresses : forall c x lv, conforming c -> is_bytes x -> -2 <= lv <= 9 ->
  (ZlibLevel c x lv).2 = false /\ UnZlib c (ZlibLevel c x lv).1 = ([], true).
Proof.
  intros c x lv Hc Bx Hl. unfold ZlibLevel, level_ok.
  replace ((-2 <=? lv) && (lv <=? 9)) with true by (symmetry; apply andb_true_iff; lia). cbn [fst snd].
  split; [reflexivity|]. unfold UnZlib.
  destruct (conf_flushed c Hc lv x Bx) as (r & -> & Hd & He). unfold ReadFrom. rewrite He. reflexivity.
Qed.
Print Assumptions c66_zliblevel_never_decompresses.
(** ... so the round trip has a counterexample. *)
Theorem c66_zliblevel_round_trip_refuted : exists c x lv, conforming c /\ -2 <= lv <= 9 /\
  (ZlibLevel c x lv).2 = false /\ UnZlib c (ZlibLevel c x lv).1 <> (x, false).
Proof.
  exists stored, [104; 105], 9. split; [exact stored_conforming|]. split; [lia|]. split; [reflexivity|].
  rewrite (proj2 (c66_zliblevel_never_decompresses stored [104; 105] 9 stored_conforming ltac:(repeat constructor; unfold is_u8; lia) ltac:(lia))). congruence.
Qed.
Print Assumptions c66_zliblevel_round_trip_refuted.
(** C66, what holds: util.UnZlib, which drops the error, does return the input; and a level out of range hands the input back
    with an error.  (Missing: decompression by compress.UnZlib.) *)
Theorem c66_zliblevel_partial : forall c x lv, conforming c -> is_bytes x ->
  (-2 <= lv <= 9 -> uUnZlib c (ZlibLevel c x lv).1 = (x, false)) /\
  (lv < -2 \/ 9 < lv -> ZlibLevel c x lv = (x, true)).
Proof.
  intros c x lv Hc Bx. unfold ZlibLevel, level_ok. split; intros Hl.
  - replace ((-2 <=? lv) && (lv <=? 9)) with true by (symmetry; apply andb_true_iff; lia). cbn [fst].
    unfold uUnZlib. destruct (conf_flushed c Hc lv x Bx) as (r & -> & Hd & He). unfold ReadFrom. cbn. rewrite Hd. reflexivity.
  - replace ((-2 <=? lv) && (lv <=? 9)) with false by (symmetry; apply andb_false_iff; lia). reflexivity.
Qed.
Print Assumptions c66_zliblevel_partial.
Example c66_ex : UnZlib stored (ZlibLevel stored [1; 2; 3] 5).1 = ([], true) /\
  uUnZlib stored (ZlibLevel stored [1; 2; 3] 5).1 = ([1; 2; 3], false) /\ ZlibLevel stored [1; 2; 3] 10 = ([1; 2; 3], true).
Proof. repeat split; vm_compute; reflexivity. Qed.

(** C67. util.UnGzip(util.Gzip(x)) is x, however the reader cuts the data into chunks. *)
Theorem c67_util_gzip_round_trip : forall c x, conforming c -> is_bytes x ->
  (uGzip c x).2 = false /\ uUnGzip c (uGzip c x).1 = (x, false).
Proof.
  intros c x Hc Bx. split; [reflexivity|]. unfold uUnGzip, uGzip. cbn [fst].
  destruct (conf_closed c Hc DefaultCompression x Closed Bx (or_introl eq_refl)) as (r & E & Hd & He).
  rewrite E. rewrite (ungzip_loop_all (chunks r) [] (conf_chunks c Hc _ _ E)). rewrite He. cbn [app andb].
  f_equal. exact Hd.
Qed.
Print Assumptions c67_util_gzip_round_trip.
(** C67 is false of util.Zlib: no non-empty input ever comes back, neither through util.UnZlib (which reports no error) nor
    through compress.UnZlib. *)
Theorem c67_util_zlib_never_round_trips : forall c x, conforming c -> is_bytes x -> x <> [] ->
  (uZlib c x).2 = false /\
  (exists d, uUnZlib c (uZlib c x).1 = (d, false) /\ d `prefix_of` x /\ d <> x) /\
  UnZlib c (uZlib c x).1 = ([], true).
Proof.
  intros c x Hc Bx Hx. split; [reflexivity|]. unfold uUnZlib, UnZlib, uZlib. cbn [fst].
  destruct (conf_written c Hc DefaultCompression x Bx) as (r & -> & Hp & Hn & He). unfold ReadFrom. cbn [fst]. split.
  - exists (data r). auto.
  - rewrite He. reflexivity.
Qed.
Print Assumptions c67_util_zlib_never_round_trips.
(** C67 is false: a concrete case. *)
Theorem c67_util_zlib_round_trip_refuted : exists c x, conforming c /\ (uZlib c x).2 = false /\ uUnZlib c (uZlib c x).1 <> (x, false).
Proof. exists stored, [7]. split; [exact stored_conforming|]. split; [reflexivity|]. vm_compute. congruence. Qed.
Print Assumptions c67_util_zlib_round_trip_refuted.
(** C67 is false: streams that lost their end are not reported by util.UnZlib and util.UnGzip as soon as they have a header. *)
Theorem c67_truncation_reported_refuted : exists c x p, conforming c /\ p `prefix_of` (uGzip c x).1 /\ p <> (uGzip c x).1 /\
  uUnGzip c p = ([], false) /\ uUnZlib c p = ([], false) /\ x <> [].
Proof.
  exists stored, [7; 8], [120; 156; 0]. split; [exact stored_conforming|]. split; [|split; [|split; [|split]]].
  - eexists. vm_compute. reflexivity.
  - vm_compute. congruence.
  - vm_compute. reflexivity.
  - vm_compute. reflexivity.
  - congruence.
Qed.
Print Assumptions c67_truncation_reported_refuted.
(** C67, the exact behaviour on a stream that was cut: util.UnGzip and util.UnZlib report an error iff CheckGzipType (NewReader) does, and
    otherwise return a part of the input from its start, with a nil error.  (Missing: the error.) *)
Theorem c67_truncated_partial : forall c x p, conforming c -> is_bytes x -> p `prefix_of` (uGzip c x).1 -> p <> (uGzip c x).1 ->
  ((uUnGzip c p).2 = CheckGzipType c p /\ (uUnGzip c p).1 `prefix_of` x) /\
  ((uUnZlib c p).2 = CheckGzipType c p /\ (uUnZlib c p).1 `prefix_of` x).
Proof.
  intros c x p Hc Bx Hp Hn. pose proof (conf_cut c Hc DefaultCompression x Closed p Bx (or_introl eq_refl) Hp Hn) as H.
  unfold uUnGzip, uUnZlib, CheckGzipType. destruct (reader c p) as [r|] eqn:E.
  - destruct H as [Hd He]. rewrite (ungzip_loop_all (chunks r) [] (conf_chunks c Hc _ _ E)), He. cbn [app andb fst snd ReadFrom].
    split; (split; [reflexivity|]).
    + etransitivity; [|exact Hd]. unfold data. apply prefix_app_r. reflexivity.
    + exact Hd.
  - split; (split; [reflexivity|]); apply prefix_nil.
Qed.
Print Assumptions c67_truncated_partial.
(** C67. util.UnZlib reads what compress.Zlib made. *)
Theorem c67_util_unzlib_reads_closed_streams : forall c x, conforming c -> is_bytes x -> uUnZlib c (Zlib c x).1 = (x, false).
Proof.
  intros c x Hc Bx. unfold uUnZlib, Zlib. cbn [fst].
  destruct (conf_closed c Hc DefaultCompression x Closed Bx (or_introl eq_refl)) as (r & -> & Hd & He).
  unfold ReadFrom. cbn. rewrite Hd. reflexivity.
Qed.
Print Assumptions c67_util_unzlib_reads_closed_streams.
Example c67_ex : uUnGzip stored (uGzip stored [1; 2; 3]).1 = ([1; 2; 3], false) /\ uZlib stored [1; 2; 3] = ([120; 156], false) /\
  uUnZlib stored (uZlib stored [1; 2; 3]).1 = ([], false) /\
  uUnGzip stored (firstn 14 (uGzip stored [1; 2; 3]).1) = ([1; 2], false) /\ uUnZlib stored (Zlib stored [1; 2; 3]).1 = ([1; 2; 3], false).
Proof. repeat split; vm_compute; reflexivity. Qed.
