(** image/adjust.go and image/image.go: the pixels that Image.Encode gives.

    [parseImage T filter i width height mode o] is the image that Encode(srcData, width, height, mode, o) encodes if srcData decodes to [i]; [T] is the code of others
    (decoders, encoders, filters, turns by odd angles), about which only what a theorem says is assumed. *)
From Coq Require Import ZArith List Bool Lia String ZifyBool.
From Verif Require Import GoInt GoFloat Image_Model Image_Proofs Pixel_Model Pixel_Spec PixelGray_Proofs Pixel_Proofs PixelToy_Proofs.
Import ListNotations.
Local Open Scope Z_scope.

(** ** C116: quarter turns and mirrors *)

(** Rotate by a multiple of 90 degrees, FlipH and FlipV move every pixel to its place: first the turns, against the clock, then left and right, then top and bottom. *)
Theorem c116_orientation T filter i degrees lr tb :
  proper i -> - 2 ^ 53 < degrees < 2 ^ 53 -> degrees mod 90 = 0 ->
  alike (shows (parseImage T filter i 0 0 0 (orientation degrees lr tb))) (oriented (turns degrees) lr tb (shows i)).
Proof. intros H1 H2 H3. exact (proj1 (parse_orientation T filter i degrees lr tb H1 H2 H3)). Qed.
Print Assumptions c116_orientation.

(** Nothing is lost: a second Encode restores the picture. *)
Theorem c116_undone T filter d i fmt degrees lr tb :
  decode T d = Some (i, fmt) -> keeps_pixels T fmt -> nonempty i -> - 2 ^ 53 < degrees < 2 ^ 53 -> degrees mod 90 = 0 ->
  alike_opt (picture_of T (Encode T filter (Encode T filter d 0 0 0 (Some (orientation degrees lr tb))) 0 0 0 (Some (undo degrees lr tb)))) (picture_of T d).
Proof.
  intros Hd Hk Hn Hdeg H90. destruct (encode_oriented T filter d i fmt degrees lr tb Hd Hk Hn Hdeg H90) as (j & Dj & Aj & Nj).
  destruct (turns_90 degrees H90) as [Ht _]. pose proof (undo_oriented (turns degrees) lr tb (shows i) Ht) as U.
  set (deg2 := if xorb lr tb then degrees else - degrees).
  assert (E2 : undo degrees lr tb = orientation deg2 lr tb) by (unfold undo, deg2; destruct (xorb lr tb); reflexivity).
  assert (T2 : turns deg2 = (if xorb lr tb then turns degrees else (4 - turns degrees) mod 4)%nat) by (unfold deg2; destruct (xorb lr tb); [reflexivity|apply turns_opp, H90]).
  assert (M2 : deg2 mod 90 = 0) by (unfold deg2; destruct (xorb lr tb); [exact H90|rewrite Z.mod_opp_l_z; lia]).
  destruct (encode_oriented T filter _ j fmt deg2 lr tb Dj Hk Nj ltac:(unfold deg2; destruct (xorb lr tb); lia) M2) as (k & Dk & Ak & _).
  rewrite E2. unfold picture_of. rewrite Dk, Hd. cbn [option_map alike_opt]. rewrite T2 in Ak.
  exact (alike_trans _ _ _ Ak (alike_trans _ _ _ (oriented_alike _ lr tb _ _ Aj) U)).
Qed.
Print Assumptions c116_undone.

(** Whatever two calls turn and mirror, one call can do. *)
Theorem c116_two_calls_are_one T filter d i fmt deg1 lr1 tb1 deg2 lr2 tb2 :
  decode T d = Some (i, fmt) -> keeps_pixels T fmt -> nonempty i ->
  - 2 ^ 53 < deg1 < 2 ^ 53 -> deg1 mod 90 = 0 -> - 2 ^ 53 < deg2 < 2 ^ 53 -> deg2 mod 90 = 0 ->
  exists deg lr tb, In deg [0; 90; 180; 270] /\
    alike_opt (picture_of T (Encode T filter (Encode T filter d 0 0 0 (Some (orientation deg1 lr1 tb1))) 0 0 0 (Some (orientation deg2 lr2 tb2))))
              (picture_of T (Encode T filter d 0 0 0 (Some (orientation deg lr tb)))).
Proof.
  intros Hd Hk Hn B1 M1 B2 M2. destruct (encode_oriented T filter d i fmt deg1 lr1 tb1 Hd Hk Hn B1 M1) as (j & Dj & Aj & Nj).
  destruct (encode_oriented T filter _ j fmt deg2 lr2 tb2 Dj Hk Nj B2 M2) as (k & Dk & Ak & _).
  destruct (turns_90 deg1 M1) as [T1 _]. destruct (turns_90 deg2 M2) as [T2 _].
  remember (both_n (turns deg1) lr1 tb1 (turns deg2) lr2 tb2) as n eqn:En.
  assert (Hn4 : (n < 4)%nat) by (rewrite En; unfold both_n; apply Nat.mod_upper_bound; lia).
  set (deg := 90 * Z.of_nat n). exists deg, (xorb (xorb lr1 tb1) (xorb lr2 tb2)), false.
  assert (Hin : In deg [0; 90; 180; 270]) by (unfold deg; destruct n as [|[|[|[|n]]]]; [| | | |lia]; cbn; tauto).
  assert (Hturn : turns deg = n). { unfold turns, deg. rewrite Z.mul_comm, Z.div_mul by lia. rewrite Z.mod_small by lia. apply Nat2Z.id. }
  split; [exact Hin|].
  destruct (encode_oriented T filter d i fmt deg (xorb (xorb lr1 tb1) (xorb lr2 tb2)) false Hd Hk Hn ltac:(unfold deg; lia)) as (l & Dl & Al & _).
  { unfold deg. rewrite Z.mul_comm. apply Z.mod_mul. lia. }
  unfold picture_of. rewrite Dk, Dl. cbn [option_map alike_opt]. rewrite Hturn, En in Al.
  exact (alike_trans _ _ _ Ak (alike_trans _ _ _ (oriented_alike _ _ _ _ _ Aj) (alike_trans _ _ _ (two_oriented _ _ _ _ _ _ (shows i) T1 T2) (alike_sym _ _ Al)))).
Qed.
Print Assumptions c116_two_calls_are_one.

(** Three pixels in a row, turned by 450 degrees and mirrored: a column that begins with the first pixel. *)
Example c116_ex :
  (exists i, decode toy toy_row = Some (i, "png"%string) /\ nonempty i) /\ keeps_pixels toy "png" /\
  Encode toy 0 toy_row 0 0 0 (Some (orientation 450 false true)) = [137; 1; 3; 255; 0; 0; 255; 0; 255; 0; 255; 0; 0; 255; 128] /\
  Encode toy 0 toy_row 0 0 0 (Some (orientation (-90) false false)) = [137; 1; 3; 255; 0; 0; 255; 0; 255; 0; 255; 0; 0; 255; 128] /\
  Encode toy 0 (Encode toy 0 toy_row 0 0 0 (Some (orientation 450 false true))) 0 0 0 (Some (undo 450 false true)) = toy_row.
Proof.
  split; [eexists; split; [reflexivity|]; repeat split; cbn; lia|]. split; [exact toy_keeps|]. split; [|split]; vm_compute; reflexivity.
Qed.

(** ** C117: degrees count modulo 360 *)

(** For degrees that a float64 holds exactly. *)
Theorem c117_degrees_modulo_360_partial T i d d' :
  - 2 ^ 53 < d < 2 ^ 53 -> - 2 ^ 53 < d' < 2 ^ 53 -> d mod 360 = d' mod 360 -> rotateImage T i d = rotateImage T i d'.
Proof. apply rotate_mod. Qed.
Print Assumptions c117_degrees_modulo_360_partial.

(** Not for all ints: 2^54 + 26 is 90 more than a multiple of 360, but is taken for a number that is 88 more. *)
Theorem c117_degrees_modulo_360_refuted :
  exists d, 0 <= d < 2 ^ 63 /\ d mod 360 = 90 mod 360 /\ (forall T i, rotateImage T i 90 = Rotate90 i) /\
    exists angle, feq angle (of_int 88) = true /\ forall T i, rotateImage T i d = rotated T angle i.
Proof.
  exists (2 ^ 54 + 26). split; [lia|]. split; [reflexivity|]. split; [intros T i; unfold rotateImage; cbv zeta; rewrite !feq_norm by lia; reflexivity|].
  exists (normAngle (2 ^ 54 + 26)). split; [vm_compute; reflexivity|]. intros T i. unfold rotateImage. cbv zeta.
  assert (F0 : feq (normAngle (2 ^ 54 + 26)) (of_int 0) = false) by (vm_compute; reflexivity).
  assert (F1 : feq (normAngle (2 ^ 54 + 26)) (of_int 90) = false) by (vm_compute; reflexivity).
  assert (F2 : feq (normAngle (2 ^ 54 + 26)) (of_int 180) = false) by (vm_compute; reflexivity).
  assert (F3 : feq (normAngle (2 ^ 54 + 26)) (of_int 270) = false) by (vm_compute; reflexivity).
  rewrite F0, F1, F2, F3. reflexivity.
Qed.
Print Assumptions c117_degrees_modulo_360_refuted.

Example c117_ex : (-270) mod 360 = 90 mod 360 /\ Encode toy 0 toy_row 0 0 0 (Some (orientation (-270) false false)) = [137; 1; 3; 0; 0; 255; 128; 0; 255; 0; 255; 255; 0; 0; 255].
Proof. split; [reflexivity|vm_compute; reflexivity]. Qed.

(** ** C118: Gray *)

(** With Gray each pixel gets the nearest whole number to 0.299 r + 0.587 g + 0.114 b in all three channels and keeps its alpha. *)
Theorem c118_gray_is_nearest_luma T filter i o x y :
  proper i -> o = MkOptions true false "" 0 false false 0 0 [] [] (of_int 0) [] [] ->
  (forall x y, colour (at_ (shows i) x y)) -> 0 <= x < pw (shows i) -> 0 <= y < ph (shows i) ->
  let p := at_ (shows i) x y in
  let q := at_ (shows (parseImage T filter i 0 0 0 o)) x y in
  pg q = pr q /\ pb q = pr q /\ pa q = pa p /\ byte (pr q) /\ 2 * Z.abs (1000 * pr q - luma1000 p) <= 1000.
Proof.
  intros P -> C Hx Hy. cbv zeta. change (MkOptions true false "" 0 false false 0 0 [] [] (of_int 0) [] []) with (onlyGray (MkOptions true false "" 0 false false 0 0 [] [] (of_int 0) [] [])).
  rewrite p_gray. unfold stepGray. cbn [oGray]. destruct (gray_gives i P) as ((E1 & E2 & E3) & _). cbn [each pw ph at_] in E1, E2, E3. rewrite E3 by (rewrite ?E1, ?E2; assumption).
  destruct (C x y) as (Cr & Cg & Cb & Ca). destruct (luma_nearest _ _ _ Cr Cg Cb) as [B N]. cbn [grayPixel pr pg pb pa]. repeat split; try apply B. exact N.
Qed.
Print Assumptions c118_gray_is_nearest_luma.

(** A gray picture is left as it is. *)
Theorem c118_gray_twice_is_gray_once p : colour p -> grayPixel (grayPixel p) = grayPixel p.
Proof.
  intros (Cr & Cg & Cb & Ca). unfold grayPixel. cbn [pr pg pb pa]. destruct (luma_nearest _ _ _ Cr Cg Cb) as [B _]. set (v := luma (pr p) (pg p) (pb p)) in *. clearbody v.
  destruct (luma_nearest v v v B B B) as [B2 N]. replace (luma v v v) with v by lia. reflexivity.
Qed.
Print Assumptions c118_gray_twice_is_gray_once.

(** Whatever is brighter in each channel does not become darker. *)
Theorem c118_brighter_stays_brighter p q : colour p -> colour q -> pr p <= pr q -> pg p <= pg q -> pb p <= pb q -> pr (grayPixel p) <= pr (grayPixel q).
Proof. intros (A1 & A2 & A3 & _) (B1 & B2 & B3 & _) H1 H2 H3. cbn [grayPixel pr]. apply luma_mono; assumption. Qed.
Print Assumptions c118_brighter_stays_brighter.

Example c118_ex :
  Encode toy 0 toy_row 0 0 0 (Some (MkOptions true false "" 0 false false 0 0 [] [] (of_int 0) [] [])) = [137; 3; 1; 76; 76; 76; 255; 150; 150; 150; 255; 29; 29; 29; 128] /\
  colour (Px 0 36 12 255) /\ luma1000 (Px 0 36 12 255) = 22500 /\ grayPixel (Px 0 36 12 255) = Px 22 22 22 255.
Proof. split; [vm_compute; reflexivity|]. split; [repeat split; cbn; lia|]. split; [reflexivity|vm_compute; reflexivity]. Qed.

(** ** C119: Invert, and colours against places *)

(** Inverting twice restores the picture. *)
Theorem c119_invert_twice T filter d i fmt o :
  decode T d = Some (i, fmt) -> keeps_pixels T fmt -> nonempty i -> (forall x y, colour (at_ (shows i) x y)) ->
  o = MkOptions false true "" 0 false false 0 0 [] [] (of_int 0) [] [] ->
  alike_opt (picture_of T (Encode T filter (Encode T filter d 0 0 0 (Some o)) 0 0 0 (Some o))) (picture_of T d).
Proof.
  intros Hd Hk Hn C Ho.
  assert (Hp : forall i, parseImage T filter i 0 0 0 o = invertByImage i).
  { intros i'. subst o. change (MkOptions false true "" 0 false false 0 0 [] [] (of_int 0) [] []) with (onlyInvert (MkOptions false true "" 0 false false 0 0 [] [] (of_int 0) [] [])).
    rewrite p_invert. reflexivity. }
  assert (Hf : oFormat o = ""%string) by (subst o; reflexivity). clear Ho.
  assert (K : forall d i, decode T d = Some (i, fmt) -> nonempty i -> exists j, decode T (Encode T filter d 0 0 0 (Some o)) = Some (j, fmt) /\ alike (shows j) (each invertPixel (shows i)) /\ nonempty j).
  { intros d' i' Hd' (P & N1 & N2). destruct (invert_gives i' P) as (A & P2 & _).
    assert (Ne : nonempty (invertByImage i')) by exact (nonempty_alike _ _ P2 A N1 N2). rewrite <- (Hp i') in Ne.
    destruct (encode_keeps T filter d' i' fmt 0 0 0 o Hd' Hk Hf Ne) as (j & Dj & _ & Aj & Pj). rewrite Hp in Aj. exists j.
    pose proof (alike_trans _ _ _ Aj A) as Q. split; [exact Dj|split; [exact Q|]]. exact (nonempty_alike _ _ Pj Q N1 N2). }
  destruct (K d i Hd Hn) as (j & Dj & Aj & Nj). destruct (K _ j Dj Nj) as (k & Dk & Ak & _). unfold picture_of. rewrite Dk, Hd. cbn [option_map alike_opt].
  apply (alike_trans _ _ _ Ak). apply (alike_trans _ _ _ (each_alike invertPixel _ _ Aj)). split; [reflexivity|split; [reflexivity|]]. intros x y _ _. cbn [each at_].
  destruct (C x y) as (Cr & Cg & Cb & _). unfold byte in *. unfold invertPixel. cbn [pr pg pb pa]. unfold u8. rewrite !(Z.mod_small (255 - _)) by lia.
  destruct (at_ (shows i) x y) as [r g b a]. cbn [pr pg pb pa]. f_equal; lia.
Qed.
Print Assumptions c119_invert_twice.

(** Gray and Invert do not care about places: before or after a turn or a mirror they give the same picture. *)
Theorem c119_colours_and_places_commute T filter i gray inv degrees lr tb :
  proper i -> - 2 ^ 53 < degrees < 2 ^ 53 -> degrees mod 90 = 0 ->
  let colours := MkOptions gray inv "" 0 false false 0 0 [] [] (of_int 0) [] [] in
  let places := orientation degrees lr tb in
  let both := MkOptions gray inv "" degrees lr tb 0 0 [] [] (of_int 0) [] [] in
  alike (shows (parseImage T filter (parseImage T filter i 0 0 0 colours) 0 0 0 places)) (shows (parseImage T filter (parseImage T filter i 0 0 0 places) 0 0 0 colours)) /\
  alike (shows (parseImage T filter i 0 0 0 both)) (shows (parseImage T filter (parseImage T filter i 0 0 0 places) 0 0 0 colours)).
Proof.
  intros P Hd H90. cbv zeta. set (colours := MkOptions gray inv "" 0 false false 0 0 [] [] (of_int 0) [] []).
  set (f := fun p => (if inv then invertPixel else fun p => p) ((if gray then grayPixel else fun p => p) p)).
  assert (Hc : forall i, parseImage T filter i 0 0 0 colours = stepInvert colours (stepGray colours i)).
  { intros i'. unfold parseImage. cbv zeta. unfold stepAnchor, stepSide, stepUpper, stepLower, stepResize, stepRotate, stepFlipH, stepFlipV, stepBlur.
    cbn [colours oGray oInvert oFormat oRotate oFlipH oFlipV oCropAnchor oCropSide oBlur oScaleUpper oScaleLower Z.ltb Z.compare Z.eqb orb]. rewrite blur0. reflexivity. }
  assert (K : forall i, proper i -> alike (shows (parseImage T filter i 0 0 0 colours)) (each f (shows i)) /\ proper (parseImage T filter i 0 0 0 colours)).
  { intros i' P'. rewrite Hc. unfold stepInvert, stepGray, f. cbn [colours oGray oInvert].
    assert (G : alike (shows (if gray then convertToGrayByImage i' else i')) (each (if gray then grayPixel else fun p => p) (shows i')) /\ proper (if gray then convertToGrayByImage i' else i')).
    { destruct gray; [destruct (gray_gives i' P') as (A & B & _); auto|split; [split; [reflexivity|split; reflexivity]|exact P']]. }
    destruct G as [G1 G2]. set (g := if gray then convertToGrayByImage i' else i') in *. clearbody g. destruct inv.
    - destruct (invert_gives g G2) as (A & B & _). split; [|exact B]. exact (alike_trans _ _ _ A (each_alike invertPixel _ _ G1)).
    - split; [exact G1|exact G2]. }
  destruct (K i P) as [K1 K2]. destruct (parse_orientation T filter _ degrees lr tb K2 Hd H90) as [O1 _].
  destruct (parse_orientation T filter i degrees lr tb P Hd H90) as [O2 O3]. destruct (K _ O3) as [K3 _].
  assert (A : alike (shows (parseImage T filter (parseImage T filter i 0 0 0 colours) 0 0 0 (orientation degrees lr tb)))
                    (shows (parseImage T filter (parseImage T filter i 0 0 0 (orientation degrees lr tb)) 0 0 0 colours))).
  { apply (alike_trans _ _ _ O1). apply (alike_trans _ _ _ (oriented_alike _ lr tb _ _ K1)). apply alike_sym. apply (alike_trans _ _ _ K3).
    apply (alike_trans _ _ _ (each_alike f _ _ O2)). apply each_oriented. }
  split; [exact A|].
  replace (parseImage T filter i 0 0 0 (MkOptions gray inv "" degrees lr tb 0 0 [] [] (of_int 0) [] [])) with
    (parseImage T filter (parseImage T filter i 0 0 0 colours) 0 0 0 (orientation degrees lr tb)); [exact A|].
  rewrite Hc. unfold parseImage. cbv zeta. unfold stepAnchor, stepSide, stepUpper, stepLower, stepResize, stepBlur.
  cbn [orientation colours oGray oInvert oFormat oRotate oFlipH oFlipV oCropAnchor oCropSide oBlur oScaleUpper oScaleLower Z.ltb Z.compare Z.eqb orb]. rewrite blur0. reflexivity.
Qed.
Print Assumptions c119_colours_and_places_commute.

(** The negative of the gray picture is not the gray picture of the negative. *)
Theorem c119_gray_of_negative_refuted : exists p, colour p /\ invertPixel (grayPixel p) <> grayPixel (invertPixel p).
Proof. exists (Px 0 0 250 255). split; [repeat split; cbn; lia|]. vm_compute. discriminate. Qed.
Print Assumptions c119_gray_of_negative_refuted.

(** But nearly. *)
Theorem c119_gray_of_negative_partial p : colour p -> Z.abs (pr (invertPixel (grayPixel p)) - pr (grayPixel (invertPixel p))) <= 1.
Proof.
  intros (Cr & Cg & Cb & Ca). unfold byte in *. cbn [grayPixel invertPixel pr pg pb pa]. destruct (luma_nearest _ _ _ Cr Cg Cb) as [B N]. unfold byte in *.
  unfold u8. rewrite !(Z.mod_small (255 - _)) by lia.
  destruct (luma_nearest (255 - pr p) (255 - pg p) (255 - pb p)) as [B2 N2]; [split; lia|split; lia|split; lia|]. unfold byte in *. lia.
Qed.
Print Assumptions c119_gray_of_negative_partial.

Example c119_ex :
  Encode toy 0 toy_row 0 0 0 (Some (MkOptions false true "" 0 false false 0 0 [] [] (of_int 0) [] [])) = [137; 3; 1; 0; 255; 255; 255; 255; 0; 255; 255; 255; 255; 0; 128] /\
  Encode toy 0 toy_row 0 0 0 (Some (MkOptions true true "" 180 false false 0 0 [] [] (of_int 0) [] [])) = [137; 3; 1; 226; 226; 226; 128; 105; 105; 105; 255; 179; 179; 179; 255].
Proof. split; vm_compute; reflexivity. Qed.

(** ** C120: all options in one call *)

(** One call with all options gives the picture that eleven calls with one option each give: crop by anchor, crop by side, scale up, scale down, resize, gray, invert,
    rotate, mirror, mirror, blur. *)
Theorem c120_one_by_one T filter fmt d i w h m o :
  sees_pictures T -> decode T d = Some (i, fmt) -> keeps_pixels T fmt -> at_origin i -> oFormat o = ""%string ->
  (forall n, (n <= 11)%nat -> nonempty (image_after T filter n (one_by_one w h m o) i)) ->
  alike_opt (picture_of T (Encode T filter d w h m (Some o))) (picture_of T (calls T filter (one_by_one w h m o) d)).
Proof. intros HT Hd Hk Ho Hf Hn. exact (proj1 (encode_all T HT filter fmt d i w h m o Hd Hk Ho Hf Hn)). Qed.
Print Assumptions c120_one_by_one.

(** Without options the picture stays. *)
Theorem c120_no_options T filter fmt d i options : decode T d = Some (i, fmt) -> keeps_pixels T fmt -> nonempty i -> (options = None \/ options = Some noOptions) ->
  alike_opt (picture_of T (Encode T filter d 0 0 0 options)) (picture_of T d).
Proof.
  intros Hd Hk Hn Ho. assert (E : Encode T filter d 0 0 0 options = Encode T filter d 0 0 0 (Some noOptions)) by (destruct Ho as [ -> | -> ]; reflexivity). rewrite E.
  assert (P : parseImage T filter i 0 0 0 noOptions = i) by (rewrite p_resize; reflexivity).
  assert (Ne : nonempty (parseImage T filter i 0 0 0 noOptions)) by (rewrite P; exact Hn).
  destruct (encode_keeps T filter d i fmt 0 0 0 noOptions Hd Hk eq_refl Ne) as (j & Dj & _ & Aj & _). unfold picture_of. rewrite Dj, Hd. cbn [option_map alike_opt]. rewrite <- P. exact Aj.
Qed.
Print Assumptions c120_no_options.

(** A number that is no filter stands for MitchellNetravali. *)
Theorem c120_filters T f d w h m o : ~ 0 <= f <= 14 -> Encode T f d w h m o = Encode T 4 d w h m o.
Proof.
  intros Hf. assert (E : forall i, stepResize T f w h m i = stepResize T 4 w h m i).
  { intros i. unfold stepResize, selectFilter. replace ((0 <=? f) && (f <=? 14)) with false by lia. reflexivity. }
  unfold Encode, parseImage. cbv zeta. destruct (decode T d) as [[i t]|]; [|reflexivity]. rewrite E. reflexivity.
Qed.
Print Assumptions c120_filters.

(** Crop, turn, mirror and invert in one call. *)
Definition c120_options : Options := MkOptions false true "" 90 true false 0 0 [2; 1; 1; 0] [] (of_int 0) [] [].
Example c120_ex :
  sees_pictures toy /\ keeps_pixels toy "png" /\ Encode toy 0 toy_row 0 0 0 (Some c120_options) = [137; 1; 2; 255; 255; 0; 128; 255; 0; 255; 255] /\
  calls toy 0 (one_by_one 0 0 0 c120_options) toy_row = [137; 1; 2; 255; 255; 0; 128; 255; 0; 255; 255] /\
  (exists i, decode toy toy_row = Some (i, "png"%string) /\ at_origin i /\ forall n, (n <= 11)%nat -> nonempty (image_after toy 0 n (one_by_one 0 0 0 c120_options) i)).
Proof.
  split; [exact toy_sees|]. split; [exact toy_keeps|]. split; [vm_compute; reflexivity|]. split; [vm_compute; reflexivity|].
  eexists. split; [reflexivity|]. split; [split; reflexivity|]. intros n Hn. do 12 (destruct n as [|n]; [unfold nonempty, proper; repeat split; vm_compute; (reflexivity || discriminate)|]). lia.
Qed.

(** ** C121: options are applied or an error is reported *)

(** Encode never reports an error, and this hides options that were not applied.  A crop that misses the image returns the file as it was, ... *)
Theorem c121_missing_crop_refuted T filter d i fmt w h cw ch x y rest :
  decode T d = Some (i, fmt) -> fmt <> ""%string -> refuses_empty T fmt -> bounds i = MkRect 0 0 w h -> 0 <= w < 2 ^ 62 -> 0 <= h < 2 ^ 62 -> 0 < cw < 2 ^ 62 -> 0 < ch < 2 ^ 62 ->
  w <= x < 2 ^ 62 -> 0 <= y < 2 ^ 62 -> rest = MkOptions false false "" 0 false false 0 0 [cw; ch; x; y] [] (of_int 0) [] [] ->
  Encode T filter d 0 0 0 (Some rest) = d.
Proof.
  intros Hd Hfm Hr Hb Hw Hh Hcw Hch Hx Hy ->. unfold Encode. rewrite Hd. cbv zeta. cbn [oFormat String.eqb].
  change (MkOptions false false "" 0 false false 0 0 [cw; ch; x; y] [] (of_int 0) [] []) with (onlyAnchor (MkOptions false false "" 0 false false 0 0 [cw; ch; x; y] [] (of_int 0) [] [])).
  rewrite p_anchor. unfold stepAnchor. cbn [oCropAnchor].
  assert (E : pw (shows (cropImageByAnchor i cw ch x y)) = 0).
  { unfold cropImageByAnchor. rewrite Hb. unfold Dx, Dy. cbn [maxX minX maxY minY]. rewrite !Z.sub_0_r, !(i64_small (x + cw)), !(i64_small (y + ch)), !(i64_small w), !(i64_small h) by lia.
    replace (x + cw <=? w) with false by (symmetry; apply Z.leb_gt; lia). rewrite !andb_false_r, ?andb_false_l. replace (w <? x + cw) with true by (symmetry; apply Z.ltb_lt; lia).
    cbv zeta. rewrite (i64_small (w - x)) by lia. rewrite (i64_small (x + (w - x))) by lia.
    set (y1 := i64 (y + (if h <? y + ch then i64 (h - y) else ch))). clearbody y1.
    unfold Crop. rewrite Hb. cbn [minX minY]. rewrite !Z.sub_0_r. cbv zeta.
    set (t := Intersect (Rect x y (x + (w - x)) y1) (MkRect 0 0 w h)).
    assert (Et : Empty t = true \/ maxX t = minX t).
    { unfold t, Intersect. cbv zeta. match goal with |- Empty (if Empty ?r then _ else _) = true \/ _ => destruct (Empty r) eqn:Er end; [left; reflexivity|].
      exfalso. revert Er. unfold Empty, Rect. cbn [minX minY maxX maxY]. replace (x + (w - x)) with w by lia.
      destruct (Z.ltb_spec w x) as [L|L]; cbn [minX maxX minY maxY]; repeat match goal with |- context [if ?c then _ else _] => destruct c eqn:? end; lia. }
    assert (Et' : MkRect (minX t) (minY t) (maxX t) (maxY t) = t) by (destruct t; reflexivity). rewrite Et'.
    destruct (Empty t) eqn:Em; [reflexivity|]. destruct Et as [Et|Et]; [discriminate|]. unfold shows. cbn [bounds maxX minX pw]. lia. }
  destruct (String.eqb_spec fmt ""); [contradiction|]. destruct (existsb _ _); [|reflexivity]. rewrite (Hr _ (or_introl E)). reflexivity.
Qed.
Print Assumptions c121_missing_crop_refuted.

(** ... Quality and Colors are not looked at, ... *)
Theorem c121_quality_and_colors_refuted T filter d w h m gray inv fmt rot lr tb anchor side blur up lo q q' c c' :
  Encode T filter d w h m (Some (MkOptions gray inv fmt rot lr tb c q anchor side blur up lo)) =
  Encode T filter d w h m (Some (MkOptions gray inv fmt rot lr tb c' q' anchor side blur up lo)).
Proof. reflexivity. Qed.
Print Assumptions c121_quality_and_colors_refuted.

(** ... and neither is a Format in capitals or any other unknown one. *)
Theorem c121_unknown_format_refuted T filter d w h m gray inv fmt rot lr tb c q anchor side blur up lo :
  ~ In fmt ["jpg"; "jpeg"; "png"; "gif"; "bmp"; "tif"; "tiff"; "webp"; "ico"]%string ->
  Encode T filter d w h m (Some (MkOptions gray inv fmt rot lr tb c q anchor side blur up lo)) =
  Encode T filter d w h m (Some (MkOptions gray inv "" rot lr tb c q anchor side blur up lo)).
Proof.
  intros Hn. unfold Encode. destruct (decode T d) as [[i t]|]; [|reflexivity]. cbv zeta. cbn [oFormat].
  change (parseImage T filter i w h m (MkOptions gray inv fmt rot lr tb c q anchor side blur up lo)) with (parseImage T filter i w h m (MkOptions gray inv "" rot lr tb c q anchor side blur up lo)).
  set (j := parseImage T filter i w h m _). clearbody j. cbn [String.eqb]. unfold convertImageFormat.
  destruct (existsb (String.eqb fmt) ["jpg"; "jpeg"; "png"; "gif"; "bmp"; "tif"; "tiff"; "webp"; "ico"]%string) eqn:E.
  - exfalso. apply Hn. apply existsb_exists in E as (s & Hs & Es). apply String.eqb_eq in Es. rewrite Es. exact Hs.
  - destruct (String.eqb fmt ""); reflexivity.
Qed.
Print Assumptions c121_unknown_format_refuted.

(** If the result has a pixel and the format keeps pixels, the options are applied; what cannot be decoded is returned unchanged. *)
Theorem c121_applied_partial T filter d w h m o :
  (decode T d = None -> Encode T filter d w h m (Some o) = d) /\
  (forall i fmt, decode T d = Some (i, fmt) -> keeps_pixels T fmt -> oFormat o = ""%string -> nonempty (parseImage T filter i w h m o) ->
     alike_opt (picture_of T (Encode T filter d w h m (Some o))) (Some (shows (parseImage T filter i w h m o)))) /\
  (forall i fmt e, decode T d = Some (i, fmt) -> In (oFormat o) ["jpg"; "jpeg"; "png"; "gif"; "bmp"; "tif"; "tiff"; "webp"; "ico"]%string ->
     encode_conv T (oFormat o) (parseImage T filter i w h m o) = Some e -> Encode T filter d w h m (Some o) = e).
Proof.
  split; [intros H; unfold Encode; rewrite H; reflexivity|]. split.
  - intros i fmt Hd Hk Hf Hn. destruct (encode_keeps T filter d i fmt w h m o Hd Hk Hf Hn) as (j & Dj & _ & Aj & _). unfold picture_of. rewrite Dj. exact Aj.
  - intros i fmt e Hd Hin He. unfold Encode. rewrite Hd. cbv zeta. unfold convertImageFormat. rewrite He.
    replace (existsb (String.eqb (oFormat o)) ["jpg"; "jpeg"; "png"; "gif"; "bmp"; "tif"; "tiff"; "webp"; "ico"]%string) with true.
    + destruct (String.eqb_spec (oFormat o) "") as [E|E]; [|reflexivity]. exfalso. rewrite E in Hin. cbn in Hin. intuition discriminate.
    + symmetry. apply existsb_exists. exists (oFormat o). split; [exact Hin|apply String.eqb_refl].
Qed.
Print Assumptions c121_applied_partial.

Example c121_ex :
  refuses_empty toy "png" /\ Encode toy 0 toy_row 0 0 0 (Some (MkOptions false false "" 0 false false 0 0 [1; 1; 5; 0] [] (of_int 0) [] [])) = toy_row /\
  Encode toy 0 [1; 2; 3] 0 0 0 (Some (orientation 90 true false)) = [1; 2; 3] /\
  Encode toy 0 toy_row 0 0 0 (Some (MkOptions false false "PNG" 90 false false 0 0 [1; 1; 1; 0] [] (of_int 0) [] [])) = [137; 1; 1; 0; 255; 0; 255].
Proof. split; [exact toy_refuses|]. repeat split; vm_compute; reflexivity. Qed.

(** ** C122: the size of what Encode gives *)

(** Gray, Invert, FlipH, FlipV and Blur keep the size that crop, scale and resize have given; Rotate exchanges the sides for odd quarter turns. *)
Theorem c122_size T filter i w h m o :
  let sized := parseImage T filter i w h m (MkOptions false false "" 0 false false 0 0 (oCropAnchor o) (oCropSide o) (of_int 0) (oScaleUpper o) (oScaleLower o)) in
  let result := parseImage T filter i w h m o in
  proper sized -> - 2 ^ 53 < oRotate o < 2 ^ 53 -> oRotate o mod 90 = 0 ->
  (oRotate o mod 180 = 0 -> pw (shows result) = pw (shows sized) /\ ph (shows result) = ph (shows sized)) /\
  (oRotate o mod 180 <> 0 -> pw (shows result) = ph (shows sized) /\ ph (shows result) = pw (shows sized)).
Proof.
  cbv zeta. set (s := parseImage T filter i w h m (MkOptions false false "" 0 false false 0 0 (oCropAnchor o) (oCropSide o) (of_int 0) (oScaleUpper o) (oScaleLower o))).
  intros P Hd H90.
  assert (E : parseImage T filter i w h m o = stepBlur T o (stepFlipV o (stepFlipH o (stepRotate T o (stepInvert o (stepGray o s)))))).
  { unfold s, parseImage. cbv zeta. unfold stepBlur, stepFlipV, stepFlipH, stepRotate, stepInvert, stepGray, stepLower, stepUpper, stepSide, stepAnchor.
    cbn [oGray oInvert oFormat oRotate oFlipH oFlipV oCropAnchor oCropSide oBlur oScaleUpper oScaleLower Z.eqb]. rewrite blur0. reflexivity. }
  rewrite E. clear E. clearbody s.
  assert (G : proper (stepGray o s) /\ pw (shows (stepGray o s)) = pw (shows s) /\ ph (shows (stepGray o s)) = ph (shows s)).
  { unfold stepGray. destruct (oGray o); [|auto]. destruct (gray_gives s P) as ((E1 & E2 & _) & B & _). auto. }
  destruct G as (P1 & W1 & H1). rewrite <- W1, <- H1. set (s1 := stepGray o s) in *. clearbody s1. clear W1 H1.
  assert (G : proper (stepInvert o s1) /\ pw (shows (stepInvert o s1)) = pw (shows s1) /\ ph (shows (stepInvert o s1)) = ph (shows s1)).
  { unfold stepInvert. destruct (oInvert o); [|auto]. destruct (invert_gives s1 P1) as ((E1 & E2 & _) & B & _). auto. }
  destruct G as (P2 & W2 & H2). rewrite <- W2, <- H2. set (s2 := stepInvert o s1) in *. clearbody s2. clear W2 H2.
  set (r := stepRotate T o s2).
  assert (R : proper r /\ alike (shows r) (Nat.iter (turns (oRotate o)) quarter (shows s2))).
  { unfold r, stepRotate. destruct (Z.eqb_spec (oRotate o) 0) as [Z0|Z0]; [rewrite Z0; split; [exact P2|apply alike_refl]|].
    destruct (rotateImage_gives T s2 (oRotate o) P2 Hd H90) as (A & B & _). auto. }
  destruct R as (PR & AR). clearbody r.
  assert (G : proper (stepFlipH o r) /\ pw (shows (stepFlipH o r)) = pw (shows r) /\ ph (shows (stepFlipH o r)) = ph (shows r)).
  { unfold stepFlipH. destruct (oFlipH o); [|auto]. destruct (flipH_gives r PR) as ((E1 & E2 & _) & B & _). auto. }
  destruct G as (P4 & W4 & H4). set (s4 := stepFlipH o r) in *. clearbody s4.
  assert (G : proper (stepFlipV o s4) /\ pw (shows (stepFlipV o s4)) = pw (shows s4) /\ ph (shows (stepFlipV o s4)) = ph (shows s4)).
  { unfold stepFlipV. destruct (oFlipV o); [|auto]. destruct (flipV_gives s4 P4) as ((E1 & E2 & _) & B & _). auto. }
  destruct G as (P5 & W5 & H5). set (s5 := stepFlipV o s4) in *. clearbody s5.
  assert (G : pw (shows (stepBlur T o s5)) = pw (shows s5) /\ ph (shows (stepBlur T o s5)) = ph (shows s5)).
  { unfold stepBlur. destruct (fgt (oBlur o) (of_int 0)); [|auto]. unfold blurGaussianImage. rewrite Dx_proper, Dy_proper by exact P5. pose proof (proper_shows s5 P5) as [B1 B2].
    destruct (fresh_alike (pw (shows s5)) (ph (shows s5)) (blurred T (oBlur o) s5) _ ltac:(lia) ltac:(lia) (alike_refl _)) as (E1 & E2 & _). split; [exact E1|exact E2]. }
  destruct G as (W6 & H6). rewrite W6, H6, W5, H5, W4, H4. destruct AR as (AW & AH & _). rewrite AW, AH.
  destruct (turns_90 (oRotate o) H90) as [Ht Em].
  assert (M : oRotate o mod 180 = (90 * Z.of_nat (turns (oRotate o))) mod 180) by (rewrite <- Em; apply Znumtheory.Zmod_div_mod; [lia|lia|exists 2; reflexivity]).
  rewrite M. destruct (turns (oRotate o)) as [|[|[|[|n]]]]; [| | | |lia]; cbn [Nat.iter nat_rect quarter pw ph]; split; intros Hm; (auto || (exfalso; vm_compute in Hm; congruence)).
Qed.
Print Assumptions c122_size.

(** What the size steps before the last one give, and all options but those about the size. *)
Definition before_lower (o : Options) : Options := MkOptions false false "" 0 false false 0 0 (oCropAnchor o) (oCropSide o) (of_int 0) (oScaleUpper o) [].
Definition before_upper (o : Options) : Options := MkOptions false false "" 0 false false 0 0 (oCropAnchor o) (oCropSide o) (of_int 0) [] [].
Definition before_resize (o : Options) : Options := MkOptions false false "" 0 false false 0 0 (oCropAnchor o) (oCropSide o) (of_int 0) (oScaleUpper o) (oScaleLower o).
Lemma Resize_int w h nw nh : is_int nw -> is_int nh -> is_int (fst (Resize w h nw nh)) /\ is_int (snd (Resize w h nw nh)).
Proof.
  intros Hw Hh. assert (is_int 0) by (unfold is_int; lia). unfold Resize. cbv zeta.
  destruct (_ || _); [auto|]. destruct (_ && _); [auto|]. destruct (_ || _); [auto|]. cbn [fst snd].
  split; [destruct (nw =? 0)|destruct (nh =? 0)]; try assumption; apply to_int_range.
Qed.
Lemma scaleTarget_int w h a b l lower : is_int a -> is_int b -> is_int (fst (scaleTarget w h a b l lower)) /\ is_int (snd (scaleTarget w h a b l lower)).
Proof.
  intros Ha Hb. assert (Z0 : is_int 0) by (unfold is_int; lia). rewrite scaleTarget_wish. cbv zeta. set (p := wish _ _ _ _ _).
  assert (P : is_int (fst p) /\ is_int (snd p)).
  { unfold p, wish, one. destruct (Bool.eqb _ _); cbn [fst snd]; split; try apply to_int_range; destruct (_ =? 0); (assumption || (unfold is_int; lia)). }
  clearbody p. destruct (_ && _); [|exact P]. unfold scaleDownToLimit. cbv zeta. destruct (_ || _); [auto|]. destruct (_ <? _); [exact P|]. cbn [fst snd]. split; apply to_int_range.
Qed.
Lemma scaled_size T i a b l lower : proper i -> is_int a -> is_int b ->
  let s := scaleImageWithRatio (pw (shows i)) (ph (shows i)) a b l lower in 0 <= fst s -> 0 <= snd s ->
  pw (shows (scaleImg T i a b l lower)) = fst s /\ ph (shows (scaleImg T i a b l lower)) = snd s /\ proper (scaleImg T i a b l lower).
Proof.
  intros P Ia Ib. unfold scaleImg, scaleImageWithRatio. rewrite Dx_proper, Dy_proper by exact P.
  destruct (scaleTarget_int (pw (shows i)) (ph (shows i)) a b l lower Ia Ib) as [I1 I2]. destruct (scaleTarget _ _ a b l lower) as [nw nh]. cbn [fst snd] in *.
  unfold ResizeImg. rewrite Dx_proper, Dy_proper by exact P. destruct (Resize_int (pw (shows i)) (ph (shows i)) nw nh I1 I2) as [J1 J2].
  destruct (Resize (pw (shows i)) (ph (shows i)) nw nh) as [W H]. cbn [fst snd] in *. intros H1 H2. unfold is_int in *.
  destruct (fresh_alike W H (resampled T Lanczos i W H) _ H1 H2 (alike_refl _)) as (E1 & E2 & _). destruct (fresh_proper W H (resampled T Lanczos i W H)) as [Q _]; [lia|lia|]. auto.
Qed.

(** ScaleLower without a later resize: the result fits the box, whatever was cut and scaled up before, and whatever is done to the colours after. *)
Theorem c122_lower_fits T filter i m o a b rest :
  let before := parseImage T filter i 0 0 m (before_lower o) in
  let result := parseImage T filter i 0 0 m o in
  proper before -> 1 <= pw (shows before) <= 2 ^ 31 -> 1 <= ph (shows before) <= 2 ^ 31 ->
  oScaleLower o = a :: b :: rest -> 0 <= a <= 2 ^ 31 -> 0 <= b <= 2 ^ 31 -> Forall (fun l => l < 2 ^ 50) rest -> - 2 ^ 53 < oRotate o < 2 ^ 53 -> oRotate o mod 180 = 0 ->
  pw (shows result) <= Z.max 1 a /\ ph (shows result) <= Z.max 1 b.
Proof.
  cbv zeta. set (s := parseImage T filter i 0 0 m (before_lower o)). intros P Hw Hh El Ha Hb Hr Hd Ho.
  assert (E : parseImage T filter i 0 0 m (MkOptions false false "" 0 false false 0 0 (oCropAnchor o) (oCropSide o) (of_int 0) (oScaleUpper o) (oScaleLower o)) = scaleImg T s a b (maxPixel_of (oScaleLower o)) true).
  { unfold s, before_lower, parseImage. cbv zeta. unfold stepBlur, stepFlipV, stepFlipH, stepRotate, stepInvert, stepGray, stepResize, stepLower, stepUpper, stepSide, stepAnchor.
    cbn [oGray oInvert oFormat oRotate oFlipH oFlipV oCropAnchor oCropSide oBlur oScaleUpper oScaleLower Z.eqb Z.ltb Z.compare orb]. rewrite blur0, El. reflexivity. }
  assert (L : maxPixel_of (oScaleLower o) < 2 ^ 50). { rewrite El. unfold maxPixel_of. destruct rest as [|l [|]]; [lia| |lia]. inversion Hr. assumption. }
  pose proof (lower_fits (pw (shows s)) (ph (shows s)) a b (maxPixel_of (oScaleLower o)) Hw Hh Ha Hb L) as F.
  pose proof (scaled_size T s a b (maxPixel_of (oScaleLower o)) true P ltac:(unfold is_int; lia) ltac:(unfold is_int; lia)) as S. cbv zeta in S.
  destruct (scaleImageWithRatio _ _ a b _ true) as [rw rh]. cbn [fst snd] in S. destruct (S ltac:(lia) ltac:(lia)) as (S1 & S2 & S3).
  destruct (c122_size T filter i 0 0 m o) as [C _]; [rewrite E; exact S3|exact Hd|pose proof (Z.div_mod (oRotate o) 180 ltac:(lia)) as D; rewrite Ho in D; rewrite D; rewrite Z.add_0_r; replace (180 * (oRotate o / 180)) with (2 * (oRotate o / 180) * 90) by ring; apply Z.mod_mul; lia|].
  destruct (C Ho) as [C1 C2]. rewrite C1, C2, E, S1, S2. lia.
Qed.
Print Assumptions c122_lower_fits.

(** ScaleUpper without a limit, without a later scale down or resize: the result covers the box but for at most one row. *)
Theorem c122_upper_nearly_covers T filter i m o a b :
  let before := parseImage T filter i 0 0 m (before_upper o) in
  let result := parseImage T filter i 0 0 m o in
  proper before -> 1 <= pw (shows before) <= 2 ^ 31 -> 1 <= ph (shows before) <= 2 ^ 31 ->
  oScaleUpper o = [a; b] -> oScaleLower o = [] -> 0 <= a <= 2 ^ 31 -> 0 <= b <= 2 ^ 31 -> - 2 ^ 53 < oRotate o < 2 ^ 53 -> oRotate o mod 180 = 0 ->
  a <= pw (shows result) /\ b - 1 <= ph (shows result).
Proof.
  cbv zeta. set (s := parseImage T filter i 0 0 m (before_upper o)). intros P Hw Hh Eu El Ha Hb Hd Ho.
  assert (E : parseImage T filter i 0 0 m (MkOptions false false "" 0 false false 0 0 (oCropAnchor o) (oCropSide o) (of_int 0) (oScaleUpper o) (oScaleLower o)) = scaleImg T s a b 0 false).
  { unfold s, before_upper, parseImage. cbv zeta. unfold stepBlur, stepFlipV, stepFlipH, stepRotate, stepInvert, stepGray, stepResize, stepLower, stepUpper, stepSide, stepAnchor.
    cbn [oGray oInvert oFormat oRotate oFlipH oFlipV oCropAnchor oCropSide oBlur oScaleUpper oScaleLower Z.eqb Z.ltb Z.compare orb]. rewrite blur0, El, Eu. reflexivity. }
  pose proof (upper_near (pw (shows s)) (ph (shows s)) a b 0 Hw Hh Ha Hb ltac:(lia)) as F.
  pose proof (scaled_size T s a b 0 false P ltac:(unfold is_int; lia) ltac:(unfold is_int; lia)) as S. cbv zeta in S.
  destruct (scaleImageWithRatio _ _ a b 0 false) as [rw rh]. cbn [fst snd] in S. destruct (S ltac:(lia) ltac:(lia)) as (S1 & S2 & S3).
  destruct (c122_size T filter i 0 0 m o) as [C _]; [rewrite E; exact S3|exact Hd|pose proof (Z.div_mod (oRotate o) 180 ltac:(lia)) as D; rewrite Ho in D; rewrite D; rewrite Z.add_0_r; replace (180 * (oRotate o / 180)) with (2 * (oRotate o / 180) * 90) by ring; apply Z.mod_mul; lia|].
  destruct (C Ho) as [C1 C2]. rewrite C1, C2, E, S1, S2. lia.
Qed.
Print Assumptions c122_upper_nearly_covers.

(** A thumbnail (mode 1) not larger than what is there has exactly the requested size. *)
Theorem c122_thumbnail T filter i w h o :
  let before := parseImage T filter i 0 0 1 (before_resize o) in
  let result := parseImage T filter i w h 1 o in
  proper before -> 1 <= w <= pw (shows before) -> 1 <= h <= ph (shows before) -> - 2 ^ 53 < oRotate o < 2 ^ 53 -> oRotate o mod 180 = 0 ->
  pw (shows result) = w /\ ph (shows result) = h.
Proof.
  cbv zeta. set (s := parseImage T filter i 0 0 1 (before_resize o)). intros P Hw Hh Hd Ho.
  assert (E : parseImage T filter i w h 1 (MkOptions false false "" 0 false false 0 0 (oCropAnchor o) (oCropSide o) (of_int 0) (oScaleUpper o) (oScaleLower o)) = FillImg T (selectFilter filter) s w h).
  { replace (FillImg T (selectFilter filter) s w h) with (stepResize T filter w h 1 s).
    - unfold s, before_resize, parseImage. cbv zeta. unfold stepBlur, stepFlipV, stepFlipH, stepRotate, stepInvert, stepGray, stepLower, stepUpper, stepSide, stepAnchor.
      cbn [oGray oInvert oFormat oRotate oFlipH oFlipV oCropAnchor oCropSide oBlur oScaleUpper oScaleLower Z.eqb]. rewrite blur0. reflexivity.
    - unfold stepResize. replace ((0 <? w) || (0 <? h)) with true by lia. unfold praseMode, newSide4mode, getSideByThubnail. cbv zeta. rewrite Dx_proper, Dy_proper by exact P.
      assert (C : (let '(x, y) := if ph (shows s) <=? pw (shows s) then (w, h) else (h, w) in (pw (shows s) <? x) && (ph (shows s) <? y)) = false) by (destruct (ph (shows s) <=? pw (shows s)) eqn:?; lia).
      destruct (if ph (shows s) <=? pw (shows s) then (w, h) else (h, w)) as [x y]. rewrite C.
      replace (if w <? pw (shows s) then w else pw (shows s)) with w by (destruct (w <? pw (shows s)) eqn:?; lia). replace (if h <? ph (shows s) then h else ph (shows s)) with h by (destruct (h <? ph (shows s)) eqn:?; lia).
      replace (w =? 0) with false by lia. replace (h =? 0) with false by lia. reflexivity. }
  assert (S : pw (shows (FillImg T (selectFilter filter) s w h)) = w /\ ph (shows (FillImg T (selectFilter filter) s w h)) = h /\ proper (FillImg T (selectFilter filter) s w h)).
  { pose proof (proper_shows s P) as [B1 B2]. unfold FillImg, Fill. rewrite Dx_proper, Dy_proper by exact P. replace ((w <=? 0) || (h <=? 0) || (pw (shows s) <=? 0) || (ph (shows s) <=? 0)) with false by lia.
    destruct (fresh_alike w h (filled T (selectFilter filter) s w h) _ ltac:(lia) ltac:(lia) (alike_refl _)) as (E1 & E2 & _). destruct (fresh_proper w h (filled T (selectFilter filter) s w h)) as [Q _]; [lia|lia|]. auto. }
  destruct S as (S1 & S2 & S3).
  destruct (c122_size T filter i w h 1 o) as [C _]; [rewrite E; exact S3|exact Hd|pose proof (Z.div_mod (oRotate o) 180 ltac:(lia)) as D; rewrite Ho in D; rewrite D; rewrite Z.add_0_r; replace (180 * (oRotate o / 180)) with (2 * (oRotate o / 180) * 90) by ring; apply Z.mod_mul; lia|].
  destruct (C Ho) as [C1 C2]. rewrite C1, C2, E, S1, S2. auto.
Qed.
Print Assumptions c122_thumbnail.

(** So the requested width and height are not those of the result when it is turned: 400 x 200 to 100 x 50, Rotate 90, gives 50 x 100. *)
Theorem c122_fits_request_refuted T filter f :
  let result := parseImage T filter (Img (MkRect 0 0 400 200) f) 100 50 1 (orientation 90 false false) in
  pw (shows result) = 50 /\ ph (shows result) = 100.
Proof.
  cbv zeta. set (i := Img (MkRect 0 0 400 200) f).
  assert (S : exists g, parseImage T filter i 100 50 1 (MkOptions false false "" 0 false false 0 0 [] [] (of_int 0) [] []) = Img (MkRect 0 0 100 50) g).
  { change (MkOptions false false "" 0 false false 0 0 [] [] (of_int 0) [] []) with noOptions. rewrite p_resize. unfold stepResize. cbn [Z.ltb Z.compare orb].
    replace (praseMode 1 (Dx (bounds i)) (Dy (bounds i)) 100 50) with (100, 50, THUMBNAIL) by (vm_compute; reflexivity). unfold FillImg.
    replace (Fill (Dx (bounds i)) (Dy (bounds i)) 100 50) with (100, 50) by (vm_compute; reflexivity). unfold fresh. eexists. reflexivity. }
  destruct S as [g S]. destruct (c122_size T filter i 100 50 1 (orientation 90 false false)) as [_ H].
  - cbn [orientation oCropAnchor oCropSide oScaleUpper oScaleLower]. rewrite S. split; cbn; lia.
  - cbn. lia.
  - reflexivity.
  - cbn [orientation oCropAnchor oCropSide oScaleUpper oScaleLower] in H. rewrite S in H. apply H. cbn. lia.
Qed.
Print Assumptions c122_fits_request_refuted.

Example c122_ex :
  firstn 3 (Encode toy 0 toy_row 0 0 0 (Some (MkOptions true true "" (-90) true true 0 0 [2; 1; 0; 0] [] (of_int 3) [] []))) = [137; 1; 2] /\
  firstn 3 (Encode toy 0 toy_row 0 0 0 (Some (MkOptions true true "" 540 true true 0 0 [2; 1; 0; 0] [] (of_int 3) [] []))) = [137; 2; 1].
Proof. split; vm_compute; reflexivity. Qed.
(** An image of 30 x 10: to at most 20 x 90, to at least 20 x 90, a thumbnail of 20 x 9. *)
Example c122_sizes_ex :
  let i := Img (MkRect 0 0 30 10) (fun _ _ => Px 1 2 3 255) in let size p := (pw (shows p), ph (shows p)) in
  size (parseImage toy 0 i 0 0 0 (MkOptions true false "" 180 true false 0 0 [] [] (of_int 0) [] [20; 90])) = (20, 6) /\
  size (parseImage toy 0 i 0 0 0 (MkOptions true false "" 180 true false 0 0 [] [] (of_int 0) [20; 90] [])) = (270, 90) /\
  size (parseImage toy 0 i 20 9 1 (MkOptions true false "" 180 true false 0 0 [] [] (of_int 0) [] [])) = (20, 9).
Proof. repeat split; vm_compute; reflexivity. Qed.
