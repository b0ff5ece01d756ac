(** Proofs about the crops of image/adjust.go and the tables of image/image.go. *)
From Coq Require Import ZArith List Bool Lia ZifyBool.
From Verif Require Import GoInt GoFloat Image_Model Image_Spec Image_Proofs.
Import ListNotations.
Local Open Scope Z_scope.
(** ** Crops *)
Section crops.
Context {P : Type}.
Lemma Crop_part (i : img P) w h a b c d : plain i w h -> a <= c -> b <= d -> part (Crop i (Rect a b c d)) i (Z.max 0 a) (Z.max 0 b) (Z.min w c) (Z.min h d).
Proof.
  intros (E & Hw & Hh) Hac Hbd. unfold part, Crop, Rect, Intersect. rewrite E. cbn [minX minY maxX maxY].
  replace (c <? a) with false by lia. replace (d <? b) with false by lia. unfold Empty. cbn [minX minY maxX maxY].
  destruct (Z_lt_ge_dec (Z.max 0 a) (Z.min w c)) as [L1|L1]; [destruct (Z_lt_ge_dec (Z.max 0 b) (Z.min h d)) as [L2|L2]|].
  - left. split; [exact L1|]. split; [exact L2|].
    assert (X0 : (if a <? 0 then 0 else a) = Z.max 0 a) by (destruct (a <? 0) eqn:?; lia). assert (Y0 : (if b <? 0 then 0 else b) = Z.max 0 b) by (destruct (b <? 0) eqn:?; lia).
    assert (X1 : (if w <? c then w else c) = Z.min w c) by (destruct (w <? c) eqn:?; lia). assert (Y1 : (if h <? d then h else d) = Z.min h d) by (destruct (h <? d) eqn:?; lia).
    rewrite X0, Y0, X1, Y1. replace ((Z.min w c <=? Z.max 0 a) || (Z.min h d <=? Z.max 0 b)) with false by lia. cbn [minX minY maxX maxY].
    replace ((Z.min w c - 0 <=? Z.max 0 a - 0) || (Z.min h d - 0 <=? Z.max 0 b - 0)) with false by lia. cbn [bounds px]. split; [reflexivity|]. intros u v Hu Hv. f_equal; lia.
  - right. split; [lia|]. assert (C : forall p q, h <= b \/ d <= 0 \/ b = d -> (p <=? q) || ((if h <? d then h else d) <=? (if b <? 0 then 0 else b)) = true) by (intros; destruct (h <? d) eqn:?, (b <? 0) eqn:?; lia).
    rewrite C by lia. cbn [minX minY maxX maxY]. destruct (_ || _) eqn:E1; [reflexivity|lia].
  - right. split; [lia|]. assert (C : (if w <? c then w else c) <=? (if a <? 0 then 0 else a) = true) by (destruct (w <? c) eqn:?, (a <? 0) eqn:?; lia).
    rewrite C. cbn [orb minX minY maxX maxY]. destruct (_ || _) eqn:E1; [reflexivity|lia].
Qed.
Lemma plain_Dx (i : img P) w h : plain i w h -> Dx (bounds i) = w /\ Dy (bounds i) = h.
Proof. intros (E & Hw & Hh). unfold Dx, Dy. rewrite E. cbn [minX minY maxX maxY]. rewrite !i64_small by lia. lia. Qed.
Lemma crop_ok (i : img P) w h width height x y : plain i w h -> 0 <= width -> 0 <= height -> int64 x -> int64 y -> int64 (x + width) -> int64 (y + height) ->
  (0 <= x /\ 0 <= y /\ x + width <= w /\ y + height <= h -> exists i', cropImage i width height x y = Some i' /\ part i' i x y (x + width) (y + height)) /\
  (~ (0 <= x /\ 0 <= y /\ x + width <= w /\ y + height <= h) -> cropImage i width height x y = None).
Proof.
  intros Hi Hw Hh Ix Iy Ixw Iyh. destruct (plain_Dx i w h Hi) as [Ew Eh]. unfold cropImage. rewrite Ew, Eh, !i64_small by assumption. split.
  - intros C. replace ((x <? 0) || (y <? 0) || (w <? x + width) || (h <? y + height)) with false by lia. eexists. split; [reflexivity|].
    pose proof (Crop_part i w h x y (x + width) (y + height) Hi ltac:(lia) ltac:(lia)) as Q. replace (Z.max 0 x) with x in Q by lia. replace (Z.max 0 y) with y in Q by lia.
    replace (Z.min w (x + width)) with (x + width) in Q by lia. replace (Z.min h (y + height)) with (y + height) in Q by lia. exact Q.
  - intros C. replace ((x <? 0) || (y <? 0) || (w <? x + width) || (h <? y + height)) with true by lia. reflexivity.
Qed.
Lemma part_empty (i i' : img P) x0 y0 x1 y1 x0' y0' x1' y1' : x1 <= x0 \/ y1 <= y0 -> x1' <= x0' \/ y1' <= y0' -> part i' i x0 y0 x1 y1 -> part i' i x0' y0' x1' y1'.
Proof. intros H H' [C|[_ C]]; [lia|]. right. split; assumption. Qed.
Lemma Rect_swap a b c d : Rect a b c d = Rect (Z.min a c) (Z.min b d) (Z.max a c) (Z.max b d).
Proof. unfold Rect. destruct (c <? a) eqn:?, (d <? b) eqn:?, (Z.max a c <? Z.min a c) eqn:?, (Z.max b d <? Z.min b d) eqn:?; try lia; f_equal; lia. Qed.
Lemma anchor_ok (i : img P) w h width height x y : plain i w h -> 0 <= width -> 0 <= height -> int64 x -> int64 y -> int64 (x + width) -> int64 (y + height) ->
  int64 width -> int64 height ->
  part (cropImageByAnchor i width height x y) i (Z.max 0 x) (Z.max 0 y) (Z.min w (x + width)) (Z.min h (y + height)).
Proof.
  intros Hi Hw Hh Ix Iy Ixw Iyh Iw Ih. destruct (plain_Dx i w h Hi) as [Ew Eh]. unfold cropImageByAnchor. rewrite Ew, Eh, !(i64_small (x + width)), !(i64_small (y + height)) by assumption.
  destruct (_ && _) eqn:E; [apply Crop_part; [assumption|lia|lia]|]. cbv zeta. pose proof Hi as (_ & Bw & Bh). unfold int64 in *.
  set (nw := if w <? x + width then i64 (w - x) else width). set (nh := if h <? y + height then i64 (h - y) else height).
  assert (Nw : nw = if w <? x + width then w - x else width) by (unfold nw; destruct (w <? x + width) eqn:?; [apply i64_small; lia|reflexivity]).
  assert (Nh : nh = if h <? y + height then h - y else height) by (unfold nh; destruct (h <? y + height) eqn:?; [apply i64_small; lia|reflexivity]).
  assert (X1 : i64 (x + nw) = Z.min w (x + width)) by (rewrite Nw; destruct (w <? x + width) eqn:?; rewrite i64_small by lia; lia).
  assert (Y1 : i64 (y + nh) = Z.min h (y + height)) by (rewrite Nh; destruct (h <? y + height) eqn:?; rewrite i64_small by lia; lia). rewrite X1, Y1, Rect_swap.
  pose proof (Crop_part i w h (Z.min x (Z.min w (x + width))) (Z.min y (Z.min h (y + height))) (Z.max x (Z.min w (x + width))) (Z.max y (Z.min h (y + height))) Hi ltac:(lia) ltac:(lia)) as Q.
  destruct (Z_le_gt_dec x w) as [Lx|Lx]; [destruct (Z_le_gt_dec y h) as [Ly|Ly]|].
  - replace (Z.min x (Z.min w (x + width))) with x in Q at 1 by lia. replace (Z.min y (Z.min h (y + height))) with y in Q at 1 by lia.
    replace (Z.min w (Z.max x (Z.min w (x + width)))) with (Z.min w (x + width)) in Q by lia. replace (Z.min h (Z.max y (Z.min h (y + height)))) with (Z.min h (y + height)) in Q by lia.
    replace (Z.min x (Z.min w (x + width))) with x in * by lia. replace (Z.min y (Z.min h (y + height))) with y in * by lia. exact Q.
  - eapply part_empty; [| |exact Q]; lia.
  - eapply part_empty; [| |exact Q]; lia.
Qed.
Lemma clamp_near v lo hi : lo <= hi -> lo <= clamp v lo hi <= hi /\ forall z, lo <= z <= hi -> Z.abs (v - clamp v lo hi) <= Z.abs (v - z).
Proof. intros H. unfold clamp. destruct (v <? lo) eqn:?, (hi <? v) eqn:?; split; try lia; intros; lia. Qed.
(** Where the crop of cropImageBySide begins, on one axis of length [w]. *)
Definition begins (w width x : Z) : Z := if w <? width then 0 else clamp x 0 (w - width).
Lemma side_ok (i : img P) w h width height x y : plain i w h -> 0 <= width < 2 ^ 62 -> 0 <= height < 2 ^ 62 -> int64 x -> int64 y ->
  part (cropImageBySide i width height x y) i (begins w width x) (begins h height y) (begins w width x + Z.min w width) (begins h height y + Z.min h height).
Proof.
  intros Hi Hw Hh Ix Iy. destruct (plain_Dx i w h Hi) as [Ew Eh]. unfold cropImageBySide. rewrite Ew, Eh. pose proof Hi as (_ & Bw & Bh). unfold int64 in *.
  rewrite (i64_small (w - width)), (i64_small (h - height)) by lia. cbv zeta.
  assert (C : forall w width x, 1 <= w <= 2 ^ 31 -> 0 <= width < 2 ^ 62 -> - 2 ^ 63 <= x < 2 ^ 63 ->
    - 2 ^ 62 <= clamp x 0 (w - width) <= w /\ begins w width x = Z.max 0 (clamp x 0 (w - width)) /\ begins w width x + Z.min w width = Z.min w (clamp x 0 (w - width) + width)).
  { intros w' wd x' ? ? ?. unfold begins, clamp. destruct (w' <? wd) eqn:?, (x' <? 0) eqn:?, (w' - wd <? x') eqn:?; lia. }
  destruct (C w width x Bw Hw Ix) as (K1 & -> & ->). destruct (C h height y Bh Hh Iy) as (K2 & -> & ->).
  set (cx := clamp x 0 (w - width)) in *. set (cy := clamp y 0 (h - height)) in *. rewrite (i64_small (cx + width)), (i64_small (cy + height)) by lia. apply Crop_part; [assumption|lia|lia].
Qed.
End crops.

(** ** Tables *)
Lemma bytesEqual_spec a b : bytesEqual a b = true <-> a = b.
Proof.
  revert b; induction a as [|x a IH]; intros [|y b]; cbn [bytesEqual]; try (split; [discriminate|discriminate]); [split; reflexivity|].
  rewrite andb_true_iff, IH. split; [intros [H ->]; f_equal; lia|]. intros E. split; [|congruence]. assert (x = y) by congruence. lia.
Qed.
Lemma prefix_test n m d : length m = n -> (n <= length d)%nat -> bytesEqual (firstn n d) m = true <-> starts_with m d.
Proof.
  intros Hm Hd. rewrite bytesEqual_spec. split.
  - intros <-. exists (skipn n d). symmetry. apply firstn_skipn.
  - intros [r ->]. rewrite <- Hm, firstn_app, firstn_all, Nat.sub_diag. cbn [firstn]. apply app_nil_r.
Qed.
Lemma sniff d t : (8 <= length d)%nat -> t <> Tnone -> imageType d = t <-> exists m, In (m, t) magics /\ starts_with m d.
Proof.
  intros Hd Ht. do 8 (destruct d as [|? d]; [cbn in Hd; lia|]). clear Hd.
  unfold imageType. cbn [length Nat.ltb Nat.leb firstn]. split.
  - intros E.
    repeat match type of E with (if ?b then _ else _) = _ => destruct b eqn:?; [subst t|] end; [..|congruence].
    all: repeat match goal with H : (_ || _) = true |- _ => apply orb_true_iff in H; destruct H as [H|H] end.
    all: match goal with H : bytesEqual _ ?m = true |- _ => apply bytesEqual_spec in H; exists m; split; [cbn; tauto|unfold starts_with] end.
    all: match goal with H : _ = ?m |- _ => (eexists; rewrite <- H; cbn [app]; reflexivity) end.
  - intros (m & Hin & [r Hr]). cbn [magics In] in Hin.
    repeat (destruct Hin as [Hin|Hin]; [assert (m = fst (m, t)) as Em by reflexivity; rewrite <- Hin in Em; assert (t = snd (m, t)) as Et by reflexivity; rewrite <- Hin in Et; cbn [fst snd] in Em, Et; subst m t; cbn [app] in Hr;
      repeat match type of Hr with ?x :: ?l = ?y :: ?k => assert (x = y) as -> by congruence; assert (l = k) as Hr' by congruence; clear Hr; rename Hr' into Hr end; reflexivity|]).
    destruct Hin.
Qed.
Lemma sniff_short d : (length d < 8)%nat -> imageType d = Tnone.
Proof. intros H. unfold imageType. replace (length d <? 8)%nat with true by (symmetry; apply Nat.ltb_lt; exact H). reflexivity. Qed.
Lemma quality_ok q : (10 < q -> 1 <= quality1 q <= 10) /\ (q <= 10 -> quality1 q = q) /\ qualityByBinary q = quality1 q.
Proof.
  unfold qualityByBinary, quality1, gorem. assert (10 < q -> 1 <= Z.rem q 10 + 1 <= 10) by (intros; pose proof (Z.rem_bound_pos q 10 ltac:(lia) ltac:(lia)); lia).
  destruct (10 <? q) eqn:E; [|rewrite E; lia]. replace (10 <? Z.rem q 10 + 1) with false by lia. lia.
Qed.
Lemma cases10 q : 1 <= q <= 10 -> In q [1; 2; 3; 4; 5; 6; 7; 8; 9; 10].
Proof. intros H. cbn. lia. Qed.
Lemma encoder_ok q : 1 <= q -> 1 <= jpegQuality q <= 100 /\ 1 <= gifColors q <= 256.
Proof.
  intros H. assert (K : 1 <= quality1 q <= 10) by (destruct (quality_ok q) as (A & B & _); destruct (Z_le_gt_dec q 10); [rewrite B by lia; lia|apply A; lia]).
  unfold jpegQuality, gifColors. apply cases10 in K. set (z := quality1 q) in *. clearbody z. cbn [In] in K.
  repeat (destruct K as [<-|K]; [vm_compute; repeat split; discriminate|]). destruct K.
Qed.
Lemma encoder_values q : 1 <= q -> jpegQuality q = quality1 q * 15 / 2 /\ gifColors q = quality1 q * 256 / 10.
Proof.
  intros H. assert (K : 1 <= quality1 q <= 10) by (destruct (quality_ok q) as (A & B & _); destruct (Z_le_gt_dec q 10); [rewrite B by lia; lia|apply A; lia]).
  unfold jpegQuality, gifColors. apply cases10 in K. set (z := quality1 q) in *. clearbody z. cbn [In] in K.
  repeat (destruct K as [<-|K]; [vm_compute; split; reflexivity|]). destruct K.
Qed.
(** *** Icons *)
Fixpoint sorted (l : list Z) : Prop := match l with [] => True | x :: r => (forall y, In y r -> x <= y) /\ sorted r end.
Lemma insert_in x l y : In y (insert x l) <-> y = x \/ In y l.
Proof. induction l as [|z l IH]; cbn; [intuition|]. destruct (x <=? z); cbn; rewrite ?IH; intuition. Qed.
Lemma insert_sorted x l : sorted l -> sorted (insert x l).
Proof.
  induction l as [|z l IH]; cbn; [intuition|]. intros [H1 H2]. destruct (x <=? z) eqn:E; cbn.
  - split; [intros y [<-|Hy]; [lia|specialize (H1 y Hy); lia]|split; assumption].
  - split; [|apply IH, H2]. intros y Hy. apply insert_in in Hy as [->|Hy]; [lia|apply H1, Hy].
Qed.
Lemma sortInts_sorted l : sorted (sortInts l).
Proof. unfold sortInts. induction l as [|x l IH]; cbn [fold_right]; [exact I|]. apply insert_sorted, IH. Qed.
Lemma search_filter l x : sorted l -> firstn (searchInts l x) l = filter (fun y => y <? x) l.
Proof.
  induction l as [|z l IH]; cbn; [reflexivity|]. intros [H1 H2]. destruct (x <=? z) eqn:E.
  - replace (z <? x) with false by lia. cbn. clear IH. induction l as [|a l IH2]; [reflexivity|]. cbn. replace (a <? x) with false by (specialize (H1 a (or_introl eq_refl)); lia).
    apply IH2; [intros y Hy; apply H1; right; exact Hy|]. cbn in H2. apply H2.
  - replace (z <? x) with true by lia. cbn. f_equal. apply IH, H2.
Qed.
Lemma search_min l a b : (if (searchInts l b <? searchInts l a)%nat then searchInts l b else searchInts l a) = searchInts l (Z.min a b).
Proof.
  induction l as [|z l IH]; cbn [searchInts]; [reflexivity|]. destruct (Z_le_gt_dec a z) as [A|A], (Z_le_gt_dec b z) as [B|B].
  - replace (a <=? z) with true by lia. replace (b <=? z) with true by lia. replace (Z.min a b <=? z) with true by lia. reflexivity.
  - replace (a <=? z) with true by lia. replace (b <=? z) with false by lia. replace (Z.min a b <=? z) with true by lia. reflexivity.
  - replace (a <=? z) with false by lia. replace (b <=? z) with true by lia. replace (Z.min a b <=? z) with true by lia. reflexivity.
  - replace (a <=? z) with false by lia. replace (b <=? z) with false by lia. replace (Z.min a b <=? z) with false by lia. rewrite <- IH.
    change (S (searchInts l b) <? S (searchInts l a))%nat with (searchInts l b <? searchInts l a)%nat. destruct (_ <? _)%nat; reflexivity.
Qed.
Lemma filter_insert m x l : sorted l -> filter (fun y => y <? m) (insert x l) = if x <? m then insert x (filter (fun y => y <? m) l) else filter (fun y => y <? m) l.
Proof.
  intros Hs. induction l as [|z l IH]; [cbn; destruct (x <? m); reflexivity|]. cbn [insert]. destruct Hs as [H1 H2]. destruct (x <=? z) eqn:E.
  - cbn [filter]. destruct (x <? m) eqn:E1; [|replace (z <? m) with false by lia; reflexivity]. destruct (z <? m) eqn:E2; [cbn [insert]; rewrite E; reflexivity|].
    assert (F : filter (fun y => y <? m) l = []). { clear IH H2. induction l as [|a l IH2]; [reflexivity|]. cbn. replace (a <? m) with false by (specialize (H1 a (or_introl eq_refl)); lia). apply IH2. intros y Hy. apply H1. right; exact Hy. }
    rewrite F. reflexivity.
  - cbn [filter]. rewrite IH by exact H2. destruct (z <? m) eqn:E2, (x <? m) eqn:E1; try reflexivity; cbn [insert]; rewrite E; reflexivity.
Qed.
Lemma ico_ok w h : icoThumbnails w h = filter (fun s => (s <? w) && (s <? h)) icon_sides.
Proof.
  unfold icoThumbnails. cbv zeta. rewrite search_min, search_filter by apply sortInts_sorted. set (m := Z.min w h).
  assert (S : forall x l, filter (fun y => y <? m) (sortInts (x :: l)) = if x <? m then insert x (filter (fun y => y <? m) (sortInts l)) else filter (fun y => y <? m) (sortInts l)) by (intros x l; apply filter_insert, sortInts_sorted).
  rewrite !S. replace (w <? m) with false by lia. replace (h <? m) with false by lia. cbn [sortInts fold_right filter icon_sides].
  assert (T : forall s, (s <? w) && (s <? h) = (s <? m)) by (intros s; lia). rewrite !T.
  destruct (16 <? m) eqn:E1, (32 <? m) eqn:E2, (48 <? m) eqn:E3, (64 <? m) eqn:E4, (128 <? m) eqn:E5; try lia; reflexivity.
Qed.
(** ** The canvas of a GIF *)
Definition holds (c r : rect) : Prop := minX c <= minX r /\ minY c <= minY r /\ maxX r <= maxX c /\ maxY r <= maxY c.
Lemma union_r c r : Empty r = false -> holds (Union c r) r.
Proof.
  intros E. unfold Union, holds. destruct (Empty c); [lia|]. rewrite E. cbn [minX minY maxX maxY].
  destruct (minX r <? minX c) eqn:?, (minY r <? minY c) eqn:?, (maxX c <? maxX r) eqn:?, (maxY c <? maxY r) eqn:?; lia.
Qed.
Lemma union_l c s r : Empty r = false -> holds c r -> holds (Union c s) r.
Proof.
  intros E H. assert (Ec : Empty c = false) by (unfold Empty, holds in *; lia). unfold Union. rewrite Ec. destruct (Empty s); [exact H|]. unfold holds in *. cbn [minX minY maxX maxY].
  destruct (minX s <? minX c) eqn:?, (minY s <? minY c) eqn:?, (maxX c <? maxX s) eqn:?, (maxY c <? maxY s) eqn:?; lia.
Qed.
Lemma canvas_holds frames r : In r frames -> Empty r = false -> holds (gifCanvas frames) r.
Proof.
  intros Hin E. unfold gifCanvas. generalize (Rect 0 0 0 0). revert Hin. induction frames as [|f l IH]; intros Hin c; [destruct Hin|]. cbn [fold_left]. destruct Hin as [->|Hin]; [|apply IH, Hin].
  clear IH. assert (H : holds (Union c r) r) by (apply union_r, E). revert H. generalize (Union c r). induction l as [|g l IH]; intros d H; [exact H|]. cbn [fold_left]. apply IH, union_l; assumption.
Qed.
