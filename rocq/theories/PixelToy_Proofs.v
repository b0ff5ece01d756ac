(** A small format that keeps every pixel, to show that what the theorems ask of the code of others can be had. *)
From Coq Require Import ZArith List Bool Lia String.
From Verif Require Import GoInt GoFloat Image_Model Image_Proofs Pixel_Model Pixel_Spec PixelGray_Proofs Pixel_Proofs.
Import ListNotations.
Local Open Scope Z_scope.

Definition toy_channel (p : pixel) (k : Z) : Z := match k with 0 => pr p | 1 => pg p | 2 => pb p | _ => pa p end.
(** 137, the width, the height, then four numbers for each pixel, row by row. *)
Definition toy_encode (format : string) (i : img pixel) : option (list Z) :=
  let w := pw (shows i) in let h := ph (shows i) in
  if (w <=? 0) || (h <=? 0) then None
  else Some (137 :: w :: h :: map (fun n => let k := Z.of_nat n in toy_channel (at_ (shows i) (k / 4 mod w) (k / 4 / w)) (k mod 4)) (seq 0 (Z.to_nat (4 * (w * h))))).
Definition toy_decode (d : list Z) : option (img pixel * string) :=
  match d with
  | 137 :: w :: h :: l =>
      let c x y k := nth (Z.to_nat (4 * (y * w + x) + k)) l 0 in
      Some (Img (MkRect 0 0 w h) (fun x y => Px (c x y 0) (c x y 1) (c x y 2) (c x y 3)), "png"%string)
  | _ => None
  end.
Definition toy_near (i : img pixel) (x y : Z) : pixel :=
  if (0 <? pw (shows i)) && (0 <? ph (shows i)) then at_ (shows i) (x mod pw (shows i)) (y mod ph (shows i)) else Px 0 0 0 0.
Definition toy : tools := Tools toy_decode toy_encode toy_encode (fun _ i _ _ => toy_near i) (fun _ i _ _ => toy_near i) (fun _ => toy_near) (fun _ => Clone).

Lemma toy_keeps : keeps_pixels toy "png".
Proof.
  split; [left; reflexivity|]. intros i (P & H1 & H2). unfold toy. cbn [encode_std decode]. unfold toy_encode. cbv zeta.
  set (w := pw (shows i)) in *. set (h := ph (shows i)) in *.
  replace (w <=? 0) with false by (symmetry; apply Z.leb_gt; lia). replace (h <=? 0) with false by (symmetry; apply Z.leb_gt; lia). cbn [orb].
  eexists; eexists. split; [reflexivity|]. split; [reflexivity|]. split; [split; reflexivity|].
  split; [change (w - 0 = w); lia|]. split; [change (h - 0 = h); lia|].
  intros x y Hx Hy. change (0 <= x < w - 0) in Hx. change (0 <= y < h - 0) in Hy. unfold shows at 1. cbn [bounds minX minY px at_]. rewrite !Z.add_0_l.
  assert (K : forall k, 0 <= k < 4 -> nth (Z.to_nat (4 * (y * w + x) + k))
     (map (fun n => toy_channel (at_ (shows i) (Z.of_nat n / 4 mod w) (Z.of_nat n / 4 / w)) (Z.of_nat n mod 4)) (seq 0 (Z.to_nat (4 * (w * h))))) 0
     = toy_channel (at_ (shows i) x y) k).
  { intros k Hk. set (m := 4 * (y * w + x) + k). assert (B : 0 <= m < 4 * (w * h)) by (unfold m; nia).
    rewrite (nth_indep _ 0 (toy_channel (at_ (shows i) (Z.of_nat 0 / 4 mod w) (Z.of_nat 0 / 4 / w)) (Z.of_nat 0 mod 4))) by (rewrite map_length, seq_length; lia).
    rewrite (map_nth (fun n => toy_channel (at_ (shows i) (Z.of_nat n / 4 mod w) (Z.of_nat n / 4 / w)) (Z.of_nat n mod 4))).
    rewrite seq_nth by lia. rewrite Nat.add_0_l, Z2Nat.id by lia.
    replace (m / 4) with (y * w + x) by (unfold m; apply (Z.div_unique _ 4 _ k); lia).
    replace (m mod 4) with k by (unfold m; apply (Z.mod_unique _ 4 (y * w + x)); lia).
    replace ((y * w + x) mod w) with x by (apply (Z.mod_unique _ w y); lia). replace ((y * w + x) / w) with y by (apply (Z.div_unique _ w _ x); lia). reflexivity. }
  rewrite !K by lia. destruct (at_ (shows i) x y); reflexivity.
Qed.
Lemma toy_refuses : refuses_empty toy "png".
Proof.
  intros i H. cbn [toy encode_std]. unfold toy_encode. cbv zeta. destruct ((pw (shows i) <=? 0) || (ph (shows i) <=? 0)) eqn:E; [reflexivity|].
  apply orb_false_iff in E as [E1 E2]. apply Z.leb_gt in E1, E2. lia.
Qed.
Lemma toy_sees : sees_pictures toy.
Proof.
  assert (K : forall i j x y, alike (shows i) (shows j) -> toy_near i x y = toy_near j x y).
  { intros i j x y (E1 & E2 & E3). unfold toy_near. rewrite <- E1, <- E2. destruct (_ && _) eqn:E; [|reflexivity]. apply andb_true_iff in E as [P1 P2]. apply Z.ltb_lt in P1, P2.
    apply E3; apply Z.mod_pos_bound; lia. }
  repeat split; cbn [toy resampled filled blurred rotated]; intros.
  - apply K; assumption.
  - apply K; assumption.
  - apply K; assumption.
  - match goal with P : proper i, Q : proper j, E : alike _ _ |- _ => destruct (Clone_gives i P) as ((A1 & _) & _), (Clone_gives j Q) as ((B1 & _) & _); destruct E as (E1 & _); congruence end.
  - match goal with P : proper i, Q : proper j, E : alike _ _ |- _ => destruct (Clone_gives i P) as ((_ & A1 & _) & _), (Clone_gives j Q) as ((_ & B1 & _) & _); destruct E as (_ & E1 & _); congruence end.
  - match goal with P : proper i, Q : proper j, E : alike _ _, X : _ <= x < _, Y : _ <= y < _ |- _ =>
      destruct (Clone_gives i P) as (A & _), (Clone_gives j Q) as (B & _);
      destruct (alike_trans _ _ _ A (alike_trans _ _ _ E (alike_sym _ _ B))) as (_ & _ & L); exact (L x y X Y) end.
  - match goal with P : proper i |- _ => destruct (Clone_gives i P) as (_ & [[A1 A2] _] & _); exact A1 end.
  - match goal with P : proper i |- _ => destruct (Clone_gives i P) as (_ & [[A1 A2] _] & _); exact A2 end.
  - match goal with P : proper i |- _ => destruct (Clone_gives i P) as (_ & [_ [A1 A2]] & _); exact A1 end.
  - match goal with P : proper i |- _ => destruct (Clone_gives i P) as (_ & [_ [A1 A2]] & _); exact A2 end.
  - match goal with P : proper i |- _ => destruct (Clone_gives i P) as (_ & _ & [A1 A2]); exact A1 end.
  - match goal with P : proper i |- _ => destruct (Clone_gives i P) as (_ & _ & [A1 A2]); exact A2 end.
Qed.
(** Three pixels: red, green, a half transparent blue. *)
Definition toy_row : list Z := [137; 3; 1; 255; 0; 0; 255; 0; 255; 0; 255; 0; 0; 255; 128].
