(** Proofs about the Buffer model. *)
From stdpp Require Import list.
From Coq Require Import ZArith Lia.
From Verif Require Import GoInt GoSlice Buffer_Model Buffer_Spec.
Local Open Scope Z_scope.

Definition from_ok (s : bst) (v : vst) (e : nat) (x : slc) (f : option (nat * nat)) : Prop :=
  match f with
  | None => (forall o z, objs s !! o = Some z -> sarr z <> sarr x) /\
            (forall e' y' x', e' <> e -> vsls v !! e' = Some y' -> sls s !! e' = Some x' -> usable v y' = true -> sarr x' <> sarr x)
  | Some (b, _) => forall o z, objs s !! o = Some z -> sarr z = sarr x -> hnd s !! b = Some o /\ (soff x + slen x <= soff z + slen z)%nat
  end.
Record Rel (s : bst) (v : vst) : Prop := {
  r_hl : length (hnd s) = length (vbufs v);
  r_sl : length (sls s) = length (vsls v);
  r_obj : forall o x, objs s !! o = Some x -> wf (hp s) x;
  r_arr : forall o o' x x', objs s !! o = Some x -> objs s !! o' = Some x' -> sarr x = sarr x' -> o = o';
  r_bag : NoDup (bag s) /\ forall o, o ∈ bag s -> (o < length (objs s))%nat;
  r_live : forall b o x, hnd s !! b = Some o -> vlook v b = Some x -> o ∉ bag s /\ exists z, objs s !! o = Some z /\ rd (hp s) z = vbytes x;
  r_dist : forall b b' o x x', hnd s !! b = Some o -> hnd s !! b' = Some o -> vlook v b = Some x -> vlook v b' = Some x' -> b = b';
  r_ep : forall e y b n, vsls v !! e = Some y -> vfrom y = Some (b, n) -> exists x, vbufs v !! b = Some x /\ (n <= vresets x)%nat;
  r_slc : forall e y x, vsls v !! e = Some y -> sls s !! e = Some x -> usable v y = true ->
    wf (hp s) x /\ rd (hp s) x = vval y /\ from_ok s v e x (vfrom y) }.
Lemma rel_init : Rel binit vinit.
Proof. split; cbn; try reflexivity; try discriminate. split; [constructor|]. intros o Ho. exfalso. revert Ho. apply not_elem_of_nil. Qed.

Lemma vlook_Some v b x : vlook v b = Some x <-> vbufs v !! b = Some x /\ vlive x = true.
Proof.
  unfold vlook. destruct (vbufs v !! b) as [y|]; [|split; [discriminate|intros [? _]; discriminate]].
  destruct (vlive y) eqn:E; split; intros H; [injection H as <-; auto|destruct H; congruence|discriminate|destruct H; congruence].
Qed.
Lemma obj_live s v b x : Rel s v -> vlook v b = Some x -> exists o z, obj s b = Some (o, z) /\ hnd s !! b = Some o /\ objs s !! o = Some z /\
  rd (hp s) z = vbytes x /\ o ∉ bag s /\ wf (hp s) z.
Proof.
  intros R Hx. apply vlook_Some in Hx as Hv. destruct Hv as [Hv _]. apply lookup_lt_Some in Hv. rewrite <- (r_hl _ _ R) in Hv.
  destruct (lookup_lt_is_Some_2 _ _ Hv) as [o Ho]. destruct (r_live _ _ R _ _ _ Ho Hx) as (Hb & z & Hz & Hr). exists o, z. unfold obj. rewrite Ho, Hz.
  repeat split; try assumption; apply (r_obj _ _ R _ _ Hz).
Qed.
Lemma slice_at s v e y : Rel s v -> vsls v !! e = Some y -> exists x, sls s !! e = Some x.
Proof. intros R Hy. apply lookup_lt_Some in Hy. rewrite <- (r_sl _ _ R) in Hy. exact (lookup_lt_is_Some_2 _ _ Hy). Qed.

(** ** An object in use is changed *)
Lemma rel_change s v b o z xv h' z' xv' : Rel s v -> vlook v b = Some xv -> hnd s !! b = Some o -> objs s !! o = Some z ->
  wf h' z' -> rd h' z' = vbytes xv' -> vlive xv' = true ->
  (forall t, wf (hp s) t -> wf h' t) -> (forall t, wf (hp s) t -> sarr t <> sarr z -> rd h' t = rd (hp s) t) ->
  (sarr z' = sarr z \/ sarr z' = length (hp s)) -> (length (hp s) <= length h')%nat ->
  (vresets xv' = vresets xv /\ (forall t, wf (hp s) t -> sarr t = sarr z -> (soff t + slen t <= soff z + slen z)%nat -> rd h' t = rd (hp s) t) /\
     (sarr z' = sarr z -> (soff z + slen z <= soff z' + slen z')%nat) \/ (vresets xv < vresets xv')%nat) ->
  Rel (BS h' (<[o := z']> (objs s)) (bag s) (hnd s) (sls s)) (vset v b xv').
Proof.
  intros R Hxv Ho Hz Hw' Hr' Hl' Hwf Hrd Harr Hlen Hcase.
  assert (Holt : (o < length (objs s))%nat) by (apply lookup_lt_Some in Hz; exact Hz).
  assert (Hb : vbufs v !! b = Some xv /\ vlive xv = true) by (apply vlook_Some; exact Hxv). destruct Hb as [Hb Hbl].
  assert (Hblt : (b < length (vbufs v))%nat) by (apply lookup_lt_Some in Hb; exact Hb).
  assert (Hobj : forall o2 x2, <[o := z']> (objs s) !! o2 = Some x2 -> (o2 = o /\ x2 = z') \/ (o2 <> o /\ objs s !! o2 = Some x2)).
  { intros o2 x2 H2. destruct (decide (o2 = o)) as [->|Hn]; [rewrite list_lookup_insert in H2 by exact Holt; left; split; congruence|].
    rewrite list_lookup_insert_ne in H2 by congruence. right. auto. }
  assert (Hvl : forall b2 x2, vlook (vset v b xv') b2 = Some x2 -> (b2 = b /\ x2 = xv') \/ (b2 <> b /\ vlook v b2 = Some x2)).
  { intros b2 x2 H2. apply vlook_Some in H2 as [H2 H2l]. cbn [vset vbufs] in H2. destruct (decide (b2 = b)) as [->|Hn].
    - rewrite list_lookup_insert in H2 by exact Hblt. left. split; congruence.
    - rewrite list_lookup_insert_ne in H2 by congruence. right. split; [exact Hn|]. apply vlook_Some. auto. }
  assert (Hus : forall e y, vsls v !! e = Some y -> usable (vset v b xv') y = true -> usable v y = true /\ (forall n, vfrom y = Some (b, n) -> vresets xv' = vresets xv)).
  { intros e y He Hy. pose proof (fun b n => r_ep _ _ R e y b n He) as Hep. unfold usable in *. destruct (vfrom y) as [[b2 n]|]; [|split; [reflexivity|discriminate]].
    cbn [vset vbufs] in Hy. destruct (decide (b2 = b)) as [->|Hn].
    - rewrite list_lookup_insert in Hy by exact Hblt. rewrite Hb, Hbl. apply andb_prop in Hy as [_ Hy]. apply bool_decide_eq_true in Hy. cbn [andb].
      destruct (Hep b n eq_refl) as (x2 & Hx2 & Hle). rewrite Hb in Hx2. injection Hx2 as <-.
      destruct Hcase as [[Hc _]|Hc]; [split; [apply bool_decide_eq_true; congruence|intros; congruence]|]. exfalso. lia.
    - rewrite list_lookup_insert_ne in Hy by congruence. split; [exact Hy|]. intros n' Hn'. congruence. }
  split; cbn [hp objs bag hnd sls vset vbufs vsls].
  - rewrite insert_length. apply (r_hl _ _ R).
  - apply (r_sl _ _ R).
  - intros o2 x2 H2. apply Hobj in H2 as [[-> ->]|[Hn H2]]; [exact Hw'|]. apply Hwf, (r_obj _ _ R _ _ H2).
  - intros o1 o2 x1 x2 H1 H2 He. apply Hobj in H1 as [[-> ->]|[Hn1 H1]], H2 as [[-> ->]|[Hn2 H2]]; [reflexivity| | |exact (r_arr _ _ R _ _ _ _ H1 H2 He)].
    + destruct Harr as [Ha|Ha]; [apply (r_arr _ _ R _ _ _ _ Hz H2); congruence|]. exfalso. destruct (r_obj _ _ R _ _ H2) as (Hlt & _). lia.
    + destruct Harr as [Ha|Ha]; [apply (r_arr _ _ R _ _ _ _ H1 Hz); congruence|]. exfalso. destruct (r_obj _ _ R _ _ H1) as (Hlt & _). lia.
  - rewrite insert_length. apply (r_bag _ _ R).
  - intros b2 o2 x2 Hh2 Hx2. apply Hvl in Hx2 as [[-> ->]|[Hn Hx2]].
    + assert (o2 = o) as -> by congruence. split; [apply (r_live _ _ R _ _ _ Ho Hxv)|]. exists z'. split; [apply list_lookup_insert; exact Holt|exact Hr'].
    + destruct (r_live _ _ R _ _ _ Hh2 Hx2) as (Hnb & y & Hy & Hry). split; [exact Hnb|]. exists y.
      assert (Hne : o2 <> o) by (intros ->; apply Hn; exact (r_dist _ _ R _ _ _ _ _ Hh2 Ho Hx2 Hxv)).
      split; [rewrite list_lookup_insert_ne by congruence; exact Hy|]. rewrite Hrd; [exact Hry|exact (r_obj _ _ R _ _ Hy)|]. intros Hs. apply Hne. exact (r_arr _ _ R _ _ _ _ Hy Hz Hs).
  - intros b1 b2 o2 x1 x2 H1 H2 Hx1 Hx2. assert (Hl : forall b2 x2, vlook (vset v b xv') b2 = Some x2 -> exists x3, vlook v b2 = Some x3).
    { intros b3 x3 H3. apply Hvl in H3 as [[-> _]|[_ H3]]; eauto. }
    destruct (Hl _ _ Hx1) as [? Hx1'], (Hl _ _ Hx2) as [? Hx2']. exact (r_dist _ _ R _ _ _ _ _ H1 H2 Hx1' Hx2').
  - intros e y b2 n He Hf. destruct (r_ep _ _ R _ _ _ _ He Hf) as (x2 & Hx2 & Hle). destruct (decide (b2 = b)) as [->|Hn].
    + rewrite list_lookup_insert by exact Hblt. exists xv'. split; [reflexivity|]. assert (x2 = xv) as -> by congruence. destruct Hcase as [[Hc _]|Hc]; lia.
    + rewrite list_lookup_insert_ne by congruence. eauto.
  - intros e y x He Hx Hy. destruct (Hus e y He Hy) as [Hu Huf]. destruct (r_slc _ _ R _ _ _ He Hx Hu) as (Hwx & Hrx & Hfx). split; [exact (Hwf _ Hwx)|]. unfold from_ok in *.
    destruct (vfrom y) as [[b2 n]|] eqn:Hfy; cbn [objs hnd].
    + split.
      * destruct (decide (sarr x = sarr z)) as [Hs|Hs]; [|rewrite Hrd by assumption; exact Hrx]. destruct (Hfx _ _ Hz (eq_sym Hs)) as [Hhb Hle].
        assert (b2 = b) as ->.
        { apply (r_dist _ _ R b2 b o) with (x := match vlook v b2 with Some q => q | None => xv end) (x' := xv); try assumption.
          unfold usable in Hu. rewrite Hfy in Hu. unfold vlook. destruct (vbufs v !! b2) as [q|]; [|discriminate]. apply andb_prop in Hu as [-> _]. reflexivity. }
        specialize (Huf _ eq_refl). destruct Hcase as [(_ & Hc & _)|Hc]; [|exfalso; lia]. rewrite Hc by assumption. exact Hrx.
      * intros o2 x2 H2 Hs2. apply Hobj in H2 as [[-> ->]|[Hn2 H2]]; [|exact (Hfx _ _ H2 Hs2)].
        destruct Harr as [Ha|Ha]; [|exfalso; destruct Hwx as (Hlt & _); lia]. destruct (Hfx _ _ Hz ltac:(congruence)) as [Hhb Hle]. split; [exact Hhb|].
        assert (b2 = b) as ->.
        { apply (r_dist _ _ R b2 b o) with (x := match vlook v b2 with Some q => q | None => xv end) (x' := xv); try assumption.
          unfold usable in Hu. rewrite Hfy in Hu. unfold vlook. destruct (vbufs v !! b2) as [q|]; [|discriminate]. apply andb_prop in Hu as [-> _]. reflexivity. }
        specialize (Huf _ eq_refl). destruct Hcase as [(_ & _ & Hc)|Hc]; [|exfalso; lia]. specialize (Hc Ha). lia.
    + destruct Hfx as [Hfo Hfs]. split; [rewrite Hrd; [exact Hrx|exact Hwx|intros Hs; exact (Hfo _ _ Hz (eq_sym Hs))]|]. split.
      * intros o2 x2 H2. apply Hobj in H2 as [[-> ->]|[Hn2 H2]]; [|exact (Hfo _ _ H2)]. destruct Harr as [Ha|Ha]; [rewrite Ha; exact (Hfo _ _ Hz)|].
        destruct Hwx as (Hlt & _). lia.
      * intros e' y' x' Hne He' Hx' Hy'. destruct (Hus e' y' He' Hy') as [Hu' _]. exact (Hfs _ _ _ Hne He' Hx' Hu').
Qed.

(** ** The operations on a buffer *)
Lemma rel_append s v b bs g r xv : Rel s v -> vlook v b = Some xv ->
  (bappend s b bs g r).2 = r /\ Rel (bappend s b bs g r).1 (vset v b (VB (vbytes xv ++ bs) true (vresets xv))).
Proof.
  intros R Hx. destruct (obj_live _ _ _ _ R Hx) as (o & z & Hob & Ho & Hz & Hr & Hnb & Hw). unfold bappend. rewrite Hob. cbn [fst snd]. split; [reflexivity|].
  eapply rel_change; try eassumption; cbn [vbytes vlive vresets].
  - apply append_wf. exact Hw.
  - rewrite (append_rd _ _ _ _ Hw), Hr. reflexivity.
  - reflexivity.
  - intros t Ht. apply append_wf_other; assumption.
  - intros t Ht Hn. apply append_other; auto.
  - apply append_arr.
  - unfold append. destruct (decide _); cbn [fst]; [rewrite wr_length; lia|rewrite app_length; lia].
  - left. split; [reflexivity|]. split.
    + intros t Ht _ Hle. apply append_other; auto.
    + intros He. apply append_end; [exact He|]. apply Hw.
Qed.
Lemma cut_wf h x : wf h x -> wf h (cut x).
Proof. intros (H1 & H2 & H3). unfold wf. cbn. lia. Qed.
Lemma cut_rd h x : rd h (cut x) = [].
Proof. reflexivity. Qed.

(** ** Slices and buffers are added *)
Lemma usable_more v l y : (forall b n, vfrom y = Some (b, n) -> exists x, vbufs v !! b = Some x) -> usable (V (vbufs v ++ l) (vsls v)) y = usable v y.
Proof.
  intros H. unfold usable. destruct (vfrom y) as [[b n]|]; [|reflexivity]. destruct (H b n eq_refl) as [x Hx]. cbn [vbufs]. rewrite (lookup_app_l_Some _ _ _ _ Hx), Hx. reflexivity.
Qed.
Lemma new_slot {A} (l : list A) a i x : (l ++ [a]) !! i = Some x -> l !! i = Some x \/ (i = length l /\ x = a).
Proof.
  intros H. apply lookup_app_Some in H as [H|[Hl H]]; [left; exact H|]. right. destruct (i - length l)%nat eqn:E; cbn in H; [|discriminate]. injection H as <-. split; [lia|reflexivity].
Qed.
Lemma rel_new s v cap : Rel s v -> Rel (bnew s cap) (V (vbufs v ++ [VB [] true 0]) (vsls v)).
Proof.
  intros R. unfold bnew, mk. cbn [fst snd app length].
  set (z := SL (length (hp s)) 0 0 (0 + cap)). set (h' := hp s ++ [replicate cap 0]).
  assert (Hwz : wf h' z) by (apply (mk_wf (hp s) [] cap)).
  assert (Hvl : forall b x, vlook (V (vbufs v ++ [VB [] true 0]) (vsls v)) b = Some x -> vlook v b = Some x \/ (b = length (vbufs v) /\ x = VB [] true 0)).
  { intros b x Hb. apply vlook_Some in Hb as [Hb Hl]. cbn [vbufs] in Hb. apply new_slot in Hb as [Hb|Hb]; [left; apply vlook_Some; auto|right; exact Hb]. }
  assert (Hbag : forall o, o ∈ bag s -> o <> length (objs s)) by (intros o Ho; apply (r_bag _ _ R) in Ho; lia).
  split; cbn [hp objs bag hnd sls vbufs vsls].
  - rewrite !app_length, (r_hl _ _ R). reflexivity.
  - apply (r_sl _ _ R).
  - intros o x Hx. apply new_slot in Hx as [Hx|[-> ->]]; [apply wf_app, (r_obj _ _ R _ _ Hx)|exact Hwz].
  - intros o o' x x' Hx Hx' He. apply new_slot in Hx as [Hx|[-> ->]], Hx' as [Hx'|[-> ->]]; [exact (r_arr _ _ R _ _ _ _ Hx Hx' He)| | |reflexivity].
    + exfalso. destruct (r_obj _ _ R _ _ Hx) as (Hlt & _). cbn in He. lia.
    + exfalso. destruct (r_obj _ _ R _ _ Hx') as (Hlt & _). cbn in He. lia.
  - split; [apply (r_bag _ _ R)|]. intros o Ho. rewrite app_length. cbn. apply (r_bag _ _ R) in Ho. lia.
  - intros b o x Ho Hx. apply Hvl in Hx as [Hx|[-> ->]].
    + apply new_slot in Ho as [Ho|[-> ->]].
      * destruct (r_live _ _ R _ _ _ Ho Hx) as (Hn & y & Hy & Hr). split; [exact Hn|]. exists y. split; [apply lookup_app_l_Some; exact Hy|].
        unfold h'. rewrite rd_app; [exact Hr|]. apply (r_obj _ _ R _ _ Hy).
      * exfalso. apply vlook_Some in Hx as [Hx _]. apply lookup_lt_Some in Hx. rewrite (r_hl _ _ R) in Hx. lia.
    + apply new_slot in Ho as [Ho|[_ ->]]; [exfalso; apply lookup_lt_Some in Ho; rewrite (r_hl _ _ R) in Ho; lia|].
      split; [intros Hin; exact (Hbag _ Hin eq_refl)|]. exists z. split; [apply list_lookup_middle; reflexivity|]. reflexivity.
  - intros b b' o x x' Ho Ho' Hx Hx'. apply Hvl in Hx as [Hx|[-> ->]], Hx' as [Hx'|[-> ->]]; [| | |reflexivity].
    + apply vlook_Some in Hx as Hv, Hx' as Hv'. destruct Hv as [Hv _], Hv' as [Hv' _]. apply lookup_lt_Some in Hv, Hv'. rewrite <- (r_hl _ _ R) in Hv, Hv'.
      rewrite lookup_app_l in Ho, Ho' by assumption. exact (r_dist _ _ R _ _ _ _ _ Ho Ho' Hx Hx').
    + exfalso. rewrite <- (r_hl _ _ R), list_lookup_middle in Ho' by reflexivity. injection Ho' as <-. apply new_slot in Ho as [Ho|[-> _]].
      * destruct (r_live _ _ R _ _ _ Ho Hx) as (_ & y & Hy & _). apply lookup_lt_Some in Hy. lia.
      * apply vlook_Some in Hx as [Hx _]. apply lookup_lt_Some in Hx. rewrite (r_hl _ _ R) in Hx. lia.
    + exfalso. rewrite <- (r_hl _ _ R), list_lookup_middle in Ho by reflexivity. injection Ho as <-. apply new_slot in Ho' as [Ho'|[-> _]].
      * destruct (r_live _ _ R _ _ _ Ho' Hx') as (_ & y & Hy & _). apply lookup_lt_Some in Hy. lia.
      * apply vlook_Some in Hx' as [Hx' _]. apply lookup_lt_Some in Hx'. rewrite (r_hl _ _ R) in Hx'. lia.
  - intros e y b n He Hf. destruct (r_ep _ _ R _ _ _ _ He Hf) as (x & Hx & Hle). exists x. split; [apply lookup_app_l_Some; exact Hx|exact Hle].
  - assert (Hu : forall e y, vsls v !! e = Some y -> usable (V (vbufs v ++ [VB [] true 0]) (vsls v)) y = usable v y).
    { intros e y He. apply usable_more. intros b n Hf. destruct (r_ep _ _ R _ _ _ _ He Hf) as (x & Hx & _). eauto. }
    intros e y x He Hx Hy. rewrite (Hu _ _ He) in Hy. destruct (r_slc _ _ R _ _ _ He Hx Hy) as (Hw & Hr & Hf).
    split; [apply wf_app, Hw|]. split; [unfold h'; rewrite rd_app by apply Hw; exact Hr|]. unfold from_ok in *. cbn [objs hnd sls vsls]. destruct (vfrom y) as [[b n]|].
    + intros o2 x2 H2 Hs. apply new_slot in H2 as [H2|[_ ->]]; [|exfalso; destruct Hw as (Hlt & _); cbn in Hs; lia].
      destruct (Hf _ _ H2 Hs) as [Hh Hle]. split; [apply lookup_app_l_Some; exact Hh|exact Hle].
    + destruct Hf as [Hfo Hfs]. split.
      * intros o2 x2 H2. apply new_slot in H2 as [H2|[_ ->]]; [exact (Hfo _ _ H2)|]. destruct Hw as (Hlt & _). cbn. lia.
      * intros e' y' x' Hne He' Hx' Hy'. rewrite (Hu _ _ He') in Hy'. exact (Hfs _ _ _ Hne He' Hx' Hy').
Qed.
Lemma rel_make s v data extra : Rel s v ->
  Rel (BS (mk (hp s) data extra).1 (objs s) (bag s) (hnd s) (sls s ++ [(mk (hp s) data extra).2])) (V (vbufs v) (vsls v ++ [VS data None])).
Proof.
  intros R. pose proof (mk_wf (hp s) data extra) as Hwz. pose proof (mk_rd (hp s) data extra) as Hrz. unfold mk in *. cbn [fst snd] in *.
  set (z := SL (length (hp s)) 0 (length data) (length data + extra)) in *. set (h' := hp s ++ _) in *.
  split; cbn [hp objs bag hnd sls vbufs vsls].
  - apply (r_hl _ _ R).
  - rewrite !app_length, (r_sl _ _ R). reflexivity.
  - intros o x Hx. apply wf_app, (r_obj _ _ R _ _ Hx).
  - apply (r_arr _ _ R).
  - apply (r_bag _ _ R).
  - intros b o x Ho Hx. destruct (r_live _ _ R b o x Ho Hx) as (Hn & y & Hy & Hr). split; [exact Hn|]. exists y. split; [exact Hy|]. unfold h'. rewrite rd_app; [exact Hr|]. apply (r_obj _ _ R _ _ Hy).
  - intros b b' o x x' Ho Ho' Hx Hx'. exact (r_dist _ _ R b b' o x x' Ho Ho' Hx Hx').
  - intros e y b n He Hf. apply new_slot in He as [He|[-> ->]]; [exact (r_ep _ _ R _ _ _ _ He Hf)|discriminate].
  - intros e y x He Hx Hy. apply new_slot in He as [He|[-> ->]].
    + rewrite lookup_app_l in Hx by (apply lookup_lt_Some in He; rewrite (r_sl _ _ R); exact He).
      destruct (r_slc _ _ R _ _ _ He Hx Hy) as (Hw & Hr & Hf). split; [apply wf_app, Hw|]. split; [unfold h'; rewrite rd_app by apply Hw; exact Hr|].
      unfold from_ok in *. cbn [objs hnd sls vsls]. destruct (vfrom y) as [[b n]|]; [exact Hf|]. destruct Hf as [Hfo Hfs]. split; [exact Hfo|].
      intros e' y' x' Hne He' Hx' Hy'. apply new_slot in He' as [He'|[-> ->]].
      * rewrite lookup_app_l in Hx' by (apply lookup_lt_Some in He'; rewrite (r_sl _ _ R); exact He'). exact (Hfs _ _ _ Hne He' Hx' Hy').
      * rewrite <- (r_sl _ _ R), list_lookup_middle in Hx' by reflexivity. injection Hx' as <-. destruct Hw as (Hlt & _). cbn. lia.
    + rewrite <- (r_sl _ _ R), list_lookup_middle in Hx by reflexivity. injection Hx as <-. split; [exact Hwz|]. split; [exact Hrz|]. cbn [vfrom from_ok]. cbn [objs sls vsls]. split.
      * intros o x Hx. destruct (r_obj _ _ R _ _ Hx) as (Hlt & _). cbn. lia.
      * intros e' y' x' Hne He' Hx' Hy'. apply new_slot in He' as [He'|[-> ->]]; [|congruence].
        rewrite lookup_app_l in Hx' by (apply lookup_lt_Some in He'; rewrite (r_sl _ _ R); exact He').
        destruct (r_slc _ _ R _ _ _ He' Hx' Hy') as ((Hlt & _) & _). cbn. lia.
Qed.
Lemma rel_bytes s v b xv o z : Rel s v -> vlook v b = Some xv -> hnd s !! b = Some o -> objs s !! o = Some z ->
  Rel (BS (hp s) (objs s) (bag s) (hnd s) (sls s ++ [z])) (V (vbufs v) (vsls v ++ [VS (vbytes xv) (Some (b, vresets xv))])).
Proof.
  intros R Hxv Ho Hz. destruct (r_live _ _ R _ _ _ Ho Hxv) as (Hnb & z0 & Hz0 & Hr0). assert (z0 = z) as -> by congruence. apply vlook_Some in Hxv as Hv. destruct Hv as [Hv Hl].
  split; cbn [hp objs bag hnd sls vbufs vsls].
  - apply (r_hl _ _ R).
  - rewrite !app_length, (r_sl _ _ R). reflexivity.
  - apply (r_obj _ _ R).
  - apply (r_arr _ _ R).
  - apply (r_bag _ _ R).
  - intros b2 o2 x Ho2 Hx. exact (r_live _ _ R b2 o2 x Ho2 Hx).
  - intros b2 b' o2 x x' Ho2 Ho' Hx Hx'. exact (r_dist _ _ R b2 b' o2 x x' Ho2 Ho' Hx Hx').
  - intros e y b2 n He Hf. apply new_slot in He as [He|[-> ->]]; [exact (r_ep _ _ R _ _ _ _ He Hf)|]. injection Hf as <- <-. eauto.
  - intros e y x He Hx Hy. apply new_slot in He as [He|[-> ->]].
    + rewrite lookup_app_l in Hx by (apply lookup_lt_Some in He; rewrite (r_sl _ _ R); exact He).
      destruct (r_slc _ _ R _ _ _ He Hx Hy) as (Hw & Hr & Hf). split; [exact Hw|]. split; [exact Hr|].
      unfold from_ok in *. cbn [objs hnd sls vsls]. destruct (vfrom y) as [[b2 n]|]; [exact Hf|]. destruct Hf as [Hfo Hfs]. split; [exact Hfo|].
      intros e' y' x' Hne He' Hx' Hy'. apply new_slot in He' as [He'|[-> ->]].
      * rewrite lookup_app_l in Hx' by (apply lookup_lt_Some in He'; rewrite (r_sl _ _ R); exact He'). exact (Hfs _ _ _ Hne He' Hx' Hy').
      * rewrite <- (r_sl _ _ R), list_lookup_middle in Hx' by reflexivity. injection Hx' as <-. exact (Hfo _ _ Hz).
    + rewrite <- (r_sl _ _ R), list_lookup_middle in Hx by reflexivity. injection Hx as <-. split; [exact (r_obj _ _ R _ _ Hz)|]. split; [exact Hr0|]. cbn [vfrom from_ok objs hnd].
      intros o2 z2 Hz2 Hs. assert (o2 = o) as -> by exact (r_arr _ _ R _ _ _ _ Hz2 Hz Hs). split; [exact Ho|]. assert (z2 = z) as -> by congruence. lia.
Qed.
Lemma rd_store h x i v : wf h x -> (i < slen x)%nat -> rd (wr h (sarr x) (soff x + i) [v]) x = <[i := v]> (rd h x).
Proof.
  intros (H1 & H2 & H3) Hi. unfold rd. rewrite array_wr by exact H1. set (l := array h (sarr x)) in *.
  assert (Ho : over l (soff x + i) [v] = <[(soff x + i)%nat := v]> l).
  { unfold over. cbn [length app]. rewrite insert_take_drop by lia. do 2 f_equal. f_equal. lia. }
  rewrite Ho. apply list_eq. intros k. destruct (decide (k < slen x)%nat) as [Hk|Hk].
  - rewrite lookup_take, lookup_drop by exact Hk. destruct (decide (k = i)) as [->|Hn].
    + rewrite !list_lookup_insert; [reflexivity| |lia]. rewrite take_length, drop_length. lia.
    + rewrite !list_lookup_insert_ne by lia. rewrite lookup_take, lookup_drop by exact Hk. reflexivity.
  - rewrite lookup_take_ge by lia. symmetry. apply lookup_ge_None. rewrite insert_length, take_length. lia.
Qed.
Lemma rel_store s v e l i c x : Rel s v -> vsls v !! e = Some (VS l None) -> sls s !! e = Some x -> (i < length l)%nat ->
  slen x = length l /\ Rel (BS (wr (hp s) (sarr x) (soff x + i) [c]) (objs s) (bag s) (hnd s) (sls s)) (V (vbufs v) (<[e := VS (<[i := c]> l) None]> (vsls v))).
Proof.
  intros R He Hx Hi. destruct (r_slc _ _ R _ _ _ He Hx eq_refl) as (Hw & Hr & Hfo & Hfs). cbn [vval vfrom] in *.
  pose proof (rd_length _ _ Hw) as Hl. rewrite Hr in Hl. split; [congruence|].
  assert (Helt : (e < length (vsls v))%nat) by (apply lookup_lt_Some in He; exact He).
  assert (Hwr : forall t, wf (hp s) t -> wf (wr (hp s) (sarr x) (soff x + i) [c]) t).
  { intros t Ht. apply wf_wr; [|exact Ht]. destruct Hw as (_ & H2 & H3). cbn. lia. }
  assert (Hsl : forall e2 y2, <[e := VS (<[i := c]> l) None]> (vsls v) !! e2 = Some y2 -> (e2 = e /\ y2 = VS (<[i := c]> l) None) \/ (e2 <> e /\ vsls v !! e2 = Some y2)).
  { intros e2 y2 H2. destruct (decide (e2 = e)) as [->|Hn]; [rewrite list_lookup_insert in H2 by exact Helt; left; split; congruence|].
    rewrite list_lookup_insert_ne in H2 by congruence. auto. }
  split; cbn [hp objs bag hnd sls vbufs vsls].
  - apply (r_hl _ _ R).
  - rewrite insert_length. apply (r_sl _ _ R).
  - intros o z Hz. apply Hwr, (r_obj _ _ R _ _ Hz).
  - apply (r_arr _ _ R).
  - apply (r_bag _ _ R).
  - intros b2 o2 x2 Ho2 Hx2. destruct (r_live _ _ R b2 o2 x2 Ho2 Hx2) as (Hn & z & Hz & Hrz). split; [exact Hn|]. exists z. split; [exact Hz|].
    rewrite rd_wr_ne by exact (Hfo _ _ Hz). exact Hrz.
  - intros b2 b' o2 x2 x' Ho2 Ho' Hx2 Hx'. exact (r_dist _ _ R b2 b' o2 x2 x' Ho2 Ho' Hx2 Hx').
  - intros e2 y b2 n He2 Hf. apply Hsl in He2 as [[-> ->]|[_ He2]]; [discriminate|exact (r_ep _ _ R _ _ _ _ He2 Hf)].
  - intros e2 y x2 He2 Hx2 Hy. change (usable v y = true) in Hy. apply Hsl in He2 as [[-> ->]|[Hn He2]].
    + assert (x2 = x) as -> by congruence. split; [exact (Hwr _ Hw)|]. split; [rewrite rd_store by (try exact Hw; lia); cbn [vval]; rewrite Hr; reflexivity|].
      cbn [vfrom from_ok objs sls vsls]. split; [exact Hfo|]. intros e' y' x' Hne He' Hx' Hy'. change (usable v y' = true) in Hy'. apply Hsl in He' as [[-> _]|[_ He']]; [congruence|].
      exact (Hfs _ _ _ Hne He' Hx' Hy').
    + destruct (r_slc _ _ R _ _ _ He2 Hx2 Hy) as (Hw2 & Hr2 & Hf2). split; [exact (Hwr _ Hw2)|]. split; [rewrite rd_wr_ne by exact (Hfs _ _ _ Hn He2 Hx2 Hy); exact Hr2|].
      unfold from_ok in *. cbn [objs hnd sls vsls]. destruct (vfrom y) as [[b2 n]|]; [exact Hf2|]. destruct Hf2 as [Hfo2 Hfs2]. split; [exact Hfo2|].
      intros e' y' x' Hne He' Hx' Hy'. change (usable v y' = true) in Hy'. apply Hsl in He' as [[-> ->]|[_ He']]; [|exact (Hfs2 _ _ _ Hne He' Hx' Hy')].
      exact (Hfs2 _ _ _ Hne He Hx' eq_refl).
Qed.
Lemma rel_free s v b xv o : Rel s v -> vlook v b = Some xv -> hnd s !! b = Some o ->
  Rel (BS (hp s) (objs s) (bag s ++ [o]) (hnd s) (sls s)) (vset v b (VB (vbytes xv) false (vresets xv))).
Proof.
  intros R Hxv Ho. destruct (r_live _ _ R _ _ _ Ho Hxv) as (Hnb & z & Hz & Hr). apply vlook_Some in Hxv as Hv. destruct Hv as [Hb Hbl].
  assert (Hblt : (b < length (vbufs v))%nat) by (apply lookup_lt_Some in Hb; exact Hb).
  set (xv' := VB (vbytes xv) false (vresets xv)).
  assert (Hvl : forall b2 x2, vlook (vset v b xv') b2 = Some x2 -> b2 <> b /\ vlook v b2 = Some x2).
  { intros b2 x2 H2. apply vlook_Some in H2 as [H2 H2l]. cbn [vset vbufs] in H2. destruct (decide (b2 = b)) as [->|Hn].
    - rewrite list_lookup_insert in H2 by exact Hblt. injection H2 as <-. discriminate.
    - rewrite list_lookup_insert_ne in H2 by congruence. split; [exact Hn|apply vlook_Some; auto]. }
  assert (Hus : forall y, usable (vset v b xv') y = true -> usable v y = true).
  { intros y Hy. unfold usable in *. destruct (vfrom y) as [[b2 n]|]; [|reflexivity]. cbn [vset vbufs] in Hy. destruct (decide (b2 = b)) as [->|Hn].
    - rewrite list_lookup_insert in Hy by exact Hblt. discriminate.
    - rewrite list_lookup_insert_ne in Hy by congruence. exact Hy. }
  split; cbn [hp objs bag hnd sls vset vbufs vsls].
  - rewrite insert_length. apply (r_hl _ _ R).
  - apply (r_sl _ _ R).
  - apply (r_obj _ _ R).
  - apply (r_arr _ _ R).
  - destruct (r_bag _ _ R) as [Hd Hlt]. split.
    + apply NoDup_app. split; [exact Hd|]. split; [|apply NoDup_singleton]. intros x Hx ->%elem_of_list_singleton. contradiction.
    + intros x [Hx| ->%elem_of_list_singleton]%elem_of_app; [exact (Hlt _ Hx)|]. apply lookup_lt_Some in Hz. exact Hz.
  - intros b2 o2 x2 Ho2 Hx2. apply Hvl in Hx2 as [Hn Hx2]. destruct (r_live _ _ R b2 o2 x2 Ho2 Hx2) as (Hn2 & z2 & Hz2 & Hr2). split; [|eauto].
    intros [?| ->%elem_of_list_singleton]%elem_of_app; [contradiction|]. apply Hn. exact (r_dist _ _ R _ _ _ _ _ Ho2 Ho Hx2 Hxv).
  - intros b2 b' o2 x2 x' Ho2 Ho' [_ Hx2]%Hvl [_ Hx']%Hvl. exact (r_dist _ _ R b2 b' o2 x2 x' Ho2 Ho' Hx2 Hx').
  - intros e y b2 n He Hf. destruct (r_ep _ _ R _ _ _ _ He Hf) as (x2 & Hx2 & Hle). destruct (decide (b2 = b)) as [->|Hn].
    + rewrite list_lookup_insert by exact Hblt. exists xv'. split; [reflexivity|]. assert (x2 = xv) as -> by congruence. exact Hle.
    + rewrite list_lookup_insert_ne by congruence. eauto.
  - intros e y x He Hx Hy. apply Hus in Hy. destruct (r_slc _ _ R _ _ _ He Hx Hy) as (Hw & Hrx & Hf). split; [exact Hw|]. split; [exact Hrx|].
    unfold from_ok in *. cbn [objs hnd sls vsls]. destruct (vfrom y) as [[b2 n]|]; [exact Hf|]. destruct Hf as [Hfo Hfs]. split; [exact Hfo|].
    intros e' y' x' Hne He' Hx' Hy'. exact (Hfs _ _ _ Hne He' Hx' (Hus _ Hy')).
Qed.
Lemma delete_elem (l : list nat) i x : x ∈ delete i l -> x ∈ l.
Proof. rewrite delete_take_drop. intros [H|H]%elem_of_app; [apply elem_of_take in H as (j & Hj & _); apply elem_of_list_lookup; eauto|]. apply elem_of_list_lookup in H as [j Hj]. rewrite lookup_drop in Hj. apply elem_of_list_lookup. eauto. Qed.
Lemma delete_nodup (l : list nat) i : NoDup l -> NoDup (delete i l).
Proof.
  intros H. destruct (l !! i) as [x|] eqn:E.
  - rewrite delete_take_drop. rewrite <- (take_drop_middle _ _ _ E) in H. apply NoDup_app in H as (H1 & H2 & H3). apply NoDup_cons in H3 as [H3 H4].
    apply NoDup_app. split; [exact H1|]. split; [|exact H4]. intros y Hy Hy'. apply (H2 y Hy). right. exact Hy'.
  - apply lookup_ge_None in E. rewrite delete_take_drop, take_ge, drop_ge by lia. rewrite app_nil_r. exact H.
Qed.
Lemma delete_gone (l : list nat) i x : NoDup l -> l !! i = Some x -> x ∉ delete i l.
Proof.
  intros Hn Hi Hx. pose proof (take_drop_middle _ _ _ Hi) as He. rewrite <- He in Hn. rewrite delete_take_drop in Hx. apply NoDup_app in Hn as (_ & H1 & H2). apply NoDup_cons in H2 as [H2 _].
  apply elem_of_app in Hx as [Hx|Hx]; [apply (H1 _ Hx), elem_of_list_here|contradiction].
Qed.
Lemma rel_drop s v i : Rel s v -> Rel (BS (hp s) (objs s) (delete i (bag s)) (hnd s) (sls s)) v.
Proof.
  intros R. split; cbn [hp objs bag hnd sls].
  - apply (r_hl _ _ R).
  - apply (r_sl _ _ R).
  - apply (r_obj _ _ R).
  - apply (r_arr _ _ R).
  - destruct (r_bag _ _ R) as [Hd Hlt]. split; [apply delete_nodup, Hd|]. intros o Ho. apply Hlt. eapply delete_elem. exact Ho.
  - intros b o x Ho Hx. destruct (r_live _ _ R _ _ _ Ho Hx) as [Hn Hz]. split; [|exact Hz]. intros H. apply Hn. eapply delete_elem. exact H.
  - apply (r_dist _ _ R).
  - apply (r_ep _ _ R).
  - apply (r_slc _ _ R).
Qed.
(** A live slice of a buffer does not lie in an object of the pool. *)
Lemma usable_live v y b n : usable v y = true -> vfrom y = Some (b, n) -> exists x, vlook v b = Some x.
Proof.
  intros Hu Hf. unfold usable in Hu. rewrite Hf in Hu. unfold vlook. destruct (vbufs v !! b) as [q|]; [|discriminate]. apply andb_prop in Hu as [-> _]. eauto.
Qed.
Lemma rel_pool s v i o z : Rel s v -> bag s !! i = Some o -> objs s !! o = Some z ->
  Rel (BS (hp s) (<[o := cut z]> (objs s)) (delete i (bag s)) (hnd s ++ [o]) (sls s)) (V (vbufs v ++ [VB [] true 0]) (vsls v)).
Proof.
  intros R Hi Hz. destruct (r_bag _ _ R) as [Hd Hlt]. assert (Hin : o ∈ bag s) by (apply elem_of_list_lookup; eauto). pose proof (Hlt _ Hin) as Holt.
  assert (Hobj : forall o2 x2, <[o := cut z]> (objs s) !! o2 = Some x2 -> (o2 = o /\ x2 = cut z) \/ (o2 <> o /\ objs s !! o2 = Some x2)).
  { intros o2 x2 H2. destruct (decide (o2 = o)) as [->|Hn]; [rewrite list_lookup_insert in H2 by exact Holt; left; split; congruence|].
    rewrite list_lookup_insert_ne in H2 by congruence. right. auto. }
  assert (Harr : forall o2 x2, <[o := cut z]> (objs s) !! o2 = Some x2 -> exists x3, objs s !! o2 = Some x3 /\ sarr x3 = sarr x2).
  { intros o2 x2 H2. apply Hobj in H2 as [[-> ->]|[_ H2]]; eauto. }
  assert (Hvl : forall b x, vlook (V (vbufs v ++ [VB [] true 0]) (vsls v)) b = Some x -> vlook v b = Some x \/ (b = length (vbufs v) /\ x = VB [] true 0)).
  { intros b x Hb. apply vlook_Some in Hb as [Hb Hl]. cbn [vbufs] in Hb. apply new_slot in Hb as [Hb|Hb]; [left; apply vlook_Some; auto|right; exact Hb]. }
  assert (Hold : forall b x, vlook v b = Some x -> (b < length (hnd s))%nat).
  { intros b x Hx. apply vlook_Some in Hx as [Hx _]. apply lookup_lt_Some in Hx. rewrite (r_hl _ _ R). exact Hx. }
  split; cbn [hp objs bag hnd sls vbufs vsls].
  - rewrite !app_length, (r_hl _ _ R). reflexivity.
  - apply (r_sl _ _ R).
  - intros o2 x2 H2. apply Hobj in H2 as [[-> ->]|[_ H2]]; [apply cut_wf|]; eapply (r_obj _ _ R); eassumption.
  - intros o1 o2 x1 x2 H1 H2 He. destruct (Harr _ _ H1) as (y1 & Hy1 & E1), (Harr _ _ H2) as (y2 & Hy2 & E2). apply (r_arr _ _ R _ _ _ _ Hy1 Hy2). congruence.
  - split; [apply delete_nodup, Hd|]. intros o2 Ho2. rewrite insert_length. apply Hlt. eapply delete_elem. exact Ho2.
  - intros b o2 x Ho Hx. apply Hvl in Hx as [Hx|[-> ->]].
    + rewrite lookup_app_l in Ho by exact (Hold _ _ Hx). destruct (r_live _ _ R _ _ _ Ho Hx) as (Hn & y & Hy & Hr).
      split; [intros H; apply Hn; eapply delete_elem; exact H|]. exists y. split; [|exact Hr]. rewrite list_lookup_insert_ne by congruence. exact Hy.
    + rewrite <- (r_hl _ _ R), list_lookup_middle in Ho by reflexivity. injection Ho as <-. split; [apply delete_gone; assumption|]. exists (cut z).
      split; [apply list_lookup_insert; exact Holt|reflexivity].
  - intros b b' o2 x x' Ho Ho' Hx Hx'. apply Hvl in Hx as [Hx|[-> ->]], Hx' as [Hx'|[-> ->]]; [| | |reflexivity].
    + rewrite lookup_app_l in Ho, Ho' by eauto. exact (r_dist _ _ R _ _ _ _ _ Ho Ho' Hx Hx').
    + exfalso. rewrite <- (r_hl _ _ R), list_lookup_middle in Ho' by reflexivity. injection Ho' as <-. rewrite lookup_app_l in Ho by eauto.
      destruct (r_live _ _ R _ _ _ Ho Hx) as [Hn _]. contradiction.
    + exfalso. rewrite <- (r_hl _ _ R), list_lookup_middle in Ho by reflexivity. injection Ho as <-. rewrite lookup_app_l in Ho' by eauto.
      destruct (r_live _ _ R _ _ _ Ho' Hx') as [Hn _]. contradiction.
  - intros e y b n He Hf. destruct (r_ep _ _ R _ _ _ _ He Hf) as (x & Hx & Hle). exists x. split; [apply lookup_app_l_Some; exact Hx|exact Hle].
  - assert (Hu : forall e y, vsls v !! e = Some y -> usable (V (vbufs v ++ [VB [] true 0]) (vsls v)) y = usable v y).
    { intros e y He. apply usable_more. intros b n Hf. destruct (r_ep _ _ R _ _ _ _ He Hf) as (x & Hx & _). eauto. }
    intros e y x He Hx Hy. rewrite (Hu _ _ He) in Hy. destruct (r_slc _ _ R _ _ _ He Hx Hy) as (Hw & Hr & Hf).
    split; [exact Hw|]. split; [exact Hr|]. unfold from_ok in *. cbn [objs hnd sls vsls]. destruct (vfrom y) as [[b n]|] eqn:Hfy.
    + intros o2 x2 H2 Hs. apply Hobj in H2 as [[-> ->]|[_ H2]].
      * exfalso. destruct (Hf _ _ Hz Hs) as [Hh _]. destruct (usable_live _ _ _ _ Hy Hfy) as [q Hq]. destruct (r_live _ _ R _ _ _ Hh Hq) as [Hn _]. contradiction.
      * destruct (Hf _ _ H2 Hs) as [Hh Hle]. split; [apply lookup_app_l_Some; exact Hh|exact Hle].
    + destruct Hf as [Hfo Hfs]. split.
      * intros o2 x2 H2. destruct (Harr _ _ H2) as (y2 & Hy2 & <-). exact (Hfo _ _ Hy2).
      * intros e' y' x' Hne He' Hx' Hy'. rewrite (Hu _ _ He') in Hy'. exact (Hfs _ _ _ Hne He' Hx' Hy').
Qed.

(** ** Every operation *)
Lemma rel_step s v op v' r : Rel s v -> vstep int32ToBytes v op = Some (v', r) -> (bstep s op).2 = r /\ Rel (bstep s op).1 v'.
Proof.
  intros R H. destruct op as [cap|i|e|data extra|e lo hi|e i c|b e g|b bs g|b c g|b i g|b|b|b|b n|b|b|i]; cbn [vstep bstep] in *.
  - simplify_eq. split; [reflexivity|apply rel_new; exact R].
  - simplify_eq. destruct (bag s !! i) as [o|] eqn:Hi; [|split; [reflexivity|apply rel_new; exact R]].
    assert (Hlt : (o < length (objs s))%nat) by (apply (r_bag _ _ R), elem_of_list_lookup; eauto).
    destruct (lookup_lt_is_Some_2 _ _ Hlt) as [z Hz]. rewrite Hz. split; [reflexivity|]. apply rel_pool; assumption.
  - discriminate.
  - simplify_eq. split; [reflexivity|apply rel_make; exact R].
  - discriminate.
  - destruct (vsls v !! e) as [[l [?|]]|] eqn:He; try discriminate. destruct (slice_at _ _ _ _ R He) as [x Hx]. rewrite Hx.
    destruct (r_slc _ _ R _ _ _ He Hx eq_refl) as (Hw & Hr & _). pose proof (rd_length _ _ Hw) as Hl. rewrite Hr in Hl. cbn [vval] in Hl.
    destruct (decide (i < length l)%nat) as [Hi|Hi]; simplify_eq.
    + rewrite decide_True by lia. split; [reflexivity|]. eapply rel_store; eassumption.
    + rewrite decide_False by lia. split; [reflexivity|exact R].
  - destruct b as [b|]; [|simplify_eq; split; [reflexivity|exact R]]. destruct (vsls v !! e) as [y|] eqn:He; [|discriminate]. destruct (usable v y) eqn:Hu; [|discriminate].
    destruct (slice_at _ _ _ _ R He) as [x Hx]. rewrite Hx. destruct (r_slc _ _ R _ _ _ He Hx Hu) as (Hw & Hr & _). rewrite Hr. cbn zeta.
    unfold vwrite in H. destruct (vlook v b) as [xv|] eqn:Hb; [|discriminate]. simplify_eq. apply rel_append; assumption.
  - destruct b as [b|]; [|simplify_eq; split; [reflexivity|exact R]]. unfold vwrite in H. destruct (vlook v b) as [xv|] eqn:Hb; [|discriminate]. simplify_eq. apply rel_append; assumption.
  - destruct b as [b|]; [|simplify_eq; split; [reflexivity|exact R]]. unfold vwrite in H. destruct (vlook v b) as [xv|] eqn:Hb; [|discriminate]. simplify_eq. apply rel_append; assumption.
  - destruct b as [b|]; [|simplify_eq; split; [reflexivity|exact R]]. unfold vwrite in H. destruct (vlook v b) as [xv|] eqn:Hb; [|discriminate]. simplify_eq. apply rel_append; assumption.
  - destruct b as [b|]; [|simplify_eq; split; [reflexivity|apply (rel_make _ _ [] 0); exact R]]. destruct (vlook v b) as [xv|] eqn:Hb; [|discriminate]. simplify_eq.
    destruct (obj_live _ _ _ _ R Hb) as (o & z & Hob & Ho & Hz & Hr & _). rewrite Hob. cbn [fst snd]. split; [rewrite Hr; reflexivity|]. eapply rel_bytes; eassumption.
  - destruct b as [b|]; [|simplify_eq; split; [reflexivity|exact R]]. destruct (vlook v b) as [xv|] eqn:Hb; [|discriminate]. simplify_eq.
    destruct (obj_live _ _ _ _ R Hb) as (o & z & Hob & Ho & Hz & Hr & _). rewrite Hob. cbn [fst snd]. split; [rewrite Hr; reflexivity|exact R].
  - destruct b as [b|]; [|simplify_eq; split; [reflexivity|exact R]]. destruct (vlook v b) as [xv|] eqn:Hb; [|discriminate]. simplify_eq.
    destruct (obj_live _ _ _ _ R Hb) as (o & z & Hob & Ho & Hz & Hr & _ & Hw). rewrite Hob. cbn [fst snd]. split; [rewrite <- Hr, rd_length by exact Hw; reflexivity|exact R].
  - destruct b as [b|]; [|simplify_eq; split; [reflexivity|exact R]]. destruct (vlook v b) as [xv|] eqn:Hb; [|discriminate].
    destruct (obj_live _ _ _ _ R Hb) as (o & z & Hob & Ho & Hz & Hr & _ & Hw). rewrite Hob. pose proof (rd_length _ _ Hw) as Hl. rewrite Hr in Hl. rewrite Hr, <- Hl. cbn zeta in *.
    set (k := Nat.min n (length (vbytes xv))) in *. simplify_eq. destruct (decide (k < length (vbytes xv))%nat) as [Hk|Hk]; cbn [fst snd]; (split; [reflexivity|]); [|exact R].
    pose proof Hw as (H1 & H2 & H3).
    assert (Hrk : forall h, rd h (SL (sarr z) (soff z + k) (slen z - k) (scap z - k)) = drop k (rd h z)).
    { intros h. unfold rd. cbn [sarr soff slen]. rewrite skipn_firstn_comm, drop_drop. reflexivity. }
    rewrite Hl. eapply rel_change; try eassumption; cbn [vbytes vlive vresets sarr soff slen]; try reflexivity; auto.
    + unfold wf. cbn [sarr soff slen scap]. lia.
    + rewrite Hrk, Hr. reflexivity.
    + left. split; [reflexivity|]. split; [reflexivity|]. intros _. lia.
  - destruct b as [b|]; [|simplify_eq; split; [reflexivity|exact R]]. destruct (vlook v b) as [xv|] eqn:Hb; [|discriminate]. simplify_eq.
    destruct (obj_live _ _ _ _ R Hb) as (o & z & Hob & Ho & Hz & Hr & _ & Hw). rewrite Hob. cbn [fst snd]. split; [reflexivity|].
    eapply rel_change; try eassumption; cbn [vbytes vlive vresets]; try reflexivity; auto.
    + apply cut_wf, Hw.
  - destruct b as [b|]; [|simplify_eq; split; [reflexivity|exact R]]. destruct (vlook v b) as [xv|] eqn:Hb; [|discriminate]. simplify_eq.
    destruct (obj_live _ _ _ _ R Hb) as (o & z & Hob & Ho & Hz & Hr & _ & Hw). rewrite Ho. cbn [fst snd]. split; [reflexivity|]. apply rel_free; assumption.
  - simplify_eq. split; [reflexivity|]. apply rel_drop, R.
Qed.
Lemma rel_run ops : forall s v v' os, Rel s v -> vrun int32ToBytes v ops = Some (v', os) -> (brun s ops).2 = os /\ Rel (brun s ops).1 v'.
Proof.
  induction ops as [|op ops IH]; intros s v v' os R H; cbn [vrun brun] in *; [simplify_eq; auto|].
  destruct (vstep int32ToBytes v op) as [[v1 o]|] eqn:E; [|discriminate]. destruct (vrun int32ToBytes v1 ops) as [[v2 os2]|] eqn:E2; [|discriminate]. simplify_eq.
  destruct (rel_step _ _ _ _ _ R E) as [Ho R1]. destruct (IH _ _ _ _ R1 E2) as [Hos R2]. cbn [fst snd]. rewrite Ho, Hos. auto.
Qed.
