(** Proofs about the fastio model: one invariant for all interleavings without I/O errors. *)
From stdpp Require Import list.
From Coq Require Import ZArith Lia.
From Verif Require Import Conc Fastio_Model Fastio_Spec.
Local Open Scope Z_scope.

(** ** Lists *)
Lemma sumZ_two {A} (f : A -> Z) l i j x y : (forall x, 0 <= f x) -> i <> j -> l !! i = Some x -> l !! j = Some y ->
  f x + f y <= sumZ f l.
Proof.
  intros Hf Hij Hi Hj. revert i j Hij Hi Hj. induction l as [|z l IH]; intros i j Hij Hi Hj; [discriminate|]. rewrite sumZ_cons.
  destruct i as [|i], j as [|j]; try congruence; cbn in Hi, Hj.
  - injection Hi as ->. pose proof (sumZ_lookup f l j y ltac:(auto) Hj). lia.
  - injection Hj as ->. pose proof (sumZ_lookup f l i x ltac:(auto) Hi). lia.
  - specialize (IH i j ltac:(congruence) Hi Hj). pose proof (Hf z). lia.
Qed.
Lemma sumZ_only {A} (f : A -> Z) l i x : l !! i = Some x -> (forall j y, j <> i -> l !! j = Some y -> f y = 0) -> sumZ f l = f x.
Proof.
  revert i. induction l as [|z l IH]; intros i Hi Ho; [discriminate|]. rewrite sumZ_cons. destruct i as [|i]; cbn in Hi.
  - injection Hi as ->. rewrite sumZ_zero; [lia|]. intros y Hy. apply elem_of_list_lookup in Hy as [j Hj]. exact (Ho (S j) y ltac:(lia) Hj).
  - rewrite (Ho 0%nat z ltac:(lia) eq_refl). rewrite (IH i Hi); [lia|]. intros j y Hj Hy. exact (Ho (S j) y ltac:(lia) Hy).
Qed.
Lemma concat_only {A B} (f : A -> list B) l i x : l !! i = Some x -> (forall j y, j <> i -> l !! j = Some y -> f y = []) ->
  concat (f <$> l) = f x.
Proof.
  revert i. induction l as [|z l IH]; intros i Hi Ho; [discriminate|]. rewrite fmap_cons. cbn [concat].
  destruct i as [|i]; cbn in Hi.
  - injection Hi as ->. assert (concat (f <$> l) = []) as ->; [|apply app_nil_r].
    assert (forall j y, l !! j = Some y -> f y = []) as Ha by (intros j y Hy; exact (Ho (S j) y ltac:(lia) Hy)).
    clear -Ha. induction l as [|z l IH]; [reflexivity|]. rewrite fmap_cons. cbn [concat]. rewrite (Ha 0%nat z eq_refl).
    apply IH. intros j y Hy. exact (Ha (S j) y Hy).
  - rewrite (Ho 0%nat z ltac:(lia) eq_refl). apply (IH i Hi). intros j y Hj Hy. exact (Ho (S j) y ltac:(lia) Hy).
Qed.
Lemma concat_all_nil {A B} (f : A -> list B) l : (forall x, x ∈ l -> f x = []) -> concat (f <$> l) = [].
Proof.
  induction l as [|z l IH]; intros Ha; [reflexivity|]. rewrite fmap_cons. cbn [concat]. rewrite (Ha z ltac:(left)).
  apply IH. intros x Hx. apply Ha. right. exact Hx.
Qed.
Lemma insert_fmap_same {A B} (f : A -> B) (l : list A) i x y : l !! i = Some x -> f y = f x -> f <$> <[i := y]> l = f <$> l.
Proof. intros Hi He. rewrite list_fmap_insert, He. apply list_insert_id. rewrite list_lookup_fmap, Hi. reflexivity. Qed.
Lemma bytes_app R1 R2 : bytes_of (R1 ++ R2) = bytes_of R1 ++ bytes_of R2.
Proof. unfold bytes_of. rewrite fmap_app, concat_app. reflexivity. Qed.
Lemma bytes_one e : bytes_of [e] = e.2.
Proof. unfold bytes_of. cbn. apply app_nil_r. Qed.
Lemma placed_app n R R' e o : placed n R e o -> placed n (R ++ R') e o.
Proof. intros (R1 & R2 & -> & ->). exists R1, (R2 ++ R'). rewrite <- app_assoc. split; reflexivity. Qed.
Lemma placed_bound n R e o : placed n R e o -> o + Z.of_nat (length e.2) <= Z.of_nat (n + length (bytes_of R)).
Proof.
  intros (R1 & R2 & -> & ->). rewrite bytes_app, app_length. change (e :: R2) with ([e] ++ R2). rewrite bytes_app, bytes_one, app_length. lia.
Qed.
Lemma placed_last n R e : placed n (R ++ [e]) e (Z.of_nat (n + length (bytes_of R))).
Proof. exists R, []. split; reflexivity. Qed.
Lemma bwrite_ok f buf bs : exists f' buf', bwrite None f buf bs = (f', buf', false) /\ f' ++ buf' = f ++ buf ++ bs /\ f `prefix_of` f'.
Proof.
  unfold bwrite, fwrite. destruct (length bs <=? _)%nat; [eexists _, _; split; [reflexivity|split; [reflexivity|reflexivity]]|].
  destruct buf as [|b buf].
  - eexists _, _. split; [reflexivity|]. rewrite app_nil_r. split; [reflexivity|]. apply prefix_app_r. reflexivity.
  - destruct (length (drop _ bs) <=? _)%nat; eexists _, _; (split; [reflexivity|]).
    + rewrite <- !app_assoc. rewrite take_drop. split; [reflexivity|]. apply prefix_app_r. reflexivity.
    + rewrite app_nil_r, <- !app_assoc. rewrite take_drop. split; [reflexivity|]. apply prefix_app_r. reflexivity.
Qed.

(** ** What a position says *)
Definition incall (p : wpc) : Z := match p with WIdle | WEnter _ => 0 | _ => 1 end.
Definition direct (p : wpc) : Z :=
  match p with WLock _ | WTest _ | WFile _ | WOff _ _ _ | WUnlock _ _ | WIo _ None _ => 1 | _ => 0 end.
Definition holdsW (p : wpc) : Z :=
  match p with
  | WTest c | WFile c | WOff c _ _ | WUnlock c _ | WIo c None _ => if wsync c then 1 else 0
  | WIo _ (Some _) _ | WQUnlock _ _ => 1
  | _ => 0
  end.
Definition holdsR (p : wpc) : Z :=
  match p with
  | WTest c | WFile c | WOff c _ _ | WUnlock c _ | WIo c None _ => if wsync c then 0 else 1
  | _ => 0
  end.
Definition crit (p : wpc) : Z := holdsW p + holdsR p.
Definition ubuf (p : wpc) : list Z :=
  match p with WIo _ _ (IoRecv b _ | IoAdd b _ _ | IoDec b _ | IoEnd b _ | IoFlush b _) => b | _ => [] end.
Definition pend (p : wpc) : Z := match p with WOff _ n _ | WIo _ _ (IoAdd _ _ n) => n | _ => 0 end.
Definition wcx (p : wpc) : Z := match p with WSend _ | WIo _ _ (IoAdd _ _ _ | IoDec _ _) => 1 | _ => 0 end.
Definition posted (p : wpc) : Prop :=
  match p with
  | WOff _ _ _ | WUnlock _ _ | WStart _ _ | WTry _ _ | WElse _ _ | WQUnlock _ _ | WEnd _ _ | WLeave _ _ | WIo _ (Some _) _ => True
  | _ => False
  end.
Definition cur (p : wpc) : list wcall :=
  match p with
  | WIdle => []
  | WEnter c | WLock c | WTest c | WFile c | WOff c _ _ | WUnlock c _ | WInc c | WSend c | WStart c _ | WTry c _ | WElse c _
  | WQUnlock c _ | WEnd c _ | WLeave c _ | WIo c _ _ => [c]
  end.
Lemma crit_ubuf p : crit p = 0 -> ubuf p = [].
Proof. destruct p as [| | | | | | | | | | | | | | |c [id|] q]; try reflexivity; unfold crit; cbn; destruct (wsync c); intros; exfalso; lia. Qed.
Lemma crit_pend p : crit p = 0 -> pend p = 0.
Proof. destruct p as [| | | |c|c|c| | | | | | | | |c [id|] q]; try reflexivity; unfold crit; cbn; try destruct (wsync c); intros; exfalso; lia. Qed.
Lemma crit_nonneg p : 0 <= crit p.
Proof. unfold crit. destruct p as [| | | | | | | | | | | | | | |c [id|] q]; cbn; try (destruct (wsync _)); lia. Qed.
Lemma holdsW_nonneg p : 0 <= holdsW p.
Proof. destruct p as [| | | | | | | | | | | | | | |c [id|] q]; cbn; try (destruct (wsync _)); lia. Qed.
Lemma holdsR_nonneg p : 0 <= holdsR p.
Proof. destruct p as [| | | | | | | | | | | | | | |c [id|] q]; cbn; try (destruct (wsync _)); lia. Qed.
Lemma wcx_nonneg p : 0 <= wcx p.
Proof. destruct p as [| | | | | | | | | | | | | | |c k q]; cbn; try destruct q; lia. Qed.
Lemma incall_nonneg p : 0 <= incall p.
Proof. destruct p; cbn; lia. Qed.
Lemma direct_nonneg p : 0 <= direct p.
Proof. destruct p as [| | | | | | | | | | | | | | |c [id|] q]; cbn; lia. Qed.
Lemma holdsR_direct p : holdsR p <= direct p.
Proof. destruct p as [| | | | | | | | | | | | | | |c [id|] q]; cbn; try (destruct (wsync _)); lia. Qed.
Lemma direct_incall p : direct p <= incall p.
Proof. destruct p as [| | | | | | | | | | | | | | |c [id|] q]; cbn; lia. Qed.

(** ** The invariant *)
Definition queuedS (s : wshared) : list rec := omap (fun id => (fun d => (down d, dbytes d)) <$> swds s !! id) (sch s).
Section inv.
Context (f0 : list Z) (progs : list (list wcall)).
Definition n0 : nat := length f0.
Definition flushed (R : list rec) (s : wshared) (e : rec) (o : Z) : Prop :=
  placed n0 R e o /\ o + Z.of_nat (length e.2) <= Z.of_nat (length (sfile s)).
Definition result_ok (R : list rec) (s : wshared) (t k : nat) (c : wcall) (r : wres) : Prop :=
  r.2 = false /\
  (if wsync c then flushed R s (t, k, wbs c) r.1 else r.1 = Z.of_nat (length (wbs c)) /\ (t, k, wbs c) ∈ R ++ queuedS s).
Definition own (s : wshared) (t k : nat) (c : wcall) (id : nat) : Prop :=
  exists d, swds s !! id = Some d /\ down d = (t, k) /\ dbytes d = wbs c.
Definition settled (s : wshared) (id : nat) : Prop :=
  id ∉ sch s /\ forall d, swds s !! id = Some d -> doff d + Z.of_nat (length (dbytes d)) <= Z.of_nat (length (sfile s)).
Definition gone (s : wshared) (id : nat) : Prop := id ∉ sch s /\ is_Some (swds s !! id).
Definition io_ok (s : wshared) (k : option nat) (p : iopc) : Prop :=
  match p with
  | IoTest | IoSet => True
  | IoRecv _ ids | IoAdd _ ids _ | IoDec _ ids => forall id, id ∈ ids -> gone s id
  | IoEnd _ ids | IoFlush _ ids => (forall id, id ∈ ids -> gone s id) /\ forall id, k = Some id -> id ∉ sch s
  | IoClose ids e => (forall id, id ∈ ids -> gone s id) /\ (forall id, k = Some id -> id ∉ sch s) /\ e = false
  end.
Definition tpc (R : list rec) (s : wshared) (t k : nat) (p : wpc) : Prop :=
  match p with
  | WIdle | WEnter _ | WLock _ | WTest _ | WFile _ | WInc _ | WSend _ => True
  | WOff c n e => e = false /\ n = Z.of_nat (length (wbs c)) /\ exists R', R = R' ++ [(t, k, wbs c)]
  | WUnlock c r | WLeave c r => result_ok R s t k c r
  | WStart c id | WTry c id | WElse c id => own s t k c id
  | WQUnlock c id => own s t k c id /\ settled s id
  | WEnd c id => own s t k c id /\ (wsync c = true -> settled s id)
  | WIo c ko p => (forall id, ko = Some id -> own s t k c id) /\ io_ok s ko p
  end.
Record tinv (R : list rec) (s : wshared) (t : nat) (th : wthread) : Prop := {
  t_prog : progs !! t = Some (rev (fst <$> wlog th) ++ cur (wpos th) ++ wtodo th);
  t_log : forall i c r, rev (wlog th) !! i = Some (c, r) -> result_ok R s t i c r;
  t_pc : tpc R s t (length (wlog th)) (wpos th) }.
Definition fresh_ok (ths : list wthread) (e : rec) : Prop :=
  exists th, ths !! e.1.1 = Some th /\ ((e.1.2 < length (wlog th))%nat \/ e.1.2 = length (wlog th) /\ posted (wpos th)).
Record inv (R : list rec) (cf : wconf) : Prop := {
  i_cc : scc (wsh cf) = sumZ (fun th => incall (wpos th)) (wths cf);
  i_dir : sumZ (fun th => direct (wpos th)) (wths cf) <= 1;
  i_mw : (if smw (wsh cf) then 1 else 0) = sumZ (fun th => holdsW (wpos th)) (wths cf);
  i_mr : smr (wsh cf) = sumZ (fun th => holdsR (wpos th)) (wths cf);
  i_ex : smw (wsh cf) = true -> smr (wsh cf) = 0;
  i_wc : swc (wsh cf) = Z.of_nat (length (sch (wsh cf))) + sumZ (fun th => wcx (wpos th)) (wths cf);
  i_off : soff (wsh cf) = Z.of_nat (n0 + length (bytes_of R)) - sumZ (fun th => pend (wpos th)) (wths cf);
  i_file : sfile (wsh cf) ++ concat ((fun th => ubuf (wpos th)) <$> wths cf) = f0 ++ bytes_of R;
  i_nodup : NoDup (sch (wsh cf));
  i_sch : forall id, id ∈ sch (wsh cf) -> exists d, swds (wsh cf) !! id = Some d /\ ddone d <> Some true;
  i_wd : forall id d, swds (wsh cf) !! id = Some d -> id ∉ sch (wsh cf) ->
    placed n0 R (down d, dbytes d) (doff d) /\
    (ddone d = Some true -> doff d + Z.of_nat (length (dbytes d)) <= Z.of_nat (length (sfile (wsh cf))));
  i_E : NoDup (fst <$> R ++ queuedS (wsh cf));
  i_fresh : forall e, e ∈ R ++ queuedS (wsh cf) -> rec_of progs e /\ fresh_ok (wths cf) e;
  i_t : forall t th, wths cf !! t = Some th -> tinv R (wsh cf) t th }.

Lemma crit_one R cf : inv R cf -> sumZ (fun th => crit (wpos th)) (wths cf) <= 1.
Proof.
  intros I. assert (sumZ (fun th => crit (wpos th)) (wths cf) =
    sumZ (fun th => holdsW (wpos th)) (wths cf) + sumZ (fun th => holdsR (wpos th)) (wths cf)) as ->.
  { clear I. induction (wths cf) as [|th l IH]; [reflexivity|]. rewrite !sumZ_cons, IH. unfold crit. lia. }
  rewrite <- (i_mw _ _ I), <- (i_mr _ _ I). destruct (smw (wsh cf)) eqn:Hw; [rewrite (i_ex _ _ I Hw); lia|].
  rewrite (i_mr _ _ I). pose proof (i_dir _ _ I).
  pose proof (sumZ_le (fun th => holdsR (wpos th)) (fun th => direct (wpos th)) (wths cf) ltac:(intros; apply holdsR_direct)). lia.
Qed.
Lemma crit_others R cf t th : inv R cf -> wths cf !! t = Some th -> crit (wpos th) = 1 ->
  forall j y, j <> t -> wths cf !! j = Some y -> crit (wpos y) = 0.
Proof.
  intros I Ht Hc j y Hj Hy. pose proof (crit_one _ _ I).
  pose proof (sumZ_two (fun th => crit (wpos th)) (wths cf) t j th y ltac:(intros; apply crit_nonneg) ltac:(congruence) Ht Hy).
  pose proof (crit_nonneg (wpos y)). cbn beta in *. lia.
Qed.
(** ** Other goroutines *)
Record ext (R : list rec) (s : wshared) (R' : list rec) (s' : wshared) : Prop := {
  x_R : exists X, R' = R ++ X;
  x_f : sfile s `prefix_of` sfile s';
  x_d : forall id d, swds s !! id = Some d -> exists d', swds s' !! id = Some d' /\ down d' = down d /\ dbytes d' = dbytes d /\
          (id ∉ sch s -> id ∉ sch s' /\ doff d' = doff d);
  x_E : forall e, e ∈ R ++ queuedS s -> e ∈ R' ++ queuedS s' }.
Lemma ext_same R s s' : sfile s' = sfile s -> sch s' = sch s -> swds s' = swds s -> ext R s R s'.
Proof.
  intros Hf Hc Hd. split.
  - exists []. rewrite app_nil_r. reflexivity.
  - rewrite Hf. reflexivity.
  - intros id d Hl. rewrite Hd, Hc. exists d. auto.
  - unfold queuedS. rewrite Hc, Hd. auto.
Qed.
Lemma flushed_ext R s R' s' e o : ext R s R' s' -> flushed R s e o -> flushed R' s' e o.
Proof.
  intros [[X ->] Hf _ _] [Hp Hl]. split; [apply placed_app; exact Hp|]. apply prefix_length in Hf. lia.
Qed.
Lemma result_ext R s R' s' t k c r : ext R s R' s' -> result_ok R s t k c r -> result_ok R' s' t k c r.
Proof.
  intros X [He Hr]. split; [exact He|]. destruct (wsync c); [exact (flushed_ext _ _ _ _ _ _ X Hr)|].
  destruct Hr as [Hn Hr]. split; [exact Hn|]. exact (x_E _ _ _ _ X _ Hr).
Qed.
Lemma own_ext R s R' s' t k c id : ext R s R' s' -> own s t k c id -> own s' t k c id.
Proof.
  intros X (d & Hd & Ho & Hb). destruct (x_d _ _ _ _ X _ _ Hd) as (d' & Hd' & Ho' & Hb' & _). exists d'. split; [exact Hd'|].
  split; congruence.
Qed.
Lemma settled_ext R s R' s' t k c id : ext R s R' s' -> own s t k c id -> settled s id -> settled s' id.
Proof.
  intros X (d & Hd & _) [Hn Hs]. destruct (x_d _ _ _ _ X _ _ Hd) as (d' & Hd' & _ & Hb & Hc). destruct (Hc Hn) as [Hc1 Hc2].
  split; [exact Hc1|]. intros d1 Hd1. rewrite Hd' in Hd1. injection Hd1 as <-. rewrite Hc2, Hb.
  pose proof (Hs d Hd). pose proof (prefix_length _ _ (x_f _ _ _ _ X)). lia.
Qed.
Lemma gone_ext R s R' s' id : ext R s R' s' -> gone s id -> gone s' id.
Proof.
  intros X [Hn [d Hd]]. destruct (x_d _ _ _ _ X _ _ Hd) as (d' & Hd' & _ & _ & Hc). split; [apply Hc; exact Hn|eauto].
Qed.
Lemma io_ok_ext R s R' s' t k c ko p : ext R s R' s' -> (forall id, ko = Some id -> own s t k c id) -> io_ok s ko p -> io_ok s' ko p.
Proof.
  intros X Hko Hi.
  assert (Hg : forall ids : list nat, (forall id, id ∈ ids -> gone s id) -> forall id, id ∈ ids -> gone s' id).
  { intros ids H id Hid. exact (gone_ext _ _ _ _ _ X (H id Hid)). }
  assert (Hn : (forall id, ko = Some id -> id ∉ sch s) -> forall id, ko = Some id -> id ∉ sch s').
  { intros H id Hid. destruct (Hko id Hid) as (d & Hd & _). destruct (x_d _ _ _ _ X _ _ Hd) as (d' & _ & _ & _ & Hc).
    apply Hc. exact (H id Hid). }
  destruct p; cbn [io_ok] in *; try exact Logic.I; try exact (Hg _ Hi).
  - destruct Hi as [H1 H2]. split; [exact (Hg _ H1)|exact (Hn H2)].
  - destruct Hi as [H1 H2]. split; [exact (Hg _ H1)|exact (Hn H2)].
  - destruct Hi as (H1 & H2 & H3). split; [exact (Hg _ H1)|split; [exact (Hn H2)|exact H3]].
Qed.
Lemma tpc_ext R s R' s' t k p : ext R s R' s' -> (crit p <> 0 -> R' = R) -> tpc R s t k p -> tpc R' s' t k p.
Proof.
  intros X Hc. destruct p as [| | | | |c n e|c r| | |c id|c id|c id|c id|c id|c r|c ko p]; cbn [tpc]; auto.
  - intros (He & Hn & R0 & HR). split; [exact He|]. split; [exact Hn|]. exists R0. rewrite Hc; [exact HR|].
    unfold crit. cbn. destruct (wsync c); lia.
  - apply (result_ext _ _ _ _ _ _ _ _ X).
  - apply (own_ext _ _ _ _ _ _ _ _ X).
  - apply (own_ext _ _ _ _ _ _ _ _ X).
  - apply (own_ext _ _ _ _ _ _ _ _ X).
  - intros [Ho Hs]. split; [exact (own_ext _ _ _ _ _ _ _ _ X Ho)|exact (settled_ext _ _ _ _ _ _ _ _ X Ho Hs)].
  - intros [Ho Hs]. split; [exact (own_ext _ _ _ _ _ _ _ _ X Ho)|intros Hw; exact (settled_ext _ _ _ _ _ _ _ _ X Ho (Hs Hw))].
  - apply (result_ext _ _ _ _ _ _ _ _ X).
  - intros [Ho Hi]. split; [intros id Hid; exact (own_ext _ _ _ _ _ _ _ _ X (Ho id Hid))|].
    exact (io_ok_ext _ _ _ _ _ _ _ _ _ X Ho Hi).
Qed.
Lemma tinv_ext R s R' s' t th : ext R s R' s' -> (crit (wpos th) <> 0 -> R' = R) -> tinv R s t th -> tinv R' s' t th.
Proof.
  intros X Hc [Hp Hl Ht]. split; [exact Hp| |exact (tpc_ext _ _ _ _ _ _ _ X Hc Ht)].
  intros i c r Hi. exact (result_ext _ _ _ _ _ _ _ _ X (Hl i c r Hi)).
Qed.

(** ** Rebuilding the invariant after a step *)
Lemma mk_inv R cf t th s' th' R' :
  inv R cf -> wths cf !! t = Some th -> ext R (wsh cf) R' s' ->
  (R' = R \/ crit (wpos th) = 1) ->
  scc s' = scc (wsh cf) - incall (wpos th) + incall (wpos th') ->
  (direct (wpos th') <= direct (wpos th) \/ direct (wpos th') <= 1 /\ scc (wsh cf) = 0) ->
  (if smw s' then 1 else 0) = (if smw (wsh cf) then 1 else 0) - holdsW (wpos th) + holdsW (wpos th') ->
  smr s' = smr (wsh cf) - holdsR (wpos th) + holdsR (wpos th') ->
  (smw s' = true -> smr s' = 0) ->
  swc s' - Z.of_nat (length (sch s')) = swc (wsh cf) - Z.of_nat (length (sch (wsh cf))) - wcx (wpos th) + wcx (wpos th') ->
  soff s' - Z.of_nat (length (bytes_of R')) = soff (wsh cf) - Z.of_nat (length (bytes_of R)) + pend (wpos th) - pend (wpos th') ->
  ((crit (wpos th) = 1 /\ (sfile (wsh cf) ++ ubuf (wpos th) = f0 ++ bytes_of R -> sfile s' ++ ubuf (wpos th') = f0 ++ bytes_of R')) \/
   (ubuf (wpos th') = ubuf (wpos th) /\ sfile s' = sfile (wsh cf) /\ R' = R)) ->
  NoDup (sch s') ->
  (forall id, id ∈ sch s' -> exists d, swds s' !! id = Some d /\ ddone d <> Some true) ->
  (forall id d, swds s' !! id = Some d -> id ∉ sch s' ->
    placed n0 R' (down d, dbytes d) (doff d) /\
    (ddone d = Some true -> doff d + Z.of_nat (length (dbytes d)) <= Z.of_nat (length (sfile s')))) ->
  NoDup (fst <$> R' ++ queuedS s') ->
  (forall e, e ∈ R' ++ queuedS s' -> e ∈ R ++ queuedS (wsh cf) \/
     (e.1 = (t, length (wlog th')) /\ posted (wpos th') /\ cur (wpos th') <> [] /\ forall c, cur (wpos th') = [c] -> wbs c = e.2)) ->
  ((length (wlog th) < length (wlog th'))%nat \/ length (wlog th') = length (wlog th) /\ (posted (wpos th) -> posted (wpos th'))) ->
  tinv R' s' t th' ->
  inv R' (WConf s' (<[t := th']> (wths cf))).
Proof.
  intros I Ht X HRc Hcc Hdir Hmw Hmr Hex Hwc Hoff Hfile Hnd Hsch Hwd HE Hfr Hlog Hti.
  assert (Hlt : (t < length (wths cf))%nat) by (apply lookup_lt_Some in Ht; exact Ht).
  split; cbn [wsh wths].
  - rewrite (sumZ_insert _ _ _ _ _ Ht), Hcc, (i_cc _ _ I). lia.
  - rewrite (sumZ_insert _ _ _ _ _ Ht). pose proof (i_dir _ _ I). destruct Hdir as [Hd|[Hd Hz]]; [lia|].
    pose proof (i_cc _ _ I). pose proof (sumZ_le (fun th => direct (wpos th)) (fun th => incall (wpos th)) (wths cf)
      ltac:(intros; apply direct_incall)). pose proof (direct_nonneg (wpos th)). lia.
  - rewrite (sumZ_insert _ _ _ _ _ Ht), Hmw, (i_mw _ _ I). reflexivity.
  - rewrite (sumZ_insert _ _ _ _ _ Ht), Hmr, (i_mr _ _ I). reflexivity.
  - exact Hex.
  - rewrite (sumZ_insert _ _ _ _ _ Ht). pose proof (i_wc _ _ I). lia.
  - rewrite (sumZ_insert _ _ _ _ _ Ht). pose proof (i_off _ _ I). lia.
  - destruct Hfile as [[Hc Hf]|(Hu & Hf & ->)].
    + assert (Hz : forall j y, j <> t -> wths cf !! j = Some y -> ubuf (wpos y) = []).
      { intros j y Hj Hy. apply crit_ubuf. exact (crit_others _ _ _ _ I Ht Hc j y Hj Hy). }
      rewrite (concat_only _ _ t th').
      * apply Hf. rewrite <- (i_file _ _ I). rewrite (concat_only (fun th => ubuf (wpos th)) _ t th Ht Hz). reflexivity.
      * apply list_lookup_insert. exact Hlt.
      * intros j y Hj Hy. rewrite list_lookup_insert_ne in Hy by congruence. exact (Hz j y Hj Hy).
    + rewrite (insert_fmap_same (fun th => ubuf (wpos th)) _ _ th th' Ht Hu), Hf. exact (i_file _ _ I).
  - exact Hnd.
  - exact Hsch.
  - exact Hwd.
  - exact HE.
  - intros e He. destruct (Hfr e He) as [Ho|(Hk & Hp & Hne & Hb)].
    + destruct (i_fresh _ _ I e Ho) as [Hr (th0 & Ht0 & Hl0)]. split; [exact Hr|].
      destruct (decide (t = e.1.1)) as [->|Hn].
      * exists th'. rewrite list_lookup_insert by exact Hlt. split; [reflexivity|]. rewrite Ht in Ht0. injection Ht0 as <-.
        destruct Hlog as [Hlog|[Hlog Hpp]]; [left; lia|]. destruct Hl0 as [Hl0|[Hl0 Hpo]]; [left; lia|right; split; [lia|auto]].
      * exists th0. rewrite list_lookup_insert_ne by congruence. auto.
    + destruct e as [ek eb]. cbn [fst snd] in *. subst ek. destruct Hti as [Hprog _ _]. split.
      * destruct (cur (wpos th')) as [|c l] eqn:Hcur; [congruence|].
        assert (l = []) as -> by (destruct (wpos th'); cbn in Hcur; congruence).
        exists (rev (fst <$> wlog th') ++ [c] ++ wtodo th'), c. cbn [fst snd]. split; [exact Hprog|]. split; [|apply Hb; reflexivity].
        rewrite lookup_app_r by (rewrite rev_length, fmap_length; lia). rewrite rev_length, fmap_length, Nat.sub_diag. reflexivity.
      * exists th'. cbn [fst snd]. rewrite list_lookup_insert by exact Hlt. split; [reflexivity|]. right. split; [reflexivity|exact Hp].
  - intros j y Hy. destruct (decide (j = t)) as [->|Hj].
    + rewrite list_lookup_insert in Hy by exact Hlt. injection Hy as <-. exact Hti.
    + rewrite list_lookup_insert_ne in Hy by congruence. apply (tinv_ext R (wsh cf)); [exact X| |exact (i_t _ _ I j y Hy)].
      intros Hc. destruct HRc as [->|HRc]; [reflexivity|]. exfalso. apply Hc. exact (crit_others _ _ _ _ I Ht HRc j y Hj Hy).
Qed.
(** A step that touches neither the file nor the queue nor the writeData. *)
Lemma mk_inv0 R cf t th s' th' :
  inv R cf -> wths cf !! t = Some th ->
  sfile s' = sfile (wsh cf) -> sch s' = sch (wsh cf) -> swds s' = swds (wsh cf) ->
  scc s' = scc (wsh cf) - incall (wpos th) + incall (wpos th') ->
  (direct (wpos th') <= direct (wpos th) \/ direct (wpos th') <= 1 /\ scc (wsh cf) = 0) ->
  (if smw s' then 1 else 0) = (if smw (wsh cf) then 1 else 0) - holdsW (wpos th) + holdsW (wpos th') ->
  smr s' = smr (wsh cf) - holdsR (wpos th) + holdsR (wpos th') ->
  (smw s' = true -> smr s' = 0) ->
  swc s' = swc (wsh cf) - wcx (wpos th) + wcx (wpos th') ->
  soff s' = soff (wsh cf) + pend (wpos th) - pend (wpos th') ->
  ubuf (wpos th') = ubuf (wpos th) ->
  ((length (wlog th) < length (wlog th'))%nat \/ length (wlog th') = length (wlog th) /\ (posted (wpos th) -> posted (wpos th'))) ->
  tinv R s' t th' ->
  inv R (WConf s' (<[t := th']> (wths cf))).
Proof.
  intros I Ht Hf Hc Hd. intros.
  assert (Hq : queuedS s' = queuedS (wsh cf)) by (unfold queuedS; rewrite Hc, Hd; reflexivity).
  eapply mk_inv; eauto; rewrite ?Hq, ?Hf, ?Hc, ?Hd.
  - apply ext_same; assumption.
  - lia.
  - lia.
  - exact (i_nodup _ _ I).
  - exact (i_sch _ _ I).
  - exact (i_wd _ _ I).
  - exact (i_E _ _ I).
  - auto.
Qed.
Lemma tinv_next R s R' s' t th p' todo' : tinv R s t th -> ext R s R' s' ->
  cur p' ++ todo' = cur (wpos th) ++ wtodo th -> tpc R' s' t (length (wlog th)) p' -> tinv R' s' t (WTh todo' p' (wlog th)).
Proof.
  intros [Hp Hl Ht] X Hc Hn. split; cbn [wtodo wpos wlog]; [rewrite Hc; exact Hp| |exact Hn].
  intros i c r Hi. exact (result_ext _ _ _ _ _ _ _ _ X (Hl i c r Hi)).
Qed.
Lemma file_full R cf t th : inv R cf -> wths cf !! t = Some th -> crit (wpos th) = 1 -> sfile (wsh cf) ++ ubuf (wpos th) = f0 ++ bytes_of R.
Proof.
  intros I Ht Hc. rewrite <- (i_file _ _ I). rewrite (concat_only (fun th => ubuf (wpos th)) _ t th Ht); [reflexivity|].
  intros j y Hj Hy. apply crit_ubuf. exact (crit_others _ _ _ _ I Ht Hc j y Hj Hy).
Qed.
Lemma off_crit R cf t th : inv R cf -> wths cf !! t = Some th -> crit (wpos th) = 1 ->
  soff (wsh cf) = Z.of_nat (n0 + length (bytes_of R)) - pend (wpos th).
Proof.
  intros I Ht Hc. rewrite (i_off _ _ I). rewrite (sumZ_only (fun th => pend (wpos th)) _ t th Ht); [reflexivity|].
  intros j y Hj Hy. apply crit_pend. exact (crit_others _ _ _ _ I Ht Hc j y Hj Hy).
Qed.
Lemma wc_zero_sch R cf : inv R cf -> swc (wsh cf) = 0 -> sch (wsh cf) = [].
Proof.
  intros I Hz. pose proof (i_wc _ _ I). pose proof (sumZ_nonneg (fun th => wcx (wpos th)) (wths cf) ltac:(intros; apply wcx_nonneg)).
  destruct (sch (wsh cf)); [reflexivity|]. cbn [length] in *. lia.
Qed.
Lemma settled_now R cf t th id : inv R cf -> wths cf !! t = Some th -> crit (wpos th) = 1 -> ubuf (wpos th) = [] ->
  id ∉ sch (wsh cf) -> settled (wsh cf) id.
Proof.
  intros I Ht Hc Hu Hn. split; [exact Hn|]. intros d Hd. destruct (i_wd _ _ I id d Hd Hn) as [Hp _].
  apply placed_bound in Hp. pose proof (file_full _ _ _ _ I Ht Hc) as Hf. rewrite Hu, app_nil_r in Hf.
  rewrite Hf, app_length. unfold n0 in Hp. cbn [snd] in Hp. lia.
Qed.
Lemma queued_recv s id q d : sch s = id :: q -> swds s !! id = Some d -> queuedS s = (down d, dbytes d) :: queuedS (set_ch q s).
Proof. intros Hc Hd. unfold queuedS. rewrite Hc. cbn [omap list_omap sch set_ch swds]. rewrite Hd. reflexivity. Qed.
Lemma queued_insert s id d d' : swds s !! id = Some d -> down d' = down d -> dbytes d' = dbytes d ->
  queuedS (set_wds (<[id := d']> (swds s)) s) = queuedS s.
Proof.
  intros Hd Ho Hb. unfold queuedS. cbn [sch set_wds swds]. induction (sch s) as [|j q IH]; [reflexivity|].
  cbn [omap list_omap]. assert ((fun d => (down d, dbytes d)) <$> <[id := d']> (swds s) !! j = (fun d => (down d, dbytes d)) <$> swds s !! j) as ->.
  { destruct (decide (id = j)) as [<-|Hn].
    - rewrite list_lookup_insert by (apply lookup_lt_Some in Hd; exact Hd). rewrite Hd. cbn. congruence.
    - rewrite list_lookup_insert_ne by congruence. reflexivity. }
  rewrite <- IH. reflexivity.
Qed.
Lemma queued_send s d : (forall id, id ∈ sch s -> is_Some (swds s !! id)) ->
  queuedS (set_ch (sch s ++ [length (swds s)]) (set_wds (swds s ++ [d]) s)) = queuedS s ++ [(down d, dbytes d)].
Proof.
  intros Hs. unfold queuedS. cbn [sch set_ch set_wds swds]. rewrite omap_app. f_equal.
  - revert Hs. induction (sch s) as [|j q IH]; intros Hs; [reflexivity|]. cbn [omap list_omap].
    rewrite IH by (intros; apply Hs; right; assumption). destruct (Hs j ltac:(left)) as [dj Hj].
    rewrite (lookup_app_l_Some _ _ _ _ Hj), Hj. reflexivity.
  - cbn [omap list_omap]. rewrite lookup_app_r by lia. rewrite Nat.sub_diag. reflexivity.
Qed.
Lemma posted_not R cf t th c : inv R cf -> wths cf !! t = Some th -> ~ posted (wpos th) ->
  (t, length (wlog th)) ∉ fst <$> R ++ queuedS (wsh cf) /\ (cur (wpos th) = [c] -> True).
Proof.
  intros I Ht Hp. split; [|auto]. intros Hin. apply elem_of_list_fmap in Hin as (e & He & Hin).
  destruct (i_fresh _ _ I e Hin) as [_ (th0 & Ht0 & Hl)]. rewrite <- He in *. cbn [fst snd] in *. rewrite Ht in Ht0. injection Ht0 as <-.
  destruct Hl as [Hl|[_ Hl]]; [lia|auto].
Qed.
Lemma posted_not' R cf t th : inv R cf -> wths cf !! t = Some th -> ~ posted (wpos th) ->
  (t, length (wlog th)) ∉ fst <$> R ++ queuedS (wsh cf).
Proof. intros I Ht Hp. apply (posted_not R cf t th (WCall true []) I Ht Hp). Qed.

Ltac simple_step R I Ht :=
  exists R; split; [exists []; rewrite app_nil_r; reflexivity|split; [reflexivity|]];
  apply (mk_inv0 _ _ _ _ _ _ I Ht);
  cbn [wpos wlog wtodo sfile sch swds scc smw smr swc soff sioend set_file set_off set_ch set_wds set_wc set_cc set_mu set_ioend
       incall direct holdsW holdsR wcx pend ubuf posted length]; try reflexivity; try lia; try (right; split; [reflexivity|tauto]);
  try exact (i_ex _ _ I).
Ltac next Hti := eapply (tinv_next _ _ _ _ _ _ _ _ Hti); [apply ext_same; reflexivity|reflexivity|cbn [tpc wlog]].

Lemma step_inv R cf t th tm s' th' : inv R cf -> wths cf !! t = Some th -> wthread_step (wsh cf) t th None tm = Some (s', th') ->
  exists R', (exists X, R' = R ++ X) /\ sfile (wsh cf) `prefix_of` sfile s' /\ inv R' (WConf s' (<[t := th']> (wths cf))).
Proof.
  intros I Ht Hs. pose proof (i_t _ _ I t th Ht) as Hti. destruct th as [todo p log]. unfold wthread_step in Hs. cbn [wpos wtodo wlog] in Hs.
  destruct p as [|c|c|c|c|c n e|c r|c|c|c id|c id|c id|c id|c id|c r|c ko p].
  - (* WIdle *) destruct todo as [|c todo]; [discriminate|]. injection Hs as <- <-. simple_step R I Ht. next Hti. exact Logic.I.
  - (* WEnter *) injection Hs as <- <-. destruct (scc (wsh cf) + 1 <=? 1) eqn:Hc.
    + apply Z.leb_le in Hc. simple_step R I Ht; [|next Hti; exact Logic.I]. right. split; [lia|].
      pose proof (i_cc _ _ I). pose proof (sumZ_nonneg (fun th => incall (wpos th)) (wths cf) ltac:(intros; apply incall_nonneg)). lia.
    + simple_step R I Ht; next Hti; exact Logic.I.
  - (* WLock *) destruct (smw (wsh cf)) eqn:Hw; [discriminate|]. destruct (wsync c) eqn:Hsy.
    + destruct (smr (wsh cf) =? 0) eqn:Hr; [|discriminate]. apply Z.eqb_eq in Hr. injection Hs as <- <-.
      simple_step R I Ht; rewrite ?Hsy, ?Hw; try lia. next Hti. exact Logic.I.
    + injection Hs as <- <-. simple_step R I Ht; rewrite ?Hsy, ?Hw; try lia. next Hti. exact Logic.I.
  - (* WTest *) injection Hs as <- <-. destruct (0 <? swc (wsh cf)); simple_step R I Ht; next Hti; try exact Logic.I.
    split; [discriminate|exact Logic.I].
  - (* WFile *) cbn [fwrite] in Hs. injection Hs as <- <-.
    assert (Hc : crit (wpos (WTh todo (WFile c) log)) = 1) by (cbn; unfold crit; cbn; destruct (wsync c); reflexivity).
    pose proof (posted_not' _ _ _ _ I Ht ltac:(cbn; tauto)) as Hfr. cbn [wlog] in Hfr.
    set (e := (t, length log, wbs c) : rec). exists (R ++ [e]). split; [eauto|].
    assert (Hx : ext R (wsh cf) (R ++ [e]) (set_file (sfile (wsh cf) ++ wbs c) (wsh cf))).
    { split; cbn [sfile sch swds set_file].
      - eauto.
      - apply prefix_app_r. reflexivity.
      - intros id d Hd. exists d. auto.
      - unfold queuedS. cbn [sch swds set_file]. intros x. rewrite !elem_of_app. tauto. }
    split; [exact (x_f _ _ _ _ Hx)|].
    apply (mk_inv _ _ _ _ _ _ _ I Ht Hx);
    cbn [wpos wlog wtodo sfile sch swds scc smw smr swc soff sioend set_file
       incall direct holdsW holdsR wcx pend ubuf posted length]; try reflexivity; try lia; try exact (i_ex _ _ I);
       try (right; split; [reflexivity|tauto]).
    + right. exact Hc.
    + rewrite bytes_app, bytes_one, app_length. cbn [e snd]. lia.
    + left. split; [exact Hc|]. rewrite !app_nil_r. intros ->. rewrite bytes_app, bytes_one, app_assoc. reflexivity.
    + exact (i_nodup _ _ I).
    + exact (i_sch _ _ I).
    + intros id d Hd Hn. destruct (i_wd _ _ I id d Hd Hn) as [Hp Hf]. split; [apply placed_app; exact Hp|].
      intros Hdn. specialize (Hf Hdn). rewrite app_length. lia.
    + change (queuedS (set_file (sfile (wsh cf) ++ wbs c) (wsh cf))) with (queuedS (wsh cf)).
      pose proof (i_E _ _ I) as HE. rewrite fmap_app in Hfr, HE |- *. rewrite fmap_app, <- app_assoc. apply NoDup_app in HE as (H1 & H2 & H3).
      apply not_elem_of_app in Hfr as [Hf1 Hf2]. apply NoDup_app. split; [exact H1|]. split.
      * intros x Hx1. apply not_elem_of_app. split; [|exact (H2 x Hx1)]. cbn. intros ->%elem_of_list_singleton. auto.
      * cbn. constructor; [exact Hf2|exact H3].
    + change (queuedS (set_file (sfile (wsh cf) ++ wbs c) (wsh cf))) with (queuedS (wsh cf)).
      intros x. rewrite !elem_of_app, elem_of_list_singleton. intros [[Hx1| -> ]|Hx1]; [tauto| |tauto].
      right. cbn. split; [reflexivity|]. split; [exact Logic.I|]. split; [discriminate|]. intros ? Hinj. injection Hinj as ->. reflexivity.
    + eapply (tinv_next _ _ _ _ _ _ _ _ Hti Hx); [reflexivity|]. cbn [tpc wlog]. eauto.
  - (* WOff *) injection Hs as <- <-. destruct Hti as [Hp Hl Htp]. pose proof Htp as (-> & -> & R0 & HR). cbn [wlog] in HR.
    assert (Hc : crit (wpos (WTh todo (WOff c (Z.of_nat (length (wbs c))) false) log)) = 1) by (cbn; unfold crit; cbn; destruct (wsync c); reflexivity).
    pose proof (off_crit _ _ _ _ I Ht Hc) as Ho. cbn [wpos pend] in Ho. pose proof (file_full _ _ _ _ I Ht Hc) as Hf. cbn [wpos ubuf] in Hf.
    simple_step R I Ht. eapply (tinv_next _ _ _ _ _ _ _ _ (i_t _ _ I t _ Ht)); [apply ext_same; reflexivity|reflexivity|].
    cbn [tpc wlog]. split; [reflexivity|]. cbn [fst].
    rewrite HR in Ho. rewrite bytes_app, bytes_one, app_length in Ho. cbn [snd] in Ho.
    assert (Hsoff : soff (wsh cf) = Z.of_nat (n0 + length (bytes_of R0))) by lia.
    destruct (wsync c).
    + rewrite Hsoff. split; [rewrite HR; apply placed_last|]. cbn [sfile set_off snd]. rewrite app_nil_r in Hf. rewrite Hf, HR.
      rewrite bytes_app, bytes_one, !app_length. cbn [snd]. unfold n0. lia.
    + split; [reflexivity|]. rewrite HR. apply elem_of_app. left. apply elem_of_app. right. left.
  - (* WUnlock *) injection Hs as <- <-. destruct (wsync c) eqn:Hsy.
    + simple_step R I Ht; rewrite ?Hsy; try reflexivity; try lia.
      * pose proof (i_mw _ _ I) as Hm. pose proof (sumZ_lookup (fun th => holdsW (wpos th)) _ _ _ ltac:(intros; apply holdsW_nonneg) Ht) as Hl.
        cbn [wpos holdsW] in Hl. rewrite Hsy in Hl. destruct (smw (wsh cf)); lia.
      * next Hti. exact (t_pc _ _ _ _ Hti).
    + simple_step R I Ht; rewrite ?Hsy; try reflexivity; try lia.
      * intros Hw. exfalso. pose proof (i_ex _ _ I Hw) as Hr. pose proof (i_mr _ _ I) as Hm.
        pose proof (sumZ_lookup (fun th => holdsR (wpos th)) _ _ _ ltac:(intros; apply holdsR_nonneg) Ht) as Hl.
        cbn [wpos holdsR] in Hl. rewrite Hsy in Hl. lia.
      * next Hti. exact (t_pc _ _ _ _ Hti).
  - (* WInc *) injection Hs as <- <-. simple_step R I Ht; next Hti; exact Logic.I.
  - (* WSend *) destruct (Z.of_nat (length (sch (wsh cf))) <? chcap); [|discriminate]. injection Hs as <- <-.
    pose proof (posted_not' _ _ _ _ I Ht ltac:(cbn; tauto)) as Hfr. cbn [wlog] in Hfr.
    set (d := WD (t, length log) (wbs c) 0 (if wsync c then Some false else None)). set (s := wsh cf) in *.
    assert (Hq : queuedS (set_ch (sch s ++ [length (swds s)]) (set_wds (swds s ++ [d]) s)) = queuedS s ++ [(down d, dbytes d)]).
    { apply queued_send. intros id Hid. destruct (i_sch _ _ I id Hid) as (d0 & Hd0 & _). eauto. }
    assert (Hlt : forall id, id ∈ sch s -> (id < length (swds s))%nat).
    { intros id Hid. destruct (i_sch _ _ I id Hid) as (d0 & Hd0 & _). apply lookup_lt_Some in Hd0. exact Hd0. }
    assert (Hx : ext R s R (set_ch (sch s ++ [length (swds s)]) (set_wds (swds s ++ [d]) s))).
    { split; cbn [sfile sch swds set_ch set_wds].
      - exists []. rewrite app_nil_r. reflexivity.
      - reflexivity.
      - intros id d0 Hd0. exists d0. rewrite (lookup_app_l_Some _ _ _ _ Hd0). split; [reflexivity|]. split; [reflexivity|].
        split; [reflexivity|]. intros Hn. split; [|reflexivity]. apply not_elem_of_app. split; [exact Hn|].
        intros ->%elem_of_list_singleton. apply lookup_lt_Some in Hd0. lia.
      - rewrite Hq. intros x. rewrite !elem_of_app. tauto. }
    exists R. split; [exists []; rewrite app_nil_r; reflexivity|]. split; [reflexivity|].
    apply (mk_inv _ _ _ _ _ _ _ I Ht Hx);
    cbn [wpos wlog wtodo sfile sch swds scc smw smr swc soff sioend set_ch set_wds
       incall direct holdsW holdsR wcx pend ubuf posted length]; try reflexivity; try (unfold s; lia); try exact (i_ex _ _ I);
       try (right; split; [reflexivity|tauto]).
    + left. reflexivity.
    + rewrite app_length. cbn [length]. unfold s. lia.
    + apply NoDup_app. split; [exact (i_nodup _ _ I)|]. split; [|apply NoDup_singleton].
      intros id Hid ->%elem_of_list_singleton. specialize (Hlt _ Hid). lia.
    + intros id. rewrite elem_of_app, elem_of_list_singleton. intros [Hid| -> ].
      * destruct (i_sch _ _ I id Hid) as (d0 & Hd0 & Hn). exists d0. fold s in Hd0. rewrite (lookup_app_l_Some _ _ _ _ Hd0). auto.
      * exists d. rewrite lookup_app_r by lia. rewrite Nat.sub_diag. split; [reflexivity|]. cbn. destruct (wsync c); discriminate.
    + intros id d0 Hd0 Hn. apply not_elem_of_app in Hn as [Hn1 Hn2]. rewrite elem_of_list_singleton in Hn2.
      apply lookup_app_Some in Hd0 as [Hd0|[Hle Hd0]]; [exact (i_wd _ _ I id d0 Hd0 Hn1)|]. exfalso.
      apply lookup_lt_Some in Hd0. cbn in Hd0. lia.
    + rewrite Hq, app_assoc, fmap_app. apply NoDup_app. split; [exact (i_E _ _ I)|]. split; [|apply NoDup_singleton].
      intros x Hx1 ->%elem_of_list_singleton. apply Hfr. exact Hx1.
    + rewrite Hq. intros x. rewrite app_assoc, elem_of_app, elem_of_list_singleton. intros [Hx1| -> ]; [left; exact Hx1|]. right. cbn.
      split; [reflexivity|]. split; [exact Logic.I|]. split; [discriminate|]. intros ? Hinj. injection Hinj as ->. reflexivity.
    + eapply (tinv_next _ _ _ _ _ _ _ _ Hti Hx); [reflexivity|]. cbn [tpc wlog]. exists d. cbn [swds set_ch set_wds].
      rewrite lookup_app_r by lia. rewrite Nat.sub_diag. auto.
  - (* WStart *) injection Hs as <- <-. destruct (sioend (wsh cf)); simple_step R I Ht; next Hti; exact (t_pc _ _ _ _ Hti).
  - (* WTry *) destruct (smw (wsh cf)) eqn:Hw; cbn [negb andb] in Hs.
    + injection Hs as <- <-. simple_step R I Ht; next Hti; exact (t_pc _ _ _ _ Hti).
    + destruct (smr (wsh cf) =? 0) eqn:Hr; injection Hs as <- <-.
      * apply Z.eqb_eq in Hr. simple_step R I Ht; rewrite ?Hw; try lia. next Hti. split; [|exact Logic.I].
        intros ? [= <-]. exact (t_pc _ _ _ _ Hti).
      * simple_step R I Ht; next Hti; exact (t_pc _ _ _ _ Hti).
  - (* WElse *) destruct (wsync c) eqn:Hsy.
    + destruct tm; [injection Hs as <- <-; simple_step R I Ht; next Hti; exact (t_pc _ _ _ _ Hti)|].
      destruct (swds (wsh cf) !! id) as [d|] eqn:Hd; [|discriminate]. destruct (ddone d) as [[]|] eqn:Hdn; try discriminate.
      injection Hs as <- <-. simple_step R I Ht. next Hti. split; [exact (t_pc _ _ _ _ Hti)|]. intros _.
      assert (Hn : id ∉ sch (wsh cf)).
      { intros Hid. destruct (i_sch _ _ I id Hid) as (d0 & Hd0 & Hn). congruence. }
      split; [exact Hn|]. intros d0 Hd0. rewrite Hd in Hd0. injection Hd0 as <-. exact (proj2 (i_wd _ _ I id d Hd Hn) Hdn).
    + injection Hs as <- <-. destruct (sioend (wsh cf)); simple_step R I Ht; next Hti; [exact (t_pc _ _ _ _ Hti)|].
      split; [exact (t_pc _ _ _ _ Hti)|congruence].
  - (* WQUnlock *) injection Hs as <- <-. simple_step R I Ht.
    + pose proof (i_mw _ _ I) as Hm. pose proof (sumZ_lookup (fun th => holdsW (wpos th)) _ _ _ ltac:(intros; apply holdsW_nonneg) Ht) as Hl.
      cbn [wpos holdsW] in Hl. destruct (smw (wsh cf)); lia.
    + next Hti. destruct (t_pc _ _ _ _ Hti) as [Ho Hset]. split; [exact Ho|]. intros _. exact Hset.
  - (* WEnd *) destruct (swds (wsh cf) !! id) as [d|] eqn:Hd; [|discriminate]. injection Hs as <- <-.
    simple_step R I Ht. next Hti. destruct (t_pc _ _ _ _ Hti) as [(d0 & Hd0 & Ho & Hb) Hset]. rewrite Hd in Hd0. injection Hd0 as <-.
    cbn [wlog] in Ho. split; [reflexivity|]. cbn [fst]. destruct (wsync c).
    + destruct (Hset eq_refl) as [Hn Hlen]. destruct (i_wd _ _ I id d Hd Hn) as [Hp _]. rewrite Ho, Hb in Hp. split; [exact Hp|].
      cbn [snd]. rewrite <- Hb. exact (Hlen d Hd).
    + split; [reflexivity|]. destruct (decide (id ∈ sch (wsh cf))) as [Hin|Hn].
      * apply elem_of_app. right. unfold queuedS. apply elem_of_list_omap. exists id. split; [exact Hin|]. rewrite Hd. cbn. congruence.
      * destruct (i_wd _ _ I id d Hd Hn) as [(R1 & R2 & HR & _) _]. rewrite Ho, Hb in HR. rewrite HR.
        apply elem_of_app. left. apply elem_of_app. right. left.
  - (* WLeave *) injection Hs as <- <-. simple_step R I Ht.
    destruct Hti as [Hp Hl Htp]. cbn [wpos wlog wtodo] in *. split; cbn [wpos wlog wtodo].
    + cbn [cur app]. rewrite fmap_cons. cbn [rev fst]. rewrite Hp. cbn [cur]. rewrite <- app_assoc. reflexivity.
    + intros i c0 r0 Hi. cbn [rev] in Hi.
      apply (result_ext R (wsh cf)); [apply ext_same; reflexivity|].
      apply lookup_app_Some in Hi as [Hi|[Hle Hi]]; [exact (Hl i c0 r0 Hi)|]. rewrite rev_length in Hle, Hi.
      assert (i = length log) as -> by (apply lookup_lt_Some in Hi; cbn in Hi; lia). rewrite Nat.sub_diag in Hi. injection Hi as <- <-. exact Htp.
    + exact Logic.I.
  - (* WIo *)
    assert (Hc : crit (wpos (WTh todo (WIo c ko p) log)) = 1) by (destruct ko; unfold crit; cbn; destruct (wsync c); reflexivity).
    destruct (t_pc _ _ _ _ Hti) as [Hown Hio]. cbn [wlog] in Hown.
    destruct p as [| |buf ids|buf ids n|buf ids|buf ids|buf ids|[|id ids] err].
    + (* IoTest *) destruct (swc (wsh cf) =? 0) eqn:Hz; injection Hs as <- <-.
      * apply Z.eqb_eq in Hz. pose proof (wc_zero_sch _ _ I Hz) as Hsch. destruct ko as [id|]; cbn [io_return].
        -- simple_step R I Ht. next Hti. split; [exact (Hown id eq_refl)|].
           apply (settled_now _ _ _ _ _ I Ht Hc eq_refl). rewrite Hsch. apply not_elem_of_nil.
        -- simple_step R I Ht. next Hti. exact Logic.I.
      * destruct ko as [id|]; simple_step R I Ht; next Hti; (split; [exact Hown|exact Logic.I]).
    + (* IoSet *) injection Hs as <- <-.
      destruct ko as [id|]; simple_step R I Ht; next Hti; (split; [exact Hown|]); cbn; intros id' Hid; exfalso; revert Hid; apply not_elem_of_nil.
    + (* IoRecv *) destruct (sch (wsh cf)) as [|id q] eqn:Hch; [discriminate|].
      destruct (swds (wsh cf) !! id) as [d|] eqn:Hd; [|discriminate].
      destruct (bwrite_ok (sfile (wsh cf)) buf (dbytes d)) as (f' & buf' & Hbw & Hbf & Hpre).
      cbn [sfile set_ch set_wds] in Hs. rewrite Hbw in Hs. injection Hs as <- <-. set (s := wsh cf) in *.
      set (d' := WD (down d) (dbytes d) (soff s) (ddone d)).
      set (s' := set_file f' (set_ch q (set_wds (<[id := d']> (swds s)) s))).
      set (e := (down d, dbytes d) : rec). set (ids' := match ddone d with Some _ => id :: ids | None => ids end).
      assert (Hlt : (id < length (swds s))%nat) by (apply lookup_lt_Some in Hd; exact Hd).
      assert (Hq0 : queuedS s = e :: queuedS (set_ch q s)) by exact (queued_recv s id q d Hch Hd).
      assert (Hq1 : queuedS s' = queuedS (set_ch q s)).
      { unfold s'. exact (queued_insert (set_ch q s) id d d' Hd eq_refl eq_refl). }
      assert (HEE : (R ++ [e]) ++ queuedS s' = R ++ queuedS s) by (rewrite Hq1, Hq0, <- app_assoc; reflexivity).
      pose proof (i_nodup _ _ I) as Hnd. fold s in Hnd. rewrite Hch in Hnd. apply NoDup_cons in Hnd as [Hnq Hnd].
      pose proof (off_crit _ _ _ _ I Ht Hc) as Hoff. cbn [wpos pend] in Hoff. fold s in Hoff.
      pose proof (file_full _ _ _ _ I Ht Hc) as Hfull. cbn [wpos ubuf] in Hfull. fold s in Hfull.
      assert (Hlk : forall j d0, swds s' !! j = Some d0 -> j = id /\ d0 = d' \/ j <> id /\ swds s !! j = Some d0).
      { intros j d0. cbn [s' swds set_file set_ch set_wds]. destruct (decide (j = id)) as [->|Hj].
        - rewrite list_lookup_insert by exact Hlt. intros [= <-]. auto.
        - rewrite list_lookup_insert_ne by congruence. auto. }
      assert (Hx : ext R s (R ++ [e]) s').
      { split.
        - eauto.
        - exact Hpre.
        - intros j d0 Hd0. cbn [s' swds sch set_file set_ch set_wds]. rewrite Hch. destruct (decide (id = j)) as [<-|Hj].
          + exists d'. rewrite list_lookup_insert by exact Hlt. rewrite Hd in Hd0. injection Hd0 as <-. split; [reflexivity|].
            split; [reflexivity|]. split; [reflexivity|]. intros Hn. exfalso. apply Hn. left.
          + exists d0. rewrite list_lookup_insert_ne by congruence. split; [exact Hd0|]. split; [reflexivity|]. split; [reflexivity|].
            intros Hn. split; [|reflexivity]. intros Hin. apply Hn. right. exact Hin.
        - rewrite HEE. auto. }
      exists (R ++ [e]). split; [eauto|]. split; [exact Hpre|].
      apply (mk_inv _ _ _ _ _ _ _ I Ht Hx);
      cbn [wpos wlog wtodo s' sfile sch swds scc smw smr swc soff sioend set_file set_ch set_wds
         incall direct holdsW holdsR wcx pend ubuf length]; fold s; try reflexivity; try lia; try exact (i_ex _ _ I);
         try (right; split; [reflexivity|tauto]).
      * right. exact Hc.
      * rewrite Hch. cbn [length]. lia.
      * rewrite bytes_app, bytes_one, app_length. cbn [e snd]. lia.
      * left. split; [exact Hc|]. intros _. rewrite Hbf, app_assoc, Hfull, bytes_app, bytes_one, app_assoc. reflexivity.
      * exact Hnd.
      * intros j Hj. assert (j <> id) by congruence. rewrite list_lookup_insert_ne by congruence. apply (i_sch _ _ I). fold s. rewrite Hch. right. exact Hj.
      * intros j d0 Hd0 Hn. destruct (Hlk j d0 Hd0) as [[-> ->]|[Hj Hd1]].
        -- cbn [d' down dbytes doff ddone]. split.
           ++ rewrite Hoff, Z.sub_0_r. apply placed_last.
           ++ intros Hdn. exfalso. destruct (i_sch _ _ I id) as (d0 & Hd00 & Hnd0); [fold s; rewrite Hch; left|]. fold s in Hd00. congruence.
        -- destruct (i_wd _ _ I j d0 Hd1) as [Hp Hf]; [fold s; rewrite Hch; apply not_elem_of_cons; auto|]. split; [apply placed_app; exact Hp|].
           intros Hdn. specialize (Hf Hdn). fold s in Hf. apply prefix_length in Hpre. lia.
      * change (NoDup (fst <$> (R ++ [e]) ++ queuedS s')). rewrite HEE. exact (i_E _ _ I).
      * change (forall e0, e0 ∈ (R ++ [e]) ++ queuedS s' -> e0 ∈ R ++ queuedS s \/
          (e0.1 = (t, length log) /\ posted (WIo c ko (IoAdd buf' ids' (Z.of_nat (length (dbytes d))))) /\ [c] <> [] /\ (forall c0, [c] = [c0] -> wbs c0 = e0.2))).
        rewrite HEE. auto.
      * eapply (tinv_next _ _ _ _ _ _ _ _ Hti Hx); [reflexivity|]. cbn [tpc wlog]. split.
        -- intros id0 Hid0. exact (own_ext _ _ _ _ _ _ _ _ Hx (Hown id0 Hid0)).
        -- cbn [io_ok]. assert (Hg : forall id0, id0 ∈ id :: ids -> gone s' id0).
           { intros id0 [ -> |Hin]%elem_of_cons; [|exact (gone_ext _ _ _ _ _ Hx (Hio id0 Hin))].
             split; [exact Hnq|]. exists d'. cbn [s' swds set_file set_ch set_wds]. apply list_lookup_insert. exact Hlt. }
           intros id0 Hin. apply Hg. unfold ids' in Hin. destruct (ddone d); [exact Hin|right; exact Hin].
    + (* IoAdd *) injection Hs as <- <-. destruct ko as [id|]; simple_step R I Ht; next Hti; (split; [exact Hown|exact Hio]).
    + (* IoDec *) injection Hs as <- <-. destruct (swc (wsh cf) - 1 =? 0) eqn:Hz.
      * apply Z.eqb_eq in Hz. assert (Hsch : sch (wsh cf) = []).
        { pose proof (i_wc _ _ I) as Hw. pose proof (sumZ_lookup (fun th => wcx (wpos th)) _ _ _ ltac:(intros; apply wcx_nonneg) Ht) as Hl.
          cbn [wpos wcx] in Hl. destruct (sch (wsh cf)); [reflexivity|]. cbn [length] in Hw. lia. }
        destruct ko as [id|]; simple_step R I Ht; next Hti; (split; [exact Hown|]); (split; [exact Hio|]); intros id0 _; cbn; rewrite Hsch;
          apply not_elem_of_nil.
      * destruct ko as [id|]; simple_step R I Ht; next Hti; (split; [exact Hown|exact Hio]).
    + (* IoEnd *) injection Hs as <- <-. destruct ko as [id|]; simple_step R I Ht; next Hti; (split; [exact Hown|exact Hio]).
    + (* IoFlush *) cbn [fwrite] in Hs. injection Hs as <- <-. set (s := wsh cf) in *.
      assert (Hx : ext R s R (set_file (sfile s ++ buf) s)).
      { split; cbn [sfile sch swds set_file].
        - exists []. rewrite app_nil_r. reflexivity.
        - apply prefix_app_r. reflexivity.
        - intros id d Hd. exists d. auto.
        - auto. }
      exists R. split; [exists []; rewrite app_nil_r; reflexivity|]. split; [exact (x_f _ _ _ _ Hx)|].
      apply (mk_inv _ _ _ _ _ _ _ I Ht Hx);
      cbn [wpos wlog wtodo sfile sch swds scc smw smr swc soff sioend set_file
         incall direct holdsW holdsR wcx pend ubuf length]; fold s; try reflexivity; try lia; try exact (i_ex _ _ I);
         try (right; split; [reflexivity|tauto]).
      * left. reflexivity.
      * left. split; [exact Hc|]. rewrite app_nil_r. auto.
      * exact (i_nodup _ _ I).
      * exact (i_sch _ _ I).
      * intros id d Hd Hn. destruct (i_wd _ _ I id d Hd Hn) as [Hp Hf]. split; [exact Hp|]. intros Hdn. specialize (Hf Hdn).
        fold s in Hf. rewrite app_length. lia.
      * exact (i_E _ _ I).
      * auto.
      * eapply (tinv_next _ _ _ _ _ _ _ _ Hti Hx); [reflexivity|]. cbn [tpc wlog]. destruct Hio as [Hi1 Hi2]. split; [exact Hown|].
        split; [exact Hi1|]. split; [exact Hi2|reflexivity].
    + (* IoClose nil *) injection Hs as <- <-. destruct Hio as (Hi1 & Hi2 & ->). destruct ko as [id|]; cbn [io_return].
      * simple_step R I Ht. next Hti. split; [exact (Hown id eq_refl)|].
        exact (settled_now _ _ _ _ _ I Ht Hc eq_refl (Hi2 id eq_refl)).
      * simple_step R I Ht. next Hti. exact Logic.I.
    + (* IoClose cons *) destruct (swds (wsh cf) !! id) as [d|] eqn:Hd; [|discriminate]. injection Hs as <- <-. set (s := wsh cf) in *.
      destruct Hio as (Hi1 & Hi2 & ->). destruct (Hi1 id ltac:(left)) as [Hnid _].
      set (d' := WD (down d) (dbytes d) (doff d) (Some true)). set (s' := set_wds (<[id := d']> (swds s)) s).
      assert (Hlt : (id < length (swds s))%nat) by (apply lookup_lt_Some in Hd; exact Hd).
      assert (Hq1 : queuedS s' = queuedS s) by exact (queued_insert s id d d' Hd eq_refl eq_refl).
      assert (Hx : ext R s R s').
      { split.
        - exists []. rewrite app_nil_r. reflexivity.
        - reflexivity.
        - intros j d0 Hd0. cbn [s' swds sch set_wds]. destruct (decide (id = j)) as [<-|Hj].
          + exists d'. rewrite list_lookup_insert by exact Hlt. rewrite Hd in Hd0. injection Hd0 as <-. auto.
          + exists d0. rewrite list_lookup_insert_ne by congruence. auto.
        - rewrite Hq1. auto. }
      pose proof (file_full _ _ _ _ I Ht Hc) as Hfull. cbn [wpos ubuf] in Hfull. fold s in Hfull. rewrite app_nil_r in Hfull.
      exists R. split; [exists []; rewrite app_nil_r; reflexivity|]. split; [reflexivity|].
      apply (mk_inv _ _ _ _ _ _ _ I Ht Hx);
      cbn [wpos wlog wtodo s' sfile sch swds scc smw smr swc soff sioend set_wds
         incall direct holdsW holdsR wcx pend ubuf length]; fold s; try reflexivity; try lia; try exact (i_ex _ _ I);
         try (right; split; [reflexivity|tauto]).
      * left. reflexivity.
      * exact (i_nodup _ _ I).
      * intros j Hj. assert (j <> id) by (intros ->; auto). rewrite list_lookup_insert_ne by congruence. exact (i_sch _ _ I j Hj).
      * intros j d0 Hd0 Hn. destruct (decide (j = id)) as [->|Hj].
        -- rewrite list_lookup_insert in Hd0 by exact Hlt. injection Hd0 as <-. cbn [d' down dbytes doff ddone].
           destruct (i_wd _ _ I id d Hd Hnid) as [Hp _]. split; [exact Hp|]. intros _. apply placed_bound in Hp. cbn [snd] in Hp.
           rewrite Hfull, app_length. unfold n0 in Hp. lia.
        -- rewrite list_lookup_insert_ne in Hd0 by congruence. exact (i_wd _ _ I j d0 Hd0 Hn).
      * fold s'. rewrite Hq1. exact (i_E _ _ I).
      * fold s'. rewrite Hq1. auto.
      * eapply (tinv_next _ _ _ _ _ _ _ _ Hti Hx); [reflexivity|]. cbn [tpc wlog]. split.
        -- intros id0 Hid0. exact (own_ext _ _ _ _ _ _ _ _ Hx (Hown id0 Hid0)).
        -- split; [|split; [exact Hi2|reflexivity]]. intros id0 Hin. apply (gone_ext _ _ _ _ _ Hx). apply Hi1. right. exact Hin.
Qed.

Lemma conf_step_inv R cf e : evio e = None -> inv R cf ->
  exists R', (exists X, R' = R ++ X) /\ sfile (wsh cf) `prefix_of` sfile (wsh (wconf_step cf e)) /\ inv R' (wconf_step cf e).
Proof.
  intros He I. unfold wconf_step. rewrite He.
  assert (Hsame : exists R', (exists X, R' = R ++ X) /\ sfile (wsh cf) `prefix_of` sfile (wsh cf) /\ inv R' cf).
  { exists R. split; [exists []; rewrite app_nil_r; reflexivity|]. split; [reflexivity|exact I]. }
  destruct (wths cf !! evt e) as [th|] eqn:Ht; [|exact Hsame].
  destruct (wthread_step (wsh cf) (evt e) th None (evtm e)) as [[s' th']|] eqn:Hs; [|exact Hsame].
  exact (step_inv _ _ _ _ _ _ _ I Ht Hs).
Qed.
Lemma run_inv evs R cf : no_io_error evs -> inv R cf ->
  exists R', (exists X, R' = R ++ X) /\ sfile (wsh cf) `prefix_of` sfile (wsh (wrun cf evs)) /\ inv R' (wrun cf evs).
Proof.
  revert R cf. induction evs as [|e evs IH]; intros R cf Hn I.
  - exists R. split; [exists []; rewrite app_nil_r; reflexivity|]. split; [reflexivity|exact I].
  - destruct (conf_step_inv R cf e (Hn e ltac:(left)) I) as (R1 & [X1 HX1] & Hf1 & I1).
    destruct (IH R1 (wconf_step cf e) ltac:(intros x Hx; apply Hn; right; exact Hx) I1) as (R2 & [X2 HX2] & Hf2 & I2).
    exists R2. split; [exists (X1 ++ X2); rewrite HX2, HX1, app_assoc; reflexivity|]. split; [etransitivity; eassumption|exact I2].
Qed.
Lemma init_inv : inv [] (winit f0 progs).
Proof.
  assert (Hth : forall t th, wths (winit f0 progs) !! t = Some th -> exists p, progs !! t = Some p /\ th = WTh p WIdle []).
  { intros t th Ht. cbn in Ht. rewrite list_lookup_fmap in Ht. destruct (progs !! t) as [p|] eqn:Hp; [|discriminate]. injection Ht as <-. eauto. }
  assert (Hz : forall f : wpc -> Z, f WIdle = 0 -> sumZ (fun th => f (wpos th)) (wths (winit f0 progs)) = 0).
  { intros f Hf. apply sumZ_zero. intros th Hin. apply elem_of_list_lookup in Hin as [t Ht]. destruct (Hth t th Ht) as (p & _ & ->). exact Hf. }
  split; rewrite ?Hz by reflexivity; cbn [wsh winit sfile soff sch swds swc scc smw smr sioend]; try reflexivity; try lia.
  - unfold n0, bytes_of. cbn. lia.
  - rewrite concat_all_nil; [reflexivity|]. intros th Hin. apply elem_of_list_lookup in Hin as [t Ht]. destruct (Hth t th Ht) as (p & _ & ->). reflexivity.
  - constructor.
  - intros id Hid. exfalso. revert Hid. apply not_elem_of_nil.
  - intros id d Hd. discriminate.
  - constructor.
  - intros e Hin. exfalso. revert Hin. apply not_elem_of_nil.
  - intros t th Ht. destruct (Hth t th Ht) as (p & Hp & ->). split; cbn [wlog wpos wtodo]; [exact Hp| |exact Logic.I].
    intros i c r Hi. discriminate.
Qed.
End inv.

(** ** One goroutine alone *)
Lemma seq_run_app f l1 l2 : seq_run f (l1 ++ l2) =
  let '(f1, r1) := seq_run f l1 in let '(f2, r2) := seq_run f1 l2 in (f2, r1 ++ r2).
Proof.
  revert f. induction l1 as [|[c o] l1 IH]; intros f.
  - cbn [app seq_run]. destruct (seq_run f l2). reflexivity.
  - cbn [app seq_run]. rewrite IH. destruct (seq_run (f ++ written o (wbs c)) l1) as [f1 r1]. destruct (seq_run f1 l2). reflexivity.
Qed.
Definition alone_pc (fl : list Z) (s : wshared) (p : wpc) : Prop :=
  match p with
  | WIdle | WEnter _ => sfile s = fl /\ soff s = Z.of_nat (length fl) /\ scc s = 0 /\ smw s = false /\ smr s = 0
  | WLock _ => sfile s = fl /\ soff s = Z.of_nat (length fl) /\ scc s = 1 /\ smw s = false /\ smr s = 0
  | WTest c | WFile c => sfile s = fl /\ soff s = Z.of_nat (length fl) /\ scc s = 1 /\ smw s = wsync c /\ smr s = (if wsync c then 0 else 1)
  | WOff c n e => exists o, sfile s = fl ++ written o (wbs c) /\ n = Z.of_nat (length (written o (wbs c))) /\ e = bool_decide (o <> None) /\
      soff s = Z.of_nat (length fl) /\ scc s = 1 /\ smw s = wsync c /\ smr s = (if wsync c then 0 else 1)
  | WUnlock c r => exists o, sfile s = fl ++ written o (wbs c) /\
      r = (if wsync c then Z.of_nat (length fl) else Z.of_nat (length (written o (wbs c))), bool_decide (o <> None)) /\
      soff s = Z.of_nat (length (sfile s)) /\ scc s = 1 /\ smw s = wsync c /\ smr s = (if wsync c then 0 else 1)
  | WLeave c r => exists o, sfile s = fl ++ written o (wbs c) /\
      r = (if wsync c then Z.of_nat (length fl) else Z.of_nat (length (written o (wbs c))), bool_decide (o <> None)) /\
      soff s = Z.of_nat (length (sfile s)) /\ scc s = 1 /\ smw s = false /\ smr s = 0
  | _ => False
  end.
Definition alone (f0 : list Z) (p : list wcall) (s : wshared) (th : wthread) : Prop :=
  exists outs fl,
    length outs = length (wlog th) /\
    seq_run f0 (zip (rev (fst <$> wlog th)) outs) = (fl, rev (snd <$> wlog th)) /\
    p = rev (fst <$> wlog th) ++ cur (wpos th) ++ wtodo th /\
    sch s = [] /\ swc s = 0 /\ alone_pc fl s (wpos th).
Lemma alone_step f0 p s th io tm s' th' t : alone f0 p s th -> wthread_step s t th io tm = Some (s', th') -> alone f0 p s' th'.
Proof.
  intros (outs & fl & Ho & Hr & Hp & Hch & Hwc & Hpc) Hs. destruct th as [todo q log]. unfold wthread_step in Hs.
  cbn [wpos wtodo wlog] in *.
  destruct q as [|c|c|c|c|c n e|c r|c|c|c id|c id|c id|c id|c id|c r|c ko q]; cbn [alone_pc] in Hpc; try contradiction.
  - destruct todo as [|c todo]; [discriminate|]. injection Hs as <- <-. exists outs, fl. cbn [wpos wtodo wlog]. repeat split; try assumption; apply Hpc.
  - destruct Hpc as (? & ? & Hcc & ? & ?). rewrite Hcc in Hs. cbn in Hs. injection Hs as <- <-. exists outs, fl. cbn [wpos wtodo wlog].
    repeat split; assumption.
  - destruct Hpc as (? & ? & ? & Hw & Hm). rewrite Hw, Hm in Hs. destruct (wsync c) eqn:Hsy; cbn in Hs; injection Hs as <- <-;
    exists outs, fl; cbn [wpos wtodo wlog alone_pc]; rewrite Hsy; repeat split; assumption.
  - rewrite Hwc in Hs. cbn in Hs. injection Hs as <- <-. exists outs, fl. cbn [wpos wtodo wlog]. repeat split; try assumption; apply Hpc.
  - destruct Hpc as (Hf & Hoff & Hcc & Hw & Hm). destruct (fwrite io (sfile s) (wbs c)) as [[f n] e] eqn:Hfw. injection Hs as <- <-.
    exists outs, fl. cbn [wpos wtodo wlog alone_pc]. split; [exact Ho|]. split; [exact Hr|]. split; [exact Hp|]. split; [exact Hch|].
    split; [exact Hwc|]. exists io. destruct io as [k|]; cbn [fwrite] in Hfw; injection Hfw as <- <- <-; cbn [written sfile set_file soff scc smw smr].
    + rewrite Hf, take_length. repeat split; try assumption.
    + rewrite Hf. repeat split; assumption.
  - destruct Hpc as (o & Hf & -> & -> & Hoff & Hcc & Hw & Hm). injection Hs as <- <-. exists outs, fl. cbn [wpos wtodo wlog alone_pc].
    split; [exact Ho|]. split; [exact Hr|]. split; [exact Hp|]. split; [exact Hch|]. split; [exact Hwc|]. exists o.
    cbn [sfile set_off soff scc smw smr]. split; [exact Hf|]. rewrite Hoff. split; [reflexivity|]. split; [rewrite Hf, app_length; lia|].
    repeat split; assumption.
  - destruct Hpc as (o & Hf & -> & Hoff & Hcc & Hw & Hm). injection Hs as <- <-. exists outs, fl. cbn [wpos wtodo wlog alone_pc].
    split; [exact Ho|]. split; [exact Hr|]. split; [exact Hp|].
    destruct (wsync c) eqn:Hsy; cbn [sch swc set_mu]; (split; [exact Hch|]); (split; [exact Hwc|]); exists o; cbn [sfile set_mu soff scc smw smr].
    + repeat split; try assumption.
    + rewrite Hm. repeat split; try assumption.
  - destruct Hpc as (o & Hf & -> & Hoff & Hcc & Hw & Hm). injection Hs as <- <-. exists (outs ++ [o]), (fl ++ written o (wbs c)).
    cbn [wpos wtodo wlog]. rewrite !fmap_cons. cbn [rev fst snd]. split; [rewrite app_length; cbn; lia|]. split.
    { rewrite zip_with_app by (rewrite rev_length, fmap_length; lia). rewrite seq_run_app, Hr. reflexivity. }
    split; [rewrite Hp; cbn [cur app]; rewrite <- app_assoc; reflexivity|]. split; [exact Hch|]. split; [exact Hwc|].
    cbn [alone_pc sfile soff scc smw smr set_cc]. split; [exact Hf|]. split; [rewrite Hoff, Hf; reflexivity|]. split; [lia|]. split; assumption.
Qed.
Lemma alone_run f0 p evs : exists s th, wrun (winit f0 [p]) evs = WConf s [th] /\ alone f0 p s th.
Proof.
  enough (H : forall s th, alone f0 p s th -> exists s' th', wrun (WConf s [th]) evs = WConf s' [th'] /\ alone f0 p s' th').
  { apply H. exists [], f0. cbn. repeat split. }
  induction evs as [|e evs IH]; intros s th Ha; [exists s, th; split; [reflexivity|exact Ha]|].
  change (wrun (WConf s [th]) (e :: evs)) with (wrun (wconf_step (WConf s [th]) e) evs).
  unfold wconf_step. cbn [wths wsh]. destruct (evt e) as [|t] eqn:Ht.
  - change ([th] !! 0%nat) with (Some th). cbv iota. destruct (wthread_step s 0 th (evio e) (evtm e)) as [[s' th']|] eqn:Hs; [|exact (IH s th Ha)].
    exact (IH s' th' (alone_step _ _ _ _ _ _ _ _ _ Ha Hs)).
  - change ([th] !! S t) with (@nil wthread !! t). rewrite lookup_nil. exact (IH s th Ha).
Qed.
Definition arank (p : wpc) : nat :=
  match p with WEnter _ => 7 | WLock _ => 6 | WTest _ => 5 | WFile _ => 4 | WOff _ _ _ => 3 | WUnlock _ _ => 2 | WLeave _ _ => 1 | _ => 0 end.
Definition ameas (th : wthread) : nat := (8 * length (wtodo th) + arank (wpos th))%nat.
Lemma alone_progress f0 p s th io tm t : alone f0 p s th ->
  (wpos th = WIdle /\ wtodo th = []) \/ exists s' th', wthread_step s t th io tm = Some (s', th') /\ (ameas th' < ameas th)%nat.
Proof.
  intros (outs & fl & Ho & Hr & Hp & Hch & Hwc & Hpc). destruct th as [todo q log]. unfold wthread_step, ameas. cbn [wpos wtodo wlog] in *.
  destruct q as [|c|c|c|c|c n e|c r|c|c|c id|c id|c id|c id|c id|c r|c ko q]; cbn [alone_pc] in Hpc; try contradiction.
  - destruct todo as [|c todo]; [left; auto|]. right. eexists _, _. split; [reflexivity|]. cbn [wpos wtodo arank length]. lia.
  - destruct Hpc as (_ & _ & Hcc & _). rewrite Hcc. change (0 + 1 <=? 1) with true. cbv iota. right. eexists _, _. split; [reflexivity|]. cbn [wpos wtodo arank]. lia.
  - destruct Hpc as (? & ? & ? & Hw & Hm). rewrite Hw, Hm. right. destruct (wsync c); eexists _, _; (split; [reflexivity|]); cbn [wpos wtodo arank]; lia.
  - rewrite Hwc. change (0 <? 0) with false. cbv iota. right. eexists _, _. split; [reflexivity|]. cbn [wpos wtodo arank]. lia.
  - right. destruct (fwrite io (sfile s) (wbs c)) as [[f n] e]. eexists _, _. split; [reflexivity|]. cbn [wpos wtodo arank]. lia.
  - right. eexists _, _. split; [reflexivity|]. cbn [wpos wtodo arank]. lia.
  - right. eexists _, _. split; [reflexivity|]. cbn [wpos wtodo arank]. lia.
  - right. eexists _, _. split; [reflexivity|]. cbn [wpos wtodo arank]. lia.
Qed.
Lemma alone_finish f0 p evs : (forall e, e ∈ evs -> evt e = 0%nat) -> (8 * length p <= length evs)%nat ->
  exists s th, wrun (winit f0 [p]) evs = WConf s [th] /\ alone f0 p s th /\ wpos th = WIdle /\ wtodo th = [].
Proof.
  intros He Hl.
  enough (H : forall s th, alone f0 p s th -> (ameas th <= length evs)%nat ->
    exists s' th', wrun (WConf s [th]) evs = WConf s' [th'] /\ alone f0 p s' th' /\ wpos th' = WIdle /\ wtodo th' = []).
  { apply H; [exists [], f0; cbn; repeat split|]. unfold ameas. cbn [wtodo wpos arank]. lia. }
  clear Hl. induction evs as [|e evs IH]; intros s th Ha Hm.
  - destruct (alone_progress _ _ _ _ None true 0 Ha) as [[H1 H2]|(s' & th' & _ & Hlt)].
    + exists s, th. split; [reflexivity|auto].
    + cbn [length] in Hm. lia.
  - change (wrun (WConf s [th]) (e :: evs)) with (wrun (wconf_step (WConf s [th]) e) evs).
    unfold wconf_step. cbn [wths wsh]. rewrite (He e ltac:(left)). change ([th] !! 0%nat) with (Some th). cbv iota.
    specialize (IH ltac:(intros x Hx; apply He; right; exact Hx)).
    destruct (alone_progress _ _ _ _ (evio e) (evtm e) 0 Ha) as [[H1 H2]|(s' & th' & Hs & Hlt)].
    + destruct (wthread_step s 0 th (evio e) (evtm e)) as [[s' th']|] eqn:Hs.
      * unfold wthread_step in Hs. rewrite H1, H2 in Hs. discriminate.
      * apply IH; [exact Ha|]. unfold ameas. rewrite H1, H2. cbn. lia.
    + rewrite Hs. apply IH; [exact (alone_step _ _ _ _ _ _ _ _ _ Ha Hs)|]. cbn [length] in Hm. lia.
Qed.

(** ** A call made alone empties the queue *)
Definition late (p : wpc) : Prop :=
  match p with WFile _ | WOff _ _ _ | WUnlock _ _ | WLeave _ _ | WIo _ None (IoEnd _ _ | IoFlush _ _ | IoClose _ _) => True | _ => False end.
Definition early (p : wpc) : Prop :=
  match p with WIdle | WEnter _ | WLock _ | WTest _ | WIo _ None (IoTest | IoSet | IoRecv _ _ | IoAdd _ _ _ | IoDec _ _) => True | _ => False end.
Definition drain (n : nat) (t : nat) (cf : wconf) : Prop :=
  exists th, wths cf !! t = Some th /\ (forall j y, j <> t -> wths cf !! j = Some y -> wpos y = WIdle) /\
  (late (wpos th) \/ early (wpos th)) /\ (n <= length (wlog th))%nat /\
  ((late (wpos th) \/ (n < length (wlog th))%nat) -> sch (wsh cf) = []).
Lemma drain_step f0 progs R cf n t e : evio e = None -> evt e = t -> inv f0 progs R cf -> drain n t cf -> drain n t (wconf_step cf e).
Proof.
  intros He Het I (th & Ht & Hoth & Hel & Hn & Hz). unfold wconf_step. rewrite Het, Ht, He.
  destruct (wthread_step (wsh cf) t th None (evtm e)) as [[s' th']|] eqn:Hs; [|exists th; repeat split; assumption].
  assert (Hlt : (t < length (wths cf))%nat) by (apply lookup_lt_Some in Ht; exact Ht).
  assert (Hgoal : (late (wpos th') \/ early (wpos th')) /\ (n <= length (wlog th'))%nat /\
    ((late (wpos th') \/ (n < length (wlog th'))%nat) -> sch s' = [])).
  { assert (Hcc : scc (wsh cf) = incall (wpos th)).
    { rewrite (i_cc _ _ _ _ I). rewrite (sumZ_only (fun th => incall (wpos th)) _ t th Ht); [reflexivity|].
      intros j y Hj Hy. rewrite (Hoth j y Hj Hy). reflexivity. }
    assert (Hwc : swc (wsh cf) = Z.of_nat (length (sch (wsh cf))) + wcx (wpos th)).
    { rewrite (i_wc _ _ _ _ I). rewrite (sumZ_only (fun th => wcx (wpos th)) _ t th Ht); [reflexivity|].
      intros j y Hj Hy. rewrite (Hoth j y Hj Hy). reflexivity. }
    destruct th as [todo q log]. unfold wthread_step in Hs. cbn [wpos wtodo wlog] in *.
    destruct q as [|c|c|c|c|c m e0|c r|c|c|c id|c id|c id|c id|c id|c r|c [id|] q]; cbn [late early incall wcx] in *; try tauto.
    - destruct todo as [|c todo]; [discriminate|]. injection Hs as <- <-. cbn. split; [tauto|]. split; [exact Hn|]. intros [[]|H]. auto.
    - rewrite Hcc in Hs. cbn in Hs. injection Hs as <- <-. cbn. split; [tauto|]. split; [exact Hn|]. intros [[]|H]. auto.
    - destruct (smw (wsh cf)); [discriminate|]. destruct (wsync c); [destruct (smr (wsh cf) =? 0); [|discriminate]|]; injection Hs as <- <-; cbn;
        (split; [tauto|]); (split; [exact Hn|]); intros [[]|H]; auto.
    - injection Hs as <- <-. destruct (0 <? swc (wsh cf)) eqn:Hw; cbn; (split; [tauto|]); (split; [exact Hn|]); intros H.
      + destruct H as [[]|H]. auto.
      + apply Z.ltb_ge in Hw. destruct (sch (wsh cf)); [reflexivity|cbn in Hwc; lia].
    - cbn [fwrite] in Hs. injection Hs as <- <-. cbn. split; [tauto|]. split; [exact Hn|]. auto.
    - injection Hs as <- <-. cbn. split; [tauto|]. split; [exact Hn|]. auto.
    - injection Hs as <- <-. cbn. split; [tauto|]. split; [exact Hn|]. destruct (wsync c); auto.
    - injection Hs as <- <-. cbn. split; [tauto|]. split; [lia|]. auto.
    - destruct q as [| |buf ids|buf ids m|buf ids|buf ids|buf ids|[|id ids] err]; cbn [late early wcx io_return] in *.
      + destruct (swc (wsh cf) =? 0) eqn:Hw; injection Hs as <- <-; cbn; (split; [tauto|]); (split; [exact Hn|]); intros H.
        * apply Z.eqb_eq in Hw. destruct (sch (wsh cf)); [reflexivity|cbn in Hwc; lia].
        * destruct H as [[]|H]. auto.
      + injection Hs as <- <-. cbn. split; [tauto|]. split; [exact Hn|]. intros [[]|H]. auto.
      + destruct (sch (wsh cf)) as [|id q] eqn:Hch; [discriminate|]. destruct (swds (wsh cf) !! id) as [d|]; [|discriminate].
        destruct (bwrite_ok (sfile (wsh cf)) buf (dbytes d)) as (f' & buf' & Hbw & _). cbn [sfile set_ch set_wds] in Hs. rewrite Hbw in Hs.
        injection Hs as <- <-. cbn. split; [tauto|]. split; [exact Hn|]. intros [[]|H]. specialize (Hz (or_intror H)). discriminate.
      + injection Hs as <- <-. cbn. split; [tauto|]. split; [exact Hn|]. intros [[]|H]. auto.
      + injection Hs as <- <-. destruct (swc (wsh cf) - 1 =? 0) eqn:Hw; cbn; (split; [tauto|]); (split; [exact Hn|]); intros H.
        * apply Z.eqb_eq in Hw. destruct (sch (wsh cf)); [reflexivity|cbn in Hwc; lia].
        * destruct H as [[]|H]. auto.
      + injection Hs as <- <-. cbn. split; [tauto|]. split; [exact Hn|]. auto.
      + cbn [fwrite] in Hs. injection Hs as <- <-. cbn. split; [tauto|]. split; [exact Hn|]. auto.
      + injection Hs as <- <-. cbn. split; [tauto|]. split; [exact Hn|]. auto.
      + destruct (swds (wsh cf) !! id) as [d|]; [|discriminate]. injection Hs as <- <-. cbn. split; [tauto|]. split; [exact Hn|]. auto. }
  exists th'. cbn [wths wsh]. rewrite list_lookup_insert by exact Hlt. split; [reflexivity|]. split; [|exact Hgoal].
  intros j y Hj Hy. rewrite list_lookup_insert_ne in Hy by congruence. exact (Hoth j y Hj Hy).
Qed.
Lemma drain_run f0 progs evs R cf n t : no_io_error evs -> (forall e, e ∈ evs -> evt e = t) -> inv f0 progs R cf -> drain n t cf ->
  drain n t (wrun cf evs).
Proof.
  revert R cf. induction evs as [|e evs IH]; intros R cf Hno Ht I D; [exact D|].
  destruct (conf_step_inv _ _ R cf e (Hno e ltac:(left)) I) as (R1 & _ & _ & I1).
  apply (IH R1 (wconf_step cf e)); [intros x Hx; apply Hno; right; exact Hx|intros x Hx; apply Ht; right; exact Hx|exact I1|].
  exact (drain_step _ _ _ _ _ _ _ (Hno e ltac:(left)) (Ht e ltac:(left)) I D).
Qed.
