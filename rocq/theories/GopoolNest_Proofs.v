(** Functions that use the pool are further clients that begin later: every run of [GopoolNest_Model] is one of [Gopool_Model]. *)
From stdpp Require Import list.
From Coq Require Import ZArith Lia.
From Verif Require Import Conc Gopool_Model Gopool_Spec Gopool_Proofs GopoolNest_Model GopoolNest_Spec.
Local Open Scope Z_scope.

Lemma sumZ_perm {A} (f : A -> Z) l1 l2 : l1 ≡ₚ l2 -> sumZ f l1 = sumZ f l2.
Proof. induction 1; rewrite ?sumZ_cons; try lia; reflexivity. Qed.
Lemma insert_perm {A} (l1 l2 : list A) i j x y : l1 ≡ₚ l2 -> l1 !! i = Some x -> l2 !! j = Some x -> <[i := y]> l1 ≡ₚ <[j := y]> l2.
Proof.
  intros P Hi Hj. pose proof (take_drop_middle _ _ _ Hi) as E1. pose proof (take_drop_middle _ _ _ Hj) as E2.
  rewrite (insert_take_drop _ _ _ (lookup_lt_Some _ _ _ Hi)), (insert_take_drop _ _ _ (lookup_lt_Some _ _ _ Hj)).
  rewrite <- !Permutation_middle. constructor. apply (Permutation_cons_inv (a := x)). rewrite !Permutation_middle, E1, E2. exact P.
Qed.

Section nest.
Context (min max lim : Z) (prog : fid -> list gact) (n : nat).
Notation gstep := (gstep min max lim).
Notation grun := (grun min max lim).
Notation nstep := (nstep min max lim prog n).
Notation nrun := (nrun min max lim prog n).

(** The order of the goroutines does not matter. *)
Lemma perm_step s T1 T2 e : T1 ≡ₚ T2 -> exists e', gsh (gconf_step min max lim (GC s T2) e') = gsh (gconf_step min max lim (GC s T1) e) /\
  gths (gconf_step min max lim (GC s T1) e) ≡ₚ gths (gconf_step min max lim (GC s T2) e').
Proof.
  intros P. unfold gconf_step. cbn [gsh gths]. destruct (gcrash s) eqn:C; [exists e; auto|].
  destruct (T1 !! e.1) as [th|] eqn:E1.
  - assert (H : th ∈ T2) by (rewrite <- P; exact (elem_of_list_lookup_2 _ _ _ E1)). apply elem_of_list_lookup in H as [j Hj]. exists (j, e.2). cbn [fst snd]. rewrite Hj.
    destruct (gstep s th e.2) as [[[s' th'] new]|]; cbn [gsh gths]; [|auto]. split; [reflexivity|]. apply Permutation_app; [|reflexivity]. exact (insert_perm _ _ _ _ _ _ P E1 Hj).
  - exists (length T2, false). cbn [fst snd]. rewrite (lookup_ge_None_2 T2 (length T2)) by lia. auto.
Qed.
Lemma perm_run evs : forall s T1 T2, T1 ≡ₚ T2 -> exists evs', gsh (grun (GC s T2) evs') = gsh (grun (GC s T1) evs) /\ gths (grun (GC s T1) evs) ≡ₚ gths (grun (GC s T2) evs').
Proof.
  induction evs as [|e evs IH]; intros s T1 T2 P; [exists []; auto|]. destruct (perm_step s T1 T2 e P) as (e' & E & Q).
  destruct (IH (gsh (gconf_step min max lim (GC s T1) e)) _ _ Q) as (evs' & E' & Q'). exists (e' :: evs'). cbn [foldl Gopool_Model.grun].
  change (gsh (grun (gconf_step min max lim (GC s T2) e') evs') = gsh (grun (gconf_step min max lim (GC s T1) e) evs) /\
          gths (grun (gconf_step min max lim (GC s T1) e) evs) ≡ₚ gths (grun (gconf_step min max lim (GC s T2) e') evs')).
  destruct (gconf_step min max lim (GC s T1) e) as [s1 T1'] eqn:X1. destruct (gconf_step min max lim (GC s T2) e') as [s2 T2'] eqn:X2. cbn [gsh gths] in *. subst s2. auto.
Qed.
(** Only a goroutine that starts a function adds to the list of those that have been started. *)
Lemma step_start s th ch s' th' new : gstep s th ch = Some (s', th', new) -> gstart s' = gstart s ++ match starts th with Some f => [f] | None => [] end.
Proof.
  intros H. assert (K : gstart s = gstart s ++ []) by (rewrite app_nil_r; reflexivity).
  destruct th as [t todo k p|p|w p|f| | |]; cbn [Gopool_Model.gstep starts] in *;
    repeat match type of H with
    | (if ?c then _ else _) = _ => destruct c
    | match ?x with _ => _ end = _ => destruct x
    end; try discriminate; injection H as <- <- <-; try exact K; try reflexivity; destruct ch; exact K.
Qed.

(** The clients that the functions in this list will be. *)
Definition later (k : nat) (fs : list fid) : list gth := imap (fun m f => GClient (k + m) (prog f) 0 CIdle) fs.
Lemma later_cons k f fs : later k (f :: fs) = GClient k (prog f) 0 CIdle :: later (S k) fs.
Proof. unfold later. cbn [imap]. rewrite Nat.add_0_r. f_equal. apply imap_ext. intros i x _. cbn. f_equal. lia. Qed.
Lemma nest_step c e : let c' := nstep c e in
  exists fs evs', gstart (gsh (nbase c')) = gstart (gsh (nbase c)) ++ fs /\ forall U,
    let b := grun (GC (gsh (nbase c)) (gths (nbase c) ++ later (n + length (gstart (gsh (nbase c)))) fs ++ U)) evs' in
    gsh b = gsh (nbase c') /\ gths b ≡ₚ gths (nbase c') ++ U.
Proof.
  cbv zeta.
  assert (K : exists fs evs', gstart (gsh (nbase c)) = gstart (gsh (nbase c)) ++ fs /\ forall U,
    let b := grun (GC (gsh (nbase c)) (gths (nbase c) ++ later (n + length (gstart (gsh (nbase c)))) fs ++ U)) evs' in
    gsh b = gsh (nbase c) /\ gths b ≡ₚ gths (nbase c) ++ U) by (exists [], []; split; [rewrite app_nil_r; reflexivity|intros U; split; reflexivity]).
  unfold GopoolNest_Model.nstep. destruct (gcrash (gsh (nbase c))) eqn:Hc; [exact K|].
  destruct (gths (nbase c) !! e.1) as [th|] eqn:Ht; [|exact K]. destruct (in_body th && negb (calls_done c e.1)); [exact K|].
  destruct (gstep (gsh (nbase c)) th e.2) as [[[s' th'] new]|] eqn:Hs; [|exact K]. clear K.
  pose proof (step_start _ _ _ _ _ _ Hs) as Hst. pose proof (lookup_lt_Some _ _ _ Ht) as Hlt.
  assert (F : forall V, gconf_step min max lim (GC (gsh (nbase c)) (gths (nbase c) ++ V)) e = GC s' ((<[e.1 := th']> (gths (nbase c)) ++ V) ++ new)).
  { intros V. unfold gconf_step. cbn [gsh gths]. rewrite Hc, lookup_app_l by exact Hlt. rewrite Ht, Hs. rewrite insert_app_l by exact Hlt. reflexivity. }
  destruct (starts th) as [f|] eqn:Hf.
  - exists [f], [e]. cbn [nbase gsh gths]. split; [exact Hst|]. intros U. change (grun ?x [e]) with (gconf_step min max lim x e). rewrite later_cons, F. cbn [gsh gths].
    split; [reflexivity|]. change (later (S (n + length (gstart (gsh (nbase c))))) []) with (@nil gth). cbn [app]. solve_Permutation.
  - exists [], [e]. cbn [nbase gsh gths]. split; [exact Hst|]. intros U. change (grun ?x [e]) with (gconf_step min max lim x e). change (later ?k []) with (@nil gth). cbn [app]. rewrite F. cbn [gsh gths].
    split; [reflexivity|]. solve_Permutation.
Qed.
Lemma later_app k a b : later k (a ++ b) = later k a ++ later (k + length a) b.
Proof. unfold later. rewrite imap_app. f_equal. apply imap_ext. intros i x _. cbn. f_equal. lia. Qed.
Lemma nest_run evs : forall c, let c' := nrun c evs in
  exists fs evs', gstart (gsh (nbase c')) = gstart (gsh (nbase c)) ++ fs /\
    let b := grun (GC (gsh (nbase c)) (gths (nbase c) ++ later (n + length (gstart (gsh (nbase c)))) fs)) evs' in
    gsh b = gsh (nbase c') /\ gths b ≡ₚ gths (nbase c').
Proof.
  induction evs as [|e evs IH]; intros c c'.
  - exists [], []. split; [unfold c'; rewrite app_nil_r; reflexivity|]. cbn. rewrite app_nil_r. auto.
  - destruct (nest_step c e) as (f1 & v1 & S1 & R1). destruct (IH (nstep c e)) as (f2 & v2 & S2 & R2). change (nrun (nstep c e) evs) with c' in *.
    specialize (R1 (later (n + length (gstart (gsh (nbase (nstep c e))))) f2)). cbv zeta in R1, R2. destruct R1 as [R1 P1]. destruct R2 as [R2 P2].
    set (b := grun _ v1) in *. destruct (perm_run v2 (gsh (nbase (nstep c e))) _ _ (Permutation_sym P1)) as (v2' & R3 & P3).
    exists (f1 ++ f2), (v1 ++ v2'). split; [rewrite S2, S1, app_assoc; reflexivity|]. cbv zeta. rewrite later_app.
    replace (n + length (gstart (gsh (nbase c))) + length f1)%nat with (n + length (gstart (gsh (nbase (nstep c e)))))%nat by (rewrite S1, app_length; lia).
    unfold Gopool_Model.grun. rewrite foldl_app. fold (grun (GC (gsh (nbase c)) (gths (nbase c) ++ later (n + length (gstart (gsh (nbase c)))) f1 ++ later (n + length (gstart (gsh (nbase (nstep c e))))) f2)) v1). fold b.
    fold (grun b v2'). replace b with (GC (gsh (nbase (nstep c e))) (gths b)) by (destruct b as [s0 T0]; cbn [gsh gths] in *; congruence).
    rewrite R3, <- P3. auto.
Qed.
End nest.

(** From the beginning. *)
Lemma nest_flat min max lim prog progs evs : let c := nrun min max lim prog (length progs) (ninit progs) evs in
  exists evs', let b := grun min max lim (ginit (all_calls prog progs (gstart (gsh (nbase c))))) evs' in
    gsh b = gsh (nbase c) /\ gths b ≡ₚ gths (nbase c).
Proof.
  intros c. destruct (nest_run min max lim prog (length progs) evs (ninit progs)) as (fs & evs' & S & R). fold c in S, R. cbn [ninit ginit nbase gsh gths gstart app length] in S, R.
  exists evs'. rewrite S. rewrite Nat.add_0_r in R. unfold ginit, all_calls. rewrite imap_app.
  replace (imap ((fun (t : nat) (p : list gact) => GClient t p 0 CIdle) ∘ Nat.add (length progs)) (prog <$> fs)) with (later prog (length progs) fs); [exact R|].
  unfold later. rewrite imap_fmap. reflexivity.
Qed.

(** ** Counting *)
Lemma perm_tot f b c : gsh b = gsh c -> gths b ≡ₚ gths c -> tot f b = tot f c /\ held f b = held f c.
Proof. intros E P. unfold tot, held. rewrite E, (sumZ_perm _ _ _ P), (sumZ_perm (hold f) _ _ P). auto. Qed.
Lemma held_tot f c : held f c <= tot f c.
Proof.
  unfold held, tot. rewrite sum_tok. assert (0 <= sumZ (future f) (gths c)); [|lia].
  apply sumZ_nonneg. intros th _. unfold future. destruct th; try lia. apply fut_nonneg.
Qed.
(** The functions that can be submitted. *)
Definition ids (progs : list (list gact)) : list fid := concat (imap (fun t (p : list gact) => (fun k => (t, k)) <$> seq 0 (length p)) progs).
Lemma ids_length progs : length (ids progs) = length (concat progs).
Proof.
  unfold ids. enough (H : forall m, length (concat (imap (fun t (p : list gact) => (fun k => ((m + t)%nat, k)) <$> seq 0 (length p)) progs)) = length (concat progs)) by exact (H 0%nat).
  induction progs as [|p progs IH]; intros m; [reflexivity|]. cbn [imap concat]. rewrite !app_length, fmap_length, seq_length. f_equal. rewrite <- (IH (S m)). f_equal. f_equal. apply imap_ext. intros i x _. cbn.
  apply list_fmap_ext. intros ? ? _. f_equal. lia.
Qed.
Lemma ids_elem progs f : submits progs f -> f ∈ ids progs.
Proof.
  intros (p & Hp & Hf). unfold ids. apply elem_of_list_In, in_concat. exists ((fun k => (f.1, k)) <$> seq 0 (length p)). split.
  - apply elem_of_list_In. apply elem_of_list_lookup. exists f.1. rewrite list_lookup_imap, Hp. reflexivity.
  - apply elem_of_list_In. apply elem_of_list_fmap. exists f.2. split; [destruct f; reflexivity|]. apply elem_of_list_In, in_seq. apply lookup_lt_Some in Hf. lia.
Qed.
(** While a client is about to send, the queue holds fewer functions than can be submitted. *)
Lemma queue_room progs c i t todo k f : once_inv progs c -> gths c !! i = Some (GClient t todo k (CSend f)) -> Z.of_nat (length (fq (gsh c))) < Z.of_nat (length (concat progs)).
Proof.
  intros O Hi. assert (C : forall g, cnt g (f :: fq (gsh c)) <= held g c).
  { intros g. unfold held, rest. pose proof (sumZ_lookup (hold g) _ _ _ ltac:(intros; apply hold_nonneg) Hi) as H. cbn [hold chold] in H. rewrite cnt_cons.
    pose proof (tasks_nonneg g (gws (gsh c))). pose proof (cnt_nonneg g (gstart (gsh c))). lia. }
  assert (N : NoDup (f :: fq (gsh c))). { apply cnt_NoDup. intros g. pose proof (C g). pose proof (held_tot g c). pose proof (o_tot _ _ O g). lia. }
  assert (S : f :: fq (gsh c) ⊆+ ids progs). { apply NoDup_submseteq; [exact N|]. intros g Hg. apply ids_elem, (o_held _ _ O). pose proof (C g). pose proof (cnt_elem _ _ Hg). lia. }
  apply submseteq_length in S. rewrite ids_length in S. cbn [length] in S. lia.
Qed.

(** ** Clients *)
Lemma client_step min max lim s t todo k p ch s' th' new : gstep min max lim s (GClient t todo k p) ch = Some (s', th', new) ->
  (exists todo' k' p', th' = GClient t todo' k' p') \/ gcrash s' = true.
Proof.
  intros H. destruct p; cbn [gstep] in H; repeat match type of H with (if ?c then _ else _) = _ => destruct c | match ?x with _ => _ end = _ => destruct x end; try discriminate; injection H as <- <- <-; eauto.
Qed.
Definition is_client (T : list gth) (j t : nat) : Prop := exists todo k p, T !! j = Some (GClient t todo k p).
Lemma clients_stay min max lim evs : forall c t, is_client (gths c) t t -> let c' := grun min max lim c evs in gcrash (gsh c') = true \/ is_client (gths c') t t.
Proof.
  induction evs as [|e evs IH]; intros c t H; [right; exact H|]. cbv zeta.
  change (grun min max lim c (e :: evs)) with (grun min max lim (gconf_step min max lim c e) evs).
  assert (S : gcrash (gsh (gconf_step min max lim c e)) = true \/ is_client (gths (gconf_step min max lim c e)) t t).
  { unfold gconf_step. destruct (gcrash (gsh c)) eqn:C; [auto|]. destruct (gths c !! e.1) as [th|] eqn:Ht; [|auto]. destruct (gstep min max lim (gsh c) th e.2) as [[[s' th'] new]|] eqn:Hs; [|auto].
    cbn [gsh gths]. destruct H as (todo & k & p & H). destruct (decide (e.1 = t)) as [<-|Hn].
    - rewrite Ht in H. injection H as ->. destruct (client_step _ _ _ _ _ _ _ _ _ _ _ _ Hs) as [(todo' & k' & p' & ->)|Hc]; [|auto]. right. exists todo', k', p'. 
      rewrite lookup_app_l by (rewrite insert_length; exact (lookup_lt_Some _ _ _ Ht)). apply list_lookup_insert. exact (lookup_lt_Some _ _ _ Ht).
    - right. exists todo, k, p. rewrite lookup_app_l by (rewrite insert_length; exact (lookup_lt_Some _ _ _ H)). rewrite list_lookup_insert_ne by exact Hn. exact H. }
  destruct S as [S|S]; [|exact (IH _ _ S)]. left. clear - S. revert S. generalize (gconf_step min max lim c e). induction evs as [|e' evs IH]; intros b Hb; [exact Hb|].
  change (grun min max lim b (e' :: evs)) with (grun min max lim (gconf_step min max lim b e') evs). apply IH. unfold gconf_step. rewrite Hb. exact Hb.
Qed.
Lemma init_client progs t p : progs !! t = Some p -> is_client (gths (ginit progs)) t t.
Proof. intros H. exists p, 0%nat, CIdle. cbn [ginit gths]. rewrite list_lookup_imap, H. reflexivity. Qed.
(** The goroutines that stand for the calls of functions are clients. *)
Definition calls_ok (c : nconf) : Prop := gcrash (gsh (nbase c)) = true \/ Forall (fun ij => exists t, is_client (gths (nbase c)) ij.2 t) (ncalls c).
Lemma calls_step min max lim prog n c e : calls_ok c -> calls_ok (nstep min max lim prog n c e).
Proof.
  intros H. unfold nstep. destruct (gcrash (gsh (nbase c))) eqn:C; [exact H|]. destruct (gths (nbase c) !! e.1) as [th|] eqn:Ht; [|exact H]. destruct (_ && _); [exact H|].
  destruct (gstep min max lim (gsh (nbase c)) th e.2) as [[[s' th'] new]|] eqn:Hs; [|exact H]. destruct H as [H|H]; [congruence|].
  destruct (gcrash s') eqn:C'; [left; destruct (starts th); exact C'|]. right.
  assert (K : Forall (fun ij : nat * nat => exists t, is_client (<[e.1 := th']> (gths (nbase c)) ++ new) ij.2 t) (ncalls c)).
  { apply (Forall_impl _ _ _ H). intros [i j] (t & todo & k & p & Hj). cbn [snd] in *. destruct (decide (e.1 = j)) as [<-|Hn].
    - rewrite Ht in Hj. injection Hj as ->. destruct (client_step _ _ _ _ _ _ _ _ _ _ _ _ Hs) as [(todo' & k' & p' & ->)|Hc]; [|congruence]. exists t, todo', k', p'.
      rewrite lookup_app_l by (rewrite insert_length; exact (lookup_lt_Some _ _ _ Ht)). apply list_lookup_insert. exact (lookup_lt_Some _ _ _ Ht).
    - exists t, todo, k, p. rewrite lookup_app_l by (rewrite insert_length; exact (lookup_lt_Some _ _ _ Hj)). rewrite list_lookup_insert_ne by exact Hn. exact Hj. }
  destruct (starts th) as [f|]; cbn [nbase gths ncalls]; [|exact K]. apply Forall_app. split.
  - apply (Forall_impl _ _ _ K). intros [i j] (t & todo & k & p & Hj). cbn [snd] in *. exists t, todo, k, p. rewrite lookup_app_l by exact (lookup_lt_Some _ _ _ Hj). exact Hj.
  - constructor; [|constructor]. cbn [snd]. exists (n + length (gstart (gsh (nbase c))))%nat, (prog f), 0%nat, CIdle. rewrite lookup_app_r by lia. rewrite Nat.sub_diag. reflexivity.
Qed.
Lemma calls_run min max lim prog n evs c : calls_ok c -> calls_ok (nrun min max lim prog n c evs).
Proof. revert c. induction evs as [|e evs IH]; intros c H; [exact H|]. exact (IH _ (calls_step _ _ _ _ _ _ e H)). Qed.
