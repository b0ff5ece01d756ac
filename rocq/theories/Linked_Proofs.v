(** LinkedHashMap refines its list specification. *)
From stdpp Require Import gmap.
From Coq Require Import ZArith Lia.
From Verif Require Import GoList_Model GoList_Proofs Assoc_Spec Keyed_Proofs Linked_Model Linked_Spec.
Local Open Scope Z_scope.

Section proofs.
Context {K V : Type} `{Countable K}.
Implicit Types (s : list (K * V)) (t : lhm K V).

(** The map [t] with limit [lim] holds the entries [s]. *)
Definition holds (lim : Z) t s : Prop :=
  keyed (m t) (lst t) s /\ count t = Z.of_nat (length s) /\ limit t = lim /\ count t <= Z.max 0 lim.

Lemma holds_new lim : holds lim (NewLinkedHashMap lim) [].
Proof. unfold holds. cbn. split; [apply keyed_new|]. split; [auto|]. split; [auto|]. lia. Qed.

Lemma keyed_nodup idx (l : dlist (K * V)) s : keyed idx l s -> NoDup (s.*1).
Proof. intros (xs & _ & _ & Hn & _). auto. Qed.

Lemma removelast_snoc {A} (l : list A) x : removelast (l ++ [x]) = l.
Proof. apply removelast_last. Qed.

Lemma put_body_holds lim t s k v : holds lim t s ->
  let '(pre, t') := put_body k v t in
  holds lim t' (spec_put lim k v s) /\
  match pre with Some e => option_map snd (vals (lst t') !! e) | None => None end = find_key k s.
Proof.
  intros (Hk & Hc & Hl & Hb). unfold put_body, spec_put.
  destruct (m t !! k) as [x|] eqn:E.
  - destruct (keyed_Some _ _ _ _ _ Hk E) as (v0 & Hv0 & Hf). rewrite Hf.
    pose proof (keyed_replace _ _ _ _ _ v Hk E) as HR.
    destruct (list_PushFront (k, v) (lst t)) as [e l']. destruct HR as [HR Hx].
    split; [|cbn [lst]; rewrite Hx, Hv0; reflexivity].
    unfold holds. cbn [m lst limit count]. split; [auto|].
    assert (Hne : find_key k s <> None) by (rewrite Hf; discriminate).
    pose proof (length_without k s (keyed_nodup _ _ _ Hk) Hne) as HL.
    cbn [length]. rewrite <- HL. auto.
  - pose proof (proj1 (keyed_None _ _ _ k Hk) E) as Hf. rewrite Hf.
    pose proof (keyed_push _ _ _ k v Hk E) as HP.
    destruct (list_PushFront (k, v) (lst t)) as [e l'].
    rewrite Hl, Hc. replace (Z.of_nat (length s) + 1) with (Z.of_nat (S (length s))) by lia.
    destruct (Z.leb_spec (Z.of_nat (S (length s))) lim) as [Hle|Hgt].
    + rewrite (proj2 (Z.ltb_ge _ _)) by lia. split; [|reflexivity].
      unfold holds. cbn [m lst limit count length]. repeat split; auto. lia.
    + rewrite (proj2 (Z.ltb_lt _ _)) by lia.
      pose proof (keyed_back _ _ _ HP) as HB. destruct (list_Back l') as [o|]; [|discriminate].
      destruct HB as (s' & ko & vo & Hs & Hvo & Hko & Hk' & Hvo'). rewrite Hvo', Hs, removelast_snoc.
      split; [|reflexivity]. unfold holds. cbn [m lst limit count].
      assert (HL : length s = length s').
      { apply (f_equal length) in Hs. rewrite app_length in Hs. cbn in Hs. lia. }
      rewrite <- HL. repeat split; auto; lia.
Qed.

Lemma step_holds lim t s o : holds lim t s ->
  let '(r, t') := step t o in let '(r', s') := spec_step lim s o in r = r' /\ holds lim t' s'.
Proof.
  intros Hh. destruct o as [k v|k v|k|k| | | | |k]; cbn [step spec_step].
  - unfold Put. pose proof (put_body_holds lim t s k v Hh) as HP.
    destruct (put_body k v t) as [pre t']. tauto.
  - unfold LoadOrStore. pose proof (put_body_holds lim t s k v Hh) as HP.
    destruct (put_body k v t) as [pre t']. destruct HP as [HP Hr]. split; auto. f_equal. auto.
  - split; auto. f_equal. destruct Hh as (Hk & _). apply (keyed_get _ _ _ k Hk).
  - split; auto. destruct Hh as (Hk & Hc & Hl & Hb). unfold Delete.
    destruct (m t !! k) as [x|] eqn:E.
    + destruct (keyed_Some _ _ _ _ _ Hk E) as (v0 & Hv0 & Hf).
      assert (Hne : find_key k s <> None) by (rewrite Hf; discriminate).
    pose proof (length_without k s (keyed_nodup _ _ _ Hk) Hne) as HL.
      unfold holds. cbn [m lst limit count]. split; [apply keyed_remove; auto|]. repeat split; auto; lia.
    + rewrite without_notin by (apply find_key_None, (keyed_None _ _ _ k Hk), E).
      repeat split; auto.
  - split; auto. f_equal. destruct Hh as (Hk & _). unfold Back.
    pose proof (keyed_back _ _ _ Hk) as HB. destruct (list_Back (lst t)) as [o|].
    + destruct HB as (s' & ko & vo & -> & Hvo & _). rewrite last_snoc. auto.
    + subst s. reflexivity.
  - split; auto. f_equal. destruct Hh as (Hk & _). apply (keyed_front _ _ _ Hk).
  - split; auto. destruct Hh as (Hk & Hc & Hl & Hb). unfold Clear, holds. cbn [m lst limit count].
    split; [eapply keyed_init; eauto|]. repeat split; auto. lia.
  - split; auto. f_equal. apply Hh.
  - split; auto. destruct Hh as (Hk & Hc & Hl & Hb). unfold MoveToFront.
    destruct (m t !! k) as [x|] eqn:E.
    + destruct (keyed_move _ _ _ _ _ Hk E) as (v0 & Hf & Hm). rewrite Hf.
      assert (Hne : find_key k s <> None) by (rewrite Hf; discriminate).
    pose proof (length_without k s (keyed_nodup _ _ _ Hk) Hne) as HL.
      unfold holds. cbn [m lst limit count length]. split; auto. rewrite <- HL. auto.
    + rewrite (proj1 (keyed_None _ _ _ k Hk) E). repeat split; auto.
Qed.

Lemma run_holds lim os : forall t s, holds lim t s ->
  let '(rs, t') := run t os in let '(rs', s') := spec_run lim s os in rs = rs' /\ holds lim t' s'.
Proof.
  induction os as [|o os IH]; intros t s Hh; cbn [run spec_run]; [auto|].
  pose proof (step_holds lim t s o Hh) as HS.
  destruct (step t o) as [r t1], (spec_step lim s o) as [r' s1]. destruct HS as [-> HS].
  specialize (IH t1 s1 HS). destruct (run t1 os) as [rs t2], (spec_run lim s1 os) as [rs' s2].
  destruct IH as [-> IH]. auto.
Qed.

Lemma run_holds_new lim os : holds lim (run (NewLinkedHashMap lim) os).2 (spec_run lim [] os).2.
Proof.
  pose proof (run_holds lim os _ _ (holds_new lim)) as HR.
  destruct (run _ os) as [rs t], (spec_run _ _ os) as [rs' s]. tauto.
Qed.

Lemma run_app t os1 os2 : run t (os1 ++ os2) =
  ((run t os1).1 ++ (run (run t os1).2 os2).1, (run (run t os1).2 os2).2).
Proof.
  revert t. induction os1 as [|o os1 IH]; intros t; cbn [app run]; [cbn [fst snd app]; destruct (run t os2); reflexivity|].
  destruct (step t o) as [r t1]. rewrite IH. destruct (run t1 os1) as [rs t2]. reflexivity.
Qed.

(** Iterators. The iterator stands before the entries [rest], in its own direction. *)
Definition at_rest (t : lhm K V) (it : iter) s (rest : list (K * V)) : Prop :=
  exists (xs1 xs2 : list nat) (s1 s2 : list (K * V)),
    keyedx (m t) (lst t) (xs1 ++ xs2) s /\ s = s1 ++ s2 /\
    length xs1 = length s1 /\ length xs2 = length s2 /\
    if front it then current it = head xs2 /\ rest = s2 else current it = last xs1 /\ rest = rev s1.

Lemma at_rest_iterator t s lim fr : holds lim t s ->
  at_rest t (Iterator fr t) s (if fr then s else rev s).
Proof.
  intros ((xs & Hk) & _). unfold at_rest, Iterator. cbn [front current].
  pose proof Hk as (Hd & Hf & _). pose proof (Forall2_length _ _ _ Hf). destruct fr.
  - exists [], xs, [], s. cbn [app]. rewrite (dll_Front _ _ Hd). repeat (split; [auto|]). auto.
  - exists xs, [], s, []. rewrite !app_nil_r, (dll_Back _ _ Hd). repeat (split; [auto|]). auto.
Qed.

Lemma length_one {A B} (l : list A) (b : B) k : length l = length (b :: k) -> exists a l', l = a :: l'.
Proof. destruct l; cbn; [lia|]. eauto. Qed.

Lemma at_rest_next t it s rest : at_rest t it s rest ->
  let '(r, it') := Next t it in
  front it' = front it /\ r = head rest /\ at_rest t it' s (tail rest).
Proof.
  intros (xs1 & xs2 & s1 & s2 & Hk & -> & L1 & L2 & Hc). unfold Next.
  pose proof Hk as (Hd & Hf & _).
  destruct (front it) eqn:Efr; destruct Hc as [Hcur ->]; rewrite Hcur.
  - destruct s2 as [|p s2].
    + destruct xs2; [|discriminate]. cbn [head tail]. split; [auto|]. split; [auto|].
      exists xs1, [], s1, []. rewrite Efr. repeat (split; [auto|]). auto.
    + destruct xs2 as [|x xs2]; [discriminate|]. cbn [head tail front].
      apply Forall2_app_inv in Hf as [_ F2]; [|auto]. apply Forall2_cons_1 in F2 as [Hx _].
      split; [auto|]. split; [auto|]. unfold at_rest. cbn [front current].
      exists (xs1 ++ [x]), xs2, (s1 ++ [p]), s2. rewrite <- !app_assoc, !app_length. cbn [app].
      split; [auto|]. split; [auto|]. split; [cbn; lia|]. split; [cbn in L2; lia|].
      rewrite (dll_Next _ _ _ _ Hd). auto.
  - destruct (decide (xs1 = [])) as [->|Hne].
    + destruct s1; [|discriminate]. cbn [last rev head tail]. split; [auto|]. split; [auto|].
      exists [], xs2, [], s2. rewrite Efr. repeat (split; [auto|]). auto.
    + destruct (exists_last Hne) as (ys & x & ->). rewrite last_snoc.
      destruct (decide (s1 = [])) as [->|Hne']; [rewrite app_length in L1; cbn in L1; lia|].
      destruct (exists_last Hne') as (s1' & p & ->). rewrite !app_length in L1. cbn in L1.
      rewrite <- app_assoc in Hd, Hk, Hf. rewrite <- app_assoc in Hk, Hf. cbn [app] in *.
      apply Forall2_app_inv in Hf as [_ F2]; [|lia]. apply Forall2_cons_1 in F2 as [Hx _].
      rewrite rev_app_distr. cbn [rev app head tail front].
      split; [auto|]. split; [auto|]. unfold at_rest. cbn [front current].
      exists ys, (x :: xs2), s1', (p :: s2). rewrite <- !app_assoc. cbn [app length].
      split; [auto|]. split; [auto|]. split; [lia|]. split; [lia|].
      rewrite (dll_Prev _ _ _ _ Hd). auto.
Qed.

(** [n] reads of a list: its first elements, then [None] for ever. *)
Lemma nexts_rest n : forall t it s rest, at_rest t it s rest ->
  (nexts n t it).1 = map (fun i => rest !! i) (seq 0 n) /\
  front (nexts n t it).2 = front it /\ at_rest t (nexts n t it).2 s (drop n rest).
Proof.
  induction n as [|n IH]; intros t it s rest Hr; cbn [nexts seq map]; [rewrite drop_0; auto|].
  pose proof (at_rest_next _ _ _ _ Hr) as HN. destruct (Next t it) as [r it1].
  destruct HN as (Hfr & -> & HN). specialize (IH t it1 s (tail rest) HN).
  destruct (nexts n t it1) as [rs it2]. cbn [fst snd] in *. destruct IH as (-> & Hfr2 & IH).
  split; [|split; [congruence|]].
  - rewrite <- seq_shift, map_map. f_equal; [destruct rest; reflexivity|].
    apply map_ext. intros i. destruct rest; reflexivity.
  - destruct rest; cbn in *; auto. rewrite drop_nil in IH. auto.
Qed.

(** Deleting the entry the iterator has just passed. *)
Lemma at_rest_delete lim t it s1 s2 k v :
  holds lim t (s1 ++ (k, v) :: s2) ->
  at_rest t it (s1 ++ (k, v) :: s2) (if front it then s2 else rev s1) ->
  at_rest (Delete k t) it (s1 ++ s2) (if front it then s2 else rev s1) /\ holds lim (Delete k t) (s1 ++ s2).
Proof.
  intros Hh Hr. pose proof (step_holds lim t _ (ODelete k) Hh) as HS. cbn [step spec_step] in HS.
  destruct HS as [_ HS].
  destruct Hh as (Hk & _). pose proof (NoDup_drop _ _ _ _ (keyed_nodup _ _ _ Hk)) as [_ Hn].
  rewrite fmap_app, elem_of_app in Hn. rewrite without_app in HS by tauto. split; [|auto]. clear HS Hk.
  destruct Hr as (xs1 & xs2 & t1 & t2 & Hk & Hs & L1 & L2 & Hc).
  unfold at_rest. destruct (front it) eqn:Efr; destruct Hc as [Hcur Hrest].
  - subst t2. assert (t1 = s1 ++ [(k, v)]) as ->.
    { apply (app_inv_tail s2). rewrite <- app_assoc. cbn [app]. auto. }
    destruct (decide (xs1 = [])) as [->|Hne]; [rewrite app_length in L1; cbn in L1; lia|].
    destruct (exists_last Hne) as (ys & x & ->). rewrite !app_length in L1. cbn in L1.
    rewrite <- app_assoc in Hk. cbn [app] in Hk.
    destruct (keyedx_remove _ _ _ _ _ _ _ _ _ Hk ltac:(lia)) as [E Hk'].
    exists ys, xs2, s1, s2. unfold Delete. rewrite E. cbn [m lst].
    repeat (split; [first [solve [auto]|lia]|]). auto.
  - apply (f_equal (@rev _)) in Hrest. rewrite !rev_involutive in Hrest. subst t1.
    apply app_inv_head in Hs. subst t2. destruct xs2 as [|x xs2]; [discriminate|].
    destruct (keyedx_remove _ _ _ _ _ _ _ _ _ Hk L1) as [E Hk'].
    exists xs1, xs2, s1, s2. unfold Delete. rewrite E. cbn [m lst].
    repeat (split; [first [solve [auto]|cbn in L2; lia]|]). auto.
Qed.

(** Contents in iteration order. *)
Definition oriented (fr : bool) s := if fr then s else rev s.

Lemma visit_rest lim (del : K * V -> bool) n : forall t it kept rest,
  holds lim t (oriented (front it) (kept ++ rest)) ->
  at_rest t it (oriented (front it) (kept ++ rest)) rest ->
  (visit del n t it).1 = map (fun i => rest !! i) (seq 0 n) /\
  holds lim (visit del n t it).2
    (oriented (front it) (kept ++ List.filter (fun p => negb (del p)) (take n rest) ++ drop n rest)).
Proof.
  induction n as [|n IH]; intros t it kept rest Hh Hr; cbn [visit seq map].
  { rewrite drop_0. auto. }
  pose proof (at_rest_next _ _ _ _ Hr) as HN. destruct (Next t it) as [r it1].
  destruct HN as (Hfr & -> & HN). rewrite <- seq_shift, map_map.
  destruct rest as [|[k v] rest]; cbn [head tail] in *.
  - rewrite <- Hfr in *. specialize (IH t it1 kept [] Hh HN).
    destruct (visit del n t it1) as [rs t2]. cbn [fst snd] in *. destruct IH as [-> IH].
    rewrite take_nil, drop_nil in *. auto.
  - rewrite firstn_cons, skipn_cons. cbn [List.filter negb].
    destruct (del (k, v)) eqn:Edel; cbn [negb].
    + assert (HD : at_rest (Delete k t) it1 (oriented (front it1) (kept ++ rest)) rest /\
                   holds lim (Delete k t) (oriented (front it1) (kept ++ rest))).
      { rewrite <- Hfr in *. pose proof (at_rest_delete lim t it1) as HD. unfold oriented in *. destruct (front it1) eqn:E1.
        - apply (HD kept rest k v); auto.
        - rewrite rev_app_distr in *. cbn [rev] in *. rewrite <- app_assoc in *. cbn [app] in *.
          destruct (HD (rev rest) (rev kept) k v) as [A B]; [auto|rewrite rev_involutive; auto|].
          rewrite rev_involutive in A. auto. }
      cbn [fst]. destruct HD as [HR HH]. specialize (IH (Delete k t) it1 kept rest HH HR).
      destruct (visit del n (Delete k t) it1) as [rs t2]. cbn [fst snd] in *. destruct IH as [-> IH].
      rewrite Hfr in IH. auto.
    + assert (HE : forall z, kept ++ (k, v) :: z = (kept ++ [(k, v)]) ++ z) by (intros; rewrite <- app_assoc; auto).
      rewrite HE in Hh, HN. rewrite <- Hfr in Hh, HN. specialize (IH t it1 (kept ++ [(k, v)]) rest Hh HN).
      destruct (visit del n t it1) as [rs t2]. cbn [fst snd] in *. destruct IH as [-> IH].
      rewrite Hfr in IH. cbn [app]. rewrite HE. auto.
Qed.

(** An entry keeps its list element as long as its key is neither removed nor stored again. *)
Lemma put_body_elem k v t k0 x : k <> k0 -> m t !! k0 = Some x ->
  m (put_body k v t).2 !! k0 = Some x \/ m (put_body k v t).2 !! k0 = None.
Proof.
  intros Hne E. unfold put_body. destruct (list_PushFront (k, v) (lst t)) as [e l].
  assert (E1 : (<[k := e]> (m t)) !! k0 = Some x) by (rewrite lookup_insert_ne by auto; auto).
  destruct (m t !! k); [left; exact E1|]. destruct (limit t <? count t + 1); [|left; exact E1].
  destruct (list_Back l) as [o|]; [|left; exact E1]. cbn [snd m].
  destruct (vals (list_Remove o l) !! o) as [[ko ?]|]; [|left; exact E1].
  destruct (decide (ko = k0)) as [->|Hk]; [right; apply lookup_delete|left; rewrite lookup_delete_ne by auto; exact E1].
Qed.

Lemma step_elem lim t s o k0 x : holds lim t s -> m t !! k0 = Some x -> ~ restores k0 o ->
  find_key k0 (spec_step lim s o).2 <> None -> m (step t o).2 !! k0 = Some x.
Proof.
  intros Hh E Hr Hf. pose proof (step_holds lim t s o Hh) as HS.
  destruct (step t o) as [r t'] eqn:Est, (spec_step lim s o) as [r' s']. destruct HS as [_ (Hk & _)].
  cbn [snd] in *. assert (Hm : m t' !! k0 <> None) by (rewrite (keyed_None _ _ _ k0 Hk); auto).
  destruct o as [k v|k v|k|k| | | | |k]; cbn [step restores] in *.
  - injection Est as _ <-. destruct (put_body_elem k v t k0 x) as [A|A]; auto. destruct (Hm A).
  - unfold LoadOrStore in Est. destruct (put_body k v t) as [pre t''] eqn:Eb. injection Est as _ <-.
    destruct (put_body_elem k v t k0 x) as [A|A]; auto; rewrite Eb in A; auto. destruct (Hm A).
  - injection Est as _ <-. auto.
  - injection Est as _ <-. unfold Delete in *. destruct (m t !! k); auto. cbn [m] in *.
    destruct (decide (k = k0)) as [->|Hk0]; [rewrite lookup_delete in Hm; congruence|].
    rewrite lookup_delete_ne by auto. auto.
  - injection Est as _ <-. auto.
  - injection Est as _ <-. auto.
  - injection Est as _ <-. cbn in Hm. rewrite lookup_empty in Hm. congruence.
  - injection Est as _ <-. auto.
  - injection Est as _ <-. unfold MoveToFront. destruct (m t !! k); auto.
Qed.

Lemma run_elem lim k0 x os : forall t s, holds lim t s -> m t !! k0 = Some x -> stays k0 lim s os ->
  m (run t os).2 !! k0 = Some x.
Proof.
  induction os as [|o os IH]; intros t s Hh E Hs; cbn [run stays] in *; [auto|].
  destruct Hs as (Hr & Hf & Hs). pose proof (step_elem lim t s o k0 x Hh E Hr Hf) as E1.
  pose proof (step_holds lim t s o Hh) as HS.
  destruct (step t o) as [r t1], (spec_step lim s o) as [r' s1]. cbn [snd] in *. destruct HS as [_ HS].
  specialize (IH t1 s1 HS E1 Hs). destruct (run t1 os) as [rs t2]. auto.
Qed.

Lemma nth_error_lookup' {A} (l : list A) i : nth_error l i = l !! i.
Proof. revert i. induction l; intros [|i]; cbn; auto. Qed.

(** The element an iterator will return next. *)
Lemma at_rest_current t it s rest k v : at_rest t it s rest -> head rest = Some (k, v) ->
  exists x, current it = Some x /\ m t !! k = Some x.
Proof.
  intros (xs1 & xs2 & s1 & s2 & (Hd & Hf & Hn & Hi) & -> & L1 & L2 & Hc) Hh.
  apply Forall2_app_inv in Hf as [F1 F2]; [|auto].
  destruct (front it); destruct Hc as [Hcur ->].
  - destruct F2 as [|x p xs2 s2 Hx F2]; [discriminate|]. injection Hh as ->.
    exists x. split; [auto|]. apply Hi. exists v. split; [apply elem_drop; auto|auto].
  - destruct (decide (s1 = [])) as [->|Hne]; [discriminate|].
    destruct (exists_last Hne) as (s' & p & ->). rewrite rev_app_distr in Hh. injection Hh as ->.
    apply Forall2_app_inv_r in F1 as (ys & zs & F1 & F1' & ->).
    apply Forall2_cons_inv_r in F1' as (x & zs' & Hx & F1' & ->). inversion F1'; subst.
    rewrite last_snoc in Hcur. exists x. split; [auto|]. apply Hi. exists v. split; [|auto].
    rewrite <- app_assoc. apply elem_drop. auto.
Qed.

Lemma next_pending lim t s t' s' it k v x : holds lim t s -> holds lim t' s' ->
  current it = Some x -> m t' !! k = Some x -> find_key k s' = Some v ->
  (Next t' it).1 = Some (k, v).
Proof.
  intros _ (Hk & _) Hc E Hf. unfold Next. rewrite Hc. cbn [fst].
  destruct (keyed_Some _ _ _ _ _ Hk E) as (v' & Hv & Hf'). rewrite Hv. congruence.
Qed.

(** Put, effect by effect. *)
Lemma vals_Remove (l : dlist (K * V)) e : vals (list_Remove e l) = vals l.
Proof. unfold list_Remove, list_remove. destruct (bool_decide (e ∈ own l)); [|reflexivity]. destruct (pv l !! e); [|reflexivity]. destruct (nx l !! e); reflexivity. Qed.

Lemma put_after_all k v t : put_after 4 k v t = (PRet, Put k v t).
Proof.
  unfold put_after, Put, put_body. cbn [Nat.iter nat_rect put_step].
  destruct (list_PushFront (k, v) (lst t)) as [e l]. cbn [put_step m lst limit count].
  destruct (m t !! k) as [x|]; cbn [put_step m lst limit count]; [reflexivity|].
  destruct (limit t <? count t + 1); cbn [put_step snd]; [|reflexivity].
  destruct (list_Back l) as [o|]; reflexivity.
Qed.

Lemma Get_spec lim t s k : holds lim t s -> Get k t = find_key k s.
Proof. intros (Hk & _). apply (keyed_get _ _ _ k Hk). Qed.

Lemma m_fresh lim t s k e : holds lim t s -> m t !! k = Some e -> e <> fresh (lst t).
Proof.
  intros ((xs & Hd & _ & _ & Hi) & _) E. apply Hi in E as (v & Hx & _).
  pose proof (dll_fresh _ _ Hd _ Hx). lia.
Qed.

(** The states visited before the last effect. *)
Lemma put_mid lim t s k v k' n : holds lim t s -> (n <= 3)%nat ->
  Get k' (put_after n k v t).2 = Get k' t \/
  (k' = k /\ Get k' (put_after n k v t).2 = Some v) \/
  (put_after n k v t).2 = Put k v t.
Proof.
  intros Hh Hn. pose proof Hh as ((xs & Hd & _) & _). pose proof (dll_PushFront _ _ (k, v) Hd) as HP.
  assert (Hmid : forall (l : dlist (K * V)) c, vals l = <[fresh (lst t) := (k, v)]> (vals (lst t)) ->
    Get k' (LHM (<[k := fresh (lst t)]> (m t)) l (limit t) c) = Get k' t \/
    (k' = k /\ Get k' (LHM (<[k := fresh (lst t)]> (m t)) l (limit t) c) = Some v)).
  { intros l c HV. destruct (decide (k' = k)) as [->|Hne].
    + right. split; [auto|]. unfold Get. cbn [m lst]. rewrite lookup_insert, HV, lookup_insert. auto.
    + left. unfold Get. cbn [m lst]. rewrite lookup_insert_ne by auto.
      destruct (m t !! k') as [x|] eqn:E; [|auto].
      rewrite HV, lookup_insert_ne; [auto|]. intros <-. eapply m_fresh; eauto. }
  destruct n as [|[|[|[|n]]]]; [left; reflexivity| | | |lia]; unfold put_after; cbn [Nat.iter nat_rect put_step];
    destruct (list_PushFront (k, v) (lst t)) as [e l] eqn:EP; destruct HP as (-> & _ & _ & HV & _);
    cbn [put_step m lst limit count snd].
  - left. unfold Get. cbn [m lst]. destruct (m t !! k') as [x|] eqn:E; [|auto].
    rewrite HV, lookup_insert_ne; [auto|]. intros <-. eapply m_fresh; eauto.
  - destruct (Hmid l (count t) HV); auto.
  - destruct (m t !! k) as [x|] eqn:E.
    { right; right. unfold Put, put_body. rewrite EP, E. reflexivity. }
    destruct (limit t <? count t + 1) eqn:EL.
    2:{ right; right. unfold Put, put_body. rewrite EP, E, EL. reflexivity. }
    destruct (list_Back l) as [o|] eqn:EB.
    2:{ right; right. unfold Put, put_body. rewrite EP, E, EL, EB. reflexivity. }
    cbn [snd]. rewrite <- (vals_Remove l o) in HV. destruct (Hmid _ (count t + 1) HV); auto.
Qed.

Lemma put_after_ge n k v t : (4 <= n)%nat -> (put_after n k v t).2 = Put k v t.
Proof.
  intros Hn. replace n with ((n - 4) + 4)%nat by lia. induction (n - 4)%nat as [|j IH].
  - cbn [plus]. rewrite put_after_all. reflexivity.
  - unfold put_after in *. cbn [plus Nat.iter nat_rect]. 
    assert (HP : forall i, Nat.iter (i + 4) (put_step k v) (P41, t) = (PRet, Put k v t)).
    { clear. intros i. induction i as [|i IH]; [apply put_after_all|].
      cbn [plus Nat.iter nat_rect]. unfold Nat.iter in IH. rewrite IH. reflexivity. }
    specialize (HP j). unfold Nat.iter in HP. rewrite HP. reflexivity.
Qed.

Lemma find_key_spec_put lim k v s : 1 <= lim -> find_key k (spec_put lim k v s) = Some v.
Proof.
  intros Hl. unfold spec_put. destruct (find_key k s) eqn:E; [cbn; rewrite decide_True by auto; auto|].
  destruct (Z.leb_spec (Z.of_nat (S (length s))) lim) as [Hle|Hgt]; [cbn; rewrite decide_True by auto; auto|].
  destruct s as [|p s]; [cbn in Hgt; lia|].
  change (removelast ((k, v) :: p :: s)) with ((k, v) :: removelast (p :: s)).
  cbn. rewrite decide_True by auto. auto.
Qed.

Lemma put_get_before_or_after lim t s k v k' n : 1 <= lim -> holds lim t s ->
  Get k' (put_after n k v t).2 = Get k' t \/ Get k' (put_after n k v t).2 = Get k' (Put k v t).
Proof.
  intros Hl Hh. destruct (decide (n <= 3)%nat) as [Hn|Hn].
  - destruct (put_mid lim t s k v k' n Hh Hn) as [A|[[-> B]|C]]; [auto| |rewrite C; auto].
    right. rewrite B. pose proof (put_body_holds lim t s k v Hh) as HP.
    unfold Put. destruct (put_body k v t) as [pre t']. destruct HP as [HP _]. cbn [snd].
    rewrite (Get_spec _ _ _ _ HP), find_key_spec_put; auto.
  - rewrite put_after_ge by lia. auto.
Qed.

Lemma put_visible lim t s k v k' n : holds lim t s ->
  Get k' (put_after n k v t).2 <> None -> k' = k \/ k' ∈ s.*1.
Proof.
  intros Hh Hg. assert (HB : Get k' t <> None -> k' ∈ s.*1).
  { rewrite (Get_spec _ _ _ _ Hh). rewrite find_key_None.
    destruct (decide (k' ∈ s.*1)); tauto. }
  assert (HA : Get k' (Put k v t) <> None -> k' = k \/ k' ∈ s.*1).
  { pose proof (put_body_holds lim t s k v Hh) as HP.
    unfold Put. destruct (put_body k v t) as [pre t']. destruct HP as [HP _]. cbn [snd].
    rewrite (Get_spec _ _ _ _ HP), find_key_None. intros Hin.
    assert (Hin' : k' ∈ (spec_put lim k v s).*1) by (destruct (decide (k' ∈ (spec_put lim k v s).*1)); tauto).
    clear -Hin'. unfold spec_put in Hin'. destruct (find_key k s).
    - cbn in Hin'. apply elem_of_cons in Hin' as [->|Hin']; [auto|]. right.
      apply elem_of_list_fmap in Hin' as (p & -> & Hp). apply elem_of_list_filter in Hp as [_ Hp].
      apply elem_of_list_fmap. eauto.
    - assert (Hin2 : k' ∈ ((k, v) :: s).*1).
      { destruct (_ <=? _); [auto|]. apply elem_of_list_fmap in Hin' as (p & -> & Hp).
        apply elem_of_list_fmap. exists p. split; [auto|].
        assert (Hne : (k, v) :: s <> []) by discriminate.
        rewrite (app_removelast_last (k, v) Hne). apply elem_of_app. auto. }
      cbn in Hin2. apply elem_of_cons in Hin2. tauto. }
  destruct (decide (n <= 3)%nat) as [Hn|Hn].
  - destruct (put_mid lim t s k v k' n Hh Hn) as [A|[[-> B]|C]]; [rewrite A in Hg; auto|auto|].
    rewrite C in Hg. auto.
  - rewrite put_after_ge in Hg by lia. auto.
Qed.
End proofs.
