(** Histories that are not linearizable: all orders are tried. *)
From stdpp Require Import list.
From Verif Require Import Lin_Model Lin_Spec.

Section refute.
Context {St Op Res : Type} `{EqDecision Res} (step : St -> Op -> Res * St) (s0 : St) (h : list (event Op Res)).
Notation order := (list (id * Op * Res)).
(** The calls with their results; pairs of which one returned before the other was called. *)
Context (es : order) (prec : list (id * id)).
Definition place (l : order) (i : id) : option nat := fst <$> list_find (fun e => fst (fst e) = i) l.
Definition placed (l : order) (p : id * id) : bool := match place l p.1, place l p.2 with Some m, Some n => bool_decide (m < n) | _, _ => false end.
Definition good (l : order) : bool := bool_decide (fst (in_turn step s0 (snd ∘ fst <$> l)) = (snd <$> l)) && forallb (placed l) prec.

Lemma place_spec (l : order) i m : NoDup (fst ∘ fst <$> l) -> (fst ∘ fst <$> l) !! m = Some i -> place l i = Some m.
Proof.
  intros Hn Hm. unfold place. rewrite list_lookup_fmap in Hm. destruct (l !! m) as [e|] eqn:E; cbn in Hm; [|discriminate Hm]. assert (fst (fst e) = i) as He by congruence.
  destruct (list_find_elem_of (fun e => fst (fst e) = i) l e) as [[n e'] Hf]; [apply elem_of_list_lookup; eauto|exact He|]. rewrite Hf. cbn. f_equal.
  apply list_find_Some in Hf as (Hl & He' & _). apply (NoDup_lookup _ _ _ i Hn); rewrite list_lookup_fmap; [rewrite Hl|rewrite E]; cbn; f_equal; [exact He'|exact He].
Qed.
Lemma not_linearizable :
  NoDup (fst ∘ fst <$> es) ->
  (forall i o, Call i o ∈ h -> exists r, (i, o, r) ∈ es /\ Return i r ∈ h) ->
  (forall e, e ∈ es -> Return (fst (fst e)) (snd e) ∈ h) ->
  (forall p, p ∈ prec -> returned_before h p.1 p.2 /\ p.2 ∈ (fst ∘ fst <$> es)) ->
  forallb (fun l => negb (good l)) (permutations es) = true -> ~ linearizable step s0 h.
Proof.
  intros Hn Hc Hr Hp Hall (l & L1 & L2 & L3 & L4 & L5).
  assert (Hin : forall e, e ∈ l <-> e ∈ es).
  { assert (Hle : forall e, e ∈ l -> e ∈ es).
    { intros [[i o] r] He. destruct (Hc i o (L3 _ _ _ He)) as (r' & He' & Hret). destruct (L4 _ _ Hret) as (o' & Hl').
      apply elem_of_list_lookup in He as [m Hm]. apply elem_of_list_lookup in Hl' as [m' Hm']. assert (m = m') as -> by (apply (NoDup_lookup _ _ _ i L1); rewrite list_lookup_fmap; [rewrite Hm|rewrite Hm']; reflexivity). congruence. }
    intros e. split; [apply Hle|]. intros He. destruct e as [[i o] r]. destruct (L4 i r (Hr _ He)) as (o' & Hl). pose proof (Hle _ Hl) as He'.
    apply elem_of_list_lookup in He as [m Hm]. apply elem_of_list_lookup in He' as [m' Hm']. assert (m = m') as -> by (apply (NoDup_lookup _ _ _ i Hn); rewrite list_lookup_fmap; [rewrite Hm|rewrite Hm']; reflexivity). congruence. }
  assert (Hperm : l ∈ permutations es). { apply permutations_Permutation. symmetry. apply NoDup_Permutation; [eapply NoDup_fmap_1; exact L1|eapply NoDup_fmap_1; exact Hn|exact Hin]. }
  rewrite forallb_forall in Hall. specialize (Hall l (proj1 (elem_of_list_In _ _) Hperm)). apply negb_true_iff in Hall. unfold good in Hall. apply andb_false_iff in Hall as [Hall|Hall].
  - apply bool_decide_eq_false in Hall. auto.
  - assert (forallb (placed l) prec = true) as E; [|congruence]. apply forallb_forall. intros [i j] Hij. apply elem_of_list_In in Hij. destruct (Hp _ Hij) as [Hb He]. cbn [fst snd] in *.
    apply elem_of_list_fmap in He as ([[j' o] r] & -> & He). apply Hin in He. destruct (L5 _ _ _ _ Hb He) as (m & n & Hmn & Hm & Hn'). unfold placed. cbn [fst snd compose] in *. rewrite (place_spec l i m L1 Hm), (place_spec l _ n L1 Hn'). apply bool_decide_eq_true. exact Hmn.
Qed.
End refute.
