(** Proofs about the network helpers. *)
From stdpp Require Import list.
From Coq Require Import ZArith Lia ZifyBool.
From Verif Require Import Net_Model Net_Spec.
Local Open Scope Z_scope.

Lemma has_prefix_ok p s : has_prefix p s = true <-> begins_with p s.
Proof.
  revert s. induction p as [|a p IH]; intros s; cbn [has_prefix].
  - split; [intros _; exists s; reflexivity|reflexivity].
  - destruct s as [|b s]; [split; [discriminate|intros [r H]; discriminate]|]. rewrite andb_true_iff, IH, Z.eqb_eq. split.
    + intros [-> [r ->]]. exists r. reflexivity.
    + intros [r H]. injection H as -> ->. split; [reflexivity|exists r; reflexivity].
Qed.
Lemma scheme_wss u : begins_with wss_ u -> scheme u = Some wss.
Proof. intros [r ->]. reflexivity. Qed.
Lemma scheme_ws u : begins_with ws_ u -> scheme u = Some ws.
Proof. intros [r ->]. reflexivity. Qed.
Lemma scheme_https u : begins_with https_ u -> scheme u = Some https.
Proof. intros [r ->]. reflexivity. Qed.

Lemma load_bytes_ok pem pool bs r : load_bytes pem pool bs = Some r <-> (forall b, b ∈ bs -> pem b <> []) /\ r = pool ++ concat (pem <$> bs).
Proof.
  revert pool. induction bs as [|b bs IH]; intros pool; cbn [load_bytes].
  - cbn. rewrite app_nil_r. split; [intros H; injection H as <-; split; [intros b X; apply elem_of_nil in X; destruct X|reflexivity]|intros [_ ->]; reflexivity].
  - rewrite fmap_cons. cbn [concat]. rewrite app_assoc. destruct (pem b) as [|c cs] eqn:E.
    + split; [discriminate|]. intros [H _]. destruct (H b ltac:(left) E).
    + rewrite IH. split; intros [H ->]; (split; [|reflexivity]); intros b' Hb.
      * apply elem_of_cons in Hb as [->|Hb]; [congruence|auto].
      * apply H. right. exact Hb.
Qed.
Lemma load_files_ok read pem pool fs r : load_files read pem pool fs = Some r <->
  exists bs, Forall2 (fun f b => read f = Some b) fs bs /\ (forall b, b ∈ bs -> pem b <> []) /\ r = pool ++ concat (pem <$> bs).
Proof.
  revert pool. induction fs as [|f fs IH]; intros pool; cbn [load_files].
  - split.
    + intros H. injection H as <-. exists []. cbn. rewrite app_nil_r. split; [constructor|]. split; [intros b X; apply elem_of_nil in X; destruct X|reflexivity].
    + intros (bs & F & _ & ->). inversion F. subst. cbn. rewrite app_nil_r. reflexivity.
  - destruct (read f) as [b|] eqn:Ef; [destruct (pem b) as [|c cs] eqn:E|].
    + split; [discriminate|]. intros (bs & F & H & _). inversion F as [|? b' ? bs' Hb]. subst. assert (b' = b) as -> by congruence. destruct (H b ltac:(left) E).
    + rewrite IH. split.
      * intros (bs & F & H & ->). exists (b :: bs). split; [constructor; assumption|]. rewrite fmap_cons. cbn [concat]. rewrite E, app_assoc. split; [|reflexivity]. intros b' Hb. apply elem_of_cons in Hb as [->|Hb]; [congruence|auto].
      * intros (bs & F & H & ->). inversion F as [|? b' ? bs' Hb]. subst. assert (b' = b) as -> by congruence. exists bs'. split; [assumption|]. rewrite fmap_cons. cbn [concat]. rewrite E, app_assoc. split; [|reflexivity]. intros b' Hb'. apply H. right. exact Hb'.
    + split; [discriminate|]. intros (bs & F & _). inversion F. congruence.
Qed.

(** ** Headers *)
Lemma canon_again_from up k : forallb tokench k = true -> canon_from up (canon_from up k) = canon_from up k /\ forallb tokench (canon_from up k) = true.
Proof.
  revert up. induction k as [|c k IH]; intros up; [auto|]. cbn [canon_from forallb]. rewrite andb_true_iff. intros [Hc Hk].
  assert (D : forall f, f = upper \/ f = lower -> (f c =? 45) = (c =? 45) /\ f (f c) = f c /\ tokench (f c) = true).
  { intros f [->| ->]; unfold upper, lower, tokench, letter in *.
    - destruct ((97 <=? c) && (c <=? 122)) eqn:E; [|rewrite E; auto]. replace ((97 <=? c - 32) && (c - 32 <=? 122)) with false by lia. split; [lia|]. split; [reflexivity|]. replace (65 <=? c - 32) with true by lia. replace (c - 32 <=? 90) with true by lia. reflexivity.
    - destruct ((65 <=? c) && (c <=? 90)) eqn:E; [|rewrite E; auto]. replace ((65 <=? c + 32) && (c + 32 <=? 90)) with false by lia. split; [lia|]. split; [reflexivity|]. replace (97 <=? c + 32) with true by lia. replace (c + 32 <=? 122) with true by lia. reflexivity. }
  destruct (IH (c =? 45) Hk) as [I1 I2]. destruct up.
  - destruct (D upper ltac:(auto)) as (D1 & D2 & D3). rewrite D1, D2, D3, I1, I2. auto.
  - destruct (D lower ltac:(auto)) as (D1 & D2 & D3). rewrite D1, D2, D3, I1, I2. auto.
Qed.
Lemma canonical_again k : canonical (canonical k) = canonical k.
Proof. unfold canonical. destruct (forallb tokench k) eqn:E; [|rewrite E; reflexivity]. destruct (canon_again_from true k E) as [-> ->]. reflexivity. Qed.
Lemma hget_filter K k h : hget K (filter (fun e : list Z * list Z => e.1 <> k) h) = if decide (K = k) then None else hget K h.
Proof.
  induction h as [|[k' v] h IH]; [destruct (decide _); reflexivity|]. destruct (decide (k' <> k)) as [Hn|Hn].
  - rewrite filter_cons_True by exact Hn. cbn [hget]. destruct (decide (k' = K)) as [->|]; [rewrite decide_False by exact Hn; reflexivity|exact IH].
  - rewrite filter_cons_False by exact Hn. rewrite IH. cbn [hget]. destruct (decide (k' = k)) as [->|]; [|tauto]. destruct (decide (K = k)) as [->|]; [reflexivity|]. rewrite decide_False by congruence. reflexivity.
Qed.
Lemma hget_hset K k v h : hget K (hset k v h) = if decide (canonical k = K) then Some v else hget K h.
Proof. unfold hset. cbn [hget]. destruct (decide (canonical k = K)); [reflexivity|]. rewrite hget_filter, decide_False by congruence. reflexivity. Qed.
Lemma given_cons K e hs : given K (e :: hs) = if decide (canonical e.1 = K) then e.2 :: given K hs else given K hs.
Proof. unfold given. destruct (decide _); [rewrite filter_cons_True by assumption|rewrite filter_cons_False by assumption]; reflexivity. Qed.
(** The last one set wins. *)
Lemma heads_get K hs h : hget K (foldl (fun h (e : list Z * list Z) => hset e.1 e.2 h) h hs) = match last (given K hs) with Some v => Some v | None => hget K h end.
Proof.
  revert h. induction hs as [|e hs IH]; intros h; [reflexivity|]. cbn [foldl]. rewrite IH, hget_hset, given_cons. destruct (decide (canonical e.1 = K)); [|reflexivity].
  destruct (given K hs) as [|x l] eqn:E; [reflexivity|]. change (last (e.2 :: x :: l)) with (last (x :: l)). destruct (last (x :: l)) eqn:L; [reflexivity|]. apply last_None in L. discriminate.
Qed.
Lemma given_perm K hs hs' : hs ≡ₚ hs' -> given K hs ≡ₚ given K hs'.
Proof. intros H. unfold given. rewrite H. reflexivity. Qed.
Lemma given_one K hs : NoDup (canonical ∘ fst <$> hs) -> (length (given K hs) <= 1)%nat.
Proof.
  induction hs as [|e hs IH]; [cbn; lia|]. rewrite fmap_cons. intros H. apply NoDup_cons in H as [H1 H2]. rewrite given_cons. destruct (decide _) as [<-|]; [|auto].
  destruct (given (canonical e.1) hs) as [|x l] eqn:E; [cbn; lia|]. exfalso. apply H1. assert (X : x ∈ given (canonical e.1) hs) by (rewrite E; left). unfold given in X.
  apply elem_of_list_fmap in X as (y & _ & Hy). apply elem_of_list_filter in Hy as [Hy1 Hy2]. apply elem_of_list_fmap. exists y. split; [symmetry; exact Hy1|exact Hy2].
Qed.

(** ** Signals *)
Lemma arrived_snoc sigs evs e : arrived sigs (evs ++ [e]) = arrived sigs evs ++ match e with Arrives s => if bool_decide (sigs = []) || bool_decide (s ∈ sigs) then [s] else [] | Goes => [] end.
Proof. unfold arrived. rewrite omap_app. destruct e as [s|]; [|reflexivity]. cbn. destruct (_ || _); reflexivity. Qed.
Lemma listen_inv sigs evs :
  (waiting (listen sigs evs) = true /\ called (listen sigs evs) = [] /\ chan (listen sigs evs) = head (arrived sigs evs)) \/
  (waiting (listen sigs evs) = false /\ exists s, head (arrived sigs evs) = Some s /\ called (listen sigs evs) = [s]).
Proof.
  unfold listen. induction evs as [|e evs IH] using rev_ind; [left; auto|]. rewrite foldl_app, arrived_snoc. cbn [foldl]. set (l := foldl (sig_step sigs) (Lis None true []) evs) in *. clearbody l.
  destruct e as [s|]; cbn [sig_step].
  - destruct (bool_decide (sigs = []) || bool_decide (s ∈ sigs)); [|rewrite app_nil_r; exact IH]. destruct IH as [(H1 & H2 & H3)|(H1 & s' & H2 & H3)].
    + left. destruct (chan l) eqn:E; cbn [waiting called chan]; (split; [assumption|]); (split; [assumption|]); destruct (arrived sigs evs) as [|x r]; cbn in *; congruence.
    + right. split; [destruct (chan l); exact H1|]. exists s'. split; [destruct (arrived sigs evs); [discriminate|exact H2]|]. destruct (chan l); exact H3.
  - rewrite app_nil_r. destruct (chan l) as [s|] eqn:E; [|rewrite E; exact IH]. destruct IH as [(H1 & H2 & H3)|(H1 & s' & H2 & H3)]; rewrite H1.
    + right. cbn [waiting called]. split; [reflexivity|]. exists s. split; [congruence|]. rewrite H2. reflexivity.
    + right. split; [exact H1|]. eauto.
Qed.
