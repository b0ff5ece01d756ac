(** Careful programs do not change strings. *)
From Coq Require Import ZArith List Bool Arith Lia.
From Verif Require Import Fast_Model Fast_Spec.
Import ListNotations.

Lemma overwrite_length m : forall p bs, length (overwrite m p bs) = length m.
Proof. induction m as [|[x w] m IH]; intros [|p] [|b bs]; cbn; auto. Qed.
Lemma overwrite_out m : forall p bs x, ~ (p <= x < p + length bs) -> nth_error (overwrite m p bs) x = nth_error m x.
Proof.
  induction m as [|[y w] m IH]; intros [|p] [|b bs] x H; cbn [overwrite length] in *; try reflexivity.
  - destruct x as [|x]; [lia|]. cbn. apply IH. lia.
  - destruct x as [|x]; [reflexivity|]. cbn. apply IH. cbn [length]. lia.
Qed.
Lemma overwrite_flag m : forall p bs x b w, nth_error m x = Some (b, w) -> exists b', nth_error (overwrite m p bs) x = Some (b', w).
Proof.
  induction m as [|[y u] m IH]; intros [|p] [|c bs] x b w H; try (destruct x; discriminate); cbn [overwrite]; try (exists b; exact H).
  - destruct x as [|x]; [injection H as -> ->; exists c; reflexivity|]. cbn in *. eapply IH, H.
  - destruct x as [|x]; [exists b; exact H|]. cbn in *. eapply IH, H.
Qed.
Lemma overwrite_in m : forall p bs x b, nth_error bs (x - p) = Some b -> p <= x < length m -> exists w, nth_error (overwrite m p bs) x = Some (b, w).
Proof.
  induction m as [|[y w] m IH]; intros [|p] [|c bs] x b Hb H; cbn [length] in *; try lia; try (destruct (x - _); discriminate).
  - cbn [overwrite]. destruct x as [|x]; cbn in Hb; [injection Hb as ->; exists w; reflexivity|]. cbn. apply IH; [rewrite Nat.sub_0_r; exact Hb|lia].
  - cbn [overwrite]. destruct x as [|x]; [lia|]. cbn in *. apply IH; [exact Hb|lia].
Qed.
Lemma firstn_skipn_ext {A} (m : list A) : forall m' p n, (forall x, p <= x < p + n -> nth_error m' x = nth_error m x) -> firstn n (skipn p m') = firstn n (skipn p m).
Proof.
  assert (forall n (a b : list A), (forall x, x < n -> nth_error a x = nth_error b x) -> firstn n a = firstn n b) as K.
  { induction n as [|n IH]; intros a b H; [reflexivity|]. pose proof (H 0 ltac:(lia)) as H0. destruct a as [|x a], b as [|y b]; cbn in H0; try discriminate; [reflexivity|]. injection H0 as ->. cbn. f_equal. apply IH. intros k Hk. apply (H (S k)). lia. }
  intros m' p n H. apply K. intros x Hx. assert (forall (l : list A) q, nth_error (skipn q l) x = nth_error l (q + x)) as S. { intros l q. revert l. induction q as [|q IH]; intros l; [reflexivity|]. destruct l; [destruct x; reflexivity|apply IH]. }
  rewrite !S. apply H. lia.
Qed.
Lemma bytes_ext m m' p n : (forall x, p <= x < p + n -> nth_error m' x = nth_error m x) -> bytes_at m' p n = bytes_at m p n.
Proof. intros H. unfold bytes_at. f_equal. apply firstn_skipn_ext, H. Qed.
Lemma writable_ok m p n : (forall x, p <= x < p + n -> exists b, nth_error m x = Some (b, true)) -> writable m p n = true.
Proof.
  intros H. unfold writable. apply forallb_forall. intros [b w] Hi. apply In_nth_error in Hi as [k Hk]. assert (k < n) as L. { assert (k < length (firstn n (skipn p m))) by (apply nth_error_Some; congruence). rewrite firstn_length in *. lia. }
  destruct (H (p + k)) as [b' Hb]; [lia|]. assert (forall (l : list (Z * bool)) q j, nth_error (skipn q l) j = nth_error l (q + j)) as S. { intros l q j. revert l. induction q as [|q IH]; intros l; [reflexivity|]. destruct l; [destruct j; reflexivity|apply IH]. }
  assert (forall (l : list (Z * bool)) q j, j < q -> nth_error (firstn q l) j = nth_error l j) as F. { intros l q. revert l. induction q as [|q IH]; intros l j Hj; [lia|]. destruct l; [destruct j; reflexivity|]. destruct j; [reflexivity|]. cbn. apply IH. lia. }
  rewrite F, S, Hb in Hk by exact L. injection Hk as _ <-. reflexivity.
Qed.
Lemma bytes_length m p n : p + n <= length m -> length (bytes_at m p n) = n.
Proof. intros H. unfold bytes_at. rewrite map_length, firstn_length, skipn_length. lia. Qed.
(** The room behind a slice belongs to no string and can be written. *)
Record sound (st : state) : Prop := {
  s_in : forall s, In s (strings st) -> sptr s + slen s <= length (mem st);
  v_in : forall v, In v (slices st) -> vlen v <= vcap v /\ vptr v + vcap v <= length (mem st);
  apart : forall s v x, In s (strings st) -> In v (slices st) -> sptr s <= x < sptr s + slen s -> ~ (vptr v + vlen v <= x < vptr v + vcap v);
  room : forall v x, In v (slices st) -> vptr v + vlen v <= x < vptr v + vcap v -> exists b, nth_error (mem st) x = Some (b, true) }.
Lemma sound_start : sound start. Proof. split; cbn; tauto. Qed.
(** A string more in new memory, a string more that is part of another, a slice more. *)
Lemma grow_string m ss vs bs w : sound (MkState m ss vs) -> sound (MkState (m ++ map (fun b : Z => (b, w)) bs) (ss ++ [MkString (length m) (length bs)]) vs).
Proof.
  intros [S V A R]. cbn in *. split; cbn.
  - intros s Hs. rewrite app_length, map_length. apply in_app_iff in Hs as [Hs|[<-|[]]]; [specialize (S s Hs); lia|cbn; lia].
  - intros v Hv. rewrite app_length. specialize (V v Hv). lia.
  - intros s v x Hs Hv. apply in_app_iff in Hs as [Hs|[<-|[]]]; [apply A; assumption|]. cbn. specialize (V v Hv). lia.
  - intros v x Hv Hx. destruct (R v x Hv Hx) as [b Hb]. exists b. rewrite nth_error_app1; [exact Hb|]. apply nth_error_Some. congruence.
Qed.
Lemma keep_text m m' ss ss' vs vs' : (forall s, In s ss -> forall x, sptr s <= x < sptr s + slen s -> nth_error m' x = nth_error m x) -> unchanged (MkState m ss vs) (MkState m' (ss ++ ss') vs').
Proof.
  intros H k t. unfold text. cbn. destruct (nth_error ss k) as [s|] eqn:E; [|discriminate]. cbn. intros [= <-]. rewrite nth_error_app1 by (apply nth_error_Some; congruence). rewrite E. cbn. f_equal. apply bytes_ext. apply H. eapply nth_error_In, E.
Qed.
Lemma keep_app m q ss ss' vs vs' : sound (MkState m ss vs) -> unchanged (MkState m ss vs) (MkState (m ++ q) (ss ++ ss') vs').
Proof. intros [S _ _ _]. apply keep_text. cbn in S. intros s Hs x Hx. specialize (S s Hs). apply nth_error_app1. lia. Qed.
Lemma careful_step st o : sound st -> careful o -> match step st o with Ok st' => sound st' /\ unchanged st st' | Panic => True | Fault => False end.
Proof.
  intros HS C. destruct st as [m ss vs]. pose proof HS as [S V A R]. cbn in S, V, A, R. assert (forall q vs', unchanged (MkState m ss vs) (MkState m (ss ++ q) vs')) as U by (intros q vs'; apply keep_text; auto).
  assert (forall vs', unchanged (MkState m ss vs) (MkState m ss vs')) as U0 by (intros vs'; rewrite <- (app_nil_r ss) at 2; apply U).
  destruct o as [s|bs|bs|s i j|v|v i|v i j|v xs extra|v i b]; cbn [step careful] in *; try contradiction.
  - destruct (nth_error ss s) as [t|] eqn:E; [|exact I]. apply nth_error_In in E. split; [|apply U0]. split; cbn; [exact S| | |].
    + intros v Hv. apply in_app_iff in Hv as [Hv|[<-|[]]]; [apply V, Hv|]. cbn. specialize (S t E). lia.
    + intros u v x Hu Hv. apply in_app_iff in Hv as [Hv|[<-|[]]]; [apply A; assumption|]. cbn. lia.
    + intros v x Hv. apply in_app_iff in Hv as [Hv|[<-|[]]]; [apply R, Hv|]. cbn. lia.
  - split; [apply grow_string, HS|apply keep_app, HS].
  - split; [apply grow_string, HS|apply keep_app, HS].
  - destruct (nth_error ss s) as [t|] eqn:E; [|exact I]. apply nth_error_In in E. destruct ((i <=? j) && (j <=? slen t)) eqn:B; [|exact I]. apply andb_true_iff in B as [B1 B2]. apply Nat.leb_le in B1, B2. split; [|apply U]. split; cbn; [| exact V | |exact R].
    + intros u Hu. apply in_app_iff in Hu as [Hu|[<-|[]]]; [apply S, Hu|]. cbn. specialize (S t E). lia.
    + intros u v x Hu Hv. apply in_app_iff in Hu as [Hu|[<-|[]]]; [apply A; assumption|]. cbn. intros Hx. apply (A t v x E Hv). lia.
  - destruct (nth_error vs v) as [u|] eqn:E; [|exact I]. apply nth_error_In in E. specialize (V u E) as Vu. assert (vlen u = length (bytes_at m (vptr u) (vlen u))) as L by (rewrite bytes_length; lia). split; [rewrite L at 2; apply grow_string, HS|apply keep_app, HS].
  - destruct (nth_error vs v) as [u|] eqn:E; [|exact I]. apply nth_error_In in E. destruct (Nat.leb_spec i (vlen u)); [|exact I]. specialize (V u E) as Vu. split; [|apply U0]. split; cbn; [exact S| | |].
    + intros w Hw. apply in_app_iff in Hw as [Hw|[<-|[]]]; [apply V, Hw|]. cbn. lia.
    + intros s w x Hs Hw. apply in_app_iff in Hw as [Hw|[<-|[]]]; [apply A; assumption|]. cbn. intros Hx Hy. apply (A s u x Hs E Hx). lia.
    + intros w x Hw. apply in_app_iff in Hw as [Hw|[<-|[]]]; [apply R, Hw|]. cbn. intros Hx. apply (R u x E). lia.
  - destruct (nth_error vs v) as [u|] eqn:E; [|exact I]. apply nth_error_In in E. specialize (V u E) as Vu. destruct (Nat.leb_spec (vlen u + length xs) (vcap u)) as [L|L].
    + rewrite writable_ok by (intros x Hx; apply (R u x E); lia). split.
      * split; cbn; rewrite ?overwrite_length; [exact S| | |].
        -- intros w Hw. apply in_app_iff in Hw as [Hw|[<-|[]]]; [apply V, Hw|]. cbn. lia.
        -- intros s w x Hs Hw. apply in_app_iff in Hw as [Hw|[<-|[]]]; [apply A; assumption|]. cbn. intros Hx Hy. apply (A s u x Hs E Hx). lia.
        -- intros w x Hw Hx. assert (exists b, nth_error m x = Some (b, true)) as [b Hb] by (apply in_app_iff in Hw as [Hw|[<-|[]]]; [apply (R w x Hw Hx)|cbn in Hx; apply (R u x E); lia]). destruct (overwrite_flag m (vptr u + vlen u) xs x b true Hb) as [b' Hb']. exists b'. exact Hb'.
      * rewrite <- (app_nil_r ss) at 2. apply keep_text. intros s Hs x Hx. apply overwrite_out. intros Hy. apply (A s u x Hs E Hx). lia.
    + split; [|rewrite <- (app_nil_r ss) at 2; apply keep_app, HS]. assert (length (bytes_at m (vptr u) (vlen u)) = vlen u) as Lb by (apply bytes_length; lia). set (q := bytes_at m (vptr u) (vlen u) ++ xs ++ repeat 0%Z extra). assert (length q = vlen u + length xs + extra) as Lq by (unfold q; rewrite !app_length, repeat_length; lia).
      split; cbn; rewrite ?app_length, ?map_length, ?Lq.
      * intros s Hs. specialize (S s Hs). lia.
      * intros w Hw. apply in_app_iff in Hw as [Hw|[<-|[]]]; [specialize (V w Hw); lia|]. cbn. lia.
      * intros s w x Hs Hw. apply in_app_iff in Hw as [Hw|[<-|[]]]; [apply A; assumption|]. cbn. specialize (S s Hs). lia.
      * intros w x Hw Hx. apply in_app_iff in Hw as [Hw|[<-|[]]].
        -- destruct (R w x Hw Hx) as [b Hb]. exists b. rewrite nth_error_app1; [exact Hb|]. apply nth_error_Some. congruence.
        -- cbn in Hx. rewrite nth_error_app2 by lia. destruct (nth_error q (x - length m)) as [b|] eqn:Eb; [|apply nth_error_None in Eb; lia]. exists b. rewrite nth_error_map, Eb. reflexivity.
Qed.
Lemma careful_run os : forall st, sound st -> Forall careful os -> match run st os with Ok st' => sound st' /\ unchanged st st' | Panic => True | Fault => False end.
Proof.
  induction os as [|o os IH]; intros st HS C; [split; [exact HS|intros k t H; exact H]|]. inversion C as [|? ? C1 C2]; subst. cbn [run]. pose proof (careful_step st o HS C1) as H. destruct (step st o) as [st1| |]; [|exact I|contradiction]. destruct H as [H1 H2].
  specialize (IH st1 H1 C2). destruct (run st1 os) as [st2| |]; [|exact I|contradiction]. destruct IH as [I1 I2]. split; [exact I1|]. intros k t Hk. apply I2, H2, Hk.
Qed.
Lemma run_app os : forall st os', run st (os ++ os') = match run st os with Ok st' => run st' os' | r => r end.
Proof. induction os as [|o os IH]; intros st os'; [reflexivity|]. cbn. destruct (step st o); auto. Qed.
