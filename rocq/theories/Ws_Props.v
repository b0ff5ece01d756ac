(** Properties C73 and C96 to C98: the websocket handler under every interleaving.

    [ws_run frame ho he hc hm (ws_init progs) evs]: any users (their calls in order, one list per goroutine), any schedule, anything Receive may find and the
    network breaking at any moment ([evs]), any of the four callbacks given or not ([ho] OnOpen, [he] OnError, [hc] OnClose, [hm] OnMessage), any encoding of
    frames that is never empty. *)
From stdpp Require Import list.
From Coq Require Import ZArith Lia.
From Verif Require Import Conc Ws_Model Ws_Spec Ws_Proofs.
Local Open Scope Z_scope.

Section ws.
Context (frame : origin -> list Z) (ho he hc hm : bool) (progs : list (list uop)) (evs : list wev).
Definition final : wsconf := ws_run frame ho he hc hm (ws_init progs) evs.
Definition seen : list event := tr (sh final).
Definition frames : Prop := forall o, frame o <> [].
Lemma final_inv : frames -> inv frame ho he hc hm progs final.
Proof. intros H. apply inv_run. exact H. Qed.
End ws.

(** A frame, for the examples. *)
Definition ex_frame (o : origin) : list Z :=
  match o with FSend _ _ bs => 130 :: Z.of_nat (length bs) :: bs | FClose => [136; 0] | FPong bs => 138 :: Z.of_nat (length bs) :: bs end.
Lemma ex_frames : frames ex_frame.
Proof. intros []; discriminate. Qed.
(** [n] steps of goroutine [t]. *)
Definition steps (t n : nat) : list wev := replicate n (Step t (IFail 7)).

(** * C73 Lifecycle *)
(** No message is received and no other callback begins before OnOpen has returned. *)
Theorem c73_open_first frame ho he hc hm progs evs tr1 x tr2 : frames frame -> ho = true ->
  seen frame ho he hc hm progs evs = tr1 ++ x :: tr2 -> match x with EvRecv _ | EvMsg _ | EvErr _ | EvClose => True | _ => False end -> EvOpened ∈ tr1.
Proof.
  intros Hf Ho E Hx. destruct (final_inv frame ho he hc hm progs evs Hf) as (_ & IT & _). pose proof (g_tr _ _ _ IT tr1 x tr2 E) as H. destruct x; try destruct Hx; cbn [okx] in H; [apply H, Ho..].
Qed.
Print Assumptions c73_open_first.
(** OnClose and OnError are called at most once. *)
Theorem c73_once frame ho he hc hm progs evs : frames frame ->
  (length (closes (seen frame ho he hc hm progs evs)) <= 1)%nat /\ (length (errors (seen frame ho he hc hm progs evs)) <= 1)%nat.
Proof.
  intros Hf. destruct (final_inv frame ho he hc hm progs evs Hf) as (IS & _). pose proof (g_close _ _ _ _ _ _ IS). pose proof (g_err _ _ _ _ _ _ IS).
  pose proof (sumZ_nonneg life (ths (final frame ho he hc hm progs evs)) ltac:(intros; apply life_nn)). pose proof (sumZ_nonneg before (ths (final frame ho he hc hm progs evs)) ltac:(intros; apply before_nn)).
  assert (0 <= sumZ iserr (ths (final frame ho he hc hm progs evs))) by (apply sumZ_nonneg; intros []; cbn; lia). unfold seen. destruct hc, he; lia.
Qed.
Print Assumptions c73_once.
(** Nothing is received once OnClose has begun. *)
Theorem c73_loop_ended frame ho he hc hm progs evs tr1 tr2 m : frames frame -> seen frame ho he hc hm progs evs = tr1 ++ EvClose :: tr2 -> EvRecv m ∉ tr2.
Proof.
  intros Hf E Hm. destruct (final_inv frame ho he hc hm progs evs Hf) as (_ & IT & _). apply elem_of_list_split in Hm as (a & b & ->).
  assert (E' : seen frame ho he hc hm progs evs = (tr1 ++ EvClose :: a) ++ EvRecv m :: b) by (rewrite E, <- app_assoc; reflexivity).
  destruct (g_tr _ _ _ IT _ _ _ E') as [_ H]. apply H. apply elem_of_app. right. left.
Qed.
Print Assumptions c73_loop_ended.
(** Nothing is transmitted once a Close has returned or OnClose has begun. *)
Theorem c73_shut_silent frame ho he hc hm progs evs tr1 x tr2 b : frames frame -> seen frame ho he hc hm progs evs = tr1 ++ x :: tr2 -> shut x -> EvByte b ∉ tr2.
Proof.
  intros Hf E Hx Hm. destruct (final_inv frame ho he hc hm progs evs Hf) as (_ & IT & _). apply elem_of_list_split in Hm as (a & c & ->).
  assert (E' : seen frame ho he hc hm progs evs = (tr1 ++ x :: a) ++ EvByte b :: c) by (rewrite E, <- app_assoc; reflexivity).
  apply (g_tr _ _ _ IT _ _ _ E' x); [|exact Hx]. apply elem_of_app. right. left.
Qed.
Print Assumptions c73_shut_silent.
(** A Send or Error that is called when a Close has returned, or OnClose or OnError has begun, returns an error. *)
Theorem c73_late_calls_fail frame ho he hc hm progs evs tr1 t k o r tr2 : frames frame -> seen frame ho he hc hm progs evs = tr1 ++ EvRet t k o r :: tr2 -> o <> OClose -> late t k tr1 -> r <> None.
Proof. intros Hf E Ho HL. destruct (final_inv frame ho he hc hm progs evs Hf) as (_ & IT & _). exact (g_tr _ _ _ IT _ _ _ E Ho HL). Qed.
Print Assumptions c73_late_calls_fail.
(** No deadlock: when no goroutine can go on, every user has made all its calls and everything else has ended; OnClose and OnError (if given) have then been called exactly once. *)
Theorem c73_ends frame ho he hc hm progs evs : frames frame -> quiet frame ho he hc hm (final frame ho he hc hm progs evs) ->
  (forall t th, ths (final frame ho he hc hm progs evs) !! t = Some th -> th = TEnd \/ exists k, th = TUser [] k UIdle) /\
  length (closes (seen frame ho he hc hm progs evs)) = (if hc then 1 else 0)%nat /\ length (errors (seen frame ho he hc hm progs evs)) = (if he then 1 else 0)%nat.
Proof.
  intros Hf Q. pose proof (final_inv frame ho he hc hm progs evs Hf) as I. split; [exact (quiet_done _ _ _ _ _ _ _ I Q)|]. pose proof (quiet_sum _ _ _ _ _ _ _ life I Q eq_refl ltac:(reflexivity)) as L.
  pose proof (quiet_sum _ _ _ _ _ _ _ before I Q eq_refl ltac:(reflexivity)) as B. pose proof (quiet_sum _ _ _ _ _ _ _ iserr I Q eq_refl ltac:(reflexivity)) as R. destruct I as (IS & _).
  pose proof (g_close _ _ _ _ _ _ IS) as C1. pose proof (g_err _ _ _ _ _ _ IS) as C2. unfold seen. rewrite L in C1. rewrite B, R in C2. destruct hc, he; lia.
Qed.
Print Assumptions c73_ends.
(** One user sends, gets an answer, closes, sends again: quiet at the end. *)
Definition ex_run : list wev :=
  steps 0 2 ++ steps 1 9 ++ [Step 2 (IMsg []); Step 2 (IMsg [5]); Step 2 (IMsg [])] ++ steps 3 1 ++ steps 1 30 ++ steps 2 30 ++ steps 4 1.
Example c73_ex :
  seen ex_frame true true true true [[OSend [9]; OClose; OSend [8]; OError]] ex_run =
    [EvOpen; EvOpened; EvCall 1 0 (OSend [9]); EvByte 130; EvByte 1; EvByte 9; EvRecv [5]; EvMsg [5]; EvRet 1 0 (OSend [9]) None; EvCall 1 1 OClose;
     EvByte 136; EvByte 0; EvRet 1 1 OClose None; EvCall 1 2 (OSend [8]); EvRet 1 2 (OSend [8]) (Some EClosed); EvCall 1 3 OError; EvRet 1 3 OError (Some EClosed);
     EvClose; EvErr None] /\
  quiet ex_frame true true true true (final ex_frame true true true true [[OSend [9]; OClose; OSend [8]; OError]] ex_run).
Proof.
  split; [vm_compute; reflexivity|]. intros t th i. assert (E : ths (final ex_frame true true true true [[OSend [9]; OClose; OSend [8]; OError]] ex_run) = [TEnd; TUser [] 4 UIdle; TEnd; TEnd; TEnd]) by (vm_compute; reflexivity).
  rewrite E. destruct t as [|[|[|[|[|t]]]]]; intros H; try discriminate H; injection H as <-; reflexivity.
Qed.

(** * C96 Messages *)
(** No message is handed to OnMessage more often than it was received; when everything has ended each was handed over exactly once. *)
Theorem c96_messages_once frame ho he hc hm progs evs m : frames frame ->
  cnt m (handed (seen frame ho he hc hm progs evs)) <= cnt m (received (seen frame ho he hc hm progs evs)).
Proof.
  intros Hf. destruct (final_inv frame ho he hc hm progs evs Hf) as (IS & _). pose proof (g_msg _ _ _ _ _ _ IS m) as G. unfold seen.
  assert (0 <= sumZ (ismsg m) (ths (final frame ho he hc hm progs evs))) by (apply sumZ_nonneg; intros [| |[]| | | |]; cbn; try destruct (decide _); lia).
  assert (0 <= sumZ (istmsg m) (ths (final frame ho he hc hm progs evs))) by (apply sumZ_nonneg; intros [| |[]| | | |]; cbn; try destruct (decide _); lia).
  assert (0 <= cnt m (received (tr (sh (final frame ho he hc hm progs evs))))) by (apply sumZ_nonneg; intros; apply one_nn). destruct hm; lia.
Qed.
Print Assumptions c96_messages_once.
Theorem c96_messages_all frame ho he hc progs evs : frames frame -> quiet frame ho he hc true (final frame ho he hc true progs evs) ->
  handed (seen frame ho he hc true progs evs) ≡ₚ received (seen frame ho he hc true progs evs).
Proof.
  intros Hf Q. pose proof (final_inv frame ho he hc true progs evs Hf) as I. apply cnt_perm. intros m. pose proof (quiet_sum _ _ _ _ _ _ _ (ismsg m) I Q eq_refl ltac:(reflexivity)) as L.
  destruct I as (IS & _). pose proof (g_msg _ _ _ _ _ _ IS m) as G. unfold seen. cbn beta iota in G. lia.
Qed.
Print Assumptions c96_messages_all.
(** But not in order, and not before OnClose: every message has its own goroutine. *)
Theorem c96_in_order_refuted : exists evs, quiet ex_frame true true true true (final ex_frame true true true true [] evs) /\
  handed (seen ex_frame true true true true [] evs) <> received (seen ex_frame true true true true [] evs).
Proof.
  exists (steps 0 2 ++ [Step 1 (IMsg []); Step 1 (IMsg [1]); Step 1 (IMsg []); Step 1 (IMsg []); Step 1 (IMsg [2]); Step 1 (IMsg [])] ++ steps 3 1 ++ steps 2 1 ++ steps 1 20 ++ steps 4 1).
  split; [|vm_compute; discriminate]. intros t th i.
  match goal with |- ths ?c !! _ = _ -> _ => assert (E : ths c = [TEnd; TEnd; TEnd; TEnd; TEnd]) by (vm_compute; reflexivity) end. rewrite E.
  destruct t as [|[|[|[|[|t]]]]]; intros H; try discriminate H; injection H as <-; reflexivity.
Qed.
Print Assumptions c96_in_order_refuted.
Theorem c96_not_after_close_refuted : exists evs tr1 tr2 m, seen ex_frame true true true true [] evs = tr1 ++ EvClose :: tr2 /\ EvMsg m ∈ tr2.
Proof.
  exists (steps 0 2 ++ [Step 1 (IMsg []); Step 1 (IMsg [1]); Step 1 (IMsg [])] ++ steps 1 20 ++ steps 2 1), [EvOpen; EvOpened; EvRecv [1]; EvByte 136; EvByte 0], [EvMsg [1]], [1].
  split; [vm_compute; reflexivity|left].
Qed.
Print Assumptions c96_not_after_close_refuted.
(** Handed over one at a time, as long as a message is only received when the one before it was handed over, they are in order: what is missing for the full claim is exactly that. *)
Theorem c96_in_order_partial frame ho he hc progs evs : frames frame ->
  (forall n, let p := seen frame ho he hc true progs (take n evs) in (length (received p) <= S (length (handed p)))%nat) ->
  handed (seen frame ho he hc true progs evs) `prefix_of` received (seen frame ho he hc true progs evs).
Proof.
  intros Hf. assert (Hinv : forall n, inv frame ho he hc true progs (final frame ho he hc true progs (take n evs))) by (intros; apply final_inv, Hf). revert Hinv.
  induction evs as [|e evs0 IH] using rev_ind; intros Hinv H; [apply prefix_nil|].
  assert (IH' : handed (seen frame ho he hc true progs evs0) `prefix_of` received (seen frame ho he hc true progs evs0)).
  { apply IH.
    - intros n. specialize (Hinv (n `min` length evs0)%nat). rewrite take_app_le in Hinv by lia. rewrite <- take_take in Hinv. rewrite (firstn_all evs0) in Hinv. exact Hinv.
    - intros n. specialize (H (n `min` length evs0)%nat). rewrite take_app_le in H by lia. rewrite <- take_take in H. rewrite (firstn_all evs0) in H. exact H. }
  assert (Hlen : (length (received (seen frame ho he hc true progs evs0)) <= S (length (handed (seen frame ho he hc true progs evs0))))%nat).
  { specialize (H (length evs0)). rewrite take_app in H. exact H. }
  assert (I0 : inv frame ho he hc true progs (final frame ho he hc true progs evs0)) by (specialize (Hinv (length evs0)); rewrite take_app in Hinv; exact Hinv).
  assert (I1 : inv frame ho he hc true progs (final frame ho he hc true progs (evs0 ++ [e]))) by (specialize (Hinv (length (evs0 ++ [e]))); rewrite firstn_all in Hinv; exact Hinv).
  assert (E : exists x, seen frame ho he hc true progs (evs0 ++ [e]) = seen frame ho he hc true progs evs0 ++ x /\ (length x <= 1)%nat).
  { unfold seen, final, ws_run. rewrite foldl_app. cbn [foldl]. apply one_event. }
  destruct E as (x & E & Hx). rewrite E. destruct x as [|x [|]]; [rewrite app_nil_r; exact IH'| |cbn in Hx; lia]. rewrite handed_snoc, received_snoc.
  destruct x; rewrite ?app_nil_r; try exact IH'; [etransitivity; [exact IH'|apply prefix_app_r; reflexivity]|].
  destruct IH' as [z Hz]. rewrite Hz in Hlen |- *. rewrite app_length in Hlen. destruct I1 as (IS & _). pose proof (g_msg _ _ _ _ _ _ IS m) as G. cbn beta iota in G.
  change (tr (sh (final frame ho he hc true progs (evs0 ++ [e])))) with (seen frame ho he hc true progs (evs0 ++ [e])) in G. rewrite E, handed_snoc, received_snoc, app_nil_r, Hz, !cnt_app, cnt_one in G.
  assert (0 <= sumZ (ismsg m) (ths (final frame ho he hc true progs (evs0 ++ [e])))) by (apply sumZ_nonneg; intros [| |[]| | | |]; cbn; try destruct (decide _); lia). unfold one in G. rewrite decide_True in G by reflexivity.
  destruct z as [|y [|y' z]]; [rewrite cnt_nil in G; lia| |cbn in Hlen; lia]. rewrite cnt_one in G. unfold one in G. destruct (decide (y = m)) as [->|]; [reflexivity|lia].
Qed.
Print Assumptions c96_in_order_partial.
Example c96_ex : received (seen ex_frame true true true true [[OSend [9]; OClose; OSend [8]; OError]] ex_run) = [[5]] /\ handed (seen ex_frame true true true true [[OSend [9]; OClose; OSend [8]; OError]] ex_run) = [[5]].
Proof. vm_compute. auto. Qed.

(** * C97 Frames *)
(** The wire holds whole frames one after another, and at most the beginning of one more.  Every Send that returned nil has its frame, none has two, there is none without a call, and if one Send had returned before another was
    called its frame comes first. *)
Theorem c97_frames_whole frame ho he hc hm progs evs : frames frame ->
  exists F torn, sent (seen frame ho he hc hm progs evs) = concat (frame <$> F) ++ torn /\ (exists o, torn `prefix_of` frame o) /\
    NoDup (send_ids F) /\
    (forall t k bs, EvRet t k (OSend bs) None ∈ seen frame ho he hc hm progs evs -> FSend t k bs ∈ F) /\
    (forall t k bs, FSend t k bs ∈ F -> EvCall t k (OSend bs) ∈ seen frame ho he hc hm progs evs) /\
    (forall F1 F2 t k bs t' k' bs', F = F1 ++ FSend t k bs :: F2 -> precedes (seen frame ho he hc hm progs evs) t' k' bs' t k -> FSend t' k' bs' ∈ F1).
Proof. intros Hf. destruct (final_inv frame ho he hc hm progs evs Hf) as (_ & _ & F & torn & [B P O N R C Q] & _). exists F, torn. exact (conj B (conj P (conj N (conj R (conj C Q))))). Qed.
Print Assumptions c97_frames_whole.
(** Two users at once: the second waits for the whole frame of the first. *)
Example c97_ex :
  sent (seen ex_frame true true true true [[OSend [1; 2]]; [OSend [3]]] (steps 0 2 ++ steps 1 5 ++ steps 2 9 ++ steps 1 9 ++ steps 2 9)) = [130; 2; 1; 2; 130; 1; 3].
Proof. vm_compute. reflexivity. Qed.

(** * C98 The reason *)
(** OnError is called without an error when this side has closed. *)
Theorem c98_error_given_refuted : exists progs evs, EvErr None ∈ seen ex_frame true true true true progs evs.
Proof. exists [[OClose]], (steps 0 2 ++ steps 1 20 ++ steps 2 20 ++ steps 3 1). vm_compute. repeat (first [left|right]). Qed.
Print Assumptions c98_error_given_refuted.
(** The error of the network is not what Error() gives after OnError was called with it. *)
Theorem c98_error_kept_refuted : exists evs c, seen ex_frame true true true true [[OError]] evs = [EvOpen; EvOpened; EvErr (Some (ENet c)); EvCall 1 0 OError; EvRet 1 0 OError (Some EClosed)].
Proof. exists (steps 0 2 ++ steps 2 5 ++ steps 3 1 ++ steps 1 2), 7. vm_compute. reflexivity. Qed.
Print Assumptions c98_error_kept_refuted.
(** If no user closes, OnError gets an error of the network.  Missing for the full claim: that it is given when a user closes, and that Error() keeps it. *)
Theorem c98_error_given_partial frame ho he hc hm progs evs e : frames frame -> Forall (fun p => OClose ∉ p) progs -> EvErr e ∈ seen frame ho he hc hm progs evs -> exists c, e = Some (ENet c).
Proof.
  intros Hf Hn H. destruct (final_inv frame ho he hc hm progs evs Hf) as (_ & IT & _). apply elem_of_list_split in H as (a & b & E). destruct (g_tr _ _ _ IT _ _ _ E) as [_ X]. exact (X Hn).
Qed.
Print Assumptions c98_error_given_partial.
Example c98_ex : seen ex_frame true true true true [[OSend [1]]] (steps 0 2 ++ steps 2 5 ++ steps 3 1 ++ steps 1 3) =
  [EvOpen; EvOpened; EvErr (Some (ENet 7)); EvCall 1 0 (OSend [1]); EvRet 1 0 (OSend [1]) (Some EClosed)].
Proof. vm_compute. reflexivity. Qed.
