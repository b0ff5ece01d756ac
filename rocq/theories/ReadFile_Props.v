(** C165: ReadFile. *)
From Coq Require Import ZArith List Bool Lia ZifyBool.
From Verif Require Import ReadFile_Model ReadFile_Spec ReadFile_Proofs.
Import ListNotations.
Local Open Scope Z_scope.

(** When nobody changes the file meanwhile, ReadFile gives what is in it. *)
Theorem c165_read_file_partial c es r : quiet es -> ReadFile (Some c) es = Bytes r -> r = c.
Proof.
  intros Q H. assert (exists h, held c es h /\ Forall (eq c) h) as (h & Hh & Hc).
  { clear H. induction Q as [|e es [k ->] _ (h & IH & Hc)]; [exists [c]; split; [constructor|repeat constructor]|]. exists (c :: h). split; [constructor; exact IH|constructor; auto]. }
  rewrite Forall_forall in Hc. destruct (reading_from (fun k b => nth_error c k = Some b) es c (repeat None (length c)) h Hh (from_none _ _)) with (r := r) as [L E]; [|exact H|].
  - rewrite repeat_length. intros c' Hi k b Hk P. rewrite <- (Hc c' Hi) in P. rewrite peek_in in P by exact Hk. exact P.
  - rewrite repeat_length in L. apply ext_eq; [exact L|]. intros k Hk. destruct (nth_in r k Hk) as [x Hx]. rewrite Hx. symmetry. apply E, Hx.
Qed.
Print Assumptions c165_read_file_partial.
(** It does finish when every byte is copied, in whatever order. *)
Theorem c165_finishes c es : quiet es -> (forall k, (k < length c)%nat -> In (Copy k) es) -> ReadFile (Some c) es = Bytes c.
Proof.
  intros Q A. assert (forall es bs, quiet es -> length bs = length c -> (forall k, (k < length c)%nat -> In (Copy k) es \/ exists b, nth_error bs k = Some (Some b)) -> exists r, reading es c bs = Bytes r) as K.
  { clear es Q A. intros es bs Q. revert bs. induction Q as [|e es [k ->] _ IH]; intros bs L A; cbn [reading]; (destruct (filled bs) as [q|] eqn:E; [eauto|]).
    - exfalso. assert (exists r, bs = map Some r) as [r Hr]; [|apply filled_spec in Hr; congruence]. clear E. assert (forall k, (k < length bs)%nat -> exists b, nth_error bs k = Some (Some b)) as B by (intros k Hk; destruct (A k) as [[]|H]; [lia|exact H]). clear A L.
      induction bs as [|x bs IH]; [exists []; reflexivity|]. destruct (B 0%nat) as [b Hb]; [cbn; lia|]. cbn in Hb. injection Hb as ->. destruct IH as [r ->]; [intros k Hk; apply (B (S k)); cbn; lia|]. exists (b :: r). reflexivity.
    - destruct (Nat.ltb_spec k (length bs)) as [Hk|Hk].
      + rewrite peek_in by lia. destruct (nth_in c k) as [b Hb]; [lia|]. rewrite Hb. apply IH; [rewrite set_length; exact L|]. intros j Hj. rewrite set_nth by exact Hk. destruct (Nat.eqb_spec j k) as [->|N]; [right; eauto|]. destruct (A j Hj) as [[E1|H]|H]; [injection E1 as ->; congruence|left; exact H|right; exact H].
      + apply IH; [exact L|]. intros j Hj. destruct (A j Hj) as [[E1|H]|H]; [injection E1 as ->; lia|left; exact H|right; exact H]. }
  destruct (K es (repeat None (length c)) Q (repeat_length _ _)) as [r Hr]; [intros k Hk; left; apply A, Hk|]. unfold ReadFile. rewrite Hr. f_equal. apply (c165_read_file_partial c es); [exact Q|exact Hr].
Qed.
Print Assumptions c165_finishes.
Example c165_ex : quiet [Copy 1; Copy 0; Copy 1; Copy 2] /\ ReadFile (Some [7; 8; 9]) [Copy 1; Copy 0; Copy 1; Copy 2] = Bytes [7; 8; 9] /\ ReadFile (Some []) [] = Bytes [] /\ ReadFile None [] = NoFile.
Proof. split; [repeat (constructor; [eexists; reflexivity|]); constructor|]. repeat split. Qed.
(** When others write but never make the file shorter than it was, the program goes on, and each byte was in its place at some moment of the call. *)
Theorem c165_each_byte_partial c es h : held c es h -> (forall c', In c' h -> (length c <= length c')%nat) ->
  ReadFile (Some c) es <> Killed /\ forall r, ReadFile (Some c) es = Bytes r -> length r = length c /\ forall k b, at_byte r k = Some b -> exists c', In c' h /\ at_byte c' k = Some b.
Proof.
  intros Hh Hl. split.
  - intros H. destruct (reading_killed es c _ h Hh H) as (c' & k & Hi & Hk & P). rewrite repeat_length in Hk. specialize (Hl c' Hi). rewrite peek_in in P by lia. apply nth_error_None in P. lia.
  - intros r H. destruct (reading_from (fun k b => exists c', In c' h /\ nth_error c' k = Some b) es c (repeat None (length c)) h Hh (from_none _ _)) with (r := r) as [L E]; [|exact H|].
    + rewrite repeat_length. intros c' Hi k b Hk P. specialize (Hl c' Hi). rewrite peek_in in P by lia. eauto.
    + rewrite repeat_length in L. split; [exact L|exact E].
Qed.
Print Assumptions c165_each_byte_partial.
Example c165_each_byte_ex : exists h, held [1; 1] [Copy 0; Write 0 [2; 2]; Copy 1] h /\ forall c', In c' h -> (length [1; 1] <= length c')%nat.
Proof. exists [[1; 1]; [1; 1]; [2; 2]; [2; 2]]. split; [|intros c' [<-|[<-|[<-|[<-|[]]]]]; cbn; lia]. apply held_copy. apply (held_write _ 0 [2; 2] _ [2; 2]); [|apply held_copy, held_nil]. split; [discriminate|]. intros _. split; [reflexivity|]. intros k Hk. destruct k as [|[|k]]; cbn in *; try reflexivity; lia. Qed.
(** Bytes are returned only for a file that is there, as many as it had at the beginning, whatever happens. *)
Theorem c165_size file es r : ReadFile file es = Bytes r -> exists c, file = Some c /\ length r = length c.
Proof.
  destruct file as [c|]; [|discriminate]. intros H. exists c. split; [reflexivity|]. assert (forall es c, exists h, held c es h) as K.
  { clear. induction es as [|[off w|n|k] es IH]; intros c; [exists [c]; constructor| | |].
    - destruct (IH (pwrite c off w)) as [h Hh]. exists (c :: h). apply (held_write _ _ _ _ (pwrite c off w)); [apply pwrite_written|exact Hh].
    - destruct (IH (ftruncate c n)) as [h Hh]. exists (c :: h). apply (held_cut _ _ _ (ftruncate c n)); [apply ftruncate_cut|exact Hh].
    - destruct (IH c) as [h Hh]. exists (c :: h). constructor. exact Hh. }
  destruct (K es c) as [h Hh]. destruct (reading_from (fun _ _ => True) es c (repeat None (length c)) h Hh (from_none _ _)) with (r := r) as [L _]; [auto|exact H|]. rewrite repeat_length in L. exact L.
Qed.
Print Assumptions c165_size.
Example c165_size_ex : ReadFile (Some [5; 6; 7]) [Write 3 [8]; Copy 2; Copy 1; Truncate 2; Copy 0] = Bytes [5; 6; 7].
Proof. reflexivity. Qed.
(** The program is killed only when the file has become shorter, by whole pages. *)
Theorem c165_killed_only c es h : held c es h -> ReadFile (Some c) es = Killed -> exists c' k, In c' h /\ (k < length c)%nat /\ Z.of_nat (length c') <= Z.of_nat k / 4096 * 4096.
Proof. intros Hh H. destruct (reading_killed es c _ h Hh H) as (c' & k & Hi & Hk & P). rewrite repeat_length in Hk. exists c', k. split; [exact Hi|]. split; [exact Hk|]. apply peek_none, P. Qed.
Print Assumptions c165_killed_only.
(** A mixture that was never in the file; zeros that nobody wrote; and, for every file with bytes in it, the end of the program when another makes it empty. *)
Theorem c165_read_file_refuted :
  (held [1; 1] [Copy 0; Write 0 [2; 2]; Copy 1] [[1; 1]; [1; 1]; [2; 2]; [2; 2]] /\ ReadFile (Some [1; 1]) [Copy 0; Write 0 [2; 2]; Copy 1] = Bytes [1; 2]) /\
  (held [5; 6; 7] [Truncate 1; Copy 0; Copy 1; Copy 2] [[5; 6; 7]; [5]; [5]; [5]; [5]] /\ ReadFile (Some [5; 6; 7]) [Truncate 1; Copy 0; Copy 1; Copy 2] = Bytes [5; 0; 0]) /\
  (forall c, c <> [] -> ReadFile (Some c) [Truncate 0; Copy 0] = Killed).
Proof.
  split; [|split].
  - split; [|reflexivity]. apply held_copy. apply (held_write _ 0 [2; 2] _ [2; 2]); [|apply held_copy, held_nil]. split; [discriminate|]. intros _. split; [reflexivity|]. intros k Hk. destruct k as [|[|k]]; cbn in *; try reflexivity; lia.
  - split; [|reflexivity]. apply (held_cut _ 1 _ [5]); [|do 3 apply held_copy; apply held_nil]. split; [reflexivity|]. intros k Hk. destruct k; [reflexivity|lia].
  - intros [|x c] H; [congruence|]. reflexivity.
Qed.
Print Assumptions c165_read_file_refuted.
