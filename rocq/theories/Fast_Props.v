(** C166: StringToSlice. *)
From Coq Require Import ZArith List Bool Arith Lia.
From Verif Require Import Fast_Model Fast_Spec Fast_Proofs.
Import ListNotations.
Local Open Scope Z_scope.

(** Whatever the program did before, the slice has the bytes of the string, no more room than these, and no memory was taken for it. *)
Theorem c166_same_bytes st s t : text st s = Some t -> exists v, step st (ToSlice s) = Ok (MkState (mem st) (strings st) (slices st ++ [v])) /\
  content (MkState (mem st) (strings st) (slices st ++ [v])) (length (slices st)) = Some t /\ vcap v = vlen v.
Proof.
  destruct st as [m ss vs]. unfold text. cbn. destruct (nth_error ss s) as [u|] eqn:E; [|discriminate]. cbn. intros [= <-]. exists (StringToSlice u). split; [reflexivity|]. split; [|reflexivity]. unfold content. cbn. rewrite nth_error_app2, Nat.sub_diag by lia. reflexivity.
Qed.
Print Assumptions c166_same_bytes.
(** A program that assigns to no element and shortens no slice at its end, whatever else it does with slices, appending too: strings stay what they are, and it does not fault. *)
Theorem c166_strings_stay_partial os os' st : Forall careful (os ++ os') -> run start os = Ok st -> match run st os' with Ok st' => unchanged st st' | Panic => True | Fault => False end.
Proof.
  intros C H. apply Forall_app in C as [C1 C2]. pose proof (careful_run os start sound_start C1) as K. rewrite H in K. destruct K as [HS _]. pose proof (careful_run os' st HS C2) as K. destruct (run st os') as [st'| |]; [apply K|exact I|exact K].
Qed.
Print Assumptions c166_strings_stay_partial.
(** "ab" made, its slice, two appends (the second one in place), and the string is "ab" still; the slices are "ab", "abc", "abcd". *)
Example c166_ex : Forall careful ([Make [97; 98]] ++ [ToSlice 0; Append 0 [99] 3; Append 1 [100] 0]) /\
  exists st st', run start [Make [97; 98]] = Ok st /\ run st [ToSlice 0; Append 0 [99] 3; Append 1 [100] 0] = Ok st' /\ text st 0 = Some [97; 98] /\ text st' 0 = Some [97; 98] /\ content st' 0 = Some [97; 98] /\ content st' 1 = Some [97; 98; 99] /\ content st' 2 = Some [97; 98; 99; 100].
Proof. split; [repeat (constructor; [exact I|]); constructor|]. do 2 eexists. repeat split; reflexivity. Qed.
(** Strings do change: an assignment to an element of the slice changes the string, and its substrings, and so does append to a slice that was made shorter;
    for a literal it ends the program, for every literal that is not empty, at every place. *)
Theorem c166_strings_stay_refuted :
  (forall bs i b, (i < length bs)%nat -> exists st st', run start [Make bs; Sub 0 i (i + 1)] = Ok st /\ run st [ToSlice 0; Put 0 i b] = Ok st' /\ text st 1 = Some [nth i bs 0] /\ text st' 1 = Some [b]) /\
  (exists st st', run start [Make [97; 98; 99]] = Ok st /\ run st [ToSlice 0; Reslice 0 0 1; Append 1 [120] 0] = Ok st' /\ text st 0 = Some [97; 98; 99] /\ text st' 0 = Some [97; 120; 99]) /\
  (forall bs i b, (i < length bs)%nat -> run start [Literal bs; ToSlice 0; Put 0 i b] = Fault).
Proof.
  assert (forall (w : bool) bs i, (i < length bs)%nat -> firstn 1 (skipn i (map (fun b : Z => (b, w)) bs)) = [(nth i bs 0, w)]) as K.
  { intros w bs. induction bs as [|x bs IH]; intros [|i] H; cbn [length] in H; try lia; [reflexivity|]. cbn [map skipn nth]. apply IH. lia. }
  split; [|split].
  - intros bs i b H. eexists. eexists. split; [cbn; replace ((i <=? i + 1)%nat && (i + 1 <=? length bs)%nat) with true by (symmetry; apply andb_true_iff; split; apply Nat.leb_le; lia); reflexivity|]. split.
    { cbn [run step nth_error app StringToSlice sptr slen vptr vlen vcap start length mem strings slices]. rewrite (proj2 (Nat.ltb_lt i (length bs)) H). unfold writable. cbn [app]. rewrite !Nat.add_0_l. rewrite K by exact H. cbn. reflexivity. }
    replace (i + 1 - i)%nat with 1%nat by lia. unfold text, bytes_at. cbn [strings mem nth_error app option_map sptr slen start length]. rewrite ?Nat.add_0_l. split; [rewrite K by exact H; reflexivity|].
    f_equal. clear -H. revert i H. induction bs as [|x bs IH]; intros [|i] H; cbn [length] in H; try lia; [reflexivity|]. cbn [map overwrite skipn]. apply IH. lia.
  - do 2 eexists. repeat split; reflexivity.
  - intros bs i b H. cbn [run step nth_error app StringToSlice sptr slen vptr vlen vcap start length mem strings slices]. rewrite (proj2 (Nat.ltb_lt i (length bs)) H). unfold writable. rewrite !Nat.add_0_l, K by exact H. reflexivity.
Qed.
Print Assumptions c166_strings_stay_refuted.
