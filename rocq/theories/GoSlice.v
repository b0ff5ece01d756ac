(** Go byte slices: arrays in a heap, slices as windows, append in place or into a new array. *)
From stdpp Require Import list.
From Coq Require Import ZArith Lia.
Local Open Scope Z_scope.

(** The arrays allocated so far.  Go language specification, "Slice types"; used for buffer/buffer.go:40 and keystore/aes.go:41. *)
Notation heap := (list (list Z)).
(** A slice value: array, offset, length, capacity ("Slice types"; buffer/buffer.go:40). *)
Record slc := SL { sarr : nat; soff : nat; slen : nat; scap : nat }.
(** The array with number [a] (Go specification, "Slice types"; buffer/buffer.go:40). *)
Definition array (h : heap) (a : nat) : list Z := match h !! a with Some l => l | None => [] end.
(** The bytes of a slice (Go specification, "Slice types"; buffer/buffer.go:40). *)
Definition rd (h : heap) (s : slc) : list Z := take (slen s) (drop (soff s) (array h (sarr s))).
(** Bytes [bs] put over those from [i] on (built-in copy; buffer/buffer.go:48). *)
Definition over (l : list Z) (i : nat) (bs : list Z) : list Z := take i l ++ bs ++ drop (i + length bs) l.
(** The same in the array [a] (built-in copy; buffer/buffer.go:48). *)
Definition wr (h : heap) (a i : nat) (bs : list Z) : heap := <[a := over (array h a) i bs]> h.
(** append(s, bs...) for bytes: in place when the capacity suffices, else into a new array, with [grow] bytes to spare (how many is
    not specified).  The bytes of [bs] are read before anything is written.  Built-in append, as at buffer/buffer.go:48, 57, 66, 75
    and keystore/aes.go:41. *)
Definition append (h : heap) (s : slc) (bs : list Z) (grow : nat) : heap * slc :=
  if decide (slen s + length bs <= scap s)%nat
  then (wr h (sarr s) (soff s + slen s) bs, SL (sarr s) (soff s) (slen s + length bs) (scap s))
  else (h ++ [rd h s ++ bs ++ replicate grow 0], SL (length h) 0 (slen s + length bs) (slen s + length bs + grow)).
(** make([]byte, len(bs), len(bs)+extra) filled with [bs] (Go specification, "Making slices"; buffer/buffer.go:23, 28). *)
Definition mk (h : heap) (bs : list Z) (extra : nat) : heap * slc :=
  (h ++ [bs ++ replicate extra 0], SL (length h) 0 (length bs) (length bs + extra)).

(** ** Facts *)
Definition wf (h : heap) (s : slc) : Prop :=
  (sarr s < length h)%nat /\ (soff s + scap s <= length (array h (sarr s)))%nat /\ (slen s <= scap s)%nat.
Lemma rd_length h s : wf h s -> length (rd h s) = slen s.
Proof. intros (_ & H1 & H2). unfold rd. rewrite take_length, drop_length. lia. Qed.
Lemma over_length l i bs : (i + length bs <= length l)%nat -> length (over l i bs) = length l.
Proof. intros H. unfold over. rewrite !app_length, take_length, drop_length. lia. Qed.
Lemma wr_length h a i bs : length (wr h a i bs) = length h.
Proof. apply insert_length. Qed.
Lemma array_wr_ne h a b i bs : b <> a -> array (wr h a i bs) b = array h b.
Proof. intros H. unfold array, wr. rewrite list_lookup_insert_ne by congruence. reflexivity. Qed.
Lemma array_wr h a i bs : (a < length h)%nat -> array (wr h a i bs) a = over (array h a) i bs.
Proof. intros H. unfold wr. unfold array at 1. rewrite list_lookup_insert by exact H. reflexivity. Qed.
Lemma array_app h l a : (a < length h)%nat -> array (h ++ l) a = array h a.
Proof. intros H. unfold array. rewrite lookup_app_l by exact H. reflexivity. Qed.
Lemma array_new h l : array (h ++ [l]) (length h) = l.
Proof. unfold array. rewrite list_lookup_middle by reflexivity. reflexivity. Qed.
Lemma rd_app h l s : (sarr s < length h)%nat -> rd (h ++ l) s = rd h s.
Proof. intros H. unfold rd. rewrite array_app by exact H. reflexivity. Qed.
Lemma rd_wr_ne h a i bs s : sarr s <> a -> rd (wr h a i bs) s = rd h s.
Proof. intros H. unfold rd. rewrite array_wr_ne by exact H. reflexivity. Qed.
Lemma take_drop_over l i bs o n : (o + n <= i)%nat -> (i <= length l)%nat -> take n (drop o (over l i bs)) = take n (drop o l).
Proof.
  intros H1 H2. unfold over. rewrite drop_app_le by (rewrite take_length; lia). rewrite take_app_le by (rewrite drop_length, take_length; lia).
  rewrite skipn_firstn_comm, take_take. f_equal. lia.
Qed.
Lemma rd_wr_below h i bs s : (sarr s < length h)%nat -> (soff s + slen s <= i)%nat -> (i <= length (array h (sarr s)))%nat -> rd (wr h (sarr s) i bs) s = rd h s.
Proof. intros H1 H2 H3. unfold rd. rewrite array_wr by exact H1. apply take_drop_over; assumption. Qed.
Lemma wf_wr h a i bs s : (i + length bs <= length (array h a))%nat -> wf h s -> wf (wr h a i bs) s.
Proof.
  intros Hi (H1 & H2 & H3). unfold wf. rewrite wr_length. split; [exact H1|]. split; [|exact H3].
  destruct (decide (sarr s = a)) as [<-|Hn]; [rewrite array_wr, over_length by assumption; exact H2|rewrite array_wr_ne by exact Hn; exact H2].
Qed.
Lemma wf_app h l s : wf h s -> wf (h ++ l) s.
Proof. intros (H1 & H2 & H3). unfold wf. rewrite app_length, array_app by exact H1. split; [lia|]. auto. Qed.
Lemma append_rd h s bs g : wf h s -> let r := append h s bs g in rd r.1 r.2 = rd h s ++ bs.
Proof.
  intros Hw. pose proof (rd_length h s Hw) as Hl. destruct Hw as (H1 & H2 & H3). unfold append. destruct (decide _) as [Hd|Hd]; cbn [fst snd].
  - unfold rd. cbn [sarr soff slen]. rewrite array_wr by exact H1. unfold over. rewrite drop_app_le by (rewrite take_length; lia).
    rewrite skipn_firstn_comm. rewrite take_app_ge by (rewrite take_length, drop_length; lia). rewrite take_length, drop_length. f_equal.
    + f_equal. lia.
    + rewrite take_app_le by lia. rewrite take_ge by lia. reflexivity.
  - unfold rd at 1. cbn [sarr soff slen]. rewrite array_new, drop_0, app_assoc. rewrite take_app_le by (rewrite app_length; lia).
    rewrite take_ge by (rewrite app_length; lia). reflexivity.
Qed.
Lemma append_wf h s bs g : wf h s -> let r := append h s bs g in wf r.1 r.2.
Proof.
  intros Hw. pose proof (rd_length h s Hw) as Hl. pose proof Hw as (H1 & H2 & H3). unfold append. destruct (decide _) as [Hd|Hd]; cbn [fst snd].
  - unfold wf. cbn [sarr soff slen scap]. rewrite wr_length. split; [exact H1|]. rewrite array_wr, over_length by (try exact H1; lia). lia.
  - unfold wf. cbn [sarr soff slen scap]. rewrite app_length, array_new, !app_length, replicate_length. cbn [length]. lia.
Qed.
Lemma append_other h s bs g t : wf h s -> wf h t -> (sarr t <> sarr s \/ soff t + slen t <= soff s + slen s)%nat -> rd (append h s bs g).1 t = rd h t.
Proof.
  intros (H1 & H2 & H3) (T1 & T2 & T3) Hor. unfold append. destruct (decide _) as [Hd|Hd]; cbn [fst].
  - destruct (decide (sarr t = sarr s)) as [He|Hn]; [|apply rd_wr_ne; exact Hn]. rewrite <- He. apply rd_wr_below; [exact T1| |rewrite He; lia].
    destruct Hor; [congruence|assumption].
  - apply rd_app. exact T1.
Qed.
Lemma append_wf_other h s bs g t : wf h s -> wf h t -> wf (append h s bs g).1 t.
Proof.
  intros (H1 & H2 & H3) Ht. unfold append. destruct (decide _) as [Hd|Hd]; cbn [fst]; [apply wf_wr; [lia|exact Ht]|apply wf_app, Ht].
Qed.
Lemma append_arr h s bs g : sarr (append h s bs g).2 = sarr s \/ (sarr (append h s bs g).2 = length h).
Proof. unfold append. destruct (decide _); auto. Qed.
Lemma append_end h s bs g : sarr (append h s bs g).2 = sarr s -> (sarr s < length h)%nat ->
  (soff s + slen s <= soff (append h s bs g).2 + slen (append h s bs g).2)%nat.
Proof. unfold append. destruct (decide _); cbn; intros; lia. Qed.
Lemma mk_rd h bs e : rd (mk h bs e).1 (mk h bs e).2 = bs.
Proof. unfold mk, rd. cbn. rewrite array_new, drop_0. rewrite take_app_le by lia. apply take_ge. lia. Qed.
Lemma mk_wf h bs e : wf (mk h bs e).1 (mk h bs e).2.
Proof. unfold mk, wf. cbn. rewrite app_length, array_new, app_length, replicate_length. cbn. lia. Qed.
