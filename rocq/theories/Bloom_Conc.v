(** Interleavings of Add: what survives when goroutines touch different words and no rotation is due. *)
From Coq Require Import ZArith List Bool Lia.
From Verif Require Import GoInt Bloom_Model Bloom_Spec Bloom_Proofs.
Import ListNotations.
Local Open Scope Z_scope.

Section conc.
Context {item : Type} (h : Z -> item -> Z) (E m k : Z) (progs : list (list item)).
Let A := words m.
Let K := clamp_k k.
Hypothesis HE64 : 3 * E + 1 < 2^64.
Hypothesis HA : 1 <= A.
Hypothesis HA64 : 64 * A < 2^64.
Hypothesis HK : 1 <= K.

Let ix (i : Z) (x : item) := h i x mod (64 * A).
Let total := Z.of_nat (length (concat progs)).
Hypothesis Htot : total < E.
(** Items of different goroutines never share a word. *)
Hypothesis Hdisj : forall t t' p p' x x' i i', t <> t' -> nth_error progs t = Some p -> nth_error progs t' = Some p' ->
  In x p -> In x' p' -> 0 <= i < K -> 0 <= i' < K -> ix i x / 64 <> ix i' x' / 64.

Definition has (a : list Z) (b : Z) : Prop := Z.testbit (nth (Z.to_nat (b / 64)) a 0) (b mod 64) = true.
Definition pcur (p : bpc item) : list item :=
  match p with PIdle => [] | PNext x _ | PGot x _ _ _ | PRead x _ _ _ _ => [x] end.
Definition pos_ok (a : list Z) (p : bpc item) : Prop :=
  match p with
  | PIdle => True
  | PNext x i => 0 <= i <= K /\ forall j, 0 <= j < i -> has a (ix j x)
  | PGot x i id b => id = 0 /\ b = ix i x /\ 0 <= i < K /\ forall j, 0 <= j < i -> has a (ix j x)
  | PRead x i id b val => id = 0 /\ b = ix i x /\ 0 <= i < K /\ val = nth (Z.to_nat (b / 64)) a 0 /\
      forall j, 0 <= j < i -> has a (ix j x)
  end.
Record th_ok (a : list Z) (p : list item) (th : bthread item) : Prop := {
  ok_prog : p = bdone th ++ pcur (bpos th) ++ btodo th;
  ok_done : forall x, In x (bdone th) -> forall j, 0 <= j < K -> has a (ix j x);
  ok_pos : pos_ok a (bpos th) }.
Definition todos (ths : list (bthread item)) : Z := fold_right (fun th s => Z.of_nat (length (btodo th)) + s) 0 ths.
Record inv (c : bconf item) (a : list Z) : Prop := {
  i_bf : bf_of c = Bloom (Some a) None None K (numCount (bf_of c)) A E;
  i_len : Z.of_nat (length a) = A;
  i_num : 0 <= numCount (bf_of c) /\ numCount (bf_of c) + todos (bths c) = total;
  i_ths : length (bths c) = length progs;
  i_all : forall t p th, nth_error progs t = Some p -> nth_error (bths c) t = Some th -> th_ok a p th }.

Lemma todos_nonneg ths : 0 <= todos ths.
Proof. induction ths as [|th r IH]; cbn [todos fold_right]; unfold todos in *; lia. Qed.
Lemma todos_upd t th th' ths : nth_error ths t = Some th ->
  todos (upd t th' ths) = todos ths - Z.of_nat (length (btodo th)) + Z.of_nat (length (btodo th')).
Proof.
  revert t. induction ths as [|u r IH]; intros [|t] Ht; cbn [nth_error] in Ht; [discriminate..| |].
  - injection Ht as ->. cbn [upd todos fold_right]. fold (todos r). lia.
  - cbn [upd todos fold_right]. fold (todos (upd t th' r)) (todos r). rewrite (IH t); auto. lia.
Qed.
Lemma nth_error_upd {B} t t' (x : B) l : nth_error (upd t x l) t' =
  if Nat.eq_dec t t' then match nth_error l t with Some _ => Some x | None => None end else nth_error l t'.
Proof.
  revert t t'. induction l as [|y l IH]; intros [|t] [|t']; cbn [upd nth_error]; auto.
  - destruct (Nat.eq_dec _ _); auto.
  - rewrite IH. destruct (Nat.eq_dec t t'), (Nat.eq_dec (S t) (S t')); auto; lia.
Qed.
Lemma gb a n : 0 <= n < E -> getBitIndex (Bloom (Some a) None None K n A E) = (0, 2, Bloom (Some a) None None K n A E).
Proof.
  intros Hn. unfold getBitIndex, gen_index. cbn [numCount expectedItems].
  rewrite (u64_id (E * 3 + 1)) by (unfold is_u64; lia). rewrite Z.mod_small by lia.
  destruct (Z.ltb_spec n E); [|lia]. reflexivity.
Qed.
Lemma ixr i x : 0 <= ix i x < 64 * A.
Proof. apply Z.mod_pos_bound. lia. Qed.
Lemma ixw i x : 0 <= ix i x / 64 < A.
Proof. pose proof (ixr i x). split; [apply Z.div_pos; lia|apply Z.div_lt_upper_bound; lia]. Qed.

(** Setting a bit keeps the others. *)
Lemma has_set a b b' : (0 <= b / 64 < Z.of_nat (length a)) -> 0 <= b' / 64 ->
  has (upd (Z.to_nat (b / 64)) (Z.lor (nth (Z.to_nat (b / 64)) a 0) (Z.shiftl 1 (b mod 64))) a) b' <-> has a b' \/ b' = b.
Proof.
  intros Hb Hb'. unfold has. rewrite nth_upd.
  pose proof (Z.mod_pos_bound b 64 ltac:(lia)). pose proof (Z.mod_pos_bound b' 64 ltac:(lia)).
  pose proof (Z.div_mod b 64 ltac:(lia)). pose proof (Z.div_mod b' 64 ltac:(lia)).
  destruct (Nat.eqb_spec (Z.to_nat (b / 64)) (Z.to_nat (b' / 64))) as [Eq|Ne].
  - assert (b' / 64 = b / 64) as Ew by lia.
    destruct (Nat.ltb_spec (Z.to_nat (b / 64)) (length a)); [|lia].
    rewrite Z.lor_spec, orb_true_iff, Ew. rewrite Z.shiftl_1_l, Z.pow2_bits_eqb by lia.
    split; intros [Hx|Hx]; auto.
    + right. apply Z.eqb_eq in Hx. lia.
    + right. subst b'. apply Z.eqb_eq. lia.
  - split; [auto|]. intros [Hh | -> ]; [auto|]. lia.
Qed.

Lemma pos_mono a a' p : (forall b, 0 <= b / 64 -> has a b -> has a' b) ->
  (forall x i id b val, p = PRead x i id b val -> nth (Z.to_nat (b / 64)) a' 0 = nth (Z.to_nat (b / 64)) a 0) ->
  pos_ok a p -> pos_ok a' p.
Proof.
  intros Hm Hr. assert (Hh : forall j x, has a (ix j x) -> has a' (ix j x)).
  { intros j x. apply Hm. apply ixw. }
  destruct p as [|x i|x i id b|x i id b val]; cbn [pos_ok]; auto.
  - intros [Hi Hj]. split; [auto|]. intros j Hj0. apply Hh. auto.
  - intros (-> & -> & Hi & Hj). repeat split; try lia. intros j Hj0. apply Hh. auto.
  - intros (-> & -> & Hi & -> & Hj). split; [auto|]. split; [auto|]. split; [auto|]. split; [|intros j Hj0; apply Hh; auto]. symmetry. eapply Hr. reflexivity.
Qed.

(** A step that leaves the array alone and moves one goroutine keeps the invariant. *)
Lemma keep_array c a t th th' p n : inv c a -> nth_error (bths c) t = Some th -> nth_error progs t = Some p ->
  th_ok a p th' -> n + Z.of_nat (length (btodo th')) = numCount (bf_of c) + Z.of_nat (length (btodo th)) -> 0 <= n ->
  inv (BConf (Bloom (Some a) None None K n A E) (upd t th' (bths c))) a.
Proof.
  intros [Hbf Hl Hn Ht Hall] Eth Ep Hok Hnum Hpos. constructor; cbn [bf_of bths numCount]; auto.
  - split; [lia|]. rewrite (todos_upd t th th') by auto. lia.
  - rewrite upd_length. auto.
  - intros t' p' th2 Ep' Eth'. rewrite nth_error_upd, Eth in Eth'. destruct (Nat.eq_dec t t') as [->|].
    + injection Eth' as <-. congruence.
    + eauto.
Qed.

Lemma step_inv c a t : inv c a -> exists a', inv (bconf_step h c t) a'.
Proof.
  intros HI. unfold bconf_step. destruct (nth_error (bths c) t) as [th|] eqn:Eth; [|eauto].
  assert (exists p, nth_error progs t = Some p) as [p Ep].
  { destruct (nth_error progs t) as [p|] eqn:Ep; [eauto|]. apply nth_error_None in Ep. destruct HI as [_ _ _ Ht _].
    rewrite <- Ht in Ep. apply nth_error_None in Ep. congruence. }
  pose proof HI as [Hbf Hl [Hn0 Hn] Ht Hall]. destruct (Hall t p th Ep Eth) as [Hprog Hdone Hpos].
  pose proof (todos_nonneg (bths c)) as Htn.
  set (n := numCount (bf_of c)) in *. unfold bthread_step. rewrite Hbf.
  assert (Hd : u64 (A * 64) = 64 * A) by (rewrite u64_id by (unfold is_u64; lia); lia).
  destruct (bpos th) as [|x i|x i id b|x i id b val] eqn:Epos; cbn [pcur app pos_ok] in *.
  - destruct (btodo th) as [|x r] eqn:Etodo.
    + exists a. eapply keep_array; [exact HI|exact Eth|exact Ep| |auto|auto]. constructor; rewrite ?Epos, ?Etodo; cbn [pcur app pos_ok]; auto.
    + cbn [numCount b0 b1 b2 hashCount arraySize expectedItems].
      exists a. rewrite u64_id by (unfold is_u64; pose proof (todos_upd t th (BTh [] PIdle []) _ Eth); pose proof (todos_nonneg (upd t (BTh [] PIdle []) (bths c))); cbn [btodo length] in *; lia).
      eapply keep_array; [exact HI|exact Eth|exact Ep|..].
      * constructor; cbn [bdone bpos btodo pcur pos_ok]; auto. split; [lia|]. intros j Hj. lia.
      * fold n. rewrite Etodo. cbn [btodo length]. lia.
      * lia.
  - cbn [hashCount]. destruct (Z.leb_spec K i) as [Hle|Hlt].
    + exists a. eapply keep_array; [exact HI|exact Eth|exact Ep| |auto|auto]. constructor; cbn [bdone bpos btodo pcur app pos_ok]; auto.
      * rewrite <- app_assoc. auto.
      * intros y Hy j Hj. apply in_app_or in Hy. destruct Hy as [Hy|[<-|[]]]; [auto|]. apply Hpos. lia.
    + unfold bit_of. cbn [arraySize]. rewrite Hd. destruct (Z.eqb_spec (64 * A) 0); [lia|].
      rewrite gb by lia. exists a. eapply keep_array; [exact HI|exact Eth|exact Ep| |auto|auto].
      constructor; cbn [bdone bpos btodo pcur pos_ok]; auto. destruct Hpos. repeat split; auto. lia.
  - destruct Hpos as (-> & -> & Hi & Hj). cbn [get_arr Z.eqb b0]. pose proof (ixw i x) as Hw.
    destruct (Z.ltb_spec (ix i x / 64) (Z.of_nat (length a))); [|lia].
    exists a. eapply keep_array; [exact HI|exact Eth|exact Ep| |auto|auto]. constructor; cbn [bdone bpos btodo pcur pos_ok]; auto.
  - destruct Hpos as (-> & -> & Hi & -> & Hj). cbn [get_arr Z.eqb b0 set_arr b1 b2 hashCount numCount arraySize expectedItems].
    pose proof (ixw i x) as Hw. set (a' := upd _ _ a). exists a'.
    assert (Hhas : forall b', 0 <= b' / 64 -> has a' b' <-> has a b' \/ b' = ix i x) by (intros; apply has_set; auto; lia).
    constructor; cbn [bf_of bths numCount]; auto.
    + unfold a'. rewrite upd_length. auto.
    + split; [lia|]. rewrite (todos_upd t th) by auto. cbn [btodo]. lia.
    + rewrite upd_length. auto.
    + intros t' p' th2 Ep' Eth'. rewrite nth_error_upd, Eth in Eth'. destruct (Nat.eq_dec t t') as [->|Hne].
      * injection Eth' as <-. assert (p' = p) as -> by congruence. constructor; cbn [bdone bpos btodo pcur pos_ok]; auto.
        -- intros y Hy j Hj'. apply Hhas; [apply ixw|auto].
        -- split; [lia|]. intros j Hj'. apply Hhas; [apply ixw|]. destruct (Z.eq_dec j i) as [->|]; [auto|]. left. apply Hj. lia.
      * destruct (Hall t' p' th2 Ep' Eth') as [Hp2 Hd2 Ho2]. constructor; auto.
        -- intros y Hy j Hj'. apply Hhas; [apply ixw|auto].
        -- eapply pos_mono; [| |exact Ho2].
           ++ intros b' Hb' Hb. apply Hhas; auto.
           ++ intros x2 i2 id2 b2 val2 Epos2. rewrite Epos2 in Ho2, Hp2. cbn [pos_ok] in Ho2. destruct Ho2 as (_ & -> & Hi2 & _).
              unfold a'. rewrite nth_upd. destruct (Nat.eqb_spec (Z.to_nat (ix i x / 64)) (Z.to_nat (ix i2 x2 / 64))) as [Eq|]; [|auto].
              exfalso. apply (Hdisj t t' p p' x x2 i i2); auto.
              ** rewrite Hprog. apply in_or_app. right. left. auto.
              ** rewrite Hp2. apply in_or_app. right. left. auto.
              ** pose proof (ixw i2 x2). lia.
Qed.

Lemma new_inv : inv (BConf (NewBloomFilter E m k) (map (fun p => BTh p PIdle []) progs)) (repeat 0 (Z.to_nat A)).
Proof.
  assert (Ht0 : 0 <= total) by (unfold total; lia).
  constructor; cbn [bf_of bths].
  - unfold NewBloomFilter, getBitIndex, gen_index. cbn [numCount expectedItems].
    rewrite (u64_id (E * 3 + 1)) by (unfold is_u64; lia). rewrite Z.mod_small by lia.
    destruct (Z.ltb_spec 0 E); [|lia]. reflexivity.
  - rewrite repeat_length. lia.
  - assert (numCount (NewBloomFilter E m k) = 0) as ->.
    { unfold NewBloomFilter, getBitIndex, gen_index. cbn [numCount expectedItems].
      rewrite (u64_id (E * 3 + 1)) by (unfold is_u64; lia). rewrite Z.mod_small by lia.
      destruct (Z.ltb_spec 0 E); [|lia]. reflexivity. }
    split; [lia|]. unfold total. clear. induction progs as [|p r IH]; [reflexivity|].
    cbn [map todos fold_right concat btodo]. rewrite app_length. unfold todos in IH. lia.
  - apply map_length.
  - intros t p th Ep Eth. rewrite nth_error_map, Ep in Eth. cbn in Eth. injection Eth as <-.
    constructor; cbn [bdone bpos btodo pcur pos_ok app]; auto. intros x [].
Qed.

Lemma run_inv sched : exists a, inv (bconf_run h E m k progs sched) a.
Proof.
  unfold bconf_run. assert (HI := new_inv). revert HI. generalize (repeat 0 (Z.to_nat A)).
  generalize (BConf (NewBloomFilter E m k) (map (fun p => BTh p PIdle []) progs)).
  induction sched as [|t s IH]; intros c a HI; cbn [fold_left]; [eauto|].
  destruct (step_inv c a t HI) as [a' HI']. eauto.
Qed.

Lemma contains_found n : 0 <= n < E -> forall a x, Z.of_nat (length a) = A -> (forall j, 0 <= j < K -> has a (ix j x)) ->
  fst (Contains h (Bloom (Some a) None None K n A E) x) = true.
Proof.
  intros Hn a x Hl Hall. unfold Contains. cbn [hashCount].
  assert (HG : forall f i, 0 <= i -> i + Z.of_nat f = K ->
    contains_loop h (Bloom (Some a) None None K n A E) f i x = (true, Bloom (Some a) None None K n A E)).
  { induction f as [|f IH]; intros i Hi HS; cbn [contains_loop]; [auto|].
    unfold bit_of. cbn [arraySize]. rewrite u64_id by (unfold is_u64; lia). destruct (Z.eqb_spec (A * 64) 0); [lia|].
    rewrite (Z.mul_comm A 64). fold (ix i x). unfold testBit. rewrite gb by lia. cbn [get_arr Z.eqb b0].
    pose proof (ixw i x). destruct (Z.ltb_spec (ix i x / 64) (Z.of_nat (length a))); [|lia].
    specialize (Hall i ltac:(lia)) as Hh. unfold has in Hh.
    assert (Z.land (nth (Z.to_nat (ix i x / 64)) a 0) (Z.shiftl 1 (ix i x mod 64)) <> 0) as Hne.
    { intros E0. pose proof (Z.mod_pos_bound (ix i x) 64 ltac:(lia)).
      assert (Z.testbit (Z.land (nth (Z.to_nat (ix i x / 64)) a 0) (Z.shiftl 1 (ix i x mod 64))) (ix i x mod 64) = true) as HT.
      { rewrite Z.land_spec, Hh, Z.shiftl_spec by lia. rewrite Z.sub_diag. reflexivity. }
      rewrite E0, Z.testbit_0_l in HT. discriminate. }
    apply Z.eqb_neq in Hne. rewrite Hne. cbn [negb]. apply IH; lia. }
  rewrite HG by lia. reflexivity.
Qed.

Lemma run_found sched t th x : nth_error (bths (bconf_run h E m k progs sched)) t = Some th -> In x (bdone th) ->
  fst (Contains h (bf_of (bconf_run h E m k progs sched)) x) = true.
Proof.
  intros Eth Hx. destruct (run_inv sched) as [a HI]. destruct HI as [Hbf Hl [Hn0 Hn] Ht Hall]. rewrite Hbf.
  assert (exists p, nth_error progs t = Some p) as [p Ep].
  { destruct (nth_error progs t) as [p|] eqn:Ep; [eauto|]. apply nth_error_None in Ep.
    rewrite <- Ht in Ep. apply nth_error_None in Ep. congruence. }
  destruct (Hall t p th Ep Eth) as [_ Hd _].
  pose proof (todos_nonneg (bths (bconf_run h E m k progs sched))). apply contains_found; auto. lia.
Qed.
End conc.
