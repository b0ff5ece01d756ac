(** Properties C19-C22 of hashmap/limithashmap.go. *)
From stdpp Require Import gmap.
From Coq Require Import ZArith Lia.
From Verif Require Import GoInt Assoc_Spec LimitHash_Model LimitHash_Spec LimitHash_Proofs.
Local Open Scope Z_scope.

(** C19. Whatever the hash function, every history of calls on a new map has the results of the
    per-segment specification: keys are told apart by their hash, segment = hash mod segments,
    capacity/segments entries per segment. *)
Theorem c19_limithash_refines {K V} :
  forall (hash : K -> Z) (is_nil : V -> bool) (cap segs : Z) (c : lhmap K V) (os : list (hop K V)),
    NewLimitHashMapWithSegment cap segs = Some c ->
    (hrun hash is_nil c os).1 =
    (hspec_run hash (fun k => Z.to_nat (hash k mod segs)) is_nil (Z.to_nat segs) (Z.quot cap segs)
       (fun _ => []) os).1.
Proof.
  intros hash is_nil cap segs c os Hc. destruct (new_holds _ _ _ Hc) as [Hs Hh].
  pose proof (hrun_holds hash is_nil _ _ os _ _ Hh) as HR.
  unfold hseg in HR. rewrite Z2Nat.id in HR by lia.
  destruct (hrun _ _ c os), (hspec_run _ _ _ _ _ _ os). tauto.
Qed.
Print Assumptions c19_limithash_refines.

(** C19. The constructor panics exactly for a segment count that is not positive. *)
Theorem c19_limithash_constructor {K V} :
  forall cap segs : Z, NewLimitHashMapWithSegment (K := K) (V := V) cap segs = None <-> segs <= 0.
Proof.
  intros cap segs. unfold NewLimitHashMapWithSegment. destruct (Z.leb_spec segs 0); split; intros; try discriminate; lia || auto.
Qed.
Print Assumptions c19_limithash_constructor.
Example c19_ex : exists c, NewLimitHashMapWithSegment 4 2 = Some c /\
  (hrun (fun k => k) (fun _ : Z => false) c
    [HPut 0 1; HPut 2 2; HPut 0 3; HPut 4 4; HGet 0; HGet 2; HPut 1 5; HDel 2; HContains 4; HLen; HClear; HLen]).1 =
  [HVal None; HVal None; HVal (Some 1); HVal None; HVal None; HVal (Some 2); HVal None; HUnit; HBool true; HNum 2;
   HUnit; HNum 0].
Proof. eexists. split; [reflexivity|]. vm_compute. reflexivity. Qed.

(** C20 is false: NewLimitHashMap(10) holds 64 entries. *)
Theorem c20_limithash_capacity_refuted :
  exists (c : lhmap Z Z) (os : list (hop Z Z)) (n : Z),
    NewLimitHashMap 10 = Some c /\
    (hstep (fun k => hashFunc TUint64 (KNum k)) (fun _ => false)
       (hrun (fun k => hashFunc TUint64 (KNum k)) (fun _ => false) c os).2 HLen).1 = HNum n /\ 10 < n.
Proof.
  eexists. exists (fill 7 100%nat), 64. split; [reflexivity|]. split; [vm_compute; reflexivity|lia].
Qed.
Print Assumptions c20_limithash_capacity_refuted.

(** C20, what does hold: at most segs * max(1, cap/segs) entries, hence at most the requested capacity
    whenever it is at least the number of segments. Missing: capacities below the number of segments. *)
Theorem c20_limithash_capacity_partial {K V} :
  forall (hash : K -> Z) (is_nil : V -> bool) (cap segs : Z) (c : lhmap K V) (os : list (hop K V)) (n : Z),
    NewLimitHashMapWithSegment cap segs = Some c ->
    (hstep hash is_nil (hrun hash is_nil c os).2 HLen).1 = HNum n ->
    0 <= n <= segs * Z.max 1 (Z.quot cap segs) /\ (segs <= cap -> n <= cap).
Proof.
  intros hash is_nil cap segs c os n Hc Hl. destruct (new_holds _ _ _ Hc) as [Hs Hh].
  pose proof (hrun_holds hash is_nil _ _ os _ _ Hh) as HR.
  destruct (hrun hash is_nil c os) as [rs c'], (hspec_run hash _ is_nil _ _ _ os) as [rs' st].
  destruct HR as [_ HR]. cbn [snd] in Hl.
  pose proof (hstep_holds hash is_nil _ _ c' st HLen HR) as HS. cbn [hstep hspec_step fst] in HS, Hl.
  destruct HS as [HS _]. rewrite HS in Hl. injection Hl as <-.
  pose proof (hlen_bound _ _ _ _ HR) as HB. rewrite Z2Nat.id in HB by lia. split; [lia|].
  intros Hle. assert (1 <= Z.quot cap segs) by (apply Z.quot_le_lower_bound; lia).
  pose proof (Z.mul_quot_le cap segs ltac:(lia) ltac:(lia)). nia.
Qed.
Print Assumptions c20_limithash_capacity_partial.

(** C20. The bound is exact: for every capacity and segment count it is reached with uint64 keys. *)
Theorem c20_limithash_capacity_tight :
  forall (cap segs : Z) (c : lhmap Z Z), NewLimitHashMapWithSegment cap segs = Some c ->
    exists os : list (hop Z Z),
      (hstep (fun k => hashFunc TUint64 (KNum k)) (fun _ => false)
         (hrun (fun k => hashFunc TUint64 (KNum k)) (fun _ => false) c os).2 HLen).1 =
      HNum (segs * Z.max 1 (Z.quot cap segs)).
Proof.
  intros cap segs c Hc. exists (fill 0 (Z.to_nat (segs * Z.max 1 (Z.quot cap segs)))).
  destruct (new_holds _ _ _ Hc) as [Hs Hh]. change (fun k => hashFunc TUint64 (KNum k)) with (fun k : Z => k).
  set (os := fill 0 _).
  pose proof (hrun_holds (fun k : Z => k) (fun _ => false) _ _ os _ _ Hh) as HR.
  pose proof (fill_inv 0 (Z.to_nat segs) (Z.quot cap segs) ltac:(lia) (Z.to_nat (segs * Z.max 1 (Z.quot cap segs)))
    ltac:(rewrite !Z2Nat.id by nia; lia)) as (_ & _ & HF). fold os in HF.
  destruct (hrun _ _ c os) as [rs c'], (hspec_run _ _ _ _ _ _ os) as [rs' st].
  destruct HR as [_ HR]. cbn [snd] in *.
  pose proof (hstep_holds (fun k : Z => k) (fun _ => false) _ _ c' st HLen HR) as HS. cbn [hstep hspec_step fst] in HS |- *.
  destruct HS as [HS _]. rewrite HS, HF. f_equal. rewrite Z2Nat.id; [auto|nia].
Qed.
Print Assumptions c20_limithash_capacity_tight.

(** C21. For every integer key type (and float64 compared by bit pattern), the map tells keys apart exactly:
    it behaves as the specification whose entries are identified by the key itself. *)
Theorem c21_limithash_integer_keys {V} :
  forall (ty : ktype) (is_nil : V -> bool) (cap segs : Z) (c : lhmap Z V) (os : list (hop Z V)),
    NewLimitHashMapWithSegment cap segs = Some c ->
    (forall o k, In o os -> In k (op_key o) -> in_type ty k) ->
    let hash := fun k => hashFunc ty (KNum k) in
    (hrun hash is_nil c os).1 =
    (hspec_run id (fun k => Z.to_nat (hash k mod segs)) is_nil (Z.to_nat segs) (Z.quot cap segs)
       (fun _ => []) os).1.
Proof.
  intros ty is_nil cap segs c os Hc Hk hash. rewrite (c19_limithash_refines hash is_nil cap segs c os Hc).
  apply (rekey_run hash _ is_nil (in_type ty)).
  - intros a b. apply hashFunc_inj.
  - intros j. split; [reflexivity|constructor].
  - exact Hk.
Qed.
Print Assumptions c21_limithash_integer_keys.
Example c21_ex : exists c, NewLimitHashMapWithSegment 200 64 = Some c /\
  in_type TInt8 (-1) /\ in_type TInt8 127 /\
  (hrun (fun k => hashFunc TInt8 (KNum k)) (fun _ : Z => false) c
    [HPut (-1) 1; HPut 127 2; HGet (-1); HGet 127; HGet 63]).1 =
  [HVal None; HVal None; HVal (Some 1); HVal (Some 2); HVal None].
Proof. eexists. split; [reflexivity|]. split; [cbn; lia|]. split; [cbn; lia|]. vm_compute. reflexivity. Qed.

(** C21 is false for strings: "8yn0iYCKYHlIj4-BwPqk" and "GReLUrM4wMqfg9yzV3KQ" share one entry. *)
Definition str1 : list Z := [56;121;110;48;105;89;67;75;89;72;108;73;106;52;45;66;119;80;113;107].
Definition str2 : list Z := [71;82;101;76;85;114;77;52;119;77;113;102;103;57;121;122;86;51;75;81].
Theorem c21_limithash_string_keys_refuted :
  exists (a b : list Z) (c : lhmap (list Z) Z),
    a <> b /\ is_bytes a /\ is_bytes b /\ NewLimitHashMap 6400 = Some c /\
    (hrun (fun k => hashFunc TString (KStr k)) (fun _ => false) c
       [HPut a 1; HGet b; HPut b 2; HGet a; HDel b; HContains a]).1 =
    [HVal None; HVal (Some 1); HVal (Some 1); HVal (Some 2); HUnit; HBool false].
Proof.
  exists str1, str2. eexists. split; [discriminate|].
  split; [repeat constructor; cbv; intuition discriminate|].
  split; [repeat constructor; cbv; intuition discriminate|].
  split; [reflexivity|]. vm_compute. reflexivity.
Qed.
Print Assumptions c21_limithash_string_keys_refuted.

(** C22 is false: a stored nil is invisible to Get, and the next Put of that key panics. *)
Theorem c22_limithash_nil_refuted :
  exists (c : lhmap Z (option Z)), NewLimitHashMap 6400 = Some c /\
    (hrun (fun k => hashFunc TInt (KNum k)) (fun v => bool_decide (v = None)) c
       [HPut 5 None; HContains 5; HGet 5; HPut 5 (Some 1)]).1 =
    [HVal None; HBool true; HVal None; HPanic].
Proof. eexists. split; [reflexivity|]. vm_compute. reflexivity. Qed.
Print Assumptions c22_limithash_nil_refuted.

(** C22, what does hold: as long as no nil is put, no call panics and the results are those of the
    specification without any nil rule. Missing: histories with nil values. *)
Theorem c22_limithash_non_nil_partial {K V} :
  forall (hash : K -> Z) (is_nil : V -> bool) (cap segs : Z) (c : lhmap K V) (os : list (hop K V)),
    NewLimitHashMapWithSegment cap segs = Some c ->
    (forall k v, In (HPut k v) os -> is_nil v = false) ->
    ~ In HPanic (hrun hash is_nil c os).1 /\
    (hrun hash is_nil c os).1 =
    (hspec_run hash (fun k => Z.to_nat (hash k mod segs)) (fun _ => false) (Z.to_nat segs) (Z.quot cap segs)
       (fun _ => []) os).1.
Proof.
  intros hash is_nil cap segs c os Hc Hk. rewrite (c19_limithash_refines hash is_nil cap segs c os Hc).
  destruct (clean_run hash (fun k => Z.to_nat (hash k mod segs)) is_nil (Z.to_nat segs) (Z.quot cap segs) os (fun _ => [])) as [A B].
  - intros j. constructor.
  - apply List.Forall_forall. intros o Ho. destruct o; cbn; auto. eapply Hk; eauto.
  - auto.
Qed.
Print Assumptions c22_limithash_non_nil_partial.
Example c22_ex : forall k v, In (HPut k v) [HPut 1 (Some 4); HGet 1; HPut 2 (Some 0)] ->
  bool_decide (v = None) = false.
Proof. cbn. intros k v [E|[E|[E|[]]]]; try discriminate; injection E as <- <-; reflexivity. Qed.
