(** Properties C78, C85 and C86: string, random and hash helpers of util/encode.go. *)
From stdpp Require Import list.
From Coq Require Import ZArith Lia.
From Verif Require Import GoInt Hash_Model Aes_Proofs Util_Model Util_Spec Util_Proofs.
Local Open Scope Z_scope.

(** C78. Concat joins its arguments in order. *)
Theorem c78_concat : forall ss, Concat ss = concat ss.
Proof. intros ss. apply concat_loop_spec. Qed.
Print Assumptions c78_concat.
Example c78_concat_ex : Concat [[97; 98]; []; [99]] = [97; 98; 99].
Proof. reflexivity. Qed.

(** C78. Md5Str is the digest in upper-case hexadecimal, 32 characters; equal texts mean equal digests. *)
Theorem c78_md5str : forall s, hex_of (md5 s) (Md5Str s) /\ length (Md5Str s) = 32%nat /\
  (forall t, Md5Str s = Md5Str t <-> md5 s = md5 t).
Proof.
  intros s. destruct (md5_ok s) as [H1 H2]. pose proof (hex_ok _ H1) as Hh. split; [exact Hh|]. split.
  - unfold Md5Str. rewrite (hex_len _ _ Hh), H2. reflexivity.
  - intros t. split; intros E.
    + pose proof (hex_ok _ (proj1 (md5_ok t))) as Ht. unfold Md5Str in E. rewrite <- E in Ht. exact (hex_inj _ _ _ Hh Ht).
    + unfold Md5Str. rewrite E. reflexivity.
Qed.
Print Assumptions c78_md5str.
(** C78. The same for Sha1Str, 40 characters. *)
Theorem c78_sha1str : forall s, hex_of (sha1 s) (Sha1Str s) /\ length (Sha1Str s) = 40%nat /\
  (forall t, Sha1Str s = Sha1Str t <-> sha1 s = sha1 t).
Proof.
  intros s. destruct (sha1_ok s) as [H1 H2]. pose proof (hex_ok _ H1) as Hh. split; [exact Hh|]. split.
  - unfold Sha1Str. rewrite (hex_len _ _ Hh), H2. reflexivity.
  - intros t. split; intros E.
    + pose proof (hex_ok _ (proj1 (sha1_ok t))) as Ht. unfold Sha1Str in E. rewrite <- E in Ht. exact (hex_inj _ _ _ Hh Ht).
    + unfold Sha1Str. rewrite E. reflexivity.
Qed.
Print Assumptions c78_sha1str.
(** Md5Str "abc" and Sha1Str "abc" (test vectors of RFC 1321 and FIPS 180). *)
Example c78_ex :
  Md5Str [97; 98; 99] = [57; 48; 48; 49; 53; 48; 57; 56; 51; 67; 68; 50; 52; 70; 66; 48; 68; 54; 57; 54; 51; 70; 55; 68; 50; 56; 69; 49; 55; 70; 55; 50] /\
  Sha1Str [97; 98; 99] = [65; 57; 57; 57; 51; 69; 51; 54; 52; 55; 48; 54; 56; 49; 54; 65; 66; 65; 51; 69; 50; 53; 55; 49; 55; 56; 53; 48; 67; 50; 54; 67; 57; 67; 68; 48; 68; 56; 57; 68].
Proof. split; vm_compute; reflexivity. Qed.

(** C78. RandUint(i) stays below i, and panics exactly for i = 0 and i >= 2^63. *)
Theorem c78_randuint_range : forall i src, 0 <= i < 2 ^ 64 ->
  (forall r, RandUint i src = Val r -> 0 <= r < i) /\ (RandUint i src = Panics <-> (i = 0 \/ 2 ^ 63 <= i)).
Proof.
  intros i src Hi. unfold RandUint, Intn. destruct (Z_lt_ge_dec i (2 ^ 63)) as [Hs|Hb].
  - rewrite (i64_small i) by lia. destruct (i <=? 0) eqn:E0.
    + split; [discriminate|]. apply Z.leb_le in E0. split; [intros _; left; lia|reflexivity].
    + apply Z.leb_gt in E0. destruct (i <=? 2 ^ 31 - 1) eqn:E1.
      * split.
        -- intros r Hr. destruct (int31n i src) as [v| |] eqn:Ev; try discriminate. pose proof (int31n_range i src v E0 Ev).
           assert (u64 v = r) as <- by congruence. rewrite u64_id by (unfold is_u64; lia). lia.
        -- pose proof (int31n_no_panic i src). destruct (int31n i src); split; (congruence || lia).
      * split.
        -- intros r Hr. destruct (int63n i src) as [v| |] eqn:Ev; try discriminate. pose proof (int63n_range i src v E0 Ev).
           assert (u64 v = r) as <- by congruence. rewrite u64_id by (unfold is_u64; lia). lia.
        -- pose proof (int63n_no_panic i src). destruct (int63n i src); split; (congruence || lia).
  - pose proof (i64_big i ltac:(lia)). destruct (i64 i <=? 0) eqn:E0; [|apply Z.leb_gt in E0; lia].
    split; [discriminate|]. split; [intros _; right; lia|reflexivity].
Qed.
Print Assumptions c78_randuint_range.
(** C78. It is fair: there is a number K > 0 such that of the values of the source, each result below i is given by
    exactly the K values v = k*i + r, 0 <= k < K, of its upper 31 bits (or of all of it, for i >= 2^31); all others are drawn again. *)
Theorem c78_randuint_fair : forall i, 1 <= i < 2 ^ 63 -> exists K sh, 0 < K /\ (sh = if i <? 2 ^ 31 then 32 else 0) /\
  forall s, 0 <= s < 2 ^ 63 ->
    (forall r, 0 <= r < i -> RandUint i [s] = Val r <-> exists k, 0 <= k < K /\ Z.shiftr s sh = k * i + r) /\
    (forall src, RandUint i [s] = Dry -> RandUint i (s :: src) = RandUint i src).
Proof.
  intros i Hi. unfold RandUint, Intn. rewrite (i64_small i) by lia. replace (i <=? 0) with false by (symmetry; apply Z.leb_gt; lia).
  assert (U : forall o r, 0 <= r < i -> (forall v, o = Val v -> 0 <= v < i) ->
    (match o with Val v => Val (u64 v) | Panics => Panics | Dry => Dry end = Val r <-> o = Val r)).
  { intros o r Hr Ho. destruct o as [v| |]; [|split; congruence..]. specialize (Ho v eq_refl). rewrite u64_id by (unfold is_u64; lia). reflexivity. }
  destruct (i <? 2 ^ 31) eqn:E.
  - apply Z.ltb_lt in E. replace (i <=? 2 ^ 31 - 1) with true by (symmetry; apply Z.leb_le; lia).
    exists (2 ^ 31 / i), 32. split; [apply Z.div_str_pos; lia|]. split; [reflexivity|]. intros s Hs. split.
    + intros r Hr. rewrite U; [|lia|intros v; apply int31n_range; lia]. apply int31n_one; lia.
    + intros src Hd. unfold int31n in *. destruct (_ =? 0) in *; [discriminate|]. cbn [int31n_loop] in *. destruct (_ <? _) in *; [reflexivity|discriminate].
  - apply Z.ltb_ge in E. replace (i <=? 2 ^ 31 - 1) with false by (symmetry; apply Z.leb_gt; lia).
    exists (2 ^ 63 / i), 0. split; [apply Z.div_str_pos; lia|]. split; [reflexivity|]. intros s Hs. rewrite Z.shiftr_0_r. split.
    + intros r Hr. rewrite U; [|lia|intros v; apply int63n_range; lia]. apply int63n_one; lia.
    + intros src Hd. unfold int63n in *. destruct (_ =? 0) in *; [discriminate|]. cbn [int63n_loop] in *. destruct (_ <? _) in *; [reflexivity|discriminate].
Qed.
Print Assumptions c78_randuint_fair.
Example c78_rand_ex : RandUint 10 [123456789012345678] = Val 3 /\ RandUint 10 [9223372036854775807; 123456789012345678] = Val 3 /\
  RandUint 8 [123456789012345678] = Val 3 /\ RandUint (2 ^ 40) [123456789012345678] = Val 324910773070 /\ RandUint 0 [5] = Panics /\ RandUint (2 ^ 63) [5] = Panics.
Proof. repeat split; vm_compute; reflexivity. Qed.

(** C78. IsFileExist against a tree seen through os.Stat: it is true only for what is there, and for all that is there and can be
    reached; something below a directory that may not be searched is taken to be missing. *)
Theorem c78_is_file_exist : forall (tree : list Z -> presence) stat path,
  (forall p, tree p = Present -> stat p = StatOk) -> (forall p, tree p = Absent -> stat p = StatNotExist) ->
  (forall p, tree p = Hidden -> stat p = StatPermission) -> path <> [] ->
  (IsFileExist path stat = true <-> tree path = Present).
Proof.
  intros tree stat path H1 H2 H3 Hp. unfold IsFileExist. destruct path as [|c path]; [congruence|].
  destruct (tree (c :: path)) eqn:E; [rewrite (H1 _ E)|rewrite (H2 _ E)|rewrite (H3 _ E)]; split; congruence.
Qed.
Print Assumptions c78_is_file_exist.
Example c78_file_ex : let tree := fun p => if decide (p = [47]) then Present else Absent in
  let stat := fun p => match tree p with Present => StatOk | Absent => StatNotExist | Hidden => StatPermission end in
  IsFileExist [47] stat = true /\ IsFileExist [48] stat = false /\ IsFileExist [] stat = false.
Proof. repeat split. Qed.

(** C85. RandInt64Strict panics for i <= 0; otherwise it returns a value in [0, i) and no error, or 0 and the error of the source. *)
Theorem c85_rand_strict_range : forall i blks, i < 2 ^ 63 -> Forall (fun b => match b with Some blk => is_bytes blk | None => True end) blks ->
  (RandInt64Strict i blks = Panics <-> i <= 0) /\
  (forall v, RandInt64Strict i blks = Val (v, false) -> 0 <= v < i) /\
  (forall v, RandInt64Strict i blks = Val (v, true) -> v = 0).
Proof.
  intros i blks Hi Hb. unfold RandInt64Strict. destruct (i <=? 0) eqn:E0.
  - apply Z.leb_le in E0. split; [split; auto|]. split; discriminate.
  - apply Z.leb_gt in E0. destruct (i - 1 =? 0) eqn:E1.
    + split; [split; [discriminate|lia]|]. split; [intros v [= <-]; lia|discriminate].
    + pose proof (rand_mask_range (i - 1)) as Hm. set (mask := rand_mask (i - 1)) in *. clearbody mask.
      induction blks as [|[blk|] blks IH]; cbn [rand_Int_loop].
      * split; [split; [discriminate|lia]|]. split; discriminate.
      * inversion Hb; subst. destruct (_ <? i) eqn:E2; [|apply IH; assumption].
        apply Z.ltb_lt in E2. split; [split; [discriminate|lia]|]. split; [|discriminate]. intros v [= <-].
        split; [apply masked_nonneg; assumption|exact E2].
      * split; [split; [discriminate|lia]|]. split; [discriminate|congruence].
Qed.
Print Assumptions c85_rand_strict_range.
(** C85. It is fair: with [bits] the size of i - 1, a block of random bytes gives v exactly if the number it spells ends, in binary,
    in the [bits] digits of v; blocks that give no value below i are thrown away. *)
Theorem c85_rand_strict_fair : forall i, 2 <= i < 2 ^ 63 -> exists bits len, 2 ^ (bits - 1) <= i - 1 < 2 ^ bits /\ bits <= 8 * Z.of_nat len < bits + 8 /\
  forall blk, is_bytes blk -> length blk = len ->
    (forall v, 0 <= v < i -> RandInt64Strict i [Some blk] = Val (v, false) <-> be_val blk mod 2 ^ bits = v) /\
    (forall blks, i <= be_val blk mod 2 ^ bits -> RandInt64Strict i (Some blk :: blks) = RandInt64Strict i blks).
Proof.
  intros i Hi. exists (Z.log2 (i - 1) + 1), (rand_len (i - 1)).
  pose proof (Z.log2_spec (i - 1) ltac:(lia)) as Hl. pose proof (Z.log2_nonneg (i - 1)).
  split; [replace (Z.log2 (i - 1) + 1 - 1) with (Z.log2 (i - 1)) by lia; exact Hl|].
  split. { unfold rand_len. rewrite Z2Nat.id by (apply Z.div_pos; lia). pose proof (Z.div_mod (Z.log2 (i - 1) + 1 + 7) 8). pose proof (Z.mod_pos_bound (Z.log2 (i - 1) + 1 + 7) 8). lia. }
  intros blk Hb Hlen. pose proof (masked_mod (i - 1) blk ltac:(lia) Hb Hlen) as Hm. unfold RandInt64Strict.
  replace (i <=? 0) with false by (symmetry; apply Z.leb_gt; lia). replace (i - 1 =? 0) with false by (symmetry; apply Z.eqb_neq; lia).
  cbn [rand_Int_loop]. rewrite Hm. split.
  - intros v Hv. destruct (_ <? i) eqn:E; [split; congruence|]. apply Z.ltb_ge in E. split; [discriminate|lia].
  - intros blks Hge. destruct (_ <? i) eqn:E; [apply Z.ltb_lt in E; lia|reflexivity].
Qed.
Print Assumptions c85_rand_strict_fair.
(** C85. So every value below i can come out. *)
Theorem c85_rand_strict_all_values : forall i v, 1 <= i < 2 ^ 63 -> 0 <= v < i ->
  exists blk, is_bytes blk /\ RandInt64Strict i [Some blk] = Val (v, false).
Proof.
  intros i v Hi Hv. destruct (Z.eq_dec i 1) as [->|]. { exists []. split; [constructor|]. assert (v = 0) as -> by lia. reflexivity. }
  destruct (be_bytes_ok (rand_len (i - 1)) v) as [H1 H2]. exists (be_bytes (rand_len (i - 1)) v). split; [exact H1|].
  unfold RandInt64Strict. replace (i <=? 0) with false by (symmetry; apply Z.leb_gt; lia). replace (i - 1 =? 0) with false by (symmetry; apply Z.eqb_neq; lia).
  cbn [rand_Int_loop]. rewrite masked_mod by (auto; lia). pose proof (rand_len_ok (i - 1) ltac:(lia)). rewrite be_bytes_val by lia.
  pose proof (Z.log2_spec (i - 1) ltac:(lia)) as Hl. unfold Z.succ in Hl. rewrite Z.mod_small by lia.
  replace (v <? i) with true by (symmetry; apply Z.ltb_lt; lia). reflexivity.
Qed.
Print Assumptions c85_rand_strict_all_values.
Example c85_ex : RandInt64Strict 1000 [Some [255; 255]; Some [250; 7]] = Val (519, false) /\ RandInt64Strict 1000 [Some [255; 255]; None] = Val (0, true) /\
  RandInt64Strict 1 [] = Val (0, false) /\ RandInt64Strict (-3) [Some [1]] = Panics.
Proof. repeat split; vm_compute; reflexivity. Qed.

(** C86. FNVHash32 tells apart any two byte strings that differ in one byte. *)
Theorem c86_fnv32_one_byte : forall pre b b' post, is_bytes (pre ++ b :: post) -> is_u8 b' -> b <> b' ->
  FNVHash32 (pre ++ b :: post) <> FNVHash32 (pre ++ b' :: post).
Proof.
  intros pre b b' post H1 H2 H3. exact (fnv_single 32 16777619 899433627 2166136261 ltac:(lia) eq_refl ltac:(lia) pre b b' post H1 H2 H3).
Qed.
Print Assumptions c86_fnv32_one_byte.
(** C86. So does FNVHash64. *)
Theorem c86_fnv64_one_byte : forall pre b b' post, is_bytes (pre ++ b :: post) -> is_u8 b' -> b <> b' ->
  FNVHash64 (pre ++ b :: post) <> FNVHash64 (pre ++ b' :: post).
Proof.
  intros pre b b' post H1 H2 H3. exact (fnv_single 64 1099511628211 14886173955864302971 14695981039346656037 ltac:(lia) eq_refl ltac:(lia) pre b b' post H1 H2 H3).
Qed.
Print Assumptions c86_fnv64_one_byte.
(** "a" and "foobar": the published test vectors. *)
Example c86_ex : FNVHash32 [97] = 0xe40c292c /\ FNVHash32 [102; 111; 111; 98; 97; 114] = 0xbf9cf968 /\
  FNVHash64 [97] = 0xaf63dc4c8601ec8c /\ FNVHash64 [102; 111; 111; 98; 97; 114] = 0x85944171f73967e8.
Proof. repeat split; vm_compute; reflexivity. Qed.
