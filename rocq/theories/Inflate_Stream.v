(** zlib and gzip streams: the readers take exactly what RFC 1950 and RFC 1952 describe (lemmas for C135-C138). *)
From stdpp Require Import list.
From Coq Require Import ZArith Lia Bool.
From Verif Require Import GoInt Hash_Model Crc_Model Compress_Model Compress_Proofs Inflate_Model Inflate_Spec Inflate_Huff Inflate_Proofs.
From Verif Require Crc_Spec Crc_Props.
Local Open Scope Z_scope.

(** ** The data are bytes *)
Lemma again_bytes d out : bytes out -> bytes (again d out).
Proof.
  intros B. apply Forall_app_2; [exact B|]. constructor; [|constructor].
  destruct (le_lt_dec (length out) (Z.to_nat (Z.of_nat (length out) - d))) as [L|L]; [rewrite nth_overflow by exact L; lia|].
  unfold bytes in B. rewrite List.Forall_forall in B. apply B. apply nth_In. exact L.
Qed.
Lemma iter_again_bytes n d out : bytes out -> bytes (Nat.iter n (again d) out).
Proof. intros B. induction n as [|n IH]; [exact B|]. cbn [Nat.iter nat_rect]. apply again_bytes. exact IH. Qed.
Lemma symbols_bytes ll dl out w res : symbols ll dl out w res -> bytes out -> bytes res.
Proof.
  intros H. induction H; intros B; auto; apply IHsymbols.
  - apply Forall_app_2; [exact B|]. constructor; [assumption|constructor].
  - apply iter_again_bytes. exact B.
Qed.
Lemma block_bytes p out w res : block p out w res -> bytes out -> bytes res.
Proof.
  intros [pad x n Hp Lp En Hn Bx|w0 res' S|ll dl h w0 res' D S] B.
  - apply Forall_app_2; assumption.
  - eapply symbols_bytes; eauto.
  - eapply symbols_bytes; eauto.
Qed.
Lemma blocks_bytes p out w res : blocks p out w res -> bytes out -> bytes res.
Proof. intros H. induction H; intros B'; auto. apply IHblocks. eapply block_bytes; eauto. Qed.
Lemma deflate_bytes s x : deflate s x -> bytes x.
Proof.
  intros [_ (w & fill & _ & _ & ws & mid & wl & B & L & _)]. eapply block_bytes; [exact L|]. eapply blocks_bytes; [exact B|]. constructor.
Qed.

(** ** Checksums and numbers *)
Lemma crc_le_bytes w : forall v, Crc_Spec.le_bytes w v = le_bytes w v.
Proof. induction w as [|w IH]; intros v; [reflexivity|]. cbn [Crc_Spec.le_bytes le_bytes]. rewrite IH, Z.shiftr_div_pow2 by lia. reflexivity. Qed.
Lemma big_be w v : big w v = be_bytes w v.
Proof. unfold big, be_bytes. rewrite crc_le_bytes. reflexivity. Qed.
Lemma le_bytes_val l : bytes l -> le_bytes (length l) (le_val l) = l.
Proof.
  induction l as [|b l IH]; intros B; [reflexivity|]. inversion B; subst. cbn [length le_val le_bytes]. unfold u8. rewrite Z.shiftr_div_pow2 by lia. change (2 ^ 8) with 256.
  rewrite Z.mul_comm, Z.mod_add, Z.mod_small, Z.div_add, Z.div_small, Z.add_0_l, IH by (assumption || lia). reflexivity.
Qed.
Lemma le_val_range l : bytes l -> 0 <= le_val l < 2 ^ (8 * Z.of_nat (length l)).
Proof.
  induction l as [|b l IH]; intros B; [cbn; lia|]. inversion B; subst. cbn [length le_val]. specialize (IH H2).
  replace (8 * Z.of_nat (S (length l))) with (8 + 8 * Z.of_nat (length l)) by lia. rewrite Z.pow_add_r by lia. change (2 ^ 8) with 256. nia.
Qed.
Lemma bytes_rev l : bytes l -> bytes (rev l).
Proof. intros B. unfold bytes in *. rewrite List.Forall_forall in *. intros x Hx. apply B. apply in_rev. exact Hx. Qed.
Lemma be_bytes_val l : bytes l -> be_bytes (length l) (be_val l) = l.
Proof. intros B. unfold be_bytes, be_val. rewrite <- (rev_length l), le_bytes_val by (apply bytes_rev; exact B). apply rev_involutive. Qed.
Lemma adler_step x : forall a b, 0 <= a < 65521 -> 0 <= b < 65521 ->
  fold_left (fun '(a, b) y => ((a + y) mod 65521, (b + ((a + y) mod 65521)) mod 65521)) x (a, b) =
  ((a + sum x) mod 65521, (b + sum (map (fun k => a + sum (firstn k x)) (seq 1 (length x)))) mod 65521).
Proof.
  induction x as [|y x IH]; intros a b Ha Hb.
  - cbn. rewrite !Z.add_0_r, !Z.mod_small by lia. reflexivity.
  - cbn [fold_left]. rewrite IH by (apply Z.mod_pos_bound; lia). f_equal.
    + cbn [sum fold_right]. fold (sum x). rewrite Z.add_mod_idemp_l by lia. f_equal. lia.
    + rewrite Z.add_mod_idemp_l by lia.
      set (S2 := sum (map (fun k => a + (y + sum (firstn k x))) (seq 1 (length x)))).
      assert (E2 : sum (map (fun k => a + sum (firstn k (y :: x))) (seq 1 (length (y :: x)))) = a + y + S2).
      { cbn [length]. change (seq 1 (S (length x))) with (1%nat :: seq 2 (length x)). rewrite <- (seq_shift (length x) 1). cbn [map]. rewrite map_map.
        unfold S2, sum. cbn [firstn fold_right]. rewrite Z.add_0_r. reflexivity. }
      rewrite E2.
      assert (G : forall l, (sum (map (fun k => (a + y) mod 65521 + sum (firstn k x)) l) - sum (map (fun k => a + (y + sum (firstn k x))) l)) mod 65521 = 0).
      { induction l as [|k l IHl]; [reflexivity|]. unfold sum in *. cbn [map fold_right].
        match goal with |- (?p + ?q + ?A - (a + (y + ?q) + ?B)) mod _ = 0 => replace (p + q + A - (a + (y + q) + B)) with ((p - (a + y)) + (A - B)) by lia end.
        rewrite Z.add_mod, IHl, Z.add_0_r, Z.mod_mod by lia. rewrite Zminus_mod_idemp_l. rewrite Z.sub_diag. reflexivity. }
      specialize (G (seq 1 (length x))). fold S2 in G.
      set (S1 := sum (map (fun k => (a + y) mod 65521 + sum (firstn k x)) (seq 1 (length x)))) in *. clearbody S1 S2.
      apply Z.mod_divide in G; [|lia]. destruct G as [q G].
      replace (b + (a + y) mod 65521 + S1) with ((b + S1) + (a + y) mod 65521) by lia. rewrite Z.add_mod_idemp_r by lia.
      replace (b + S1 + (a + y)) with (b + (a + y + S2) + q * 65521) by lia. apply Z.mod_add. lia.
Qed.
Lemma adler_is x : adler x = adler32 x.
Proof.
  unfold adler, adler32. rewrite adler_step by lia. f_equal.
Qed.
Lemma crc32_is x c : bytes x -> crc32 x c <-> c = CRC32 x.
Proof.
  intros B. assert (B' : is_bytes x) by exact B. destruct (Crc_Props.c112_crc32_is_standard x B') as [A U]. split; [apply U|]. intros ->. exact A.
Qed.
Lemma crc32_range x : bytes x -> 0 <= CRC32 x < 2 ^ 32.
Proof. intros B. exact (proj1 (proj1 (Crc_Props.c112_crc32_is_standard x B))). Qed.

(** ** zlib *)
Lemma zheader_ok h : zheader h -> bytes h.
Proof.
  intros (cinfo & flg & Hc & Hf & _ & ->). constructor; [lia|]. constructor; [exact Hf|]. destruct (Z.testbit flg 5); [|constructor].
  change (big 4 (adler32 [])) with [0; 0; 0; 1]. repeat (constructor; [lia|]). constructor.
Qed.
Lemma land32 c : 0 <= c < 256 -> (Z.land c 32 =? 0) = negb (Z.testbit c 5).
Proof.
  intros H. change 32 with (2 ^ 5). destruct (Z.testbit c 5) eqn:T; cbn [negb].
  - apply Z.eqb_neq. intros E. apply (f_equal (fun z => Z.testbit z 5)) in E. rewrite Z.land_spec, T, Z.pow2_bits_true, Z.bits_0 in E by lia. discriminate.
  - apply Z.eqb_eq. apply Z.bits_inj'. intros i Hi. rewrite Z.land_spec, Z.bits_0. destruct (Z.eq_dec i 5) as [->|N]; [rewrite T; reflexivity|].
    rewrite Z.pow2_bits_false by lia. apply andb_false_r.
Qed.
Lemma cm8 c : 0 <= c < 256 -> (Z.land c 15 = 8 /\ Z.shiftr c 4 <= 7) <-> exists cinfo, 0 <= cinfo <= 7 /\ c = 16 * cinfo + 8.
Proof.
  intros H. change 15 with (Z.ones 4). rewrite Z.land_ones, Z.shiftr_div_pow2 by lia. change (2 ^ 4) with 16. split.
  - intros [A B]. exists (c / 16). pose proof (Z.div_mod c 16 ltac:(lia)). assert (0 <= c / 16) by (apply Z.div_pos; lia). lia.
  - intros (k & Hk & ->). split; [symmetry; apply (Z.mod_unique _ _ k); lia|]. replace ((16 * k + 8) / 16) with k by (apply (Z.div_unique _ _ _ 8); lia). lia.
Qed.
Lemma body_len4 (l : list Z) : length l = 4%nat -> exists a b c d, l = [a; b; c; d].
Proof. destruct l as [|a [|b [|c [|d [|]]]]]; try discriminate. eauto. Qed.
(** The header of a zlib stream, and what follows. *)
Definition zhead_read (bs : list Z) : option (list Z) :=
  match bs with
  | c0 :: c1 :: rest =>
      if negb (Z.land c0 15 =? 8) || (7 <? Z.shiftr c0 4) || negb ((c0 * 256 + c1) mod 31 =? 0) then None
      else if Z.land c1 32 =? 0 then Some rest
           else match rest with d0 :: d1 :: d2 :: d3 :: rest => if be_val [d0; d1; d2; d3] =? 1 then Some rest else None | _ => None end
  | _ => None
  end.
Definition ztail_read (rest : list Z) : list Z * bool :=
  match flate rest with
  | (out, Some (a0 :: a1 :: a2 :: a3 :: _)) => (out, be_val [a0; a1; a2; a3] =? adler out)
  | (out, _) => (out, false)
  end.
Lemma zlib_read_split bs : zlib_read bs = match zhead_read bs with Some rest => Some (ztail_read rest) | None => None end.
Proof.
  unfold zlib_read, zhead_read. destruct bs as [|c0 [|c1 rest]]; try reflexivity.
  destruct (negb (Z.land c0 15 =? 8) || (7 <? Z.shiftr c0 4) || negb ((c0 * 256 + c1) mod 31 =? 0)); [reflexivity|].
  match goal with |- match ?e with Some _ => _ | None => _ end = _ => destruct e as [r|]; [|reflexivity] end.
  unfold ztail_read. destruct (flate r) as [out [[|a0 [|a1 [|a2 [|a3 t]]]]|]]; reflexivity.
Qed.
Lemma zhead_read_iff bs rest : bytes bs -> zhead_read bs = Some rest <-> exists h, zheader h /\ bs = h ++ rest.
Proof.
  intros B. unfold zhead_read. split.
  - destruct bs as [|c0 [|c1 r]]; try discriminate. inversion B as [|? ? H0 B0]; subst. inversion B0 as [|? ? H1 B1]; subst.
    destruct (Z.eqb_spec (Z.land c0 15) 8) as [E1|E1]; cbn [negb orb]; [|discriminate].
    destruct (Z.ltb_spec 7 (Z.shiftr c0 4)) as [E2|E2]; cbn [orb]; [discriminate|].
    destruct (Z.eqb_spec ((c0 * 256 + c1) mod 31) 0) as [E3|E3]; cbn [negb]; [|discriminate].
    destruct (proj1 (cm8 c0 H0) (conj E1 E2)) as (k & Hk & ->).
    rewrite land32 by exact H1. destruct (Z.testbit c1 5) eqn:T; cbn [negb].
    + destruct r as [|d0 [|d1 [|d2 [|d3 r]]]]; try discriminate. destruct (Z.eqb_spec (be_val [d0; d1; d2; d3]) 1) as [E|]; [|discriminate]. intros [= <-].
      exists [16 * k + 8; c1; d0; d1; d2; d3]. split; [|reflexivity]. exists k, c1. rewrite T. repeat split; auto with lia.
      change (big 4 (adler32 [])) with (be_bytes 4 1). rewrite <- E.
      assert (Bd : bytes [d0; d1; d2; d3]) by (change (bytes ([d0; d1; d2; d3] ++ r)) in B1; apply Forall_app in B1; exact (proj1 B1)).
      pose proof (be_bytes_val _ Bd) as X. cbn [length] in X. rewrite X. reflexivity.
    + intros [= <-]. exists [16 * k + 8; c1]. split; [|reflexivity]. exists k, c1. rewrite T. repeat split; auto with lia.
  - intros (h & (k & flg & Hk & Hf & E & ->) & ->). cbn [app].
    destruct (proj2 (cm8 (16 * k + 8) ltac:(lia)) (ex_intro _ k (conj Hk eq_refl))) as [E1 E2]. rewrite E1, Z.eqb_refl. cbn [negb orb].
    destruct (Z.ltb_spec 7 (Z.shiftr (16 * k + 8) 4)); [lia|]. cbn [orb]. rewrite E. cbn [Z.eqb negb].
    rewrite land32 by exact Hf. destruct (Z.testbit flg 5); cbn [negb]; [|reflexivity].
    change (big 4 (adler32 [])) with [0; 0; 0; 1]. reflexivity.
Qed.
Lemma ztail_read_iff rest x : bytes rest -> ztail_read rest = (x, true) <-> exists d t, deflate d x /\ rest = d ++ big 4 (adler32 x) ++ t.
Proof.
  intros B. unfold ztail_read. split.
  - destruct (flate rest) as [out [[|a0 [|a1 [|a2 [|a3 t]]]]|]] eqn:F; try discriminate.
    destruct (Z.eqb_spec (be_val [a0; a1; a2; a3]) (adler out)) as [E|]; intros [= ->].
    apply flate_sound in F; [|exact B]. destruct F as (s & -> & D). exists s, t. split; [exact D|]. f_equal.
    apply Forall_app in B. destruct B as [_ B]. change (bytes ([a0; a1; a2; a3] ++ t)) in B. apply Forall_app in B. destruct B as [B _].
    rewrite big_be, <- adler_is, <- E. pose proof (be_bytes_val _ B) as X. cbn [length] in X. rewrite X. reflexivity.
  - intros (d & t & D & ->). rewrite (flate_complete d x _ D).
    destruct (body_len4 (big 4 (adler32 x))) as (a0 & a1 & a2 & a3 & E); [rewrite big_be; apply be_bytes_length|].
    rewrite E. cbn [app]. rewrite <- E, big_be, <- adler_is, adler_ok, Z.eqb_refl. reflexivity.
Qed.
Lemma zlib_read_iff bs x : bytes bs -> zlib_read bs = Some (x, true) <-> exists s t, zlib s x /\ bs = s ++ t.
Proof.
  intros B. rewrite zlib_read_split. split.
  - destruct (zhead_read bs) as [rest|] eqn:H; [|discriminate]. intros [= E]. apply zhead_read_iff in H; [|exact B]. destruct H as (h & Zh & ->).
    apply Forall_app in B. destruct B as [_ B]. apply ztail_read_iff in E; [|exact B]. destruct E as (d & t & D & ->).
    exists (h ++ d ++ big 4 (adler32 x)), t. split; [exists h, d; auto|]. rewrite <- !app_assoc. reflexivity.
  - intros (s & t & (h & d & -> & Zh & D) & ->). rewrite <- !app_assoc.
    assert (Br : bytes (d ++ big 4 (adler32 x) ++ t)). { rewrite <- !app_assoc in B. apply Forall_app in B. exact (proj2 B). }
    rewrite (proj2 (zhead_read_iff (h ++ d ++ big 4 (adler32 x) ++ t) (d ++ big 4 (adler32 x) ++ t) ltac:(rewrite <- !app_assoc in B; exact B))) by eauto.
    rewrite (proj2 (ztail_read_iff (d ++ big 4 (adler32 x) ++ t) x Br)) by eauto. reflexivity.
Qed.

(** ** gzip *)
Lemma readString_iff n : forall bs s r, readString n bs = Some (s, r) <-> bs = s ++ r /\ exists t, s = t ++ [0] /\ (length t < n)%nat /\ Forall (fun b => b <> 0) t.
Proof.
  induction n as [|n IH]; intros bs s r; cbn [readString].
  - split; [discriminate|]. intros (_ & t & _ & L & _). lia.
  - destruct bs as [|b bs].
    + split; [discriminate|]. intros (E & t & -> & _). destruct t; discriminate.
    + destruct (Z.eqb_spec b 0) as [->|N].
      * split.
        -- intros [= <- <-]. split; [reflexivity|]. exists []. repeat split; [cbn; lia|constructor].
        -- intros (E & t & -> & L & F). destruct t as [|y t]; [cbn in E; injection E as ->; reflexivity|]. cbn in E. injection E as <- _. inversion F. contradiction.
      * destruct (readString n bs) as [[s' r']|] eqn:R.
        -- apply IH in R. destruct R as (E & t & -> & L & F). split.
           ++ intros [= <- <-]. split; [rewrite E; reflexivity|]. exists (b :: t). repeat split; [cbn; lia|constructor; auto].
           ++ intros (E' & t' & -> & L' & F'). destruct t' as [|y t']; [cbn in E'; injection E' as -> _; contradiction|]. cbn in E'. injection E' as <- E'.
              inversion F'; subst. cbn [length] in L'.
              assert (R2 : readString n ((t' ++ [0]) ++ r) = Some (t' ++ [0], r)) by (apply IH; split; [reflexivity|]; exists t'; auto with lia).
              assert (R1 : readString n ((t ++ [0]) ++ r') = Some (t ++ [0], r')) by (apply IH; split; [reflexivity|]; exists t; auto with lia).
              rewrite E' in R1. rewrite R1 in R2. injection R2 as E1 ->. rewrite E1. reflexivity.
        -- split; [discriminate|]. intros (E' & t' & -> & L' & F'). destruct t' as [|y t']; [cbn in E'; injection E' as -> _; contradiction|]. cbn in E'. injection E' as <- ->.
           inversion F'; subst. cbn [length] in L'.
           assert (R2 : readString n ((t' ++ [0]) ++ r) = Some (t' ++ [0], r)) by (apply IH; split; [reflexivity|]; exists t'; auto with lia). congruence.
Qed.
Lemma opt_string_iff flag dig bs dig' r : bytes bs -> opt_string flag dig bs = Some (dig', r) <-> exists s, optional flag zstring s /\ bs = s ++ r /\ dig' = dig ++ s.
Proof.
  intros B. unfold opt_string, optional. destruct flag.
  - destruct (readString 512 bs) as [[s r']|] eqn:R.
    + apply readString_iff in R. destruct R as (E & t & -> & L & F). split.
      * intros [= <- <-]. exists (t ++ [0]). split; [|auto]. exists t. split; [reflexivity|]. split; [lia|]. split; [exact F|].
        rewrite E in B. apply Forall_app in B. destruct B as [B _]. apply Forall_app in B. exact (proj1 B).
      * intros (s & (t' & -> & L' & F' & _) & E' & ->).
        assert (R1 : readString 512 bs = Some (t ++ [0], r')) by (apply readString_iff; split; [exact E|]; exists t; auto with lia).
        assert (R2 : readString 512 bs = Some (t' ++ [0], r)) by (apply readString_iff; split; [exact E'|]; exists t'; auto with lia).
        rewrite R1 in R2. injection R2 as E1 ->. rewrite E1. reflexivity.
    + split; [discriminate|]. intros (s & (t' & -> & L' & F' & _) & E' & ->).
      assert (R2 : readString 512 bs = Some (t' ++ [0], r)) by (apply readString_iff; split; [exact E'|]; exists t'; auto with lia). congruence.
  - split.
    + intros [= <- <-]. exists []. rewrite app_nil_r. auto.
    + intros (s & -> & -> & ->). rewrite app_nil_r. reflexivity.
Qed.
Lemma le2 v : 0 <= v -> Crc_Spec.le_bytes 2 v = [v mod 256; (v / 256) mod 256].
Proof. reflexivity. Qed.
Lemma le2_val a b v : 0 <= a < 256 -> 0 <= b < 256 -> 0 <= v -> [a; b] = Crc_Spec.le_bytes 2 v <-> a + 256 * b = v mod 65536.
Proof.
  intros Ha Hb Hv. rewrite le2 by exact Hv. assert (E : v mod 65536 = v mod 256 + 256 * ((v / 256) mod 256)) by (change 65536 with (256 * 256); apply Z.rem_mul_r; lia).
  pose proof (Z.mod_pos_bound v 256 ltac:(lia)). pose proof (Z.mod_pos_bound (v / 256) 256 ltac:(lia)). split.
  - intros [= -> ->]. lia.
  - intros H1. f_equal; [lia|]. f_equal. lia.
Qed.
Lemma opt_extra_iff flag dig bs dig' r : bytes bs -> opt_extra flag dig bs = Some (dig', r) <->
  exists s, optional flag (fun s => exists e, bytes e /\ Z.of_nat (length e) < 65536 /\ s = Crc_Spec.le_bytes 2 (Z.of_nat (length e)) ++ e) s /\ bs = s ++ r /\ dig' = dig ++ s.
Proof.
  intros B. unfold opt_extra, optional. destruct flag.
  - split.
    + destruct bs as [|l0 [|l1 bs]]; try discriminate. inversion B as [|? ? B0 B']; subst. inversion B' as [|? ? B1 B2]; subst.
      destruct (Nat.ltb_spec (length bs) (Z.to_nat (l0 + 256 * l1))) as [|L]; [discriminate|]. intros [= <- <-].
      set (n := Z.to_nat (l0 + 256 * l1)) in *. exists (l0 :: l1 :: firstn n bs). split; [|split; [cbn [app]; rewrite firstn_skipn; reflexivity|reflexivity]].
      exists (firstn n bs). split; [apply Forall_take; exact B2|]. rewrite firstn_length_le by exact L. split; [lia|].
      change (l0 :: l1 :: firstn n bs) with ([l0; l1] ++ firstn n bs). f_equal. apply le2_val; [assumption|assumption|lia|]. rewrite Z.mod_small by lia. lia.
    + intros (s & (e & Be & Le & ->) & -> & ->). rewrite le2 by lia. cbn [app].
      set (v := Z.of_nat (length e)) in *. assert (E : v mod 256 + 256 * ((v / 256) mod 256) = v).
      { pose proof (proj1 (le2_val (v mod 256) ((v / 256) mod 256) v ltac:(apply Z.mod_pos_bound; lia) ltac:(apply Z.mod_pos_bound; lia) ltac:(lia)) eq_refl) as X.
        rewrite (Z.mod_small v 65536) in X by lia. exact X. }
      rewrite E. replace (Z.to_nat v) with (length e) by lia. destruct (Nat.ltb_spec (length (e ++ r)) (length e)) as [L|L]; [rewrite app_length in L; lia|].
      rewrite take_app, drop_app. reflexivity.
  - split.
    + intros [= <- <-]. exists []. rewrite app_nil_r. auto.
    + intros (s & -> & -> & ->). rewrite app_nil_r. reflexivity.
Qed.
Lemma opt_hcrc_iff flag dig bs r : bytes bs -> bytes dig -> opt_hcrc flag dig bs = Some r <->
  exists s, optional flag (fun s => exists c, crc32 dig c /\ s = Crc_Spec.le_bytes 2 c) s /\ bs = s ++ r.
Proof.
  intros B Bd. unfold opt_hcrc, optional. destruct flag.
  - pose proof (crc32_range dig Bd) as Rg. split.
    + destruct bs as [|c0 [|c1 bs]]; try discriminate. inversion B as [|? ? B0 B']; subst. inversion B' as [|? ? B1 B2]; subst.
      destruct (Z.eqb_spec (c0 + 256 * c1) (CRC32 dig mod 65536)) as [E|]; [|discriminate]. intros [= <-]. exists [c0; c1]. split; [|reflexivity].
      exists (CRC32 dig). split; [apply crc32_is; auto|]. apply le2_val; auto with lia.
    + intros (s & (c & Hc & ->) & ->). apply crc32_is in Hc; [|exact Bd]. subst c. rewrite le2 by lia. cbn [app].
      rewrite (proj1 (le2_val (CRC32 dig mod 256) ((CRC32 dig / 256) mod 256) (CRC32 dig) ltac:(apply Z.mod_pos_bound; lia) ltac:(apply Z.mod_pos_bound; lia) ltac:(lia)) eq_refl).
      rewrite Z.eqb_refl. reflexivity.
  - split.
    + intros [= <-]. exists []. auto.
    + intros (s & -> & ->). reflexivity.
Qed.
Lemma optional_bytes flag (f : list Z -> Prop) s : (forall s, f s -> bytes s) -> optional flag f s -> bytes s.
Proof. intros H. unfold optional. destruct flag; [apply H|]. intros ->. constructor. Qed.
Lemma le_bytes_bytes k v : bytes (Crc_Spec.le_bytes k v).
Proof. revert v. induction k as [|k IH]; intros v; cbn [Crc_Spec.le_bytes]; constructor; [apply Z.mod_pos_bound; lia|apply IH]. Qed.
Lemma zstring_bytes s : zstring s -> bytes s.
Proof. intros (t & -> & _ & _ & B). apply Forall_app_2; [exact B|]. constructor; [lia|constructor]. Qed.
Lemma gheader_bytes h : gheader h -> bytes h.
Proof.
  intros (flg & rest & extra & name & comment & hcrc & L & B & Ex & Nm & Cm & Hc & ->).
  apply Forall_app_2; [apply Forall_app_2; [|inversion B; assumption]|].
  { inversion B; subst. repeat (constructor; [lia|]). apply List.Forall_nil. }
  apply Forall_app_2; [eapply optional_bytes; [|exact Ex]|apply Forall_app_2; [eapply optional_bytes; [exact zstring_bytes|exact Nm]|apply Forall_app_2; [eapply optional_bytes; [exact zstring_bytes|exact Cm]|eapply optional_bytes; [|exact Hc]]]].
  - intros s (e & Be & _ & ->). apply Forall_app_2; [apply le_bytes_bytes|exact Be].
  - intros s (c & _ & ->). apply le_bytes_bytes.
Qed.
Lemma readHeader_iff bs r : bytes bs -> readHeader bs = HOk r <-> exists h, gheader h /\ bs = h ++ r.
Proof.
  intros B. split.
  - unfold readHeader. destruct bs as [|b0 bs']; [discriminate|]. set (bs := b0 :: bs') in *. clearbody bs. clear b0 bs'.
    destruct (Nat.ltb_spec (length (firstn 10 bs)) 10) as [|L]; [discriminate|]. rewrite firstn_length in L.
    assert (E10 : exists f0 f1 f2 flg r0 r1 r2 r3 r4 r5 bs2, bs = [f0; f1; f2; flg; r0; r1; r2; r3; r4; r5] ++ bs2).
    { do 10 (destruct bs as [|? bs]; [cbn in L; lia|]). do 11 eexists. reflexivity. }
    destruct E10 as (f0 & f1 & f2 & flg & r0 & r1 & r2 & r3 & r4 & r5 & bs2 & ->). cbn [app firstn skipn nth].
    destruct (Z.eqb_spec f0 31) as [->|]; cbn [negb orb]; [|discriminate]. destruct (Z.eqb_spec f1 139) as [->|]; cbn [negb orb]; [|discriminate].
    destruct (Z.eqb_spec f2 8) as [->|]; cbn [negb orb]; [|discriminate]. cbn [firstn skipn]. rewrite drop_0. change (firstn 0 bs2) with (@nil Z).
    apply Forall_app in B. destruct B as [B10 B2].
    destruct (opt_extra (Z.testbit flg 2) [31; 139; 8; flg; r0; r1; r2; r3; r4; r5] bs2) as [[d1 s1]|] eqn:E1; [|discriminate].
    apply opt_extra_iff in E1; [|exact B2]. destruct E1 as (ex & Ox & -> & ->). apply Forall_app in B2. destruct B2 as [Bx B2].
    destruct (opt_string (Z.testbit flg 3) _ s1) as [[d2 s2]|] eqn:E2; [|discriminate].
    apply opt_string_iff in E2; [|exact B2]. destruct E2 as (nm & On & -> & ->). apply Forall_app in B2. destruct B2 as [Bn B2].
    destruct (opt_string (Z.testbit flg 4) _ s2) as [[d3 s3]|] eqn:E3; [|discriminate].
    apply opt_string_iff in E3; [|exact B2]. destruct E3 as (cm & Oc & -> & ->). apply Forall_app in B2. destruct B2 as [Bc B2].
    destruct (opt_hcrc (Z.testbit flg 1) _ s3) as [s4|] eqn:E4; [|discriminate]. intros [= ->].
    apply opt_hcrc_iff in E4; [|exact B2|repeat apply Forall_app_2; assumption]. destruct E4 as (hc & Oh & ->).
    exists ([31; 139; 8; flg; r0; r1; r2; r3; r4; r5] ++ ex ++ nm ++ cm ++ hc). split; [|rewrite <- !app_assoc; reflexivity].
    exists flg, [r0; r1; r2; r3; r4; r5], ex, nm, cm, hc. split; [reflexivity|].
    split; [do 3 (apply List.Forall_inv_tail in B10); exact B10|].
    split; [exact Ox|]. split; [exact On|]. split; [exact Oc|]. split; [|reflexivity]. rewrite <- !app_assoc in Oh. exact Oh.
  - intros (h & G & ->). pose proof (gheader_bytes h G) as Bh. destruct G as (flg & rest & ex & nm & cm & hc & L & Bf & Ox & On & Oc & Oh & ->).
    assert (Es : exists r0 r1 r2 r3 r4 r5, rest = [r0; r1; r2; r3; r4; r5]).
    { do 6 (destruct rest as [|? rest]; [discriminate|]). destruct rest; [|discriminate]. do 6 eexists. reflexivity. }
    destruct Es as (r0 & r1 & r2 & r3 & r4 & r5 & ->). rewrite <- !app_assoc in *. cbn [app] in *. unfold readHeader.
    cbn [firstn length Nat.ltb Nat.leb nth skipn]. rewrite drop_0. change (firstn 0 (ex ++ nm ++ cm ++ hc ++ r)) with (@nil Z). cbn [Z.eqb Pos.eqb negb orb]. 
    set (h10 := [31; 139; 8; flg; r0; r1; r2; r3; r4; r5]) in *.
    assert (Bx : bytes (ex ++ nm ++ cm ++ hc ++ r)) by (do 10 (apply List.Forall_inv_tail in B); exact B).
    assert (B10 : bytes h10) by (change (bytes (h10 ++ ex ++ nm ++ cm ++ hc ++ r)) in B; apply Forall_app in B; exact (proj1 B)).
    rewrite (proj2 (opt_extra_iff (Z.testbit flg 2) h10 (ex ++ nm ++ cm ++ hc ++ r) (h10 ++ ex) (nm ++ cm ++ hc ++ r) Bx)) by (exists ex; auto).
    pose proof Bx as Bx'. apply Forall_app in Bx'. destruct Bx' as [Bex Bn].
    rewrite (proj2 (opt_string_iff (Z.testbit flg 3) (h10 ++ ex) (nm ++ cm ++ hc ++ r) ((h10 ++ ex) ++ nm) (cm ++ hc ++ r) Bn)) by (exists nm; auto).
    pose proof Bn as Bn'. apply Forall_app in Bn'. destruct Bn' as [Bnm Bc].
    rewrite (proj2 (opt_string_iff (Z.testbit flg 4) ((h10 ++ ex) ++ nm) (cm ++ hc ++ r) (((h10 ++ ex) ++ nm) ++ cm) (hc ++ r) Bc)) by (exists cm; auto).
    pose proof Bc as Bc'. apply Forall_app in Bc'. destruct Bc' as [Bcm Bhr].
    rewrite (proj2 (opt_hcrc_iff (Z.testbit flg 1) (((h10 ++ ex) ++ nm) ++ cm) (hc ++ r) r Bhr ltac:(repeat apply Forall_app_2; assumption))); [reflexivity|].
    exists hc. split; [|reflexivity]. rewrite <- !app_assoc. exact Oh.
Qed.
Lemma readHeader_eof bs : readHeader bs = HEof <-> bs = [].
Proof.
  split; [|intros ->; reflexivity]. unfold readHeader. destruct bs as [|b bs]; [reflexivity|].
  destruct (length (firstn 10 (b :: bs)) <? 10)%nat; [discriminate|]. destruct (_ || _ || _); [discriminate|].
  destruct (opt_extra _ _ _) as [[? ?]|]; [|discriminate]. destruct (opt_string _ _ _) as [[? ?]|]; [|discriminate]. destruct (opt_string _ _ _) as [[? ?]|]; [|discriminate].
  destruct (opt_hcrc _ _ _); discriminate.
Qed.
Lemma trailer_iff tail x : bytes tail -> bytes x ->
  (negb (length tail <? 8)%nat && (le_val (firstn 4 tail) =? CRC32 x) && (le_val (firstn 4 (skipn 4 tail)) =? u32 (Z.of_nat (length x)))) = true <->
  tail = Crc_Spec.le_bytes 4 (CRC32 x) ++ Crc_Spec.le_bytes 4 (Z.of_nat (length x)) ++ skipn 8 tail.
Proof.
  intros Bt Bx. pose proof (crc32_range x Bx) as Rg. rewrite !crc_le_bytes. split.
  - rewrite !andb_true_iff, negb_true_iff, Nat.ltb_ge, !Z.eqb_eq. intros [[L E1] E2].
    assert (L1 : length (firstn 4 tail) = 4%nat) by (rewrite firstn_length; lia).
    assert (L2 : length (firstn 4 (skipn 4 tail)) = 4%nat) by (rewrite firstn_length, skipn_length; lia).
    rewrite <- E1. rewrite <- L1 at 1. rewrite le_bytes_val by (apply Forall_take; exact Bt).
    assert (E3 : le_bytes 4 (Z.of_nat (length x)) = firstn 4 (skipn 4 tail)).
    { rewrite <- (le_bytes_val (firstn 4 (skipn 4 tail))) by (apply Forall_take; apply Forall_drop; exact Bt). rewrite L2, E2.
      assert (G : forall w v, le_bytes w (v mod 2 ^ (8 * Z.of_nat w)) = le_bytes w v).
      { induction w as [|w IH]; intros v; [reflexivity|]. cbn [le_bytes]. replace (8 * Z.of_nat (S w)) with (8 + 8 * Z.of_nat w) by lia. rewrite Z.pow_add_r by lia.
        change (2 ^ 8) with 256. rewrite Z.rem_mul_r by lia. unfold u8. rewrite !Z.shiftr_div_pow2 by lia. change (2 ^ 8) with 256.
        rewrite Z.mul_comm, Z.mod_add, Z.mod_mod, Z.div_add, (Z.div_small (v mod 256)) by (lia || (apply Z.mod_pos_bound; lia)). rewrite Z.add_0_l. f_equal. apply IH. }
      unfold u32. symmetry. apply (G 4%nat). }
    rewrite E3. replace (skipn 8 tail) with (skipn 4 (skipn 4 tail)) by (rewrite drop_drop; reflexivity). rewrite !firstn_skipn. reflexivity.
  - intros E. assert (L : (8 <= length tail)%nat) by (rewrite E, !app_length, !le_bytes_length; lia).
    assert (F1 : firstn 4 tail = le_bytes 4 (CRC32 x)) by (rewrite E; rewrite <- (le_bytes_length 4 (CRC32 x)) at 1; apply take_app).
    assert (F2 : firstn 4 (skipn 4 tail) = le_bytes 4 (Z.of_nat (length x))).
    { rewrite E. rewrite <- (le_bytes_length 4 (CRC32 x)) at 2. rewrite drop_app. rewrite <- (le_bytes_length 4 (Z.of_nat (length x))) at 1. apply take_app. }
    rewrite F1, F2, !le_val_bytes. rewrite !andb_true_iff, negb_true_iff, Nat.ltb_ge, !Z.eqb_eq. split; [split; [exact L|]|reflexivity]. apply Z.mod_small. exact Rg.
Qed.
Lemma gunzip_S fuel acc bs : gunzip (S fuel) acc bs =
  match flate bs with
  | (out, Some tail) =>
      if negb (length tail <? 8)%nat && (le_val (firstn 4 tail) =? CRC32 out) && (le_val (firstn 4 (skipn 4 tail)) =? u32 (Z.of_nat (length out))) then
        match readHeader (skipn 8 tail) with
        | HOk r => gunzip fuel (acc ++ out) r
        | HEof => (acc ++ out, true)
        | HErr => (acc ++ out, false)
        end
      else (acc ++ out, false)
  | (out, None) => (acc ++ out, false)
  end.
Proof.
  cbn [gunzip]. destruct (flate bs) as [out [tail|]]; [|reflexivity]. destruct (length tail <? 8)%nat; [reflexivity|].
  destruct (le_val (firstn 4 tail) =? CRC32 out); [|reflexivity]. destruct (le_val (firstn 4 (skipn 4 tail)) =? u32 (Z.of_nat (length out))); reflexivity.
Qed.
Lemma deflate_nonempty d x : deflate d x -> d <> [].
Proof. intros [_ (w & fill & E & _ & ws & mid & wl & _ & _ & ->)] ->. cbn in E. destruct ws; discriminate. Qed.
Lemma gunzip_complete s x : gzip s x -> exists h rest, s = h ++ rest /\ gheader h /\ bytes rest /\
  forall fuel acc, (length rest < fuel)%nat -> gunzip fuel acc rest = (acc ++ x, true).
Proof.
  intros H. induction H as [s x (h & d & c & -> & G & D & C)|s x ss xs (h & d & c & -> & G & D & C) H IH].
  - apply crc32_is in C; [|exact (deflate_bytes _ _ D)]. subst c. exists h, (d ++ Crc_Spec.le_bytes 4 (CRC32 x) ++ Crc_Spec.le_bytes 4 (Z.of_nat (length x))).
    split; [reflexivity|]. split; [exact G|]. split; [apply Forall_app_2; [exact (proj1 D)|apply Forall_app_2; apply le_bytes_bytes]|].
    intros fuel acc Hf. destruct fuel as [|fuel]; [lia|]. rewrite gunzip_S, (flate_complete d x _ D).
    set (t := Crc_Spec.le_bytes 4 (CRC32 x) ++ Crc_Spec.le_bytes 4 (Z.of_nat (length x))).
    assert (Et : skipn 8 t = []) by reflexivity.
    rewrite (proj2 (trailer_iff t x ltac:(apply Forall_app_2; apply le_bytes_bytes) (deflate_bytes _ _ D))) by (rewrite Et, app_nil_r; reflexivity).
    rewrite Et. reflexivity.
  - apply crc32_is in C; [|exact (deflate_bytes _ _ D)]. subst c. destruct IH as (h' & rest' & -> & G' & B' & IH).
    exists h, (d ++ Crc_Spec.le_bytes 4 (CRC32 x) ++ Crc_Spec.le_bytes 4 (Z.of_nat (length x)) ++ h' ++ rest').
    assert (Bt : bytes (Crc_Spec.le_bytes 4 (CRC32 x) ++ Crc_Spec.le_bytes 4 (Z.of_nat (length x)) ++ h' ++ rest')).
    { repeat apply Forall_app_2; try apply le_bytes_bytes; [apply gheader_bytes; exact G'|exact B']. }
    split; [rewrite <- !app_assoc; reflexivity|]. split; [exact G|]. split; [apply Forall_app_2; [exact (proj1 D)|exact Bt]|].
    intros fuel acc Hf. destruct fuel as [|fuel]; [lia|]. rewrite gunzip_S, (flate_complete d x _ D).
    set (t := Crc_Spec.le_bytes 4 (CRC32 x) ++ Crc_Spec.le_bytes 4 (Z.of_nat (length x)) ++ h' ++ rest') in *.
    assert (Et : skipn 8 t = h' ++ rest') by reflexivity.
    rewrite (proj2 (trailer_iff t x Bt (deflate_bytes _ _ D))) by (rewrite Et; reflexivity). rewrite Et.
    rewrite (proj2 (readHeader_iff (h' ++ rest') rest' ltac:(apply Forall_app_2; [apply gheader_bytes; exact G'|exact B']))) by (exists h'; auto).
    rewrite IH.
    + rewrite <- app_assoc. reflexivity.
    + unfold t in Hf. rewrite !app_length in Hf. pose proof (deflate_nonempty d x D). destruct d; [contradiction|]. cbn [length] in Hf. lia.
Qed.
Lemma gunzip_sound fuel : forall acc bs y, bytes bs -> gunzip fuel acc bs = (y, true) -> forall h, gheader h ->
  exists x, y = acc ++ x /\ gzip (h ++ bs) x.
Proof.
  induction fuel as [|fuel IH]; intros acc bs y B; [discriminate|]. rewrite gunzip_S. destruct (flate bs) as [out [tail|]] eqn:F; [|discriminate].
  apply flate_sound in F; [|exact B]. destruct F as (d & -> & D). apply Forall_app in B. destruct B as [Bd Bt]. pose proof (deflate_bytes _ _ D) as Bo.
  match goal with |- context [if ?c then _ else _] => destruct c eqn:T; [|discriminate] end. apply trailer_iff in T; [|exact Bt|exact Bo].
  assert (Bs : bytes (skipn 8 tail)) by (apply Forall_drop; exact Bt).
  destruct (readHeader (skipn 8 tail)) as [r| |] eqn:R; [| |discriminate].
  - apply readHeader_iff in R; [|exact Bs]. destruct R as (h' & G' & Es). intros H h G.
    apply (IH _ _ _) with (h := h') in H; [|rewrite Es in Bs; apply Forall_app in Bs; exact (proj2 Bs)|exact G'].
    destruct H as (x' & -> & Gz). exists (out ++ x'). split; [rewrite <- app_assoc; reflexivity|].
    rewrite T, Es. replace (h ++ d ++ Crc_Spec.le_bytes 4 (CRC32 out) ++ Crc_Spec.le_bytes 4 (Z.of_nat (length out)) ++ h' ++ r)
      with ((h ++ d ++ Crc_Spec.le_bytes 4 (CRC32 out) ++ Crc_Spec.le_bytes 4 (Z.of_nat (length out))) ++ h' ++ r) by (rewrite <- !app_assoc; reflexivity).
    apply g_more; [|exact Gz]. exists h, d, (CRC32 out). split; [reflexivity|]. split; [exact G|]. split; [exact D|]. apply crc32_is; auto.
  - apply readHeader_eof in R. intros [= <-] h G. exists out. split; [reflexivity|]. rewrite T, R, app_nil_r. apply g_one.
    exists h, d, (CRC32 out). split; [reflexivity|]. split; [exact G|]. split; [exact D|]. apply crc32_is; auto.
Qed.
Lemma gzip_read_iff bs x : bytes bs -> gzip_read bs = Some (x, true) <-> gzip bs x.
Proof.
  intros B. unfold gzip_read. split.
  - destruct (readHeader bs) as [r| |] eqn:R; try discriminate. intros H0. assert (H : gunzip (S (length bs)) [] r = (x, true)) by congruence. clear H0. apply readHeader_iff in R; [|exact B]. destruct R as (h & G & E).
    rewrite E in B. apply Forall_app in B. destruct B as [_ B]. destruct (gunzip_sound _ _ _ _ B H h G) as (x' & -> & Gz). rewrite E. exact Gz.
  - intros H. destruct (gunzip_complete bs x H) as (h & rest & -> & G & Br & E).
    rewrite (proj2 (readHeader_iff (h ++ rest) rest B)) by (exists h; auto). f_equal. apply (E _ []). rewrite app_length. lia.
Qed.
