(** Lemmas about the UUID model. *)
From Coq Require Import ZArith Znumtheory List Bool Lia ZifyBool ZifyNat.
From Verif Require Import GoInt Num_Model Num_Spec Num_Proofs Base58_Model Base58_Proofs Uuid_Model Uuid_Spec.
Import ListNotations.
Local Open Scope Z_scope.

(** ** Hex *)
Definition hex_ok (b : Z) : bool :=
  match unhex (hexdigit (Z.shiftr b 4)), unhex (hexdigit (Z.land b 15)) with
  | Some x, Some y => Z.lor (Z.shiftl x 4) y =? b
  | _, _ => false
  end &&
  (let lower c := ((48 <=? c) && (c <=? 57)) || ((97 <=? c) && (c <=? 102)) in
   lower (hexdigit (Z.shiftr b 4)) && lower (hexdigit (Z.land b 15))).

Lemma hex_table : forallb hex_ok (map Z.of_nat (seq 0 256)) = true.
Proof. vm_compute. reflexivity. Qed.

Lemma hex_byte b : 0 <= b < 256 ->
  (exists x y, unhex (hexdigit (Z.shiftr b 4)) = Some x /\ unhex (hexdigit (Z.land b 15)) = Some y /\
     Z.lor (Z.shiftl x 4) y = b) /\
  is_hex_lower (hexdigit (Z.shiftr b 4)) /\ is_hex_lower (hexdigit (Z.land b 15)).
Proof.
  intros Hb. pose proof (range_forallb _ 256 hex_table b ltac:(lia)) as H.
  unfold hex_ok in H. apply andb_prop in H as [H1 H2]. split.
  - destruct (unhex (hexdigit (Z.shiftr b 4))) as [x|]; [|discriminate].
    destruct (unhex (hexdigit (Z.land b 15))) as [y|]; [|discriminate].
    exists x, y. repeat split; auto. lia.
  - cbv zeta in H2. unfold is_hex_lower. lia.
Qed.

Lemma hex_decode_encode bs : Forall (fun b => 0 <= b < 256) bs -> hex_decode (hex_encode bs) = Some bs.
Proof.
  induction 1 as [|b bs Hb _ IH]; [reflexivity|].
  cbn [hex_encode flat_map app hex_decode]. fold (hex_encode bs).
  destruct (hex_byte b Hb) as [[x [y [-> [-> E]]]] _]. rewrite IH, E. reflexivity.
Qed.

Lemma unhex_spec c : is_hex c <-> exists x, unhex c = Some x /\ 0 <= x < 16.
Proof.
  unfold is_hex, is_hex_lower, unhex. split.
  - intros H.
    destruct ((48 <=? c) && (c <=? 57)) eqn:E1; [eexists; split; [reflexivity|lia]|].
    destruct ((97 <=? c) && (c <=? 102)) eqn:E2; [eexists; split; [reflexivity|lia]|].
    destruct ((65 <=? c) && (c <=? 70)) eqn:E3; [eexists; split; [reflexivity|lia]|]. lia.
  - intros [x [H _]].
    destruct ((48 <=? c) && (c <=? 57)) eqn:E1; [lia|].
    destruct ((97 <=? c) && (c <=? 102)) eqn:E2; [lia|].
    destruct ((65 <=? c) && (c <=? 70)) eqn:E3; [lia|discriminate].
Qed.

Lemma unhex_none c : unhex c = None -> ~ is_hex c.
Proof. intros H Hh. apply unhex_spec in Hh as [x [E _]]. congruence. Qed.

Lemma nib_lt x y : 0 <= x < 16 -> 0 <= y < 16 -> 0 <= Z.lor (Z.shiftl x 4) y < 256.
Proof.
  intros Hx Hy.
  assert (H : forallb (fun x => forallb (fun y => (0 <=? Z.lor (Z.shiftl x 4) y) && (Z.lor (Z.shiftl x 4) y <? 256))
     (map Z.of_nat (seq 0 16))) (map Z.of_nat (seq 0 16)) = true) by (vm_compute; reflexivity).
  pose proof (range_forallb _ 16 H x ltac:(lia)) as H1. cbv beta in H1.
  pose proof (range_forallb _ 16 H1 y ltac:(lia)) as H2. cbv beta in H2. lia.
Qed.

(** hex.Decode on an even number of characters: success iff all are hex digits. *)
Lemma hex_decode_ok n : forall s, length s = (2 * n)%nat -> Forall is_hex s ->
  exists bs, hex_decode s = Some bs /\ length bs = n /\ Forall (fun b => 0 <= b < 256) bs.
Proof.
  induction n as [|n IH]; intros s Hl Hf.
  - destruct s; [|discriminate]. exists []. repeat split; auto.
  - destruct s as [|a [|b s]]; try (cbn in Hl; lia).
    inversion Hf as [|? ? Ha Hf']; subst. inversion Hf' as [|? ? Hb Hf'']; subst.
    apply unhex_spec in Ha as [x [Hx Rx]]. apply unhex_spec in Hb as [y [Hy Ry]].
    destruct (IH s ltac:(cbn in Hl; lia) Hf'') as [bs [E1 [E2 E3]]].
    cbn [hex_decode]. rewrite Hx, Hy, E1. eexists. split; [reflexivity|]. split; [cbn; lia|].
    constructor; auto using nib_lt.
Qed.

Lemma hex_decode_bad n : forall s, length s = (2 * n)%nat -> forall bs, hex_decode s = Some bs -> Forall is_hex s.
Proof.
  induction n as [|n IH]; intros s Hl bs H.
  - destruct s; [constructor|discriminate].
  - destruct s as [|a [|b s]]; try (cbn in Hl; lia). cbn [hex_decode] in H.
    destruct (unhex a) eqn:Ea; [|discriminate]. destruct (unhex b) eqn:Eb; [|discriminate].
    destruct (hex_decode s) eqn:Es; [|discriminate].
    constructor; [|constructor].
    + destruct (Z.eq_dec 0 0); [|lia]. unfold unhex in Ea. unfold is_hex, is_hex_lower.
      destruct ((48 <=? a) && (a <=? 57)) eqn:E1; [lia|].
      destruct ((97 <=? a) && (a <=? 102)) eqn:E2; [lia|].
      destruct ((65 <=? a) && (a <=? 70)) eqn:E3; [lia|discriminate].
    + unfold unhex in Eb. unfold is_hex, is_hex_lower.
      destruct ((48 <=? b) && (b <=? 57)) eqn:E1; [lia|].
      destruct ((97 <=? b) && (b <=? 102)) eqn:E2; [lia|].
      destruct ((65 <=? b) && (b <=? 70)) eqn:E3; [lia|discriminate].
    + eapply IH; eauto. cbn in Hl. lia.
Qed.

Lemma explicit16 (u : list Z) : length u = 16%nat ->
  exists a0 a1 a2 a3 a4 a5 a6 a7 a8 a9 a10 a11 a12 a13 a14 a15,
  u = [a0;a1;a2;a3;a4;a5;a6;a7;a8;a9;a10;a11;a12;a13;a14;a15].
Proof.
  intros H. do 16 (destruct u as [|? u]; [discriminate|]). destruct u; [|discriminate].
  repeat eexists.
Qed.

(** [String] is the five hex groups joined by dashes. *)
Lemma String_eq u : length u = 16%nat ->
  String_ u = hex_encode (slice 0 4 u) ++ 45 :: hex_encode (slice 4 6 u) ++ 45 :: hex_encode (slice 6 8 u)
     ++ 45 :: hex_encode (slice 8 10 u) ++ 45 :: hex_encode (slice 10 16 u).
Proof.
  intros H. destruct (explicit16 u H) as (a0&a1&a2&a3&a4&a5&a6&a7&a8&a9&a10&a11&a12&a13&a14&a15&->).
  reflexivity.
Qed.

Lemma hex_encode_app a b : hex_encode (a ++ b) = hex_encode a ++ hex_encode b.
Proof. unfold hex_encode. apply flat_map_app. Qed.

Lemma parse_string u : is_uuid u -> Parse (String_ u) = Some u.
Proof.
  intros [Hl Hb]. unfold Parse.
  rewrite <- (hex_decode_encode u Hb).
  destruct (explicit16 u Hl) as (a0&a1&a2&a3&a4&a5&a6&a7&a8&a9&a10&a11&a12&a13&a14&a15&->).
  reflexivity.
Qed.

Lemma string_shape u : is_uuid u ->
  length (String_ u) = 36%nat /\
  forall i, (i < 36)%nat -> (is_sep_pos i -> nth i (String_ u) 0 = 45) /\
                            (~ is_sep_pos i -> is_hex_lower (nth i (String_ u) 0)).
Proof.
  intros [Hl Hb].
  destruct (explicit16 u Hl) as (a0&a1&a2&a3&a4&a5&a6&a7&a8&a9&a10&a11&a12&a13&a14&a15&->).
  assert (Hex : forall b, In b [a0;a1;a2;a3;a4;a5;a6;a7;a8;a9;a10;a11;a12;a13;a14;a15] ->
     is_hex_lower (hexdigit (Z.shiftr b 4)) /\ is_hex_lower (hexdigit (Z.land b 15))).
  { intros b Hin. rewrite Forall_forall in Hb. apply hex_byte. apply Hb. exact Hin. }
  split; [reflexivity|]. intros i Hi. unfold is_sep_pos.
  do 36 (destruct i as [|i]; [split; intros Hs; try (exfalso; lia); try reflexivity;
     (apply Hex || (refine (proj1 (Hex _ _))) || (refine (proj2 (Hex _ _)))); cbn; tauto|]).
  lia.
Qed.

Lemma unhex_lower c x : unhex c = Some x -> 0 <= x < 16 /\ hexdigit x = lower c.
Proof.
  unfold unhex, hexdigit, lower. intros H.
  destruct ((48 <=? c) && (c <=? 57)) eqn:E1; [injection H as <-; split; [lia|]; replace (c - 48 <? 10) with true by lia; replace ((65 <=? c) && (c <=? 90)) with false by lia; lia|].
  destruct ((97 <=? c) && (c <=? 102)) eqn:E2; [injection H as <-; split; [lia|]; replace (c - 97 + 10 <? 10) with false by lia; replace ((65 <=? c) && (c <=? 90)) with false by lia; lia|].
  destruct ((65 <=? c) && (c <=? 70)) eqn:E3; [|discriminate]. injection H as <-. split; [lia|]. replace (c - 65 + 10 <? 10) with false by lia. replace ((65 <=? c) && (c <=? 90)) with true by lia. lia.
Qed.
Lemma nib_split x y : 0 <= x < 16 -> 0 <= y < 16 -> Z.shiftr (Z.lor (Z.shiftl x 4) y) 4 = x /\ Z.land (Z.lor (Z.shiftl x 4) y) 15 = y.
Proof.
  intros Hx Hy.
  assert (H : forallb (fun x => forallb (fun y => (Z.shiftr (Z.lor (Z.shiftl x 4) y) 4 =? x) && (Z.land (Z.lor (Z.shiftl x 4) y) 15 =? y))
     (map Z.of_nat (seq 0 16))) (map Z.of_nat (seq 0 16)) = true) by (vm_compute; reflexivity).
  pose proof (range_forallb _ 16 H x ltac:(lia)) as H1. cbv beta in H1.
  pose proof (range_forallb _ 16 H1 y ltac:(lia)) as H2. cbv beta in H2. lia.
Qed.
Lemma hex_encode_decode n : forall s bs, length s = (2 * n)%nat -> hex_decode s = Some bs -> hex_encode bs = map lower s.
Proof.
  induction n as [|n IH]; intros s bs Hl H.
  - destruct s; [|discriminate]. cbn in H. injection H as <-. reflexivity.
  - destruct s as [|a [|b s]]; try (cbn in Hl; lia). cbn [hex_decode] in H.
    destruct (unhex a) as [x|] eqn:Ea; [|discriminate]. destruct (unhex b) as [y|] eqn:Eb; [|discriminate].
    destruct (hex_decode s) as [r|] eqn:Es; [|discriminate]. assert (bs = Z.lor (Z.shiftl x 4) y :: r) as -> by congruence.
    apply unhex_lower in Ea as [Rx Ex]. apply unhex_lower in Eb as [Ry Ey]. destruct (nib_split x y Rx Ry) as [N1 N2].
    set (z := Z.lor (Z.shiftl x 4) y) in *. change (hex_encode (z :: r)) with (hexdigit (Z.shiftr z 4) :: hexdigit (Z.land z 15) :: hex_encode r). cbn [map].
    rewrite N1, N2, Ex, Ey. do 2 f_equal. apply IH; [cbn in Hl; lia|exact Es].
Qed.

Lemma parse_iff s :
  (exists u, Parse s = Some u) <->
  (length s = 36%nat /\ forall i, (i < 36)%nat -> ~ is_sep_pos i -> is_hex (nth i s 0)).
Proof.
  unfold Parse. destruct (Nat.eqb (length s) 36) eqn:E; cbn [negb].
  2:{ split; [intros [u H]; discriminate|]. intros [H _]. lia. }
  apply Nat.eqb_eq in E.
  set (t := slice 0 8 s ++ slice 9 13 s ++ slice 14 18 s ++ slice 19 23 s ++ slice 24 36 s).
  assert (Ht : length t = (2 * 16)%nat).
  { unfold t, slice. rewrite !app_length, !firstn_length, !skipn_length, E. reflexivity. }
  assert (Hf : Forall is_hex t <-> forall i, (i < 36)%nat -> ~ is_sep_pos i -> is_hex (nth i s 0)).
  { unfold t, slice. do 36 (destruct s as [|? s]; [discriminate|]). destruct s; [|discriminate].
    cbn [firstn skipn app Nat.sub]. split.
    - intros H i Hi Hs. rewrite Forall_forall in H. unfold is_sep_pos in Hs.
      do 36 (destruct i as [|i]; [cbn [nth]; try (exfalso; tauto); apply H; cbn; tauto|]). lia.
    - intros H. unfold is_sep_pos in H.
      repeat match goal with |- Forall _ _ => constructor end;
      match goal with |- is_hex ?x =>
        match goal with H : forall i, _ -> _ -> is_hex (nth i ?l 0) |- _ =>
          let rec go n l := match l with
            | x :: _ => apply (H n); lia
            | _ :: ?r => go (S n) r
            end in go O l
        end
      end. }
  rewrite <- Hf. split.
  - intros [u Hu]. split; auto. exact (hex_decode_bad 16 t Ht u Hu).
  - intros [_ H]. destruct (hex_decode_ok 16 t Ht H) as [bs [Hbs _]]. eauto.
Qed.

Lemma cons_inj (a b : Z) l l' : a :: l = b :: l' -> a = b /\ l = l'.
Proof. intros H. injection H as H1 H2. auto. Qed.
Lemma parse_uuid s u : Parse s = Some u -> is_uuid u.
Proof.
  intros H. assert (Hx : exists u, Parse s = Some u) by eauto.
  unfold Parse in H. destruct (Nat.eqb (length s) 36) eqn:E; cbn [negb] in H; [|discriminate].
  apply Nat.eqb_eq in E.
  set (t := slice 0 8 s ++ slice 9 13 s ++ slice 14 18 s ++ slice 19 23 s ++ slice 24 36 s) in *.
  assert (Ht : length t = (2 * 16)%nat).
  { unfold t, slice. rewrite !app_length, !firstn_length, !skipn_length, E. reflexivity. }
  destruct (hex_decode_ok 16 t Ht (hex_decode_bad 16 t Ht u H)) as [bs [E1 [E2 E3]]].
  rewrite H in E1. injection E1 as <-. split; auto.
Qed.

Lemma parse_value s u : Parse s = Some u -> forall i, (i < 36)%nat -> ~ is_sep_pos i -> nth i (String_ u) 0 = lower (nth i s 0).
Proof.
  intros H. destruct (parse_uuid s u H) as [Hu _]. unfold Parse in H. destruct (Nat.eqb (length s) 36) eqn:E; cbn [negb] in H; [|discriminate].
  apply Nat.eqb_eq in E. apply (hex_encode_decode 16) in H.
  2:{ unfold slice. rewrite !app_length, !firstn_length, !skipn_length, E. reflexivity. }
  do 36 (destruct s as [|? s]; [discriminate|]). destruct s; [|discriminate].
  destruct (explicit16 u Hu) as (a0&a1&a2&a3&a4&a5&a6&a7&a8&a9&a10&a11&a12&a13&a14&a15&->).
  unfold slice in H. cbn [firstn skipn Nat.sub app map hex_encode flat_map] in H.
  repeat match type of H with _ :: _ = _ :: _ => let H1 := fresh "Q" in apply cons_inj in H as [H1 H] end.
  intros i Hi Hs. unfold is_sep_pos in Hs.
  do 36 (destruct i as [|i]; [try (exfalso; lia); assumption|]). lia.
Qed.

Lemma mod_64_62 x : (x mod 2^64) mod 2^62 = x mod 2^62.
Proof. symmetry. apply Znumtheory.Zmod_div_mod; [lia|lia|]. exists 4. reflexivity. Qed.

(** ** NewUUID *)
Lemma byte6_table : forallb (fun b => let c := Z.lor (Z.land b 15) 64 in
    (0 <=? c) && (c <? 256) && (Z.shiftr c 4 =? 4)) (map Z.of_nat (seq 0 256)) = true.
Proof. vm_compute. reflexivity. Qed.
Lemma byte8_table : forallb (fun b => let c := Z.lor (Z.land b 63) 128 in
    (128 <=? c) && (c <? 192) && (c mod 64 =? b mod 64)) (map Z.of_nat (seq 0 256)) = true.
Proof. vm_compute. reflexivity. Qed.

Lemma byte6 b : 0 <= b < 256 -> let c := Z.lor (Z.land b 15) 64 in 0 <= c < 256 /\ Z.shiftr c 4 = 4.
Proof.
  intros Hb. pose proof (range_forallb _ 256 byte6_table b ltac:(lia)) as H. cbv beta zeta in *. lia.
Qed.
Lemma byte8 b : 0 <= b < 256 -> let c := Z.lor (Z.land b 63) 128 in 128 <= c < 192 /\ c mod 64 = b mod 64.
Proof.
  intros Hb. pose proof (range_forallb _ 256 byte8_table b ltac:(lia)) as H. cbv beta zeta in *. lia.
Qed.

Lemma put8_explicit n : exists a0 a1 a2 a3 a4 a5 a6 a7,
  put_bytes 8 n = [a0;a1;a2;a3;a4;a5;a6;a7] /\ Forall (fun b => 0 <= b < 256) [a0;a1;a2;a3;a4;a5;a6;a7].
Proof.
  pose proof (put_bytes_length 8 n) as H. pose proof (put_bytes_bytes 8 n) as Hb.
  destruct (put_bytes 8 n) as [|a0 [|a1 [|a2 [|a3 [|a4 [|a5 [|a6 [|a7 [|]]]]]]]]]; try discriminate.
  do 8 eexists. split; [reflexivity|exact Hb].
Qed.

(** The low 62 bits of the sequence can be read back from a generated UUID. *)
Definition low62 (u : list Z) : Z :=
  be_value ((nth 8 u 0 mod 64) :: skipn 9 u).

Lemma NewUUID_shape h s :
  is_uuid (NewUUID h s) /\ Version (NewUUID h s) = 4 /\ variant_bits_10 (NewUUID h s) /\
  low62 (NewUUID h s) = s mod 2^62.
Proof.
  unfold NewUUID, int64ToBytes.
  destruct (put8_explicit (i64 h)) as (a0&a1&a2&a3&a4&a5&a6&a7&E1&B1).
  pose proof (put_bytes_value 8 s) as Hval.
  destruct (put8_explicit s) as (c0&c1&c2&c3&c4&c5&c6&c7&E2&B2).
  rewrite E2 in Hval. rewrite E1, E2. cbn [app upd nth].
  repeat match goal with H : Forall _ (_ :: _) |- _ => inversion H; clear H; subst end.
  destruct (byte6 a6 ltac:(assumption)) as [P1 P2].
  destruct (byte8 c0 ltac:(assumption)) as [P3 P4].
  split; [split; [reflexivity|repeat (constructor; [lia|]); constructor]|].
  split; [unfold Version; cbn [nth]; exact P2|].
  split; [unfold variant_bits_10; cbn [nth]; exact P3|].
  unfold low62. cbn [nth skipn]. rewrite P4. clear P1 P2 P3 P4 E1 E2.
  cbn [be_value length] in *.
  change (256 ^ Z.of_nat 8) with (2^64) in Hval.
  change (256 ^ Z.of_nat 7) with (2^56) in *. change (256 ^ Z.of_nat 6) with (2^48) in *.
  change (256 ^ Z.of_nat 5) with (2^40) in *. change (256 ^ Z.of_nat 4) with (2^32) in *.
  change (256 ^ Z.of_nat 3) with (2^24) in *. change (256 ^ Z.of_nat 2) with (2^16) in *.
  change (256 ^ Z.of_nat 1) with (2^8) in *. change (256 ^ Z.of_nat 0) with 1 in *.
  rewrite <- mod_64_62.
  rewrite <- Hval.
  assert (D : c0 = 64 * (c0 / 64) + c0 mod 64) by (apply Z.div_mod; lia).
  pose proof (Z.mod_pos_bound c0 64 ltac:(lia)).
  set (c := c0 mod 64) in *. set (d := c0 / 64) in *. clearbody c d. subst c0.
  replace ((64 * d + c) * 2^56) with (c * 2^56 + d * 2^62) by lia.
  rewrite <- !Z.add_assoc. rewrite (Z.add_comm (d * 2^62)), !Z.add_assoc.
  rewrite Z.mod_add by lia. symmetry. rewrite <- !Z.add_assoc. apply Z.mod_small. lia.
Qed.

(** ** Uniqueness *)
Lemma drop_pend_in t p l : In p (drop_pend t l) -> In p l /\ fst p <> t.
Proof. unfold drop_pend. rewrite filter_In, negb_true_iff, Nat.eqb_neq. intuition. Qed.

Lemma find_pend_in t s l : find_pend t l = Some s -> In (t, s) l.
Proof.
  induction l as [|[t' s'] l IH]; cbn; [discriminate|].
  destruct (Nat.eqb t t') eqn:E; [|intro; right; auto].
  apply Nat.eqb_eq in E. intros [= ->]. subst. now left.
Qed.

(** Number of atomic adds in a schedule. *)
Definition adds (es : list gen_event) : Z :=
  Z.of_nat (length (filter (fun e => match e with EAdd _ => true | _ => false end) es)).

Definition pkey (p : nat * Z) : Z := snd p mod 2^62.
Definition keys (g : gen) : list Z := map low62 (out g) ++ map pkey (pend g).

Definition inv (start n : Z) (g : gen) : Prop :=
  ctr g = u64 (start + n) /\ NoDup (keys g) /\
  Forall (fun k => exists j, 0 < j <= n /\ k = (start + j) mod 2^62) (keys g).

Lemma i64_low62 s : i64 (u64 s) mod 2^62 = s mod 2^62.
Proof.
  assert (H : i64 (u64 s) mod 2^64 = s mod 2^64).
  { unfold i64. rewrite wrapS_mod by lia. unfold u64. apply Z.mod_mod. lia. }
  rewrite <- mod_64_62, H, mod_64_62. reflexivity.
Qed.

Lemma NoDup_map_inj {A B} (f : A -> B) l x y : NoDup (map f l) -> In x l -> In y l -> f x = f y -> x = y.
Proof.
  induction l as [|z l IH]; cbn; [tauto|]. intros H Hx Hy E. inversion H; subst.
  destruct Hx as [->|Hx], Hy as [->|Hy]; auto.
  - exfalso. apply H2. rewrite E. now apply in_map.
  - exfalso. apply H2. rewrite <- E. now apply in_map.
Qed.

Lemma NoDup_app {A} (l1 l2 : list A) : NoDup (l1 ++ l2) <-> NoDup l1 /\ NoDup l2 /\ (forall x, In x l1 -> ~ In x l2).
Proof.
  induction l1 as [|a l1 IH]; cbn.
  - split; [intros; repeat split; auto; constructor|tauto].
  - split.
    + intros H. inversion H; subst. apply IH in H3 as [A1 [A2 A3]]. rewrite in_app_iff in H2.
      repeat split; auto; [constructor; tauto|]. intros x [->|Hx]; auto.
    + intros [H1 [H2 H3]]. inversion H1; subst. constructor.
      * rewrite in_app_iff. intros [H|H]; [auto|]. apply (H3 a); auto.
      * apply IH. repeat split; auto.
Qed.

Lemma mod_distinct a b m : 0 < m -> 0 < a - b < m -> a mod m <> b mod m.
Proof.
  intros Hm Hab E.
  pose proof (Z.div_mod a m ltac:(lia)). pose proof (Z.div_mod b m ltac:(lia)).
  assert (a - b = m * (a / m - b / m)) by lia.
  destruct (Z_le_gt_dec (a / m - b / m) 0); nia.
Qed.

Lemma gen_step_inv start n g e : 0 <= n -> n + adds [e] <= 2^62 -> inv start n g ->
  exists m, n <= m <= n + adds [e] /\ inv start m (gen_step g e).
Proof.
  intros Hn Hb (I1 & I2 & I3). unfold keys in *. destruct e as [t|t h]; cbn [gen_step].
  - destruct (find_pend t (pend g)) eqn:Ef.
    { exists n. split; [unfold adds; cbn; lia|]. split; auto. }
    exists (n + 1). split; [unfold adds; cbn; lia|].
    assert (Hc : u64 (ctr g + 1) = u64 (start + (n + 1))).
    { rewrite I1. unfold u64. rewrite Z.add_mod_idemp_l by lia. f_equal. lia. }
    change (adds [EAdd t]) with 1 in Hb.
    assert (Hk : pkey (t, i64 (u64 (ctr g + 1))) = (start + (n + 1)) mod 2^62).
    { unfold pkey. cbn [snd]. rewrite Hc. apply i64_low62. }
    split; [exact Hc|]. unfold keys. cbn [out pend map]. rewrite Hk. split.
    + apply NoDup_app in I2 as (N1 & N2 & N3).
      assert (Hnew : ~ In ((start + (n + 1)) mod 2^62) (map low62 (out g) ++ map pkey (pend g))).
      { intros Hin. rewrite Forall_forall in I3. apply I3 in Hin as [j [Hj E]].
        revert E. apply mod_distinct; lia. }
      rewrite in_app_iff in Hnew. apply NoDup_app. split; [auto|]. split; [constructor; tauto|].
      intros x Hx [<-|Hx']; [tauto|exact (N3 x Hx Hx')].
    + apply Forall_app in I3 as [F1 F2]. apply Forall_app. split.
      * eapply Forall_impl; [|exact F1]. cbv beta. intros k [j [Hj E]]. exists j. split; [lia|auto].
      * constructor; [exists (n + 1); split; [lia|reflexivity]|].
        eapply Forall_impl; [|exact F2]. cbv beta. intros k [j [Hj E]]. exists j. split; [lia|auto].
  - exists n. split; [unfold adds; cbn; lia|].
    destruct (find_pend t (pend g)) as [s|] eqn:Ef; [|split; auto].
    apply find_pend_in in Ef. split; [exact I1|]. unfold keys. cbn [out pend map].
    destruct (NewUUID_shape h s) as (_ & _ & _ & ->).
    assert (Hsub : forall k, In k (map pkey (drop_pend t (pend g))) -> In k (map pkey (pend g)) /\ k <> s mod 2^62).
    { intros k Hk. apply in_map_iff in Hk as [p [E Hp]]. apply drop_pend_in in Hp as [Hp Ht].
      split; [rewrite <- E; now apply in_map|]. intros ->.
      apply NoDup_app in I2 as (_ & N2 & _).
      apply Ht. replace p with (t, s); [reflexivity|].
      eapply NoDup_map_inj; [exact N2|exact Ef|exact Hp|]. symmetry. exact E. }
    assert (Hs : In (s mod 2^62) (map pkey (pend g))) by (apply (in_map pkey _ (t, s)); exact Ef).
    split.
    + apply NoDup_app in I2 as (N1 & N2 & N3). apply NoDup_app. split.
      { constructor; auto. intros Hin. exact (N3 _ Hin Hs). }
      split.
      { clear -N2. unfold drop_pend. induction (pend g) as [|p l IH]; cbn; [constructor|].
        inversion N2; subst. destruct (negb _); cbn; auto. constructor; auto.
        intros Hin. apply H1. apply in_map_iff in Hin as [q [E Hq]]. apply filter_In in Hq as [Hq _].
        rewrite <- E. now apply in_map. }
      intros x [<-|Hx] Hx'; apply Hsub in Hx' as [G1 G2]; [congruence|exact (N3 x Hx G1)].
    + rewrite Forall_forall in *. intros k Hk. apply I3. rewrite in_app_iff in *.
      destruct Hk as [[<-|Hk]|Hk]; [now right|now left|right; apply Hsub; exact Hk].
Qed.

Lemma adds_cons e es : adds (e :: es) = adds [e] + adds es.
Proof. unfold adds. destruct e; cbn [filter length]; lia. Qed.

Lemma gen_inv start es : forall n g, 0 <= n -> n + adds es <= 2^62 -> inv start n g ->
  exists m, n <= m <= n + adds es /\ inv start m (fold_left gen_step es g).
Proof.
  induction es as [|e es IH]; intros n g Hn Hb Hi.
  - exists n. split; [cbn; lia|exact Hi].
  - rewrite adds_cons in *. assert (0 <= adds es) by (unfold adds; lia).
    destruct (gen_step_inv start n g e Hn ltac:(lia) Hi) as [m [Hm Him]].
    destruct (IH m _ ltac:(lia) ltac:(lia) Him) as [m' [Hm' Him']].
    exists m'. split; [lia|exact Him'].
Qed.

Lemma gen_unique start es : is_u64 start -> adds es <= 2^62 -> NoDup (out (gen_run start es)).
Proof.
  intros Hs Hb. destruct (gen_inv start es 0 (mkGen start [] []) ltac:(lia) ltac:(lia)) as [m [_ (_ & H & _)]].
  - split; [cbn [ctr]; rewrite Z.add_0_r; symmetry; now apply u64_id|]. split; constructor.
  - unfold keys in H. apply NoDup_app in H as [H _].
    apply NoDup_map_inv in H. exact H.
Qed.

(** Every UUID ever returned is well formed. *)
Lemma gen_out_shape start es : Forall (fun u => is_uuid u /\ Version u = 4 /\ variant_bits_10 u) (out (gen_run start es)).
Proof.
  unfold gen_run. set (g0 := mkGen start [] []).
  assert (H : Forall (fun u => is_uuid u /\ Version u = 4 /\ variant_bits_10 u) (out g0)) by constructor.
  clearbody g0. revert g0 H. induction es as [|e es IH]; intros g H; cbn [fold_left]; auto.
  apply IH. destruct e as [t|t h]; cbn [gen_step]; destruct (find_pend t (pend g)); cbn [out]; auto.
  constructor; auto. destruct (NewUUID_shape h z) as (A & B & C & _). auto.
Qed.

(** ** Variant *)
Lemma variant_table : forallb (fun b =>
   (negb (Z.land b 224 =? 128) || ((128 <=? b) && (b <? 160))) &&
   ((Z.land b 224 =? 128) || negb ((128 <=? b) && (b <? 160))) &&
   Bool.eqb (Z.land b 224 =? 192) ((192 <=? b) && (b <? 224))) (map Z.of_nat (seq 0 256)) = true.
Proof. vm_compute. reflexivity. Qed.

Lemma Variant_spec u : is_uuid u ->
  Variant u = (if (128 <=? nth 8 u 0) && (nth 8 u 0 <? 160) then 1
               else if (192 <=? nth 8 u 0) && (nth 8 u 0 <? 224) then 2 else 0).
Proof.
  intros [Hl Hb]. assert (Hr : 0 <= nth 8 u 0 < 256).
  { rewrite Forall_forall in Hb. apply Hb. apply nth_In. lia. }
  pose proof (range_forallb _ 256 variant_table (nth 8 u 0) ltac:(lia)) as H. cbv beta in H.
  unfold Variant. cbv zeta. set (b := nth 8 u 0) in *. clearbody b.
  destruct (Z.land b 224 =? 128), (Z.land b 224 =? 192), ((128 <=? b) && (b <? 160)),
    ((192 <=? b) && (b <? 224)); cbn in H; try discriminate; reflexivity.
Qed.

Lemma byte8_seq h s : nth 8 (NewUUID h s) 0 = 128 + (s / 2^56) mod 64.
Proof.
  destruct (NewUUID_shape h s) as (U & _ & V & L). unfold variant_bits_10 in V. unfold low62 in L.
  assert (E : nth 8 (NewUUID h s) 0 mod 64 = (s / 2^56) mod 64).
  { destruct U as [Ul Ub].
    assert (Hskip : is_bytes (skipn 9 (NewUUID h s))) by (apply is_bytes_skipn; exact Ub).
    pose proof (be_value_bound _ Hskip) as B. rewrite skipn_length, Ul in B.
    cbn [be_value] in L. rewrite skipn_length, Ul in L.
    change (256 ^ Z.of_nat (16 - 9)) with (2^56) in *.
    set (r := be_value (skipn 9 (NewUUID h s))) in *. clearbody r.
    set (c := nth 8 (NewUUID h s) 0) in *. clearbody c.
    replace (c mod 64) with ((c mod 64 * 2^56 + r) / 2^56) by (rewrite Z.div_add_l by lia; rewrite (Z.div_small r) by lia; lia).
    rewrite L. change (2^62) with (2^56 * 64).
    rewrite Z.rem_mul_r by lia. rewrite Z.add_comm, Z.mul_comm, Z.div_add_l by lia.
    rewrite (Z.div_small (s mod 2^56)) by (apply Z.mod_pos_bound; lia). lia. }
  rewrite <- E. set (c := nth 8 (NewUUID h s) 0) in *. clearbody c.
  assert (c mod 64 = c - 128); [|lia].
  symmetry. apply (Z.mod_unique c 64 2); lia.
Qed.
