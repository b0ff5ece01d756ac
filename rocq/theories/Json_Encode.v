(** What the encoder writes: the grammar's text of the value, of harmless characters only. *)
From Coq Require Import ZArith List Bool Lia ZifyBool Sorted.
From Verif Require Import Uuid_Model Json_Model Json_Spec Json_Chars Json_Proofs.
Import ListNotations.
Local Open Scope Z_scope.

Lemma hexdigit_val n : 0 <= n < 16 -> hexval (hexdigit n) n.
Proof.
  intros H. unfold hexdigit. destruct (Z.ltb_spec n 10).
  - replace n with ((48 + n) - 48) at 2 by lia. constructor. lia.
  - replace n with ((87 + n) - 87) at 2 by lia. apply hex_lower. lia.
Qed.
Lemma escape_spells b s t : 0 <= b < 128 -> plain b = false -> spells false s t -> spells false (b :: s) (escape b ++ t).
Proof.
  intros Hb Hp H. unfold escape. destruct ((b =? 92) || (b =? 34)) eqn:E1; [assert (b = 92 \/ b = 34) as [->| ->] by lia; apply sp_letter; try constructor; exact H|].
  destruct (Z.eqb_spec b 8) as [->|]; [apply sp_letter; [constructor|exact H]|]. destruct (Z.eqb_spec b 12) as [->|]; [apply sp_letter; [constructor|exact H]|]. destruct (Z.eqb_spec b 10) as [->|]; [apply sp_letter; [constructor|exact H]|].
  destruct (Z.eqb_spec b 13) as [->|]; [apply sp_letter; [constructor|exact H]|]. destruct (Z.eqb_spec b 9) as [->|]; [apply sp_letter; [constructor|exact H]|].
  change (b :: s) with ([b] ++ s). change ([92; 117; 48; 48; hexdigit (b / 16); hexdigit (b mod 16)] ++ t) with (92 :: 117 :: [48; 48; hexdigit (b / 16); hexdigit (b mod 16)] ++ t). apply (sp_hex false _ b); [|constructor; lia|exact H].
  assert (hexval 48 0) as Z0 by (apply (hex_digit 48); lia). pose proof (hexes_4 48 48 (hexdigit (b / 16)) (hexdigit (b mod 16)) 0 0 (b / 16) (b mod 16) Z0 Z0) as K. replace (0 * 4096 + 0 * 256 + b / 16 * 16 + b mod 16) with b in K by (rewrite Z.mul_comm; pose proof (Z.div_mod b 16); lia).
  apply K; apply hexdigit_val; [split; [apply Z.div_pos; lia|apply Z.div_lt_upper_bound; lia]|apply Z.mod_pos_bound; lia].
Qed.
(** The loop, character by character. *)
Lemma body_char n c u s : utf8 c u -> (length (u ++ s) <= S n)%nat ->
  body (S n) (u ++ s) = (if c <? 128 then if plain c then [c] else escape c else if list_eq_dec Z.eq_dec u [0xE2; 0x80; 0xA8] then [92; 117; 50; 48; 50; 56] else if list_eq_dec Z.eq_dec u [0xE2; 0x80; 0xA9] then [92; 117; 50; 48; 50; 57] else u) ++ body n s.
Proof.
  intros Hu L. destruct (utf8_first c u Hu) as (b & q & E & B1 & B2 & B3). destruct (Z.ltb_spec c 128) as [Hc|Hc].
  - specialize (B1 Hc). subst b. assert (u = [c]) as -> by (rewrite (utf8_bytes c u Hu); unfold runeBytes; destruct (Z.ltb_spec c 0x80); [reflexivity|lia]). cbn [app body]. assert (in_ 0 127 c = true) as -> by (apply in_spec; lia). reflexivity.
  - specialize (B2 Hc). pose proof (utf8_len c u s Hu) as RL. subst u. cbn [body]. change ((b :: q) ++ s) with (b :: (q ++ s)). cbn [body]. assert (in_ 0 127 b = false) as -> by (apply in_false; lia). change (b :: (q ++ s)) with ((b :: q) ++ s). rewrite RL. cbn [length]. change (S (length q)) with (length (b :: q)). rewrite firstn_app_exact, skipn_app_exact. reflexivity.
Qed.
Lemma body_more n : forall m s, (length s <= n)%nat -> (length s <= m)%nat -> body n s = body m s.
Proof.
  induction n as [|n IH]; intros m s L1 L2; [destruct s; [destruct m; reflexivity|cbn in L1; lia]|]. destruct s as [|b r]; [destruct m; reflexivity|]. destruct m as [|m]; [cbn in L2; lia|]. cbn [length] in *. cbn [body]. rewrite (IH m r) by lia.
  destruct (in_ 0 127 b); [reflexivity|]. destruct (rune_len (b :: r)) as [|k]; [reflexivity|]. rewrite (IH m (skipn (S k) (b :: r))); [reflexivity|cbn [skipn]; rewrite skipn_length; lia|cbn [skipn]; rewrite skipn_length; lia].
Qed.
Lemma body_spells s : valid s -> forall n, (length s <= n)%nat -> spells false s (body n s).
Proof.
  induction 1 as [|c u s Hu Hs IH]; intros n L; [destruct n; constructor|]. destruct (utf8_pos c u Hu) as [k Hk]. rewrite app_length in L. destruct n as [|n]; [lia|]. rewrite (body_char n c u s Hu) by (rewrite app_length; lia). specialize (IH n ltac:(lia)).
  destruct (Z.ltb_spec c 128) as [Hc|Hc].
  - pose proof (utf8_scalar c u Hu) as S. unfold scalar in S. assert (u = [c]) as -> by (rewrite (utf8_bytes c u Hu); unfold runeBytes; destruct (Z.ltb_spec c 0x80); [reflexivity|lia]). destruct (plain c) eqn:P; [|apply escape_spells; [lia|exact P|exact IH]].
    unfold plain, in_ in P. apply (sp_char false c); [exact Hu|lia|lia|lia|exact IH].
  - destruct (list_eq_dec Z.eq_dec u [0xE2; 0x80; 0xA8]) as [->|]; [|destruct (list_eq_dec Z.eq_dec u [0xE2; 0x80; 0xA9]) as [->|]; [|apply (sp_char false c); [exact Hu|lia|lia|lia|exact IH]]].
    + apply (sp_hex false [50; 48; 50; 56] 0x2028); [|apply (runeBytes_utf8 0x2028); unfold scalar; lia|exact IH]. exact (hexes_4 50 48 50 56 2 0 2 8 (hex_digit 50 ltac:(lia)) (hex_digit 48 ltac:(lia)) (hex_digit 50 ltac:(lia)) (hex_digit 56 ltac:(lia))).
    + apply (sp_hex false [50; 48; 50; 57] 0x2029); [|apply (runeBytes_utf8 0x2029); unfold scalar; lia|exact IH]. exact (hexes_4 50 48 50 57 2 0 2 9 (hex_digit 50 ltac:(lia)) (hex_digit 48 ltac:(lia)) (hex_digit 50 ltac:(lia)) (hex_digit 57 ltac:(lia))).
Qed.
Lemma json_ind' {N} (P : json N -> Prop) : P JNull -> (forall b, P (JBool b)) -> (forall x, P (JNum x)) -> (forall s, P (JStr s)) -> (forall l, Forall P l -> P (JArr l)) -> (forall m, Forall (fun kv => P (snd kv)) m -> P (JObj m)) -> forall v, P v.
Proof.
  intros H1 H2 H3 H4 H5 H6. fix IH 1. intros [|b|x|s|l|m]; [exact H1|apply H2|apply H3|apply H4| |].
  - apply H5. induction l as [|v l IHl]; constructor; [apply IH|exact IHl].
  - apply H6. induction m as [|[k v] m IHm]; constructor; [apply IH|exact IHm].
Qed.
Lemma sequence_some {A} (x : A) r : sequence (Some x :: r) = option_map (cons x) (sequence r). Proof. reflexivity. Qed.
Section encoder.
Context {N : Type} (F : numbers N).
Lemma blank_nil : blank []. Proof. constructor. Qed.
Lemma Marshal_sound v : strconv_ok F -> proper F v -> forall d, depth v <= d -> exists t, Marshal F v = Some t /\ denotes F false d v t.
Proof.
  intros OK. induction v as [|b|x|s|l IH|m IH] using json_ind'; intros Hp d Hd.
  - exists [110; 117; 108; 108]. split; [reflexivity|constructor].
  - destruct b; eexists; (split; [reflexivity|constructor]).
  - inversion Hp as [| |y t Ht| | |]; subst. exists t. split; [exact Ht|]. destruct (OK x t Ht) as [H1 H2]. constructor; assumption.
  - inversion Hp as [| | |y Hs| |]; subst. eexists. split; [reflexivity|]. unfold quote. constructor. apply body_spells; [exact Hs|lia].
  - inversion Hp as [| | | |y Hl|]; subst. cbn [depth] in Hd. cbn [Marshal].
    assert (0 <= fold_right Z.max 0 (map depth l)) as P0 by (clear; induction l; cbn; lia).
    destruct l as [|v l]; [exists [91; 93]; split; [reflexivity|]; apply (d_empty F false d []); [lia|constructor]|].
    assert (exists ts, sequence (map (Marshal F) (v :: l)) = Some ts /\ items F false (d - 1) (v :: l) (commas ts) /\ ts <> []) as (ts & E & Hi & _).
    { assert (fold_right Z.max 0 (map depth (v :: l)) <= d - 1) as Hm by lia. clear Hd P0 Hp. revert v IH Hl Hm. induction l as [|v' l IHl]; intros v IH Hl Hm; inversion IH as [|? ? I1 I2]; inversion Hl as [|? ? L1 L2]; subst; cbn [map fold_right] in Hm; destruct (I1 L1 (d - 1)) as (t & E & Ht); try lia.
      - exists [t]. cbn. rewrite E. split; [reflexivity|]. split; [|discriminate]. rewrite <- (app_nil_r t). apply (i_one F false (d - 1) v t [] [] blank_nil Ht blank_nil).
      - destruct (IHl v' I2 L2) as (ts & E' & Hi & Nn); [cbn [map fold_right]; lia|]. exists (t :: ts). change (map (Marshal F) (v :: v' :: l)) with (Marshal F v :: map (Marshal F) (v' :: l)). rewrite E. cbn [sequence]. rewrite E'. split; [reflexivity|]. split; [|discriminate].
        destruct ts as [|t' ts]; [congruence|]. change (commas (t :: t' :: ts)) with (t ++ 44 :: commas (t' :: ts)). exact (i_more F false (d - 1) v t [] [] (v' :: l) _ blank_nil Ht blank_nil Hi). }
    rewrite E. eexists. split; [reflexivity|]. apply d_arr; [lia|exact Hi].
  - inversion Hp as [| | | | |y Ho Hk Hv]; subst. cbn [depth] in Hd. cbn [Marshal]. set (one := fun kv : list Z * json N => option_map (fun t => quote (fst kv) ++ 58 :: t) (Marshal F (snd kv))).
    assert (0 <= fold_right Z.max 0 (map (fun kv : list Z * json N => depth (snd kv)) m)) as P0 by (clear; induction m; cbn; lia).
    destruct m as [|kv m]; [exists [123; 125]; split; [reflexivity|]; apply (d_none F false d []); [lia|constructor]|].
    assert (exists ts, sequence (map one (kv :: m)) = Some ts /\ pairs F false (d - 1) (kv :: m) (commas ts) /\ ts <> []) as (ts & E & Hi & _).
    { assert (fold_right Z.max 0 (map (fun kv : list Z * json N => depth (snd kv)) (kv :: m)) <= d - 1) as Hm by lia. clear Hd P0 Hp Ho. revert kv IH Hk Hv Hm. induction m as [|kv' m IHm]; intros [k v] IH Hk Hv Hm; inversion IH as [|? ? I1 I2]; inversion Hk as [|? ? K1 K2]; inversion Hv as [|? ? V1 V2]; subst; cbn [map fold_right snd fst] in *; destruct (I1 V1 (d - 1)) as (t & E & Ht); try lia;
        assert (one (k, v) = Some (34 :: body (length k) k ++ 34 :: 58 :: t)) as E1 by (unfold one; cbn [fst snd]; rewrite E; cbn [option_map]; unfold quote; cbn [app]; rewrite <- app_assoc; reflexivity); pose proof (body_spells k K1 (length k) (le_n _)) as Hs.
      - exists [34 :: body (length k) k ++ 34 :: 58 :: t]. rewrite E1. split; [reflexivity|]. split; [|discriminate]. pose proof (p_one F false (d - 1) k _ v t [] [] [] [] blank_nil Hs blank_nil blank_nil Ht blank_nil) as P. cbn [app] in P. rewrite app_nil_r in P. exact P.
      - destruct (IHm kv' I2 K2 V2) as (ts & E' & Hi & Nn); [cbn [map fold_right]; lia|]. exists ((34 :: body (length k) k ++ 34 :: 58 :: t) :: ts). rewrite E1. cbn [map] in E'. rewrite sequence_some, E'. split; [reflexivity|]. split; [|discriminate].
        destruct ts as [|t' ts]; [congruence|]. pose proof (p_more F false (d - 1) k _ v t [] [] [] [] (kv' :: m) _ blank_nil Hs blank_nil blank_nil Ht blank_nil Hi) as P. cbn [app] in P. remember (t' :: ts) as us eqn:Eu. cbn [commas]. rewrite Eu at 1. cbn [app]. rewrite <- app_assoc. cbn [app]. exact P. }
    rewrite E. eexists. split; [reflexivity|]. apply (d_obj F false d (kv :: m)); [lia|exact Hi|apply ordered_puts, Ho].
Qed.
Lemma round_trip v : strconv_ok F -> proper F v -> depth v <= 10000 -> JsonDecode F (JsonEncode F v) = Some v.
Proof.
  intros OK Hp Hd. destruct (Marshal_sound v OK Hp 10000 Hd) as (t & E & Ht). unfold JsonEncode. rewrite E. apply (JsonDecode_complete F false). exists [], t, []. split; [rewrite app_nil_r; reflexivity|]. repeat split; [constructor|exact Ht|constructor].
Qed.

(** ** What the decoder gives *)
Lemma valid_app a b : valid a -> valid b -> valid (a ++ b).
Proof. induction 1 as [|c u s Hu Hs IH]; intros Hb; [exact Hb|]. rewrite <- app_assoc. apply (valid_char c); auto. Qed.
Lemma spells_valid lenient s t : spells lenient s t -> valid s.
Proof.
  assert (valid replacement) as R by (rewrite <- (app_nil_r replacement); apply (valid_char 0xFFFD); [apply (runeBytes_utf8 0xFFFD); unfold scalar; lia|constructor]).
  induction 1 as [|c u s t Hu H1 H2 H3 Hs IH|e x s t He Hs IH|h c u s t Hh Hu Hs IH|h hi g lo u s t Hh Hg Hhi Hlo Hu Hs IH|h c s t Hl Hh Hc Hno Hs IH|b s t Hl Hb Hno Hs IH]; [constructor|eapply valid_char; eassumption| |eapply valid_char; eassumption|eapply valid_char; eassumption|apply valid_app; assumption|apply valid_app; assumption].
  apply (valid_char x [x]); [constructor; destruct He; lia|exact IH].
Qed.
Lemma find_in k (m : list (list Z * json N)) v : find k m = Some v -> In (k, v) m.
Proof. induction m as [|[k' v'] m IH]; cbn; [discriminate|]. destruct (list_eq_dec Z.eq_dec k k') as [->|]; [intros [= ->]; auto|auto]. Qed.
Lemma in_find k (m : list (list Z * json N)) v : ordered m -> In (k, v) m -> find k m = Some v.
Proof.
  induction m as [|[k' v'] m IH]; [intros _ []|]. intros H [E|E].
  - injection E as <- <-. cbn. destruct (list_eq_dec Z.eq_dec k' k'); [reflexivity|congruence].
  - destruct (ordered_inv _ _ _ H) as [H1 H2]. cbn. destruct (list_eq_dec Z.eq_dec k k') as [->|]; [|apply IH; assumption]. rewrite Forall_forall in H2. specialize (H2 _ E). cbn in H2. rewrite before_irr in H2. discriminate.
Qed.
Lemma map_of_in ms m kv : @map_of N ms m -> In kv m -> In kv ms.
Proof. intros [Ho E] H. destruct kv as [k v]. apply (in_find k m v Ho) in H. rewrite E in H. apply find_in in H. apply in_rev, H. Qed.
Lemma decoded lenient : reads_finite F ->
  (forall d v t, denotes F lenient d v t -> proper F v /\ (0 <= d -> depth v <= d)) /\
  (forall d l t, items F lenient d l t -> Forall (proper F) l /\ (0 <= d -> fold_right Z.max 0 (map depth l) <= d)) /\
  (forall d ms t, pairs F lenient d ms t -> Forall (fun kv => valid (fst kv) /\ proper F (snd kv) /\ (0 <= d -> depth (snd kv) <= d)) ms).
Proof.
  intros RF. apply denotes_all; intros.
  - split; [constructor|auto].
  - split; [constructor|auto].
  - split; [constructor|auto].
  - destruct (RF _ _ H0) as [t' Ht]. split; [econstructor; eassumption|auto].
  - split; [constructor; eapply spells_valid; eassumption|auto].
  - split; [constructor; constructor|cbn; lia].
  - destruct H1 as [P D]. split; [constructor; exact P|]. cbn [depth]. lia.
  - split; [constructor; constructor|cbn; lia].
  - rewrite Forall_forall in H1. assert (forall kv, In kv m -> valid (fst kv) /\ proper F (snd kv) /\ (0 <= d - 1 -> depth (snd kv) <= d - 1)) as K by (intros kv Hk; apply H1, (map_of_in ms m); assumption).
    split; [constructor; [apply H2| |]; apply Forall_forall; intros kv Hk; apply (K kv Hk)|]. intros _. cbn [depth]. assert (fold_right Z.max 0 (map (fun kv : list Z * json N => depth (snd kv)) m) <= d - 1) as L; [|lia]. clear H2. induction m as [|kv m IH]; cbn [map fold_right]; [lia|].
    destruct (K kv (or_introl eq_refl)) as (_ & _ & D). assert (fold_right Z.max 0 (map (fun kv : list Z * json N => depth (snd kv)) m) <= d - 1) by (apply IH; intros kv' Hk; apply K; right; exact Hk). lia.
  - destruct H1 as [P D]. split; [constructor; [exact P|constructor]|]. cbn. lia.
  - destruct H1 as [P D], H4 as [P' D']. split; [constructor; assumption|]. cbn [map fold_right]. lia.
  - destruct H4 as [P D]. constructor; [|constructor]. split; [eapply spells_valid; eassumption|]. split; assumption.
  - destruct H4 as [P D]. constructor; [|assumption]. split; [eapply spells_valid; eassumption|]. split; assumption.
Qed.
Lemma JsonDecode_proper v t : reads_finite F -> JsonDecode F t = Some v -> proper F v /\ depth v <= 10000.
Proof. intros RF H. apply JsonDecode_sound in H as (a & u & b & _ & _ & H & _). destruct (proj1 (decoded true RF) _ _ _ H) as [P D]. split; [exact P|apply D; lia]. Qed.

(** ** Harmless characters *)
Lemma harmless_app a b : harmless a -> harmless b -> harmless (a ++ b).
Proof. induction 1 as [|c u s Hu Hc Hs IH]; intros Hb; [exact Hb|]. rewrite <- app_assoc. apply (harmless_char c); auto. Qed.
Lemma harmless_byte b s : 0 <= b < 128 -> b <> 60 -> b <> 62 -> b <> 38 -> harmless s -> harmless (b :: s).
Proof. intros Hb H1 H2 H3 Hs. apply (harmless_char b [b] s); [constructor; lia| |exact Hs]. unfold dangerous. lia. Qed.
Lemma harmless_list l : Forall (fun b => 0 <= b < 128 /\ b <> 60 /\ b <> 62 /\ b <> 38) l -> harmless l.
Proof. induction 1 as [|b l (H1 & H2 & H3 & H4) _ IH]; [constructor|]. apply harmless_byte; assumption. Qed.
Lemma hexdigit_plain n : 0 <= n < 16 -> 48 <= hexdigit n <= 57 \/ 97 <= hexdigit n <= 102. Proof. unfold hexdigit. destruct (Z.ltb_spec n 10); lia. Qed.
Lemma body_harmless n : forall s, (length s <= n)%nat -> Forall (fun b => 0 <= b < 256) s -> harmless (body n s).
Proof.
  induction n as [|n IH]; intros s L Hs; [constructor|]. destruct s as [|b r]; [constructor|]. cbn [length] in L. inversion Hs as [|? ? Hb Hr]; subst. destruct (in_ 0 127 b) eqn:E.
  - cbn [body]. rewrite E. apply in_spec in E. apply harmless_app; [|apply IH; [lia|exact Hr]]. destruct (plain b) eqn:P; [unfold plain, in_ in P; apply harmless_list; constructor; [lia|constructor]|]. unfold escape.
    destruct ((b =? 92) || (b =? 34)) eqn:E1; [apply harmless_list; repeat (constructor; [lia|]); constructor|]. do 5 (match goal with |- harmless (if ?x then _ else _) => destruct x; [apply harmless_list; repeat (constructor; [lia|]); constructor|] end).
    assert (0 <= b / 16 < 16) as D by (split; [apply Z.div_pos; lia|apply Z.div_lt_upper_bound; lia]). assert (0 <= b mod 16 < 16) as M by (apply Z.mod_pos_bound; lia). apply hexdigit_plain in D, M. apply harmless_list; repeat (constructor; [lia|]); constructor.
  - destruct (rune_len (b :: r)) as [|k] eqn:R.
    + cbn [body]. rewrite E, R. apply harmless_app; [apply harmless_list; repeat (constructor; [lia|]); constructor|apply IH; [lia|exact Hr]].
    + destruct (rune_sound _ _ R) as (c & u & q & Hu & Eq & Lu). rewrite Eq. assert (length (u ++ q) <= S n)%nat as Lq by (rewrite <- Eq; cbn [length]; lia). rewrite (body_char n c u q Hu Lq).
      assert (harmless (body n q)) as Hq. { apply IH; [rewrite app_length in Lq; lia|]. rewrite Eq in Hs. apply Forall_app in Hs. apply Hs. }
      apply harmless_app; [|exact Hq]. destruct (utf8_first c u Hu) as (b' & q' & -> & B1 & B2 & B3). injection Eq as <- _. apply in_false in E. destruct (Z.ltb_spec c 128) as [Hc|Hc]; [specialize (B1 Hc); lia|].
      destruct (list_eq_dec Z.eq_dec (b :: q') [0xE2; 0x80; 0xA8]) as [_|N1]; [apply harmless_list; repeat (constructor; [lia|]); constructor|]. destruct (list_eq_dec Z.eq_dec (b :: q') [0xE2; 0x80; 0xA9]) as [_|N2]; [apply harmless_list; repeat (constructor; [lia|]); constructor|].
      rewrite <- (app_nil_r (b :: q')). apply (harmless_char c); [exact Hu| |constructor]. pose proof (utf8_bytes c _ Hu) as Hub. unfold dangerous. intros [Hd|[Hd|[Hd|[Hd|Hd]]]]; try lia; subst c; [apply N1|apply N2]; exact Hub.
Qed.
Lemma number_harmless t : number_text t -> harmless t.
Proof.
  intros (sg & i & f & e & -> & Hsg & Hi & Hf & He). apply harmless_list. assert (forall d, digit_run d -> Forall (fun b => 0 <= b < 128 /\ b <> 60 /\ b <> 62 /\ b <> 38) d) as K by (intros d [_ H]; revert H; apply Forall_impl; intros; lia).
  repeat (apply Forall_app; split).
  - destruct Hsg as [->| ->]; repeat (constructor; [lia|]); constructor.
  - destruct Hi as [->|(b & r & -> & _ & H)]; [repeat (constructor; [lia|]); constructor|apply K, H].
  - destruct Hf as [->|(r & -> & H)]; [constructor|constructor; [lia|apply K, H]].
  - destruct He as [->|(x & s & r & -> & Hx & Hs & H)]; [constructor|]. constructor; [lia|]. apply Forall_app. split; [destruct Hs as [->|[->| ->]]; repeat (constructor; [lia|]); constructor|apply K, H].
Qed.
Lemma quote_harmless s : Forall (fun b => 0 <= b < 256) s -> harmless (quote s).
Proof. intros H. unfold quote. apply harmless_byte; try lia. apply harmless_app; [apply body_harmless; [lia|exact H]|apply harmless_list; constructor; [lia|constructor]]. Qed.
Lemma commas_harmless ts : Forall harmless ts -> harmless (commas ts).
Proof. induction 1 as [|t ts Ht Hts IH]; [constructor|]. destruct ts as [|t' ts]; [exact Ht|]. change (commas (t :: t' :: ts)) with (t ++ 44 :: commas (t' :: ts)). apply harmless_app; [exact Ht|]. apply harmless_byte; try lia. exact IH. Qed.
Lemma Marshal_harmless v : strconv_ok F -> in_bytes v -> forall t, Marshal F v = Some t -> harmless t.
Proof.
  intros OK. induction v as [|b|x|s|l IH|m IH] using json_ind'; intros Hv t Ht; cbn [Marshal] in Ht.
  - injection Ht as <-. apply harmless_list; repeat (constructor; [lia|]); constructor.
  - destruct b; injection Ht as <-; apply harmless_list; repeat (constructor; [lia|]); constructor.
  - apply number_harmless, (OK x t Ht).
  - injection Ht as <-. inversion Hv; subst. apply quote_harmless. assumption.
  - inversion Hv as [| | | |y Hl|]; subst. destruct (sequence (map (Marshal F) l)) as [ts|] eqn:E; [|discriminate]. cbn [option_map] in Ht. injection Ht as <-. apply harmless_byte; try lia. apply harmless_app; [|apply harmless_list; constructor; [lia|constructor]]. apply commas_harmless. clear Hv.
    revert ts E. induction l as [|v l IHl]; intros ts E; [injection E as <-; constructor|]. inversion IH as [|? ? I1 I2]; inversion Hl as [|? ? L1 L2]; subst. cbn [map sequence] in E. destruct (Marshal F v) as [t|] eqn:Ev; [|discriminate]. destruct (sequence (map (Marshal F) l)) as [ts'|]; [|discriminate]. injection E as <-. constructor; [apply I1; [exact L1|reflexivity]|apply IHl; auto].
  - inversion Hv as [| | | | |y Hk Hl]; subst. set (one := fun kv : list Z * json N => option_map (fun t => quote (fst kv) ++ 58 :: t) (Marshal F (snd kv))) in Ht. destruct (sequence (map one m)) as [ts|] eqn:E; [|discriminate]. cbn [option_map] in Ht. injection Ht as <-. apply harmless_byte; try lia. apply harmless_app; [|apply harmless_list; constructor; [lia|constructor]]. apply commas_harmless. clear Hv.
    revert ts E. induction m as [|kv m IHm]; intros ts E; [injection E as <-; constructor|]. inversion IH as [|? ? I1 I2]; inversion Hl as [|? ? L1 L2]; inversion Hk as [|? ? K1 K2]; subst. cbn [map sequence] in E. destruct (one kv) as [t|] eqn:Ev; [|discriminate]. destruct (sequence (map one m)) as [ts'|]; [|discriminate]. injection E as <-. constructor; [|apply IHm; auto].
    unfold one in Ev. destruct (Marshal F (snd kv)) as [t1|] eqn:Em; [|discriminate]. cbn [option_map] in Ev. assert (t = quote (fst kv) ++ 58 :: t1) as -> by congruence. apply harmless_app; [apply quote_harmless, K1|]. apply harmless_byte; try lia. apply I1; [exact L1|reflexivity].
Qed.
End encoder.
