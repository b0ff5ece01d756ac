(** Numbers, maps and values of JSON: the decoder gives what the grammar says, the encoder writes what the grammar reads. *)
From Coq Require Import ZArith List Bool Lia ZifyBool Sorted.
From Verif Require Import Uuid_Model Json_Model Json_Spec Json_Chars.
Import ListNotations.
Local Open Scope Z_scope.

(** ** Numbers *)
Lemma digit_spec b : digit b = true <-> 48 <= b <= 57. Proof. apply in_spec. Qed.
Definition no_digit (l : list Z) : Prop := match l with [] => True | b :: _ => digit b = false end.
Lemma digits_sound l : forall d q, digits l = (d, q) -> l = d ++ q /\ Forall (fun b => 48 <= b <= 57) d.
Proof.
  induction l as [|b l IH]; intros d q; cbn [digits]; [intros [= <- <-]; split; [reflexivity|constructor]|]. destruct (digit b) eqn:E; [|intros [= <- <-]; split; [reflexivity|constructor]].
  destruct (digits l) as [d' q'] eqn:E'. destruct (IH d' q' eq_refl) as [-> H]. intros [= <- <-]. split; [reflexivity|]. constructor; [apply digit_spec, E|exact H].
Qed.
Lemma digits_complete d q : Forall (fun b => 48 <= b <= 57) d -> no_digit q -> digits (d ++ q) = (d, q).
Proof.
  induction 1 as [|b d Hb Hd IH]; intros Hq; cbn [app].
  - destruct q as [|b q]; [reflexivity|]. cbn in Hq. cbn [digits]. rewrite Hq. reflexivity.
  - cbn [digits]. rewrite (proj2 (digit_spec b) Hb), (IH Hq). reflexivity.
Qed.
Lemma digits1_sound l d q : digits1 l = Some (d, q) -> l = d ++ q /\ digit_run d.
Proof. unfold digits1. destruct (digits l) as [d' q'] eqn:E. apply digits_sound in E as [-> H]. destruct d' as [|b d']; [discriminate|]. intros H0. inversion H0; subst. split; [reflexivity|]. split; [discriminate|exact H]. Qed.
Lemma digits1_complete d q : digit_run d -> no_digit q -> digits1 (d ++ q) = Some (d, q).
Proof. intros [N H] Hq. unfold digits1. rewrite digits_complete by assumption. destruct d; [congruence|reflexivity]. Qed.
Definition stops (l : list Z) : Prop := match l with [] => True | b :: _ => digit b = false /\ b <> 46 /\ b <> 101 /\ b <> 69 end.
Lemma opt_none set l : match l with [] => True | b :: _ => existsb (Z.eqb b) set = false end -> opt set l = ([], l).
Proof. destruct l as [|b l]; [reflexivity|]. cbn. intros ->. reflexivity. Qed.
Lemma opt_sound set l p q : opt set l = (p, q) -> l = p ++ q /\ (p = [] \/ exists b, p = [b] /\ In b set).
Proof.
  destruct l as [|b l]; cbn; [intros [= <- <-]; auto|]. destruct (existsb (Z.eqb b) set) eqn:E; intros H; inversion H; subst; [|auto]. split; [reflexivity|]. right. exists b. split; [reflexivity|]. apply existsb_exists in E as (x & Hx & Ex). apply Z.eqb_eq in Ex. congruence.
Qed.
Definition later (l : list Z) : Prop := match l with [] => True | b :: _ => b <> 46 /\ digit b = false end.
Lemma exp_complete e r : exp_part e -> stops r ->
  match opt [101; 69] (e ++ r) with
  | ([], l) => Some ([], l)
  | (e, l) => let '(es, l) := opt [43; 45] l in option_map (fun dq => (e ++ es ++ fst dq, snd dq)) (digits1 l)
  end = Some (e, r).
Proof.
  intros [->|(x & sg & d & -> & Hx & Hsg & Hd)] Hr.
  - cbn [app]. rewrite opt_none; [reflexivity|]. destruct r as [|b r]; [exact I|]. cbn in Hr. cbn. rewrite (proj2 (Z.eqb_neq b 101)), (proj2 (Z.eqb_neq b 69)) by lia. reflexivity.
  - assert (no_digit r) as Nr by (destruct r; [exact I|apply Hr]). cbn [app]. rewrite <- app_assoc. assert (opt [101; 69] (x :: sg ++ d ++ r) = ([x], sg ++ d ++ r)) as -> by (destruct Hx as [->| ->]; reflexivity).
    assert (opt [43; 45] (sg ++ d ++ r) = (sg, d ++ r)) as ->.
    { destruct Hsg as [->|[->| ->]]; [|reflexivity|reflexivity]. cbn [app]. apply opt_none. destruct Hd as [Nd Hd]. destruct d as [|b d]; [congruence|]. inversion Hd; subst. cbn. rewrite (proj2 (Z.eqb_neq b 43)), (proj2 (Z.eqb_neq b 45)) by lia. reflexivity. }
    rewrite digits1_complete by assumption. reflexivity.
Qed.
Lemma exp_next e r : exp_part e -> stops r -> later (e ++ r).
Proof. intros [->|(x & sg & d & -> & [->| ->] & _)] Hr; [destruct r as [|b r]; [exact I|split; apply Hr]|split; [lia|reflexivity]|split; [lia|reflexivity]]. Qed.
Lemma frac_complete f r : frac_part f -> later r ->
  match opt [46] (f ++ r) with ([], l) => Some ([], l) | (p, l) => option_map (fun dq => (p ++ fst dq, snd dq)) (digits1 l) end = Some (f, r).
Proof.
  intros [->|(d & -> & Hd)] Hr.
  - cbn [app]. rewrite opt_none; [reflexivity|]. destruct r as [|b r]; [exact I|]. cbn in Hr. cbn. rewrite (proj2 (Z.eqb_neq b 46)) by lia. reflexivity.
  - cbn [app]. change (opt [46] (46 :: d ++ r)) with ([46], d ++ r). cbn iota. rewrite digits1_complete; [reflexivity|exact Hd|]. destruct r; [exact I|apply Hr].
Qed.
Lemma frac_next f r : frac_part f -> later r -> no_digit (f ++ r).
Proof. intros [->|(d & -> & Hd)] Hr; [destruct r; [exact I|apply Hr]|reflexivity]. Qed.
Lemma number_complete t r : number_text t -> stops r -> number (t ++ r) = Some (t, r).
Proof.
  intros (sg & i & f & e & -> & Hsg & Hi & Hf & He) Hr. unfold number. rewrite <- !app_assoc. pose proof (exp_next e r He Hr) as L1. pose proof (frac_next f _ Hf L1) as L2.
  assert (opt [45] (sg ++ i ++ f ++ e ++ r) = (sg, i ++ f ++ e ++ r)) as ->.
  { destruct Hsg as [->| ->]; [|reflexivity]. cbn [app]. apply opt_none. destruct Hi as [->|(b & q & -> & Hb & [_ Hq])]; [reflexivity|]. inversion Hq; subst. cbn. rewrite (proj2 (Z.eqb_neq b 45)) by lia. reflexivity. }
  assert (match opt [48] (i ++ f ++ e ++ r) with ([], l) => digits1 l | p => Some p end = Some (i, f ++ e ++ r)) as ->.
  { destruct Hi as [->|(b & q & -> & Hb & Hq)]; [reflexivity|]. rewrite opt_none; [apply digits1_complete; assumption|]. cbn. rewrite (proj2 (Z.eqb_neq b 48)) by exact Hb. reflexivity. }
  rewrite (frac_complete f (e ++ r) Hf L1), (exp_complete e r He Hr). reflexivity.
Qed.
Lemma number_sound l t r : number l = Some (t, r) -> number_text t /\ l = t ++ r.
Proof.
  unfold number. destruct (opt [45] l) as [sg l1] eqn:E1. apply opt_sound in E1 as [-> Hsg].
  destruct (match opt [48] l1 with ([], l) => digits1 l | p => Some p end) as [[i l2]|] eqn:E2; [|discriminate].
  assert (l1 = i ++ l2 /\ int_part i) as [-> Hi].
  { destruct (opt [48] l1) as [p q] eqn:E. pose proof E as E0. apply opt_sound in E as [-> [->|(b & -> & [<-|[]])]]; [|inversion E2; subst; split; [reflexivity|left; reflexivity]].
    apply digits1_sound in E2 as [-> Hd]. split; [reflexivity|]. right. destruct Hd as [Nd Hd]. destruct i as [|b i]; [congruence|]. exists b, i. split; [reflexivity|]. split; [|split; assumption]. intros ->. cbn in E0. discriminate. }
  destruct (match opt [46] l2 with ([], l) => Some ([], l) | (p, l) => option_map (fun dq => (p ++ fst dq, snd dq)) (digits1 l) end) as [[f l3]|] eqn:E3; [|discriminate].
  assert (l2 = f ++ l3 /\ frac_part f) as [-> Hf].
  { destruct (opt [46] l2) as [p q] eqn:E. apply opt_sound in E as [-> [->|(b & -> & [<-|[]])]]; [inversion E3; subst; split; [reflexivity|left; reflexivity]|].
    destruct (digits1 q) as [[d q']|] eqn:D; [|discriminate]. apply digits1_sound in D as [-> Hd]. inversion E3; subst. split; [reflexivity|]. right. exists d. split; [reflexivity|exact Hd]. }
  destruct (match opt [101; 69] l3 with ([], l) => Some ([], l) | (e, l) => let '(es, l) := opt [43; 45] l in option_map (fun dq => (e ++ es ++ fst dq, snd dq)) (digits1 l) end) as [[e l4]|] eqn:E4; [|discriminate].
  assert (l3 = e ++ l4 /\ exp_part e) as [-> He].
  { destruct (opt [101; 69] l3) as [p q] eqn:E. apply opt_sound in E as [-> [->|(b & -> & Hb)]]; [inversion E4; subst; split; [reflexivity|left; reflexivity]|].
    destruct (opt [43; 45] q) as [es q'] eqn:S. apply opt_sound in S as [-> Hs]. destruct (digits1 q') as [[d q2]|] eqn:D; [|discriminate]. apply digits1_sound in D as [-> Hd]. inversion E4; subst. split; [cbn; rewrite <- app_assoc; reflexivity|].
    right. exists b, es, d. split; [reflexivity|]. split; [destruct Hb as [<-|[<-|[]]]; auto|]. split; [|exact Hd]. destruct Hs as [->|(x & -> & [<-|[<-|[]]])]; auto. }
  intros H. inversion H; subst. split; [|rewrite <- !app_assoc; reflexivity]. exists sg, i, f, e. repeat split; try assumption. destruct Hsg as [->|(b & -> & [<-|[]])]; auto.
Qed.

(** ** Maps *)
Lemma before_irr a : before a a = false. Proof. induction a as [|x a IH]; [reflexivity|]. cbn. rewrite IH, Z.eqb_refl. lia. Qed.
Lemma before_trans a : forall b c, before a b = true -> before b c = true -> before a c = true.
Proof.
  induction a as [|x a IH]; intros [|y b] [|z c]; cbn; try discriminate; auto. intros H1 H2. apply orb_true_iff in H1 as [H1|H1], H2 as [H2|H2]; try (apply orb_true_iff; left; lia).
  apply andb_true_iff in H1 as [E1 H1], H2 as [E2 H2]. apply orb_true_iff. right. rewrite (IH b c H1 H2). lia.
Qed.
Lemma before_total a : forall b, before a b = false -> before b a = false -> a = b.
Proof.
  induction a as [|x a IH]; intros [|y b]; cbn; try discriminate; auto. intros H1 H2. apply orb_false_iff in H1 as [L1 H1], H2 as [L2 H2]. assert (x = y) as -> by lia. rewrite Z.eqb_refl in *. cbn in H1, H2. rewrite (IH b H1 H2). reflexivity.
Qed.
Section maps.
Context {N : Type}.
Implicit Types (m : list (list Z * json N)) (v : json N).
Lemma ordered_inv k v m : ordered ((k, v) :: m) -> ordered m /\ Forall (fun kv => before k (fst kv) = true) m.
Proof. intros H. inversion H; subst. split; assumption. Qed.
Lemma find_none k m : Forall (fun kv => before k (fst kv) = true) m -> find k m = None.
Proof. induction 1 as [|[k' v'] m H _ IH]; [reflexivity|]. cbn in *. destruct (list_eq_dec Z.eq_dec k k') as [->|]; [rewrite before_irr in H; discriminate|exact IH]. Qed.
Lemma put_ordered k v m : ordered m -> ordered (put k v m).
Proof.
  assert (forall k0 m, before k0 k = true -> Forall (fun kv => before k0 (fst kv) = true) m -> Forall (fun kv : list Z * json N => before k0 (fst kv) = true) (put k v m)) as K.
  { intros k0 m0 H0. induction 1 as [|[k1 v1] m0 H1 Hm IH]; cbn [put]; [constructor; [exact H0|constructor]|]. destruct (before k k1); [constructor; [exact H0|constructor; assumption]|]. destruct (before k1 k); [constructor; assumption|constructor; assumption]. }
  induction m as [|[k' v'] m IH]; intros H; cbn [put]; [constructor; constructor|]. destruct (ordered_inv k' v' m H) as [H1 H2]. destruct (before k k') eqn:E1.
  - constructor; [exact H|]. constructor; [exact E1|]. revert H2. apply Forall_impl. intros kv. apply before_trans, E1.
  - destruct (before k' k) eqn:E2; [constructor; [apply IH, H1|apply K; assumption]|]. rewrite (before_total k k' E1 E2). constructor; assumption.
Qed.
Lemma find_put k v m k0 : ordered m -> find k0 (put k v m) = if list_eq_dec Z.eq_dec k0 k then Some v else find k0 m.
Proof.
  induction m as [|[k' v'] m IH]; intros H; cbn [put]; [reflexivity|]. destruct (ordered_inv k' v' m H) as [H1 H2]. destruct (before k k') eqn:E1; [reflexivity|]. destruct (before k' k) eqn:E2.
  - cbn [find]. rewrite (IH H1). destruct (list_eq_dec Z.eq_dec k0 k') as [e1|n1], (list_eq_dec Z.eq_dec k0 k) as [e2|n2]; try reflexivity. rewrite <- e1, <- e2, before_irr in E2. discriminate.
  - rewrite <- (before_total k k' E1 E2). cbn [find]. destruct (list_eq_dec Z.eq_dec k0 k); reflexivity.
Qed.
Lemma ordered_ext m : forall m', ordered m -> ordered m' -> (forall k, find k m = find k m') -> m = m'.
Proof.
  induction m as [|[k v] m IH]; intros m' H H' E.
  - destruct m' as [|[k' v'] m']; [reflexivity|]. specialize (E k'). cbn in E. destruct (list_eq_dec Z.eq_dec k' k'); [discriminate|congruence].
  - destruct m' as [|[k' v'] m']; [specialize (E k); cbn in E; destruct (list_eq_dec Z.eq_dec k k); [discriminate|congruence]|]. destruct (ordered_inv _ _ _ H) as [H1 H2], (ordered_inv _ _ _ H') as [H1' H2'].
    assert (forall (a b : list Z) (x y : json N) p q, Forall (fun kv => before a (fst kv) = true) p -> Forall (fun kv => before b (fst kv) = true) q -> find a ((a, x) :: p) = find a ((b, y) :: q) -> before a b = true -> False) as K.
    { intros a b x y p q Hp Hq Hf Hab. cbn in Hf. destruct (list_eq_dec Z.eq_dec a a); [|congruence]. destruct (list_eq_dec Z.eq_dec a b) as [->|]; [rewrite before_irr in Hab; discriminate|].
      rewrite find_none in Hf; [discriminate|]. revert Hq. apply Forall_impl. intros kv. apply before_trans, Hab. }
    assert (k = k') as <-. { apply before_total; [destruct (before k k') eqn:B; [exfalso; exact (K k k' v v' m m' H2 H2' (E k) B)|reflexivity]|destruct (before k' k) eqn:B; [exfalso; exact (K k' k v' v m' m H2' H2 (eq_sym (E k')) B)|reflexivity]]. }
    pose proof (E k) as Ek. cbn in Ek. destruct (list_eq_dec Z.eq_dec k k); [|congruence]. inversion Ek; subst. f_equal. apply IH; [exact H1|exact H1'|]. intros k1. specialize (E k1). cbn in E. destruct (list_eq_dec Z.eq_dec k1 k) as [->|]; [|exact E]. rewrite !find_none by assumption. reflexivity.
Qed.
Definition puts (ms m : list (list Z * json N)) := fold_left (fun m kv => put (fst kv) (snd kv) m) ms m.
Lemma puts_ordered ms : forall m, ordered m -> ordered (puts ms m). Proof. induction ms as [|kv ms IH]; intros m H; [exact H|]. cbn. apply IH, put_ordered, H. Qed.
Lemma find_app k a b : find k (a ++ b) = match @find N k a with Some v => Some v | None => find k b end.
Proof. induction a as [|[k' v] a IH]; [reflexivity|]. cbn. destruct (list_eq_dec Z.eq_dec k k'); [reflexivity|exact IH]. Qed.
Lemma find_puts ms : forall m k, ordered m -> find k (puts ms m) = find k (rev ms ++ m).
Proof.
  induction ms as [|[k1 v1] ms IH]; intros m k H; [reflexivity|]. unfold puts. cbn [fold_left fst snd]. fold (puts ms (put k1 v1 m)). rewrite IH by apply put_ordered, H. cbn [rev]. rewrite <- app_assoc, !find_app. cbn [app find]. destruct (find k (rev ms)); [reflexivity|]. rewrite find_put by exact H. destruct (list_eq_dec Z.eq_dec k k1); reflexivity.
Qed.
Lemma ordered_nil : @ordered N []. Proof. constructor. Qed.
Lemma puts_map_of ms m : map_of ms m <-> m = puts ms [].
Proof.
  split.
  - intros [H E]. apply ordered_ext; [exact H|apply puts_ordered, ordered_nil|]. intros k. rewrite E, find_puts, app_nil_r by apply ordered_nil. reflexivity.
  - intros ->. split; [apply puts_ordered, ordered_nil|]. intros k. rewrite find_puts, app_nil_r by apply ordered_nil. reflexivity.
Qed.
(** A map put together from its own entries. *)
Lemma ordered_puts m : ordered m -> map_of m m.
Proof.
  intros H. split; [exact H|]. assert (forall k, find k (rev m) = find k m) as K; [|intros k; symmetry; apply K]. induction m as [|[k1 v1] m IH]; intros k; [reflexivity|]. destruct (ordered_inv _ _ _ H) as [H1 H2]. cbn [rev]. rewrite find_app, (IH H1). cbn [find].
  destruct (list_eq_dec Z.eq_dec k k1) as [->|]; [rewrite find_none by exact H2; reflexivity|destruct (find k m); reflexivity].
Qed.
End maps.

(** ** The decoder *)
Lemma space_spec b : space b = true <-> (b = 32 \/ b = 9 \/ b = 10 \/ b = 13). Proof. unfold space. lia. Qed.
Lemma skip_blank a l : blank a -> skip (a ++ l) = skip l.
Proof. induction 1 as [|b a Hb Ha IH]; [reflexivity|]. cbn [app skip]. rewrite (proj2 (space_spec b) Hb). exact IH. Qed.
Lemma skip_to a b l : blank a -> space b = false -> skip (a ++ b :: l) = b :: l.
Proof. intros Ha Hb. rewrite skip_blank by exact Ha. cbn [skip]. rewrite Hb. reflexivity. Qed.
Lemma skip_sound l : exists a, l = a ++ skip l /\ blank a.
Proof. induction l as [|b l (a & E & Ha)]; [exists []; split; [reflexivity|constructor]|]. cbn [skip]. destruct (space b) eqn:S; [|exists []; split; [reflexivity|constructor]]. exists (b :: a). split; [cbn; f_equal; exact E|constructor; [apply space_spec, S|exact Ha]]. Qed.
Section decoder.
Context {N : Type} (F : numbers N).
(** The decoder, one step on. *)
Lemma value_S n d l : value F (S n) d l =
      match skip l with
      | [] => None
      | b :: r =>
          if b =? 123 then if d <=? 0 then None else
            match word [125] (skip r) with Some q => Some (JObj [], q) | None => option_map (fun p => (JObj (fst p), snd p)) (members F n (d - 1) [] r) end
          else if b =? 91 then if d <=? 0 then None else
            match word [93] (skip r) with Some q => Some (JArr [], q) | None => option_map (fun p => (JArr (fst p), snd p)) (elements F n (d - 1) r) end
          else if b =? 34 then option_map (fun p => (JStr (fst p), snd p)) (str (length r) r)
          else if b =? 116 then option_map (fun q => (JBool true, q)) (word [114; 117; 101] r)
          else if b =? 102 then option_map (fun q => (JBool false, q)) (word [97; 108; 115; 101] r)
          else if b =? 110 then option_map (fun q => (JNull, q)) (word [117; 108; 108] r)
          else match number (b :: r) with
          | Some (t, q) => option_map (fun x => (JNum x, q)) (read F t)
          | None => None
          end
      end.
Proof. reflexivity. Qed.
Lemma elements_S n d l : elements F (S n) d l =
      match value F n d l with
      | None => None
      | Some (v, r) =>
          match word [93] (skip r) with
          | Some q => Some ([v], q)
          | None => match word [44] (skip r) with Some q => option_map (fun p => (v :: fst p, snd p)) (elements F n d q) | None => None end
          end
      end.
Proof. reflexivity. Qed.
Lemma members_S n d m l : members F (S n) d m l =
      match word [34] (skip l) with
      | None => None
      | Some r =>
          match str (length r) r with
          | None => None
          | Some (k, r) =>
              match word [58] (skip r) with
              | None => None
              | Some r =>
                  match value F n d r with
                  | None => None
                  | Some (v, r) =>
                      match word [125] (skip r) with
                      | Some q => Some (put k v m, q)
                      | None => match word [44] (skip r) with Some q => members F n d (put k v m) q | None => None end
                      end
                  end
              end
          end
      end.
Proof. reflexivity. Qed.
Definition begins (t : list Z) : Prop := exists b r, t = b :: r /\ space b = false /\ b <> 93 /\ b <> 125.
Lemma number_begins t : number_text t -> exists b r, t = b :: r /\ (b = 45 \/ 48 <= b <= 57).
Proof.
  intros (sg & i & f & e & -> & [->| ->] & Hi & _); [|eexists; eexists; split; [reflexivity|auto]]. destruct Hi as [->|(b & r & -> & _ & [_ H])]; [eexists; eexists; split; [reflexivity|lia]|]. inversion H; subst. eexists; eexists; split; [reflexivity|auto].
Qed.
Lemma denotes_begins lenient d v t : denotes F lenient d v t -> begins t.
Proof.
  destruct 1; try (eexists; eexists; split; [reflexivity|]; split; [reflexivity|]; lia). destruct (number_begins t) as (b & r & -> & Hb); [assumption|]. exists b, r. split; [reflexivity|]. unfold space. lia.
Qed.
Scheme denotes_i := Minimality for denotes Sort Prop with items_i := Minimality for items Sort Prop with pairs_i := Minimality for pairs Sort Prop.
Combined Scheme denotes_all from denotes_i, items_i, pairs_i.
Lemma blank_stops b c r : blank b -> digit c = false -> c <> 46 -> c <> 101 -> c <> 69 -> stops (b ++ c :: r).
Proof. intros Hb H1 H2 H3 H4. destruct Hb as [|x b Hx _]; cbn; [auto|]. repeat split; try (unfold digit, in_; lia); lia. Qed.
Lemma begins_word b t l c : begins t -> blank b -> (c = 93 \/ c = 125) -> word [c] (skip (b ++ t ++ l)) = None.
Proof. intros (x & r & -> & S & N1 & N2) Hb Hc. cbn [app]. rewrite skip_to by assumption. cbn [word]. destruct (Z.eqb_spec c x); [lia|reflexivity]. Qed.
Ltac len := repeat (rewrite app_length in * || cbn [length] in * ); lia.
Theorem decode_complete lenient :
  (forall d v t, denotes F lenient d v t -> forall n a r, blank a -> stops r -> (2 * length (a ++ t ++ r) + 1 <= n)%nat -> value F n d (a ++ t ++ r) = Some (v, r)) /\
  (forall d l t, items F lenient d l t -> forall n r, (2 * length (t ++ 93%Z :: r) + 2 <= n)%nat -> word [93] (skip (t ++ 93 :: r)) = None /\ elements F n d (t ++ 93 :: r) = Some (l, r)) /\
  (forall d ms t, pairs F lenient d ms t -> forall n m r, (2 * length (t ++ 125%Z :: r) + 2 <= n)%nat -> word [125] (skip (t ++ 125 :: r)) = None /\ members F n d m (t ++ 125 :: r) = Some (puts ms m, r)).
Proof.
  apply denotes_all.
  - intros d n a r Ha Hr L. destruct n; [lia|]. rewrite value_S; cbn [app]. rewrite skip_to by auto. reflexivity.
  - intros d n a r Ha Hr L. destruct n; [lia|]. rewrite value_S; cbn [app]. rewrite skip_to by auto. reflexivity.
  - intros d n a r Ha Hr L. destruct n; [lia|]. rewrite value_S; cbn [app]. rewrite skip_to by auto. reflexivity.
  - intros d x t Ht Hx n a r Ha Hr L. destruct n; [lia|]. destruct (number_begins t Ht) as (b & q & -> & Hb). rewrite value_S; cbn [app]. rewrite skip_to by (try exact Ha; unfold space; lia).
    rewrite (proj2 (Z.eqb_neq b 123)), (proj2 (Z.eqb_neq b 91)), (proj2 (Z.eqb_neq b 34)), (proj2 (Z.eqb_neq b 116)), (proj2 (Z.eqb_neq b 102)), (proj2 (Z.eqb_neq b 110)) by lia.
    change (b :: q ++ r) with ((b :: q) ++ r). rewrite number_complete by assumption. rewrite Hx. reflexivity.
  - intros d s t Hs n a r Ha Hr L. destruct n; [lia|]. rewrite value_S; cbn [app]. rewrite skip_to by auto. change (34 =? 123) with false. change (34 =? 91) with false. change (34 =? 34) with true. cbn iota. rewrite <- app_assoc. cbn [app]. rewrite (str_complete lenient s t Hs) by lia. reflexivity.
  - intros d w Hd Hw n a r Ha Hr L. destruct n; [lia|]. rewrite value_S; cbn [app]. rewrite skip_to by auto. change (91 =? 123) with false. change (91 =? 91) with true. cbn iota. rewrite (proj2 (Z.leb_gt d 0)) by lia. rewrite <- app_assoc. cbn [app]. rewrite skip_to by auto. reflexivity.
  - intros d l t Hd Hi IH n a r Ha Hr L. destruct n; [lia|]. rewrite value_S; cbn [app]. rewrite skip_to by auto. change (91 =? 123) with false. change (91 =? 91) with true. cbn iota. rewrite (proj2 (Z.leb_gt d 0)) by lia. rewrite <- app_assoc. cbn [app]. destruct (IH n r) as [W E]; [len|]. rewrite W, E. reflexivity.
  - intros d w Hd Hw n a r Ha Hr L. destruct n; [lia|]. rewrite value_S; cbn [app]. rewrite skip_to by auto. change (123 =? 123) with true. cbn iota. rewrite (proj2 (Z.leb_gt d 0)) by lia. rewrite <- app_assoc. cbn [app]. rewrite skip_to by auto. reflexivity.
  - intros d ms m t Hd Hp IH Hm n a r Ha Hr L. destruct n; [lia|]. rewrite value_S; cbn [app]. rewrite skip_to by auto. change (123 =? 123) with true. cbn iota. rewrite (proj2 (Z.leb_gt d 0)) by lia. rewrite <- app_assoc. cbn [app]. destruct (IH n [] r) as [W E]; [len|]. rewrite W, E. apply puts_map_of in Hm. subst m. reflexivity.
  - intros d v t a b Ha Hv IH Hb n r L. rewrite <- !app_assoc in *. split; [apply begins_word; [eapply denotes_begins; eassumption|assumption|auto]|]. destruct n; [lia|]. rewrite elements_S. rewrite IH; [|assumption|apply blank_stops; [assumption|reflexivity|lia|lia|lia]|len]. rewrite skip_to by auto. reflexivity.
  - intros d v t a b l q Ha Hv IH Hb Hl IHl n r L. rewrite <- !app_assoc in *. cbn [app] in *. split; [apply begins_word; [eapply denotes_begins; eassumption|assumption|auto]|]. destruct n; [lia|]. rewrite elements_S. rewrite IH; [|assumption|apply blank_stops; [assumption|reflexivity|lia|lia|lia]|len]. rewrite skip_to by auto.
    cbn [word]. change (93 =? 44) with false. change (44 =? 44) with true. cbn iota. destruct (IHl n r) as [_ E]; [len|]. rewrite E. reflexivity.
  - intros d k kt v t a b c e Ha Hk Hb Hc Hv IH He n m r L. rewrite <- !app_assoc in *. cbn [app] in *. rewrite <- !app_assoc in *. cbn [app] in *. rewrite <- !app_assoc in *. cbn [app] in *. rewrite <- !app_assoc in *.
    split; [rewrite skip_to by auto; reflexivity|]. destruct n; [lia|]. rewrite members_S. rewrite skip_to by auto. cbn [word]. change (34 =? 34) with true. cbn iota. rewrite (str_complete lenient k kt Hk) by lia. rewrite skip_to by auto. cbn [word]. change (58 =? 58) with true. cbn iota.
    rewrite IH; [|assumption|apply blank_stops; [assumption|reflexivity|lia|lia|lia]|len]. rewrite skip_to by auto. reflexivity.
  - intros d k kt v t a b c e ms q Ha Hk Hb Hc Hv IH He Hp IHp n m r L. rewrite <- !app_assoc in *. cbn [app] in *. rewrite <- !app_assoc in *. cbn [app] in *. rewrite <- !app_assoc in *. cbn [app] in *. rewrite <- !app_assoc in *. cbn [app] in *.
    split; [rewrite skip_to by auto; reflexivity|]. destruct n; [lia|]. rewrite members_S. rewrite skip_to by auto. cbn [word]. change (34 =? 34) with true. cbn iota. rewrite (str_complete lenient k kt Hk) by lia. rewrite skip_to by auto. cbn [word]. change (58 =? 58) with true. cbn iota.
    rewrite IH; [|assumption|apply blank_stops; [assumption|reflexivity|lia|lia|lia]|len]. rewrite skip_to by auto. cbn [word]. change (125 =? 44) with false. change (44 =? 44) with true. cbn iota. destruct (IHp n (put k v m) r) as [_ E]; [len|]. rewrite E. reflexivity.
Qed.
Theorem decode_sound n :
  (forall d l v r, value F n d l = Some (v, r) -> exists a t, l = a ++ t ++ r /\ blank a /\ denotes F true d v t) /\
  (forall d l vs r, elements F n d l = Some (vs, r) -> exists t, l = t ++ 93 :: r /\ items F true d vs t) /\
  (forall d m l m' r, members F n d m l = Some (m', r) -> exists ms t, l = t ++ 125 :: r /\ pairs F true d ms t /\ m' = puts ms m).
Proof.
  induction n as [|n (IHv & IHe & IHm)]; [repeat split; intros; discriminate|]. split; [|split].
  - intros d l v r. rewrite value_S. destruct (skip_sound l) as (a & El & Ha). destruct (skip l) as [|b q]; [discriminate|]. intros H. exists a. destruct (Z.eqb_spec b 123) as [->|N1].
    { destruct (Z.leb_spec d 0) as [|Hd]; [discriminate|]. destruct (skip_sound q) as (w & Eq & Hw). destruct (word [125] (skip q)) as [q'|] eqn:W.
      - apply word_spec in W. rewrite W in Eq. inversion H; subst. exists (123 :: w ++ [125]). split; [cbn [app]; rewrite <- app_assoc; reflexivity|]. split; [exact Ha|]. apply d_none; assumption.
      - destruct (members F n (d - 1) [] q) as [[m q']|] eqn:M; [|discriminate]. cbn [option_map fst snd] in H. inversion H; subst v q'. apply IHm in M as (ms & t & -> & Hp & ->). exists (123 :: t ++ [125]). split; [rewrite El; cbn [app]; rewrite <- app_assoc; reflexivity|]. split; [exact Ha|]. apply (d_obj F true d ms); [exact Hd|exact Hp|]. apply puts_map_of. reflexivity. }
    destruct (Z.eqb_spec b 91) as [->|N2].
    { destruct (Z.leb_spec d 0) as [|Hd]; [discriminate|]. destruct (skip_sound q) as (w & Eq & Hw). destruct (word [93] (skip q)) as [q'|] eqn:W.
      - apply word_spec in W. rewrite W in Eq. inversion H; subst. exists (91 :: w ++ [93]). split; [cbn [app]; rewrite <- app_assoc; reflexivity|]. split; [exact Ha|]. apply d_empty; assumption.
      - destruct (elements F n (d - 1) q) as [[vs q']|] eqn:M; [|discriminate]. cbn [option_map fst snd] in H. inversion H; subst v q'. apply IHe in M as (t & -> & Hp). exists (91 :: t ++ [93]). split; [rewrite El; cbn [app]; rewrite <- app_assoc; reflexivity|]. split; [exact Ha|]. apply d_arr; assumption. }
    destruct (Z.eqb_spec b 34) as [->|N3].
    { destruct (str (length q) q) as [[s q']|] eqn:S; [|discriminate]. cbn [option_map fst snd] in H. inversion H; subst v q'. apply str_sound in S as (t & -> & Hs). exists (34 :: t ++ [34]). split; [rewrite El; cbn [app]; rewrite <- app_assoc; reflexivity|]. split; [exact Ha|]. constructor. exact Hs. }
    destruct (Z.eqb_spec b 116) as [->|N4]; [destruct (word [114; 117; 101] q) as [q'|] eqn:W; [|discriminate]; apply word_spec in W; cbn [option_map] in H; inversion H; subst; eexists; split; [|split; [exact Ha|apply d_true]]; reflexivity|].
    destruct (Z.eqb_spec b 102) as [->|N5]; [destruct (word [97; 108; 115; 101] q) as [q'|] eqn:W; [|discriminate]; apply word_spec in W; cbn [option_map] in H; inversion H; subst; eexists; split; [|split; [exact Ha|apply d_false]]; reflexivity|].
    destruct (Z.eqb_spec b 110) as [->|N6]; [destruct (word [117; 108; 108] q) as [q'|] eqn:W; [|discriminate]; apply word_spec in W; cbn [option_map] in H; inversion H; subst; eexists; split; [|split; [exact Ha|apply d_null]]; reflexivity|].
    destruct (number (b :: q)) as [[t q']|] eqn:Nu; [|discriminate]. apply number_sound in Nu as [Nt Et]. destruct (read F t) as [x|] eqn:R; [|discriminate]. cbn [option_map] in H. inversion H; subst v q'. exists t. split; [rewrite El, Et; reflexivity|]. split; [exact Ha|]. apply d_num; assumption.
  - intros d l vs r. rewrite elements_S. destruct (value F n d l) as [[v q]|] eqn:V; [|discriminate]. apply IHv in V as (a & t & -> & Ha & Hv). destruct (skip_sound q) as (b & Eq & Hb). destruct (word [93] (skip q)) as [q'|] eqn:W.
    + apply word_spec in W. rewrite W in Eq. intros H. inversion H; subst. exists (a ++ t ++ b). split; [rewrite <- !app_assoc; reflexivity|]. constructor; assumption.
    + destruct (word [44] (skip q)) as [q'|] eqn:W2; [|discriminate]. apply word_spec in W2. destruct (elements F n d q') as [[vs' q2]|] eqn:E; [|discriminate]. cbn [option_map fst snd]. intros H. inversion H; subst vs q2. apply IHe in E as (t' & E' & Hi). rewrite W2, E' in Eq. rewrite Eq. exists (a ++ t ++ b ++ 44 :: t'). split; [rewrite <- !app_assoc; reflexivity|]. apply i_more; assumption.
  - intros d m l m' r. rewrite members_S. destruct (skip_sound l) as (a & El & Ha). destruct (word [34] (skip l)) as [q|] eqn:W1; [|discriminate]. apply word_spec in W1. destruct (str (length q) q) as [[k q1]|] eqn:S; [|discriminate]. apply str_sound in S as (kt & -> & Hk).
    destruct (skip_sound q1) as (b & E1 & Hb). destruct (word [58] (skip q1)) as [q2|] eqn:W2; [|discriminate]. apply word_spec in W2. destruct (value F n d q2) as [[v q3]|] eqn:V; [|discriminate]. apply IHv in V as (c & t & -> & Hc & Hv).
    destruct (skip_sound q3) as (e & E3 & He). rewrite W2 in E1. rewrite W1, E1 in El. cbn [app] in El. destruct (word [125] (skip q3)) as [q4|] eqn:W3.
    + apply word_spec in W3. rewrite W3 in E3. intros H. inversion H; subst. exists [(k, v)]. exists (a ++ 34 :: kt ++ 34 :: b ++ 58 :: c ++ t ++ e). split; [|split; [constructor; assumption|reflexivity]]. repeat (rewrite <- app_assoc; cbn [app]). reflexivity.
    + destruct (word [44] (skip q3)) as [q4|] eqn:W4; [|discriminate]. apply word_spec in W4. intros H. apply IHm in H as (ms & t' & E' & Hp & ->). rewrite W4, E' in E3. exists ((k, v) :: ms). exists (a ++ 34 :: kt ++ 34 :: b ++ 58 :: c ++ t ++ e ++ 44 :: t').
      split; [|split; [apply p_more; assumption|reflexivity]]. rewrite El, E3. repeat (rewrite <- app_assoc; cbn [app]). reflexivity.
Qed.
Lemma skip_nil l : skip l = [] <-> blank l.
Proof.
  split; [|intros H; rewrite <- (app_nil_r l), skip_blank by exact H; reflexivity]. destruct (skip_sound l) as (a & E & Ha). intros H. rewrite H, app_nil_r in E. subst. exact Ha.
Qed.
Lemma JsonDecode_complete lenient v t : text_of F lenient v t -> JsonDecode F t = Some v.
Proof.
  intros (a & u & b & -> & Ha & Hu & Hb). unfold JsonDecode, maxNestingDepth. rewrite (proj1 (decode_complete lenient) 10000 v u Hu); [rewrite (proj2 (skip_nil b) Hb); reflexivity|exact Ha| |lia].
  destruct Hb as [|x b Hx _]; cbn; [exact I|]. repeat split; try (unfold digit, in_; lia); lia.
Qed.
Lemma JsonDecode_sound v t : JsonDecode F t = Some v -> text_of F true v t.
Proof.
  unfold JsonDecode. destruct (value F _ maxNestingDepth t) as [[v' r]|] eqn:E; [|discriminate]. destruct (skip r) eqn:S; [|discriminate]. intros [= ->]. apply skip_nil in S. apply (proj1 (decode_sound _)) in E as (a & u & -> & Ha & Hu). exists a, u, r. auto.
Qed.
End decoder.
