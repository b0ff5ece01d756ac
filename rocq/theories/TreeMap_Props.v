(** Property C30 of hashmap/treemap.go. *)
From stdpp Require Import prelude.
From Coq Require Import ZArith Lia.
From Verif Require Import TreeMap_Model TreeMap_Spec TreeMap_Proofs.

(** C30. After every history every call answers by the last Put of its key not followed by a Del. *)
Theorem c30_treemap_answers {K V} `{EqDecision K} : forall (lt : K -> K -> bool) (os : list (top K V)) (o : top K V),
  strict_total lt ->
  (tree_run lt [] (os ++ [o])).1 = (tree_run lt [] os).1 ++ [tree_answer os o].
Proof.
  intros lt os o Hlt. rewrite run_app. f_equal. cbn [tree_run].
  destruct (run_spec lt Hlt os [] I) as [HS HL]. cbn [look] in HL.
  destruct (step_spec lt Hlt _ o HS) as (_ & _ & HR).
  destruct (tree_step lt (tree_run lt [] os).2 o) as [x l1]. cbn [fst] in *. f_equal. rewrite HR.
  destruct o; cbn; rewrite ?HL; auto.
Qed.
Print Assumptions c30_treemap_answers.

(** C30. After every history, Ascend visits the current entries in strictly increasing key order, cut after the
    first entry the callback refuses. *)
Theorem c30_treemap_ascend {K V} `{EqDecision K} : forall (lt : K -> K -> bool) (os : list (top K V)) (f : K -> V -> bool),
  strict_total lt ->
  traversal lt (fun k => value_after k os None) f (ascend f (tree_run lt [] os).2).
Proof.
  intros lt os f Hlt. destruct (run_spec lt Hlt os [] I) as [HS HL]. cbn [look] in HL.
  apply visit_traversal; [apply sorted_ordered; auto|]. intros k v. rewrite <- HL. apply (look_elem lt Hlt); auto.
Qed.
Print Assumptions c30_treemap_ascend.

(** C30. Descend likewise, in strictly decreasing key order. *)
Theorem c30_treemap_descend {K V} `{EqDecision K} : forall (lt : K -> K -> bool) (os : list (top K V)) (f : K -> V -> bool),
  strict_total lt ->
  traversal (fun a b => lt b a) (fun k => value_after k os None) f (descend f (tree_run lt [] os).2).
Proof.
  intros lt os f Hlt. destruct (run_spec lt Hlt os [] I) as [HS HL]. cbn [look] in HL.
  apply visit_traversal; [apply ordered_rev, sorted_ordered; auto|]. intros k v. rewrite <- HL, <- (look_elem lt Hlt) by auto.
  rewrite !elem_of_list_In, <- in_rev. auto.
Qed.
Print Assumptions c30_treemap_descend.

Lemma ltb_strict_total : strict_total Z.ltb.
Proof. split; intros; rewrite ?Z.ltb_lt, ?Z.ltb_ge in *; lia. Qed.
Definition c30_history : list (top Z Z) := [TPut 5 50; TPut 1 10; TPut 9 90; TPut 5 55; TDel 1; TPut 7 70; TDel 8]%Z.
Example c30_ex :
  (tree_run Z.ltb [] (c30_history ++ [TPut 9 91; TGet 1; TGet 7]))%Z.1 =
    [TVal None; TVal None; TVal None; TVal (Some 50); TUnit; TVal None; TUnit; TVal (Some 90); TVal None; TVal (Some 70)]%Z /\
  ascend (fun k _ => Z.ltb k 7) (tree_run Z.ltb [] c30_history).2 = [(5, 55); (7, 70)]%Z /\
  descend (fun _ _ => true) (tree_run Z.ltb [] c30_history).2 = [(9, 90); (7, 70); (5, 55)]%Z.
Proof. vm_compute. auto. Qed.

(** NewTreeMap panics for a degree of at most 1. *)
Theorem c30_treemap_new {K V} : forall degree, is_Some (@new_tree K V degree) <-> (2 <= degree)%Z.
Proof.
  intros d. unfold new_tree. destruct (Z.leb_spec d 1).
  - split; [intros [? E]; discriminate|lia].
  - split; [lia|eauto].
Qed.
Print Assumptions c30_treemap_new.
