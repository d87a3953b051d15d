(** * PropNav: properties of the neighbour accessors.

    [rep h K]: the heap [h] stores the ordered forest [K] (Spec.v).  That every
    heap reachable through the API is of this form is theorem [C01_reachable]
    in PropSystem.v. *)
From Verif Require Import Heap Edit Spec NavFacts2 Examples.

(** C01.  On a heap storing an ordered forest, every accessor returns what the
    forest says. *)
Theorem C01_navigation : forall (T : Type) (h : heap T) (K : forest), rep h K -> wf K ->
  (forall x p, is_Some (K !! x) -> (parent_link h x = Some p <-> child_of K p x)) /\
  (forall x, is_Some (K !! x) -> (is_root h x = true <-> is_top K x)) /\
  (forall x ks, K !! x = Some ks ->
     first_child_link h x = head ks /\ last_child_link h x = Ret (last ks) /\
     first_last_child_link h x =
       Ret (match head ks, last ks with Some f, Some l => Some (f, l) | _, _ => None end) /\
     fnch h x = length ks /\
     has_children h x = bool_decide (ks <> []) /\
     has_one_child h x = bool_decide (length ks = 1) /\
     has_multiple_children h x = bool_decide (1 < length ks)) /\
  (forall p ks i c, K !! p = Some ks -> ks !! i = Some c ->
     next_sibling_link h c = ks !! S i /\
     prev_sibling_link h c = Ret (match i with 0 => None | S j => ks !! j end) /\
     has_next_sibling h c = bool_decide (is_Some (ks !! S i)) /\
     has_prev_sibling h c = Ret (bool_decide (i <> 0)) /\
     is_last_sibling h c = bool_decide (ks !! S i = None) /\
     is_first_sibling h c = Ret (bool_decide (i = 0)) /\
     first_sibling h c = Ret (default c (head ks)) /\
     last_sibling h c = Ret (default c (last ks)) /\
     first_last_sibling h c = Ret (default c (head ks), default c (last ks))) /\
  (forall x, is_top K x ->
     parent_link h x = None /\ next_sibling_link h x = None /\ prev_sibling_link h x = Ret None /\
     has_next_sibling h x = false /\ has_prev_sibling h x = Ret false /\
     is_last_sibling h x = true /\ is_first_sibling h x = Ret true /\
     first_sibling h x = Ret x /\ last_sibling h x = Ret x /\ first_last_sibling h x = Ret (x, x)).
Proof.
  intros T h K Hr Hw. split_and!.
  - intros x p. exact (parent_iff h K x p Hr Hw).
  - intros x. exact (root_iff h K x Hr Hw).
  - intros x ks. exact (children_facts h K x ks Hr Hw).
  - intros p ks i c. exact (sibling_facts h K p ks i c Hr Hw).
  - intros x. exact (top_facts h K x Hr Hw).
Qed.
Print Assumptions C01_navigation.

(** The hypotheses hold of a tree 0 -> [1 -> [4; 5]; 2; 3 -> [6]]. *)
Example C01_nonvacuous : rep exh exK /\ wf exK /\ exK !! 0 = Some [1; 2; 3] /\
  prev_sibling_link exh 2 = Ret (Some 1) /\ last_child_link exh 0 = Ret (Some 3).
Proof. split; [apply ex_ok|]. split; [apply ex_ok|]. vm_compute. done. Qed.
