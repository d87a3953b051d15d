(** * PropGraft: what a move of a whole tree into another one does. *)
From Verif Require Import Heap System SysSpec ApiSpec MoveSpec GraftSpec ApiFacts ApiFacts3 GraftFacts2 GraftFacts4 Demo PropMove Spec.

(** [demo] with a [Tree] handle (22) on its second tree and a third tree of one node (23), hot handle 26. *)
Definition graft_ops : list (op nat) := demo_ops ++ [OpTree 19; OpNewTree 7; OpBundle Hot 25].
Definition graft_demo : sys nat := after graft_ops.
Definition graftK : forest := Eval vm_compute in forest_of (s_nodes graft_demo).
Lemma graft_reach : reach graft_demo. Proof. apply after_reach. Qed.
Lemma graft_stores : stores graft_demo graftK.
Proof. replace graftK with (forest_of (s_nodes graft_demo)) by (vm_compute; reflexivity). apply after_stores. Qed.

(** ** C10 for a tree of one node that no [Tree] handle keeps: it becomes a node of the other tree, at the given
    place, and its own tree disappears. *)
Theorem C10_whole_single : forall (T : Type) (s : sys T) K a k x ad j y t t',
  reach s -> stores s K -> receiver s a k x -> s_hands s !! j = Some (HNode Hot y) ->
  is_top K x -> K !! x = Some [] -> tree_of s x = Some t -> tree_of s y = Some t' -> t <> t' ->
  (forall i, s_hands s !! i <> Some (HTree t)) -> has_place K ad y ->
  exists s' K', step s (OpMove a ad j) = Ret (s', OutUnit) /\ reach s' /\ carries s K x t t' s' K /\
    attached K x (dest_of ad y) K' /\ stores s' K' /\ s_trees s' !! t = None.
Proof. exact @graft_leaf_api. Qed.
Print Assumptions C10_whole_single.
Example C10_whole_single_nonvacuous : reach graft_demo /\ stores graft_demo graftK /\ receiver graft_demo (ByHot 26) Hot 23 /\
  s_hands graft_demo !! 7 = Some (HNode Hot 6) /\ is_top graftK 23 /\ graftK !! 23 = Some [] /\ tree_of graft_demo 23 = Some 24 /\
  tree_of graft_demo 6 = Some 1 /\ has_place graftK APreviousSibling 6.
Proof.
  split; [exact graft_reach|]. split; [exact graft_stores|]. split; [by vm_compute|]. split; [by vm_compute|].
  split; [apply top_b_ok; by vm_compute|]. split; [by vm_compute|]. split; [by vm_compute|]. split; [by vm_compute|].
  exists 0, [4; 6; 8]. split; [by vm_compute|set_solver].
Qed.

(** ** C10 for a tree that a [Tree] handle keeps: all its nodes go to the given place and belong to the other tree,
    but the old tree still names the moved node as its root. *)
Theorem C10_whole_kept_exact : forall (T : Type) (s : sys T) K a k x ad j y t t' i,
  reach s -> stores s K -> receiver s a k x -> s_hands s !! j = Some (HNode Hot y) -> is_top K x ->
  tree_of s x = Some t -> tree_of s y = Some t' -> t <> t' -> s_hands s !! i = Some (HTree t) -> has_place K ad y ->
  exists s' K', step s (OpMove a ad j) = Ret (s', OutUnit) /\ hands_over s K x t' s' /\ attached K x (dest_of ad y) K' /\ stores s' K'.
Proof. exact @graft_kept. Qed.
Print Assumptions C10_whole_kept_exact.
(** ** C11: when there is no place the call is refused after all nodes have changed trees. *)
Theorem C11_whole_kept_exact : forall (T : Type) (s : sys T) K a k x ad j y t t' i,
  reach s -> stores s K -> receiver s a k x -> s_hands s !! j = Some (HNode Hot y) -> is_top K x ->
  tree_of s x = Some t -> tree_of s y = Some t' -> t <> t' -> s_hands s !! i = Some (HTree t) -> no_place K x ad y ->
  exists s', step s (OpMove a ad j) = Ret (s', OutErr SiblingsWithoutParent) /\ hands_over s K x t' s' /\ stores s' K.
Proof. exact @graft_kept_refused. Qed.
Print Assumptions C11_whole_kept_exact.
Example C10_whole_kept_nonvacuous : reach graft_demo /\ stores graft_demo graftK /\ receiver graft_demo (ByHot 19) Hot 16 /\
  s_hands graft_demo !! 7 = Some (HNode Hot 6) /\ s_hands graft_demo !! 3 = Some (HNode Hot 0) /\ is_top graftK 16 /\ tree_of graft_demo 16 = Some 17 /\
  tree_of graft_demo 6 = Some 1 /\ s_hands graft_demo !! 22 = Some (HTree 17) /\ has_place graftK ANextSibling 6 /\ no_place graftK 16 ANextSibling 0.
Proof.
  split; [exact graft_reach|]. split; [exact graft_stores|]. split; [by vm_compute|]. split; [by vm_compute|]. split; [by vm_compute|].
  split; [apply top_b_ok; by vm_compute|]. split; [by vm_compute|]. split; [by vm_compute|]. split; [by vm_compute|].
  split; [exists 0, [4; 6; 8]; split; [by vm_compute|set_solver]|]. split; [by right|]. right. apply top_b_ok. by vm_compute.
Qed.

(** ** C10 for a tree of any size that no [Tree] handle keeps: the tree falls apart.  Its root alone is put at the given place; of the
    others those with a handle are left stranded, all the rest is freed. *)
Theorem C10_whole_lost_exact : forall (T : Type) (s : sys T) K a k x ad j y t t',
  reach s -> stores s K -> receiver s a k x -> s_hands s !! j = Some (HNode Hot y) -> is_top K x ->
  tree_of s x = Some t -> tree_of s y = Some t' -> t <> t' -> (forall i, s_hands s !! i <> Some (HTree t)) -> has_place K ad y ->
  exists s' K2 K3, step s (OpMove a ad j) = Ret (s', OutUnit) /\ falls_apart s K x K2 /\ attached K2 x (dest_of ad y) K3 /\ wf K3 /\
    strands s K x t t' K3 s'.
Proof. exact @graft_lost. Qed.
Print Assumptions C10_whole_lost_exact.
(** ** C11: without a place the call is refused, after the tree fell apart. *)
Theorem C11_whole_lost_exact : forall (T : Type) (s : sys T) K a k x ad j y t t',
  reach s -> stores s K -> receiver s a k x -> s_hands s !! j = Some (HNode Hot y) -> is_top K x ->
  tree_of s x = Some t -> tree_of s y = Some t' -> t <> t' -> (forall i, s_hands s !! i <> Some (HTree t)) -> no_place K x ad y ->
  exists s' K2, step s (OpMove a ad j) = Ret (s', OutErr SiblingsWithoutParent) /\ falls_apart s K x K2 /\ strands s K x t t' K2 s'.
Proof. exact @graft_lost_refused. Qed.
Print Assumptions C11_whole_lost_exact.
Lemma no_tree_handle {T : Type} (s : sys T) (t : tid) : existsb (fun kv : nat * handle => tree_on t kv.2) (map_to_list (s_hands s)) = false ->
  forall i, s_hands s !! i <> Some (HTree t).
Proof.
  intros E i Hi. apply (eq_true_false_abs _ (proj2 (existsb_exists _ _) (ex_intro _ (i, HTree t) (conj (proj1 (elem_of_list_In _ _) (proj2 (elem_of_map_to_list _ _ _) Hi)) (bool_decide_eq_true_2 _ (eq_refl : t = t))))) E).
Qed.
(** In [demo] the tree 17 has the root 16 and below it 20, both with a handle. *)
Example C10_whole_lost_nonvacuous : reach demo /\ stores demo demoK /\ receiver demo (ByHot 19) Hot 16 /\
  s_hands demo !! 7 = Some (HNode Hot 6) /\ s_hands demo !! 3 = Some (HNode Hot 0) /\ is_top demoK 16 /\ demoK !! 16 = Some [20] /\ tree_of demo 16 = Some 17 /\
  tree_of demo 6 = Some 1 /\ tree_of demo 0 = Some 1 /\ (forall i, s_hands demo !! i <> Some (HTree 17)) /\ has_place demoK ANextSibling 6 /\ no_place demoK 16 ANextSibling 0.
Proof.
  split; [exact demo_reach|]. split; [exact demo_stores|]. split; [by vm_compute|]. split; [by vm_compute|]. split; [by vm_compute|].
  split; [apply top_b_ok; by vm_compute|]. split; [by vm_compute|]. split; [by vm_compute|]. split; [by vm_compute|]. split; [by vm_compute|].
  split.
  { apply no_tree_handle. by vm_compute. }
  split; [exists 0, [4; 6; 8]; split; [by vm_compute|set_solver]|]. split; [by right|]. right. apply top_b_ok. by vm_compute.
Qed.
