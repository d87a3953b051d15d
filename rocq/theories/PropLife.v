(** * PropLife: lifetime of nodes and trees, weak references, membership, frame
    conditions (C27-C30, C32, C35-C37). *)
From Verif Require Import Heap Edit System SysSpec ApiSpec ApiFacts ApiFacts2 ApiFacts3 ApiFacts4 ApiFacts5 ApiFacts6 ApiFacts7 ApiFacts10 Demo Examples Spec.

(** A history for the examples: the tree 0 -> [4 -> [6]] with a plain handle (8) on the
    leaf 6, a [Tree] handle (9), a [TreeWeak] (10) and a [NodeWeak] (11) on the leaf; the
    root handle has been dropped. *)
Definition life_ops : list (op nat) :=
  [OpNewTree 100; OpBundle Hot 2; OpCreate (ByHot 3) 104 ALastChild; OpCreate (ByHot 5) 106 ALastChild;
   OpPlain 7; OpTree 3; OpDowngrade 9; OpDowngrade 8; OpDrop 3; OpDrop 5; OpDrop 7].
Definition life_demo : sys nat := after life_ops.
Definition lifeK : forest := Eval vm_compute in forest_of (s_nodes life_demo).
Lemma life_reach : reach life_demo. Proof. apply after_reach. Qed.
Lemma life_stores : stores life_demo lifeK.
Proof. replace lifeK with (forest_of (s_nodes life_demo)) by (vm_compute; reflexivity). apply after_stores. Qed.

(** ** C27 *)
(** A step never frees a node of a tree that still has a handle afterwards. *)
Theorem C27_kept_alive_partial : forall (T : Type) (s : sys T) K o s' r y t,
  reach s -> stores s K -> safe s K o -> step s o = Ret (s', r) ->
  tree_of s y = Some t -> tree_held s' (s_hands s') t -> is_Some (s_nodes s' !! y).
Proof. exact @kept_alive. Qed.
Print Assumptions C27_kept_alive_partial.
(** The node of a handle exists, and so does every other node of its tree: all of
    them hang together below one root. *)
Theorem C27_handles_valid_partial : forall (T : Type) (s : sys T) K i k x,
  reach s -> stores s K -> s_hands s !! i = Some (HNode k x) ->
  is_Some (K !! x) /\ exists r, is_top K r /\ below K r x /\
    forall y, is_Some (K !! y) -> (tree_of s y = tree_of s x <-> below K r y).
Proof. exact @handle_valid. Qed.
Print Assumptions C27_handles_valid_partial.
Example C27_nonvacuous : reach life_demo /\ stores life_demo lifeK /\ lifeK !! 0 = Some [4] /\ lifeK !! 4 = Some [6] /\
  s_hands life_demo !! 8 = Some (HNode Plain 6) /\
  (let s' := nxt life_demo (OpDrop 9) in s_nodes s' !! 0 <> None /\ s_nodes s' !! 4 <> None).
Proof. split; [exact life_reach|]. split; [exact life_stores|]. vm_compute. done. Qed.

(** ** C28 *)
(** Dropping a handle on a tree, or on a node of it: when it is the last one, all
    nodes of the tree and its core are deallocated and nothing else is; otherwise
    nothing is ([drops], ApiSpec.v). *)
Theorem C28_drop_partial : forall (T : Type) (s : sys T) K i hd t,
  reach s -> stores s K -> s_hands s !! i = Some hd ->
  (hd = HTree t \/ exists k x, hd = HNode k x /\ tree_of s x = Some t) ->
  exists s', step s (OpDrop i) = Ret (s', OutUnit) /\ drops s K i t s'.
Proof. exact @drop_api. Qed.
Print Assumptions C28_drop_partial.
(** At no time does memory remain that no handle leads to. *)
Theorem C28_no_garbage_partial : forall (T : Type) (s : sys T), reach s ->
  (forall y, is_Some (s_nodes s !! y) -> exists t, tree_of s y = Some t /\ tree_held s (s_hands s) t) /\
  (forall t, is_Some (s_trees s !! t) -> tree_held s (s_hands s) t).
Proof.
  intros T s H. destruct (reach_stores s H) as [K HK]. destruct (no_garbage s K H HK) as [A B]. split; [|exact B].
  intros y Hy. destruct (A y Hy) as (t & E & Ht). exists t. split; [exact E|]. exact (B t Ht).
Qed.
Print Assumptions C28_no_garbage_partial.
(** When only weak references and tokens are left, everything has been freed. *)
Theorem C28_all_dropped_partial : forall (T : Type) (s : sys T), reach s ->
  (forall i, match s_hands s !! i with Some (HNode _ _) | Some (HTree _) => False | _ => True end) ->
  s_nodes s = ∅ /\ s_trees s = ∅.
Proof. exact @all_dropped. Qed.
Print Assumptions C28_all_dropped_partial.
Example C28_nonvacuous : reach life_demo /\ stores life_demo lifeK /\ s_hands life_demo !! 8 = Some (HNode Plain 6) /\
  s_hands life_demo !! 9 = Some (HTree 1) /\ tree_of life_demo 6 = Some 1 /\
  (let s' := nxt (nxt life_demo (OpDrop 8)) (OpDrop 9) in size (s_nodes s') = 0 /\ size (s_trees s') = 0 /\
     s_hands s' !! 11 = Some (HNodeWeak 6)) /\
  (let s' := nxt (nxt life_demo (OpDrop 9)) (OpDrop 8) in size (s_nodes s') = 0 /\ size (s_trees s') = 0).
Proof. split; [exact life_reach|]. split; [exact life_stores|]. vm_compute. done. Qed.

(** ** C29 *)
Theorem C29_same_tree_partial : forall (T : Type) (s : sys T) K x y, reach s -> stores s K ->
  is_Some (K !! x) -> is_Some (K !! y) ->
  (tree_of s x = tree_of s y <-> exists r, is_top K r /\ below K r x /\ below K r y).
Proof. exact @same_tree_iff. Qed.
Print Assumptions C29_same_tree_partial.
(** [belongs_to], [is_valid_for_node], [belongs_to_same_tree] answer accordingly. *)
Theorem C29_queries_partial : forall (T : Type) (s : sys T) K i k x j k' y t0, reach s -> stores s K ->
  s_hands s !! i = Some (HNode k x) -> s_hands s !! j = Some (HNode k' y) ->
  belongs_to s x t0 = Ret (bool_decide (tree_of s x = Some t0)) /\
  valid_for_node s t0 x = Ret (bool_decide (tree_of s x = Some t0)) /\
  belongs_to_same_tree s i x j y = Ret (bool_decide (tree_of s x = tree_of s y)).
Proof. exact @queries_ok. Qed.
Print Assumptions C29_queries_partial.
(** [node.tree().root()] is the topmost ancestor. *)
Theorem C29_tree_root_partial : forall (T : Type) (s : sys T) K i k x, reach s -> stores s K ->
  s_hands s !! i = Some (HNode k x) ->
  exists s1 j1 s2 j2 r, step s (OpTree i) = Ret (s1, OutHandle j1) /\ step s1 (OpRoot j1) = Ret (s2, OutHandle j2) /\
    s_hands s2 !! j2 = Some (HNode Plain r) /\ is_top K r /\ below K r x.
Proof. exact @tree_root_api. Qed.
Print Assumptions C29_tree_root_partial.
Example C29_nonvacuous : reach demo /\ stores demo demoK /\ s_hands demo !! 15 = Some (HNode Hot 14) /\
  s_hands demo !! 11 = Some (HNode Hot 10) /\ s_hands demo !! 21 = Some (HNode Hot 20) /\
  belongs_to_same_tree demo 15 14 11 10 = Ret true /\ belongs_to_same_tree demo 15 14 21 20 = Ret false.
Proof. split; [exact demo_reach|]. split; [exact demo_stores|]. vm_compute. done. Qed.

(** ** C30 *)
Theorem C30_weak_node_partial : forall (T : Type) (s : sys T) K i x, reach s -> stores s K -> s_hands s !! i = Some (HNodeWeak x) ->
  ((exists t, tree_of s x = Some t /\ tree_held s (s_hands s) t) ->
     exists s' j, step s (OpUpgrade i) = Ret (s', OutHandle j) /\ gives s s' j (HNode Plain x)) /\
  (~ (exists t, tree_of s x = Some t /\ tree_held s (s_hands s) t) -> step s (OpUpgrade i) = Ret (s, OutNone)).
Proof. exact @weak_node_api. Qed.
Print Assumptions C30_weak_node_partial.
Theorem C30_weak_tree_partial : forall (T : Type) (s : sys T) i t, reach s -> s_hands s !! i = Some (HTreeWeak t) ->
  (tree_held s (s_hands s) t -> exists s' j, step s (OpUpgrade i) = Ret (s', OutHandle j) /\ gives s s' j (HTree t)) /\
  (~ tree_held s (s_hands s) t -> step s (OpUpgrade i) = Ret (s, OutNone)).
Proof. exact @weak_tree_api. Qed.
Print Assumptions C30_weak_tree_partial.
(** An identity is never reused while a handle, weak ones included, mentions it: a
    weak reference never comes back to life on another node. *)
Theorem C30_no_resurrection : forall (T : Type) (s s' : sys T) K o r i x,
  reach s -> stores s K -> safe s K o -> step s o = Ret (s', r) ->
  s_hands s !! i = Some (HNodeWeak x) -> s_nodes s !! x = None -> s_nodes s' !! x = None.
Proof. exact @no_resurrection. Qed.
Print Assumptions C30_no_resurrection.
(** [tree_held] does not count weak references: only [Tree] and node handles. *)
Example C30_nonvacuous : reach life_demo /\ stores life_demo lifeK /\ s_hands life_demo !! 11 = Some (HNodeWeak 6) /\
  s_hands life_demo !! 10 = Some (HTreeWeak 1) /\ nxt_out life_demo (OpUpgrade 11) = OutHandle 12 /\
  (let s' := nxt (nxt life_demo (OpDrop 8)) (OpDrop 9) in
   nxt_out s' (OpUpgrade 11) = OutNone /\ nxt_out s' (OpUpgrade 10) = OutNone).
Proof. split; [exact life_reach|]. split; [exact life_stores|]. vm_compute. done. Qed.

(** ** C32 *)
Theorem C32_handle_ops_partial : forall (T : Type) (s : sys T) K o s' r K' y,
  reach s -> stores s K -> handle_op o -> step s o = Ret (s', r) -> stores s' K' -> is_Some (s_nodes s' !! y) ->
  K' !! y = K !! y /\ tree_of s' y = tree_of s y /\ payload s' y = payload s y.
Proof. exact @handle_frame. Qed.
Print Assumptions C32_handle_ops_partial.
Example C32_nonvacuous : reach life_demo /\ stores life_demo lifeK /\ handle_op (OpDrop 9 : op nat) /\
  nxt_out life_demo (OpDrop 9) = OutUnit.
Proof. split; [exact life_reach|]. split; [exact life_stores|]. vm_compute. done. Qed.

(** ** C35 *)
Theorem C35_data : forall (T : Type) (s : sys T) K o s' r y,
  reach s -> stores s K -> safe s K o -> step s o = Ret (s', r) -> ~ writes_data o ->
  is_Some (s_nodes s !! y) -> is_Some (s_nodes s' !! y) -> payload s' y = payload s y.
Proof. exact @data_frame. Qed.
Print Assumptions C35_data.
(** Writing data changes only that node's data, and nothing of the hierarchy. *)
Theorem C35_write : forall (T : Type) (s : sys T) i k x d d', reach s -> s_hands s !! i = Some (HNode k x) ->
  (payload s x = Some (d, Lent 0) ->
    exists s', step s (OpSet i d') = Ret (s', OutUnit) /\ payload s' x = Some (d', Lent 0) /\
      (forall y, y <> x -> payload s' y = payload s y) /\ (forall y, tree_of s' y = tree_of s y) /\
      (forall K, stores s K -> stores s' K) /\ s_hands s' = s_hands s /\ step s (OpGet i) = Ret (s, OutData d)) /\
  (forall n, payload s x = Some (d, Lent (S n)) ->
    step s (OpSet i d') = Ret (s, OutBorrowErr) /\ step s (OpGet i) = Ret (s, OutData d)) /\
  (payload s x = Some (d, LentMut) ->
    step s (OpSet i d') = Ret (s, OutBorrowErr) /\ step s (OpGet i) = Ret (s, OutBorrowErr)).
Proof. exact @write_api. Qed.
Print Assumptions C35_write.
Example C35_nonvacuous : reach demo /\ stores demo demoK /\ payload demo 14 = Some (114, Lent 0) /\
  (let s' := nxt demo (OpDetach (ByHot 5)) in payload s' 10 = Some (110, Lent 0)) /\
  s_hands demo !! 15 = Some (HNode Hot 14) /\
  (let s' := nxt (nxt demo (OpBorrow 15 TakeRef)) (OpBorrow 15 TakeRef) in payload s' 14 = Some (114, Lent 2) /\
    nxt_out s' (OpSet 15 7) = OutBorrowErr /\ nxt_out s' (OpGet 15) = OutData 114 /\ nxt_out s' (OpBorrow 15 TakeMut) = OutBorrowErr) /\
  (let s' := nxt demo (OpBorrow 15 TakeMut) in payload s' 14 = Some (114, LentMut) /\ nxt_out s' (OpGet 15) = OutBorrowErr /\
    payload (nxt s' (OpBorrow 15 GiveMut)) 14 = Some (114, Lent 0)).
Proof. split; [exact demo_reach|]. split; [exact demo_stores|]. vm_compute. tauto. Qed.

(** ** C36: an edit changes only the tree of its receiver and the destination's. *)
Theorem C36_footprint_partial : forall (T : Type) (s : sys T) K o s' r K' t,
  reach s -> stores s K -> safe s K o -> step s o = Ret (s', r) -> stores s' K' ->
  is_Some (s_trees s !! t) -> ~ touches s o t ->
  (forall y, tree_of s y = Some t -> is_Some (s_nodes s' !! y) -> K' !! y = K !! y /\ tree_of s' y = Some t) /\
  (forall y, tree_of s' y = Some t -> tree_of s y = Some t).
Proof. exact @footprint. Qed.
Print Assumptions C36_footprint_partial.
Example C36_nonvacuous : reach demo /\ stores demo demoK /\ is_Some (s_trees demo !! 17) /\
  ~ touches demo (OpDetach (ByHot 5)) 17 /\ touches demo (OpDetach (ByHot 5)) 1.
Proof.
  split; [exact demo_reach|]. split; [exact demo_stores|]. split; [vm_compute; eauto|]. split.
  - intros (k & x & [-> Hx] & E). vm_compute in Hx. assert (x = 4) as -> by congruence. vm_compute in E. congruence.
  - exists Hot, 4. by vm_compute.
Qed.

(** ** C37: no call panics or runs forever, except where the documentation says so. *)
Theorem C37_no_panic_partial : forall (T : Type) (s : sys T) K o, reach s -> stores s K -> safe s K o -> ~ must_panic s o ->
  exists s' r, step s o = Ret (s', r) /\ reach s'.
Proof. exact @no_panic. Qed.
Print Assumptions C37_no_panic_partial.
Theorem C37_documented_panic_partial : forall (T : Type) (s : sys T) K o, reach s -> stores s K -> safe s K o ->
  (step s o = Panic <-> must_panic s o /\ well_typed s o) /\ step s o <> NoFuel.
Proof. exact @panic_iff. Qed.
Print Assumptions C37_documented_panic_partial.
Example C37_nonvacuous : reach demo /\ stores demo demoK /\ safe demo demoK (OpMove (ByHot 5) ANextSibling 21) /\
  nxt_out demo (OpMove (ByHot 5) ANextSibling 21) = OutUnit.
Proof.
  split; [exact demo_reach|]. split; [exact demo_stores|]. split; [apply safe_b_ok; [exact demo_stores|by vm_compute]|by vm_compute].
Qed.

(** * Refutations for unrestricted histories *)

(** C27: moving a whole tree frees nodes below a node that is held. *)
Theorem C27_refuted : exists (os : list (op nat)) s rs x c i o s',
  steps init os = Ret (s, rs) /\ s_hands s !! i = Some (HNode Hot x) /\ first_child_link (s_nodes s) x = Some c /\
  step s o = Ret (s', OutUnit) /\ s_hands s' !! i = Some (HNode Hot x) /\ s_nodes s' !! c = None.
Proof.
  pose (os := [OpNewTree 10; OpBundle Hot 2; OpCreate (ByHot 3) 11 AFirstChild; OpDrop 5; OpNewTree 20; OpBundle Hot 8]).
  pose (o := OpMove (ByHot 3) AFirstChild 9 : op nat).
  exists os, (ran os), (outs os), 0, 4, 3, o, (nxt (ran os) o). split; [apply ran_ok; by vm_compute|]. split; [by vm_compute|]. split; [by vm_compute|].
  split; [apply nxt_ok; by vm_compute|]. by vm_compute.
Qed.
Print Assumptions C27_refuted.

(** C28: a node moved below its own child is never freed, and (C30) upgrading a weak
    reference to it panics. *)
Definition leak_ops : list (op nat) :=
  [OpNewTree 0; OpBundle Hot 2; OpCreate (ByHot 3) 4 AFirstChild; OpCreate (ByHot 5) 6 AFirstChild; OpPlain 7; OpDowngrade 8;
   OpDrop 8; OpMove (ByHot 5) AFirstChild 7; OpDrop 3; OpDrop 5; OpDrop 7].
Theorem C28_refuted : exists (os : list (op nat)) s rs x,
  steps init os = Ret (s, rs) /\ (forall i, match s_hands s !! i with Some (HNode _ _) | Some (HTree _) => False | _ => True end) /\
  is_Some (s_nodes s !! x).
Proof.
  exists leak_ops, (ran leak_ops), (outs leak_ops), 4. split; [apply ran_ok; by vm_compute|]. split; [|vm_compute; eauto].
  assert (map_to_list (s_hands (ran leak_ops)) = [(9, HNodeWeak 6)]) as Hl by (vm_compute; reflexivity).
  intros i. destruct (s_hands (ran leak_ops) !! i) as [h|] eqn:Hi; [|exact Logic.I].
  apply elem_of_map_to_list in Hi. rewrite Hl in Hi. apply elem_of_list_singleton in Hi. injection Hi as _ ->. exact Logic.I.
Qed.
Print Assumptions C28_refuted.
Theorem C30_refuted : exists (os : list (op nat)) s rs i x,
  steps init os = Ret (s, rs) /\ s_hands s !! i = Some (HNodeWeak x) /\ step s (OpUpgrade i) = Panic.
Proof. exists leak_ops, (ran leak_ops), (outs leak_ops), 9, 6. split; [apply ran_ok; by vm_compute|]. by vm_compute. Qed.
Print Assumptions C30_refuted.

(** C29: a failed move next to the root of another tree leaves a node that is a root of
    its own but belongs to that tree. *)
Theorem C29_refuted : exists (os : list (op nat)) s rs x y,
  steps init os = Ret (s, rs) /\ x <> y /\ tree_of s x = tree_of s y /\ is_root (s_nodes s) x = true /\ is_root (s_nodes s) y = true.
Proof.
  pose (os := demo_ops ++ [OpMove (ByHot 5) ANextSibling 19]). exists os, (ran os), (outs os), 4, 16.
  split; [apply ran_ok; by vm_compute|]. by vm_compute.
Qed.
Print Assumptions C29_refuted.

(** C32: after a whole tree was moved, dropping the [Tree] handle of the old tree removes
    all children of the nodes of the other tree. *)
Theorem C32_refuted : exists (os : list (op nat)) s rs i t y c s',
  steps init os = Ret (s, rs) /\ s_hands s !! i = Some (HTree t) /\ tree_of s y <> Some t /\
  first_child_link (s_nodes s) y = Some c /\ fnch (s_nodes s) y = 2 /\
  step s (OpDrop i) = Ret (s', OutUnit) /\ first_child_link (s_nodes s') y = None.
Proof.
  pose (os := [OpNewTree 10; OpTree 2; OpBundle Hot 2; OpNewTree 20; OpBundle Hot 7; OpCreate (ByHot 8) 30 AFirstChild; OpMove (ByHot 4) AFirstChild 8]).
  exists os, (ran os), (outs os), 3, 1, 5, 0, (nxt (ran os) (OpDrop 3)).
  split; [apply ran_ok; by vm_compute|]. split; [by vm_compute|]. split; [by vm_compute|]. split; [by vm_compute|]. split; [by vm_compute|].
  split; [apply nxt_ok; by vm_compute|]. by vm_compute.
Qed.
Print Assumptions C32_refuted.
