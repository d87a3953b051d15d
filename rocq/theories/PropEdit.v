(** * PropEdit: what edits of the hierarchy do (C01-C11).

    [reach s]: [s] is the state after a history of calls none of which is one of
    the defective ones listed in [safe] (ApiSpec.v); the [_refuted] theorems show
    what those do.  [stores s K]: the links of [s] form the ordered forest [K].
    [receiver s a k x]: the call is made on the node [x] with a valid grant. *)
From Verif Require Import Heap Edit System SysSpec ApiSpec NavFacts2 ApiFacts ApiFacts2 ApiFacts3 ApiFacts6 ApiFacts7 ApiFacts9 Demo Examples Spec.

(** ** C01 *)

(** Every reachable state stores exactly one ordered forest (on which
    [C01_navigation] says what each accessor returns). *)
Theorem C01_reachable_partial : forall (T : Type) (s : sys T), reach s ->
  exists K, stores s K /\ forall K', stores s K' -> K' = K.
Proof. intros T s H. destruct (reach_stores s H) as [K HK]. exists K. split; [exact HK|]. intros K' HK'. exact (stores_unique s K' K HK' HK). Qed.
Print Assumptions C01_reachable_partial.

(** Every navigation call on every handle succeeds and returns a handle of the
    same kind on exactly the node the forest prescribes. *)
Theorem C01_navigation_calls_partial : forall (T : Type) (s : sys T) K v i k x,
  reach s -> stores s K -> s_hands s !! i = Some (HNode k x) ->
  exists o, nav_spec K v x o /\
    match o with
    | None => step s (OpNav v i) = Ret (s, OutNone)
    | Some y => exists s' j, step s (OpNav v i) = Ret (s', OutHandle j) /\ gives s s' j (HNode k y)
    end.
Proof. exact @nav_api. Qed.
Print Assumptions C01_navigation_calls_partial.
Example C01_reachable_nonvacuous : reach demo /\ stores demo demoK /\ demoK !! 0 = Some [4; 6; 8] /\
  s_hands demo !! 7 = Some (HNode Hot 6) /\ nav_spec demoK NNext 6 (Some 8).
Proof.
  split; [exact demo_reach|]. split; [exact demo_stores|]. split; [by vm_compute|]. split; [by vm_compute|].
  right. exists 0, [4; 6; 8], 1. by vm_compute.
Qed.

(** In full generality the claim is false: after detaching the last of several
    children, [last_child()] returns the detached node. *)
Theorem C01_refuted : exists (os : list (op nat)) s rs p x i j s',
  steps init os = Ret (s, rs) /\ s_hands s !! i = Some (HNode Hot p) /\
  step s (OpNav NLastChild i) = Ret (s', OutHandle j) /\ s_hands s' !! j = Some (HNode Hot x) /\
  parent_link (s_nodes s) x = None.
Proof.
  pose (os := demo_ops ++ [OpDetach (ByHot 9)]). exists os, (ran os), (outs os), 0, 8, 3, 23, (nxt (ran os) (OpNav NLastChild 3)).
  split; [apply ran_ok; by vm_compute|]. split; [by vm_compute|]. split; [apply nxt_ok; by vm_compute|]. by vm_compute.
Qed.
Print Assumptions C01_refuted.

(** ** C02 *)
Theorem C02_create_child : forall (T : Type) (s : sys T) K a k x ks d,
  reach s -> stores s K -> receiver s a k x -> K !! x = Some ks ->
  (exists s' n i t, step s (OpCreate a d AFirstChild) = Ret (s', OutHandle i) /\ tree_of s x = Some t /\
     adds s s' (<[x := n :: ks]> (<[n := []]> K)) t n d k i) /\
  (exists s' n i t, step s (OpCreate a d ALastChild) = Ret (s', OutHandle i) /\ tree_of s x = Some t /\
     adds s s' (<[x := ks ++ [n]]> (<[n := []]> K)) t n d k i).
Proof. exact @create_child_ok. Qed.
Print Assumptions C02_create_child.
Example C02_nonvacuous : reach demo /\ stores demo demoK /\ receiver demo (ByHot 3) Hot 0 /\ demoK !! 0 = Some [4; 6; 8].
Proof. split; [exact demo_reach|]. split; [exact demo_stores|]. vm_compute. done. Qed.

(** ** C03 *)
Theorem C03_create_sibling : forall (T : Type) (s : sys T) K a k x d,
  reach s -> stores s K -> receiver s a k x ->
  (forall p ks, K !! p = Some ks -> x ∈ ks ->
     (exists s' n i t, step s (OpCreate a d APreviousSibling) = Ret (s', OutHandle i) /\ tree_of s x = Some t /\
        adds s s' (<[p := ins_before x n ks]> (<[n := []]> K)) t n d k i) /\
     (exists s' n i t, step s (OpCreate a d ANextSibling) = Ret (s', OutHandle i) /\ tree_of s x = Some t /\
        adds s s' (<[p := ins_after x n ks]> (<[n := []]> K)) t n d k i)) /\
  (forall ad, is_top K x -> ad = APreviousSibling \/ ad = ANextSibling ->
     exists s', step s (OpCreate a d ad) = Ret (s', OutErr SiblingsWithoutParent) /\
       s_nodes s' = s_nodes s /\ s_trees s' = s_trees s /\ s_hands s' = s_hands s).
Proof.
  intros T s K a k x d H Hst Hr. split.
  - intros p ks Hp Hin. exact (create_sibling_ok s K a k x p ks d H Hst Hr Hp Hin).
  - intros ad Ht Ha. exact (create_sibling_root s K a k x d ad H Hst Hr Ht Ha).
Qed.
Print Assumptions C03_create_sibling.
Example C03_nonvacuous : reach demo /\ stores demo demoK /\ receiver demo (ByHot 7) Hot 6 /\ 6 ∈ [4; 6; 8] /\
  demoK !! 0 = Some [4; 6; 8] /\ receiver demo (ByHot 3) Hot 0 /\ is_top demoK 0.
Proof.
  split; [exact demo_reach|]. split; [exact demo_stores|]. split; [by vm_compute|]. split; [set_solver|].
  split; [by vm_compute|]. split; [by vm_compute|]. apply is_top_check; vm_compute; reflexivity.
Qed.

(** ** C04 *)
Theorem C04_interrupting_parent : forall (T : Type) (s : sys T) K a k x d,
  reach s -> stores s K -> receiver s a k x ->
  (forall p ks, K !! p = Some ks -> x ∈ ks ->
     exists s' n i t, step s (OpInterruptParent a d) = Ret (s', OutHandle i) /\ tree_of s x = Some t /\
       adds s s' (<[n := [x]]> (<[p := subst_child x n ks]> K)) t n d k i) /\
  (is_top K x ->
     exists s' n i t, step s (OpInterruptParent a d) = Ret (s', OutHandle i) /\ tree_of s x = Some t /\
       adds s s' (<[n := [x]]> K) t n d k i /\ t_root <$> s_trees s' !! t = Some n).
Proof. exact @interrupt_parent_api. Qed.
Print Assumptions C04_interrupting_parent.
Example C04_nonvacuous : reach demo /\ stores demo demoK /\ receiver demo (ByHot 9) Hot 8 /\ demoK !! 0 = Some [4; 6; 8] /\
  subst_child 8 22 [4; 6; 8] = [4; 6; 22].
Proof. split; [exact demo_reach|]. split; [exact demo_stores|]. vm_compute. done. Qed.

(** ** C05 *)
Theorem C05_interrupting_child : forall (T : Type) (s : sys T) K a k x ks d,
  reach s -> stores s K -> receiver s a k x -> K !! x = Some ks ->
  exists s' n i t, step s (OpInterruptChild a d) = Ret (s', OutHandle i) /\ tree_of s x = Some t /\
    adds s s' (<[x := [n]]> (<[n := ks]> K)) t n d k i.
Proof. exact @interrupt_child_api. Qed.
Print Assumptions C05_interrupting_child.
Example C05_nonvacuous : reach demo /\ stores demo demoK /\ receiver demo (ByHot 5) Hot 4 /\ demoK !! 4 = Some [10; 12].
Proof. split; [exact demo_reach|]. split; [exact demo_stores|]. vm_compute. done. Qed.

(** ** C06: full claim false; true unless the node is a childless last of several
    siblings. *)
Theorem C06_replace_partial : forall (T : Type) (s : sys T) K a k x cs,
  reach s -> stores s K -> receiver s a k x -> K !! x = Some cs ->
  (forall p ks, K !! p = Some ks -> x ∈ ks -> (last_not_first K x -> cs = [] -> alone s K x) ->
     exists s' t t' K2, step s (OpReplace a) = Ret (s', OutUnit) /\ tree_of s x = Some t /\
       splits s (<[x := []]> (<[p := splice x cs ks]> K)) x t t' s' K2) /\
  (forall c, is_top K x -> cs = [c] ->
     exists s' t t' K2, step s (OpReplace a) = Ret (s', OutUnit) /\ tree_of s x = Some t /\
       splits s (<[x := []]> K) x t t' s' K2 /\ (is_Some (s_trees s' !! t) -> t_root <$> s_trees s' !! t = Some c)) /\
  (is_top K x -> cs = [] -> step s (OpReplace a) = Ret (s, OutErr EmptyTree)) /\
  (is_top K x -> 1 < length cs -> step s (OpReplace a) = Ret (s, OutErr SiblingsWithoutParent)).
Proof. exact @replace_api. Qed.
Print Assumptions C06_replace_partial.
Example C06_nonvacuous : reach demo /\ stores demo demoK /\ receiver demo (ByHot 5) Hot 4 /\ demoK !! 4 = Some [10; 12] /\
  demoK !! 0 = Some [4; 6; 8] /\ splice 4 [10; 12] [4; 6; 8] = [10; 12; 6; 8].
Proof. split; [exact demo_reach|]. split; [exact demo_stores|]. vm_compute. done. Qed.

(** Replacing the childless last child 12 of 4: [last_child()] of 4 still is 12. *)
Theorem C06_refuted : exists (s : sys nat) K a k x p ks s' i j s'',
  reach s /\ stores s K /\ receiver s a k x /\ K !! p = Some ks /\ x ∈ ks /\
  step s (OpReplace a) = Ret (s', OutUnit) /\
  s_hands s' !! i = Some (HNode Hot p) /\ step s' (OpNav NLastChild i) = Ret (s'', OutHandle j) /\
  s_hands s'' !! j = Some (HNode Hot x) /\ parent_link (s_nodes s') x = None.
Proof.
  exists demo, demoK, (ByHot 13), Hot, 12, 4, [10; 12]. exists (nxt demo (OpReplace (ByHot 13))). exists 5, 23. exists (nxt (nxt demo (OpReplace (ByHot 13))) (OpNav NLastChild 5)).
  split; [exact demo_reach|]. split; [exact demo_stores|]. split; [by vm_compute|]. split; [by vm_compute|].
  split; [set_solver|]. split; [apply nxt_ok; by vm_compute|]. split; [by vm_compute|]. split; [apply nxt_ok; by vm_compute|]. by vm_compute.
Qed.
Print Assumptions C06_refuted.

(** ** C07: full claim false; true unless the node is the last of several siblings. *)
Theorem C07_detach_partial : forall (T : Type) (s : sys T) K a k x,
  reach s -> stores s K -> receiver s a k x ->
  (is_top K x -> step s (OpDetach a) = Ret (s, OutUnit)) /\
  (forall p ks, K !! p = Some ks -> x ∈ ks -> (last_not_first K x -> alone s K x) ->
     exists s' t t' K2, step s (OpDetach a) = Ret (s', OutUnit) /\ tree_of s x = Some t /\
       splits s (<[p := without x ks]> K) x t t' s' K2 /\ (forall tr, shape K x tr -> shape K2 x tr)).
Proof.
  intros T s K a k x H Hst Hr. split; [exact (proj1 (detach_api s K a k x H Hst Hr))|exact (detach_shape_api s K a k x H Hst Hr)].
Qed.
Print Assumptions C07_detach_partial.
Example C07_nonvacuous : reach demo /\ stores demo demoK /\ receiver demo (ByHot 5) Hot 4 /\ demoK !! 0 = Some [4; 6; 8] /\
  ~ last_not_first demoK 4 /\ without 4 [4; 6; 8] = [6; 8].
Proof.
  split; [exact demo_reach|]. split; [exact demo_stores|]. split; [by vm_compute|]. split; [by vm_compute|].
  split; [apply lnf_b_ok; by vm_compute|by vm_compute].
Qed.
Theorem C07_refuted : exists (s : sys nat) K a k x p ks s' i j s'',
  reach s /\ stores s K /\ receiver s a k x /\ K !! p = Some ks /\ x ∈ ks /\
  step s (OpDetach a) = Ret (s', OutUnit) /\
  s_hands s' !! i = Some (HNode Hot p) /\ step s' (OpNav NLastChild i) = Ret (s'', OutHandle j) /\
  s_hands s'' !! j = Some (HNode Hot x) /\ parent_link (s_nodes s') x = None /\ tree_of s' x <> tree_of s' p.
Proof.
  exists demo, demoK, (ByHot 9), Hot, 8, 0, [4; 6; 8]. exists (nxt demo (OpDetach (ByHot 9))). exists 3, 23. exists (nxt (nxt demo (OpDetach (ByHot 9))) (OpNav NLastChild 3)).
  split; [exact demo_reach|]. split; [exact demo_stores|]. split; [by vm_compute|]. split; [by vm_compute|].
  split; [set_solver|]. split; [apply nxt_ok; by vm_compute|]. split; [by vm_compute|]. split; [apply nxt_ok; by vm_compute|]. by vm_compute.
Qed.
Print Assumptions C07_refuted.
(** Once the detached node is gone, asking for the last child panics. *)
Theorem C07_panic_refuted : exists (os : list (op nat)) s rs i p,
  steps init os = Ret (s, rs) /\ s_hands s !! i = Some (HNode Hot p) /\ step s (OpNav NLastChild i) = Panic.
Proof.
  pose (os := demo_ops ++ [OpDetach (ByHot 9); OpDrop 9; OpDrop 15]). exists os, (ran os), (outs os), 3, 0.
  split; [apply ran_ok; by vm_compute|]. by vm_compute.
Qed.
Print Assumptions C07_panic_refuted.

(** ** C08 and C10: moving.  The guards: not the last of several siblings, not into
    its own subtree, and a position next to a root is not one. *)
Theorem C08_C10_move_partial : forall (T : Type) (s : sys T) K a k x ad j y,
  reach s -> stores s K -> receiver s a k x -> s_hands s !! j = Some (HNode Hot y) ->
  (exists p, child_of K p x) -> (last_not_first K x -> alone s K x) -> ~ below K x y -> has_place K ad y ->
  exists s' t t', step s (OpMove a ad j) = Ret (s', OutUnit) /\ tree_of s x = Some t /\ tree_of s y = Some t' /\
    (t = t' -> exists K', moved K x (dest_of ad y) K' /\ reshapes s s' K' /\ forall tr, shape K x tr -> shape K' x tr) /\
    (t <> t' -> exists K1 K2 K3, unlinked K x K1 /\ carries s K1 x t t' s' K2 /\ attached K2 x (dest_of ad y) K3 /\
       stores s' K3 /\ forall tr, shape K x tr -> shape K3 x tr).
Proof. exact @move_shape_api. Qed.
Print Assumptions C08_C10_move_partial.
Example C08_nonvacuous : reach demo /\ stores demo demoK /\ receiver demo (ByHot 5) Hot 4 /\
  s_hands demo !! 15 = Some (HNode Hot 14) /\ s_hands demo !! 21 = Some (HNode Hot 20) /\
  (exists p, child_of demoK p 4) /\ ~ last_not_first demoK 4 /\ ~ below demoK 4 14 /\ ~ below demoK 4 20 /\
  has_place demoK ANextSibling 14 /\ has_place demoK APreviousSibling 20 /\
  tree_of demo 4 = tree_of demo 14 /\ tree_of demo 4 <> tree_of demo 20.
Proof.
  split; [exact demo_reach|]. split; [exact demo_stores|]. split; [by vm_compute|]. split; [by vm_compute|]. split; [by vm_compute|].
  split; [apply kid_b_ok; by vm_compute|]. split; [apply lnf_b_ok; by vm_compute|].
  split; [apply (not_above_ok 20 (s_nodes demo)); [apply demo_stores|by vm_compute]|].
  split; [apply (not_above_ok 20 (s_nodes demo)); [apply demo_stores|by vm_compute]|].
  split; [apply kid_b_ok; by vm_compute|]. split; [apply kid_b_ok; by vm_compute|]. by vm_compute.
Qed.

(** C08, false in general: moving the last child 8 below 4 leaves [last_child()]
    of 0 at 8, whose parent is now 4. *)
Theorem C08_refuted : exists (s : sys nat) K a k x ad j y p s' i m s'',
  reach s /\ stores s K /\ receiver s a k x /\ s_hands s !! j = Some (HNode Hot y) /\
  tree_of s x = tree_of s y /\ child_of K p x /\ ~ below K x y /\ p <> y /\
  step s (OpMove a ad j) = Ret (s', OutUnit) /\ parent_link (s_nodes s') x = Some y /\
  s_hands s' !! i = Some (HNode Hot p) /\ step s' (OpNav NLastChild i) = Ret (s'', OutHandle m) /\
  s_hands s'' !! m = Some (HNode Hot x).
Proof.
  exists demo, demoK, (ByHot 9), Hot, 8, AFirstChild, 5, 4, 0. exists (nxt demo (OpMove (ByHot 9) AFirstChild 5)). exists 3, 22. exists (nxt (nxt demo (OpMove (ByHot 9) AFirstChild 5)) (OpNav NLastChild 3)).
  split; [exact demo_reach|]. split; [exact demo_stores|]. split; [by vm_compute|]. split; [by vm_compute|]. split; [by vm_compute|].
  split; [exists [4; 6; 8]; split; [by vm_compute|set_solver]|].
  split; [apply (not_above_ok 20 (s_nodes demo)); [apply demo_stores|by vm_compute]|]. split; [lia|].
  split; [apply nxt_ok; by vm_compute|]. split; [by vm_compute|]. split; [by vm_compute|]. split; [apply nxt_ok; by vm_compute|]. by vm_compute.
Qed.
Print Assumptions C08_refuted.

(** Moving the root inside its own tree is accepted and does nothing at all (C09
    demands the loop error). *)
Theorem C09_root_move_noop : forall (T : Type) (s : sys T) K a k x ad j y,
  reach s -> stores s K -> receiver s a k x -> s_hands s !! j = Some (HNode Hot y) ->
  is_top K x -> tree_of s x = tree_of s y -> step s (OpMove a ad j) = Ret (s, OutUnit).
Proof. exact @move_root_same. Qed.
Print Assumptions C09_root_move_noop.

(** ** C09 *)
(** Reachable forests have no cycle: going up always ends at a root. *)
Theorem C09_acyclic_partial : forall (T : Type) (s : sys T) K x, reach s -> stores s K -> is_Some (K !! x) ->
  exists l, anc K x l /\ NoDup (x :: l).
Proof. exact @reach_anc. Qed.
Print Assumptions C09_acyclic_partial.
(** But in whatever state, no move of a non-root node is ever refused as a loop... *)
Theorem C09_loop_never_detected : forall (T : Type) (s s' : sys T) a k x ad j e,
  receiver s a k x -> is_root (s_nodes s) x = false ->
  step s (OpMove a ad j) = Ret (s', OutErr e) -> e <> AncestorDescendantLoop.
Proof. intros T s s' a k x ad j e Hr Hx E. rewrite (no_loop_error s a k x ad j s' e Hr Hx E). done. Qed.
Print Assumptions C09_loop_never_detected.
(** ... so a node can be moved below its own child, and each is then the parent of
    the other. *)
Theorem C09_refuted : exists (s : sys nat) K a k x ad j y s',
  reach s /\ stores s K /\ receiver s a k x /\ s_hands s !! j = Some (HNode Hot y) /\ child_of K x y /\
  step s (OpMove a ad j) = Ret (s', OutUnit) /\
  parent_link (s_nodes s') x = Some y /\ parent_link (s_nodes s') y = Some x.
Proof.
  exists demo, demoK, (ByHot 5), Hot, 4, AFirstChild, 11, 10. exists (nxt demo (OpMove (ByHot 5) AFirstChild 11)).
  split; [exact demo_reach|]. split; [exact demo_stores|]. split; [by vm_compute|]. split; [by vm_compute|].
  split; [exists [10; 12]; split; [by vm_compute|set_solver]|]. split; [apply nxt_ok; by vm_compute|]. by vm_compute.
Qed.
Print Assumptions C09_refuted.
Example C09_nonvacuous : reach demo /\ stores demo demoK /\ receiver demo (ByHot 5) Hot 4 /\ is_root (s_nodes demo) 4 = false.
Proof. split; [exact demo_reach|]. split; [exact demo_stores|]. vm_compute. done. Qed.

(** ** C10, false in general: moving a whole tree.  When nothing else holds the old
    tree, its teardown runs half-way through the move and frees the children of the
    moved node; the node still counts one child. *)
Theorem C10_refuted : exists (os : list (op nat)) s rs a k x y c ad j s',
  steps init os = Ret (s, rs) /\ receiver s a k x /\ s_hands s !! j = Some (HNode Hot y) /\
  first_child_link (s_nodes s) x = Some c /\ tree_of s x <> tree_of s y /\
  step s (OpMove a ad j) = Ret (s', OutUnit) /\ s_nodes s' !! c = None /\
  first_child_link (s_nodes s') x = None /\ fnch (s_nodes s') x = 1.
Proof.
  pose (os := [OpNewTree 10; OpBundle Hot 2; OpCreate (ByHot 3) 11 AFirstChild; OpDrop 5; OpNewTree 20; OpBundle Hot 8]).
  exists os, (ran os), (outs os), (ByHot 3), Hot, 0, 6, 4, AFirstChild, 9, (nxt (ran os) (OpMove (ByHot 3) AFirstChild 9)).
  split; [apply ran_ok; by vm_compute|]. split; [by vm_compute|]. split; [by vm_compute|]. split; [by vm_compute|]. split; [by vm_compute|].
  split; [apply nxt_ok; by vm_compute|]. by vm_compute.
Qed.
Print Assumptions C10_refuted.
(** When a [Tree] handle keeps the old tree, that handle's root is afterwards a node
    of the other tree. *)
Theorem C10_stale_root_refuted : exists (os : list (op nat)) s rs i t r,
  steps init os = Ret (s, rs) /\ s_hands s !! i = Some (HTree t) /\
  t_root <$> s_trees s !! t = Some r /\ tree_of s r <> Some t /\ parent_link (s_nodes s) r <> None.
Proof.
  pose (os := [OpNewTree 10; OpTree 2; OpBundle Hot 2; OpNewTree 20; OpBundle Hot 7; OpMove (ByHot 4) AFirstChild 8]).
  exists os, (ran os), (outs os), 3, 1, 0. split; [apply ran_ok; by vm_compute|]. by vm_compute.
Qed.
Print Assumptions C10_stale_root_refuted.

(** ** C11 *)
Theorem C11_failed_edit_partial : forall (T : Type) (s s' : sys T) K o e,
  reach s -> stores s K -> safe s K o -> step s o = Ret (s', OutErr e) ->
  s_nodes s' = s_nodes s /\ s_trees s' = s_trees s /\ s_hands s' = s_hands s.
Proof. exact @failed_edit'. Qed.
Print Assumptions C11_failed_edit_partial.
Example C11_nonvacuous : reach demo /\ stores demo demoK /\ safe demo demoK (OpReplace (ByHot 3)) /\
  step demo (OpReplace (ByHot 3)) = Ret (demo, OutErr SiblingsWithoutParent).
Proof.
  split; [exact demo_reach|]. split; [exact demo_stores|]. split; [apply safe_b_ok; [exact demo_stores|by vm_compute]|].
  by vm_compute.
Qed.
(** False in general: a failing move has already cut the node off. *)
Theorem C11_refuted : exists (s : sys nat) K a k x ad j y s' p,
  reach s /\ stores s K /\ receiver s a k x /\ s_hands s !! j = Some (HNode Hot y) /\ child_of K p x /\
  step s (OpMove a ad j) = Ret (s', OutErr SiblingsWithoutParent) /\ parent_link (s_nodes s') x = None.
Proof.
  exists demo, demoK, (ByHot 5), Hot, 4, ANextSibling, 3, 0. exists (nxt demo (OpMove (ByHot 5) ANextSibling 3)). exists 0.
  split; [exact demo_reach|]. split; [exact demo_stores|]. split; [by vm_compute|]. split; [by vm_compute|].
  split; [exists [4; 6; 8]; split; [by vm_compute|set_solver]|]. split; [apply nxt_ok; by vm_compute|]. by vm_compute.
Qed.
Print Assumptions C11_refuted.
(** Moving a node next to itself: likewise. *)
Theorem C11_self_refuted : exists (s : sys nat) K a k x ad j s' p,
  reach s /\ stores s K /\ receiver s a k x /\ s_hands s !! j = Some (HNode Hot x) /\ child_of K p x /\
  step s (OpMove a ad j) = Ret (s', OutErr SiblingsWithoutParent) /\ parent_link (s_nodes s') x = None.
Proof.
  exists demo, demoK, (ByHot 5), Hot, 4, ANextSibling, 5. exists (nxt demo (OpMove (ByHot 5) ANextSibling 5)). exists 0.
  split; [exact demo_reach|]. split; [exact demo_stores|]. split; [by vm_compute|]. split; [by vm_compute|].
  split; [exists [4; 6; 8]; split; [by vm_compute|set_solver]|]. split; [apply nxt_ok; by vm_compute|]. by vm_compute.
Qed.
Print Assumptions C11_self_refuted.
