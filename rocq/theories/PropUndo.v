(** * PropUndo: edits can be undone (C52).

    [set_apart] and [at_place] are defined in UndoSpec.v. *)
From Verif Require Import Heap System SysSpec ApiSpec ApiFacts ApiFacts2 ApiFacts3 Demo UndoSpec UndoFacts UndoFacts2 Spec.

Lemma nxt_stores (s : sys nat) K o : reach s -> stores s K -> safe_b s o = true -> match step s o with Ret _ => true | _ => false end = true ->
  stores (nxt s o) (forest_of (s_nodes (nxt s o))).
Proof.
  intros R Hst Hs E. assert (reach (nxt s o)) as R'. { eapply reach_step; [exact R|exact Hst|exact (safe_b_ok s K o Hst Hs)|exact (nxt_ok s o _ E eq_refl)]. }
  destruct (reach_stores _ R') as [K' Hst']. rewrite (forest_of_ok _ K' (proj1 Hst') (proj2 Hst')). exact Hst'.
Qed.

(** Whatever node was put between [x] and its parent ([interrupt]-ing the link above it, also above a root), or between
    [x] and its children: replacing the new node by its children takes it out again, and leaves it alone in a tree of
    its own; everything else is as it was before it was added. *)
Theorem C52_unwrap : forall (T : Type) (s : sys T) (K : forest) (a : auth) (k : kind) (x : nid) (d : T) (o : op T),
  reach s -> stores s K -> receiver s a k x -> o = OpInterruptParent a d \/ o = OpInterruptChild a d ->
  exists s1 n i, step s o = Ret (s1, OutHandle i) /\ s_hands s1 !! i = Some (HNode k n) /\
    forall a' k', receiver s1 a' k' n ->
      exists s2 t', step s1 (OpReplace a') = Ret (s2, OutUnit) /\ set_apart s K n d k i t' s2.
Proof.
  intros T s K a k x d o H Hst Hr [-> | ->]; [exact (wrap_undone s K a k x d H Hst Hr)|exact (wrap_child_undone s K a k x d H Hst Hr)].
Qed.
Print Assumptions C52_unwrap.
Example C52_unwrap_nonvacuous : reach demo /\ stores demo demoK /\ receiver demo (ByHot 5) Hot 4 /\ demoK !! 4 = Some [10; 12] /\ demoK !! 0 = Some [4; 6; 8] /\
  (exists s1 s2, step demo (OpInterruptParent (ByHot 5) 7) = Ret (s1, OutHandle 23) /\ receiver s1 (ByHot 23) Hot 22 /\
     step s1 (OpReplace (ByHot 23)) = Ret (s2, OutUnit)) /\
  (exists s1 s2, step demo (OpInterruptChild (ByHot 5) 7) = Ret (s1, OutHandle 23) /\ receiver s1 (ByHot 23) Hot 22 /\
     step s1 (OpReplace (ByHot 23)) = Ret (s2, OutUnit)).
Proof.
  split; [exact demo_reach|]. split; [exact demo_stores|]. split; [by vm_compute|]. split; [by vm_compute|]. split; [by vm_compute|]. split.
  - exists (nxt demo (OpInterruptParent (ByHot 5) 7)), (nxt (nxt demo (OpInterruptParent (ByHot 5) 7)) (OpReplace (ByHot 23))).
    split; [apply nxt_ok; by vm_compute|]. split; [by vm_compute|]. apply nxt_ok; by vm_compute.
  - exists (nxt demo (OpInterruptChild (ByHot 5) 7)), (nxt (nxt demo (OpInterruptChild (ByHot 5) 7)) (OpReplace (ByHot 23))).
    split; [apply nxt_ok; by vm_compute|]. split; [by vm_compute|]. apply nxt_ok; by vm_compute.
Qed.

(** The same for a new leaf, which may be detached or replaced by its (no) children; not if it is the last of several
    siblings (see [C52_refuted]). *)
Theorem C52_create_undone_partial : forall (T : Type) (s : sys T) (K : forest) (a : auth) (k : kind) (x : nid) (d : T) (ad : adopt_as),
  reach s -> stores s K -> receiver s a k x -> has_place K ad x ->
  exists s1 n i K1, step s (OpCreate a d ad) = Ret (s1, OutHandle i) /\ s_hands s1 !! i = Some (HNode k n) /\ stores s1 K1 /\
    forall a' k' o, receiver s1 a' k' n -> ~ last_not_first K1 n -> o = OpDetach a' \/ o = OpReplace a' ->
      exists s2 t', step s1 o = Ret (s2, OutUnit) /\ set_apart s K n d k i t' s2.
Proof. exact @create_undone. Qed.
Print Assumptions C52_create_undone_partial.
Example C52_create_undone_nonvacuous : reach demo /\ stores demo demoK /\ receiver demo (ByHot 5) Hot 4 /\ has_place demoK ANextSibling 4 /\
  exists s1 s2, step demo (OpCreate (ByHot 5) 7 ANextSibling) = Ret (s1, OutHandle 23) /\ receiver s1 (ByHot 23) Hot 22 /\
    stores s1 (forest_of (s_nodes s1)) /\ ~ last_not_first (forest_of (s_nodes s1)) 22 /\ step s1 (OpDetach (ByHot 23)) = Ret (s2, OutUnit).
Proof.
  split; [exact demo_reach|]. split; [exact demo_stores|]. split; [by vm_compute|]. split; [apply kid_b_ok; by vm_compute|].
  exists (nxt demo (OpCreate (ByHot 5) 7 ANextSibling)), (nxt (nxt demo (OpCreate (ByHot 5) 7 ANextSibling)) (OpDetach (ByHot 23))).
  split; [apply nxt_ok; by vm_compute|]. split; [by vm_compute|]. split; [apply (nxt_stores demo demoK); [exact demo_reach|exact demo_stores|by vm_compute|by vm_compute]|]. split; [apply lnf_b_ok; by vm_compute|]. apply nxt_ok; by vm_compute.
Qed.

(** A node moved away, into another place of its tree or into another tree, and moved back to its place leaves no trace:
    every link, every node's tree and data, every tree and its root, and every handle are as they were. *)
Theorem C52_move_back_partial : forall (T : Type) (s : sys T) (K : forest) (a : auth) (k : kind) (x : nid) (ad : adopt_as) (j : nat) (y : nid)
  (home : adopt_as) (j' : nat) (y' : nid),
  reach s -> stores s K -> receiver s a k x -> ~ last_not_first K x ->
  s_hands s !! j = Some (HNode Hot y) -> ~ below K x y -> has_place K ad y ->
  at_place K x home y' -> s_hands s !! j' = Some (HNode Hot y') ->
  exists s1 K1, step s (OpMove a ad j) = Ret (s1, OutUnit) /\ stores s1 K1 /\ s_hands s1 = s_hands s /\
    forall a' k', receiver s1 a' k' x -> ~ last_not_first K1 x ->
      exists s2, step s1 (OpMove a' home j') = Ret (s2, OutUnit) /\ s_hands s2 = s_hands s /\ same_view s s2.
Proof. exact @move_back. Qed.
Print Assumptions C52_move_back_partial.
Example C52_move_back_nonvacuous : reach demo /\ stores demo demoK /\ receiver demo (ByHot 7) Hot 6 /\ ~ last_not_first demoK 6 /\
  s_hands demo !! 19 = Some (HNode Hot 16) /\ ~ below demoK 6 16 /\ tree_of demo 16 <> tree_of demo 6 /\ has_place demoK AFirstChild 16 /\
  at_place demoK 6 ANextSibling 4 /\ s_hands demo !! 5 = Some (HNode Hot 4) /\
  exists s1 s2, step demo (OpMove (ByHot 7) AFirstChild 19) = Ret (s1, OutUnit) /\ stores s1 (forest_of (s_nodes s1)) /\
    receiver s1 (ByHot 7) Hot 6 /\ ~ last_not_first (forest_of (s_nodes s1)) 6 /\ step s1 (OpMove (ByHot 7) ANextSibling 5) = Ret (s2, OutUnit).
Proof.
  split; [exact demo_reach|]. split; [exact demo_stores|]. split; [by vm_compute|]. split; [apply lnf_b_ok; by vm_compute|]. split; [by vm_compute|].
  split; [apply (not_above_ok 20 (s_nodes demo)); [apply demo_stores|by vm_compute]|]. split; [by vm_compute|]. split; [exact Logic.I|].
  split; [exists 0, [], [8]; by vm_compute|]. split; [by vm_compute|].
  exists (nxt demo (OpMove (ByHot 7) AFirstChild 19)), (nxt (nxt demo (OpMove (ByHot 7) AFirstChild 19)) (OpMove (ByHot 7) ANextSibling 5)).
  split; [apply nxt_ok; by vm_compute|]. split; [apply (nxt_stores demo demoK); [exact demo_reach|exact demo_stores|by vm_compute|by vm_compute]|]. split; [by vm_compute|]. split; [apply lnf_b_ok; by vm_compute|]. apply nxt_ok; by vm_compute.
Qed.

(** A leaf taken out of its tree and moved back to its place. *)
Theorem C52_detach_back_partial : forall (T : Type) (s : sys T) (K : forest) (a : auth) (k : kind) (x : nid) (home : adopt_as) (j' : nat) (y' : nid),
  reach s -> stores s K -> receiver s a k x -> ~ last_not_first K x -> K !! x = Some [] ->
  at_place K x home y' -> s_hands s !! j' = Some (HNode Hot y') ->
  exists s1, step s (OpDetach a) = Ret (s1, OutUnit) /\ s_hands s1 = s_hands s /\
    forall a' k', receiver s1 a' k' x ->
      exists s2, step s1 (OpMove a' home j') = Ret (s2, OutUnit) /\ s_hands s2 = s_hands s /\ same_view s s2.
Proof. exact @detach_back. Qed.
Print Assumptions C52_detach_back_partial.
Example C52_detach_back_nonvacuous : reach demo /\ stores demo demoK /\ receiver demo (ByHot 7) Hot 6 /\ ~ last_not_first demoK 6 /\ demoK !! 6 = Some [] /\
  at_place demoK 6 APreviousSibling 8 /\ s_hands demo !! 9 = Some (HNode Hot 8) /\
  exists s1 s2, step demo (OpDetach (ByHot 7)) = Ret (s1, OutUnit) /\ receiver s1 (ByHot 7) Hot 6 /\ step s1 (OpMove (ByHot 7) APreviousSibling 9) = Ret (s2, OutUnit).
Proof.
  split; [exact demo_reach|]. split; [exact demo_stores|]. split; [by vm_compute|]. split; [apply lnf_b_ok; by vm_compute|]. split; [by vm_compute|].
  split; [exists 0, [4], []; by vm_compute|]. split; [by vm_compute|].
  exists (nxt demo (OpDetach (ByHot 7))), (nxt (nxt demo (OpDetach (ByHot 7))) (OpMove (ByHot 7) APreviousSibling 9)).
  split; [apply nxt_ok; by vm_compute|]. split; [by vm_compute|]. apply nxt_ok; by vm_compute.
Qed.

(** Without the restriction the claim is false: a node appended to the children of 4 and detached again still is what
    [last_child] of 4 returns, instead of 12. *)
Theorem C52_refuted : exists (s : sys nat) K a k x s1 s2 s3 i n j h,
  reach s /\ stores s K /\ receiver s a k x /\ K !! x = Some [10; 12] /\
  step s (OpCreate a 7 ALastChild) = Ret (s1, OutHandle i) /\ s_hands s1 !! i = Some (HNode Hot n) /\
  step s1 (OpDetach (ByHot i)) = Ret (s2, OutUnit) /\
  s_hands s2 !! h = Some (HNode Hot x) /\ step s2 (OpNav NLastChild h) = Ret (s3, OutHandle j) /\ s_hands s3 !! j = Some (HNode Hot n) /\ n <> 12.
Proof.
  exists demo, demoK, (ByHot 5), Hot, 4. exists (nxt demo (OpCreate (ByHot 5) 7 ALastChild)), (nxt (nxt demo (OpCreate (ByHot 5) 7 ALastChild)) (OpDetach (ByHot 23))).
  exists (nxt (nxt (nxt demo (OpCreate (ByHot 5) 7 ALastChild)) (OpDetach (ByHot 23))) (OpNav NLastChild 5)). exists 23, 22, 25, 5.
  split; [exact demo_reach|]. split; [exact demo_stores|]. split; [by vm_compute|]. split; [by vm_compute|].
  split; [apply nxt_ok; by vm_compute|]. split; [by vm_compute|]. split; [apply nxt_ok; by vm_compute|]. split; [by vm_compute|].
  split; [apply nxt_ok; by vm_compute|]. by vm_compute.
Qed.
Print Assumptions C52_refuted.
