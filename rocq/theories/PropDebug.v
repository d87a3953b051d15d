(** * PropDebug: the [Debug] printers (C40).  See DebugSpec.v for [shows_node],
    [shows], [shows_tree]. *)
From Verif Require Import Heap Edit System SysSpec ApiSpec ApiFacts ApiFacts2 ApiFacts6 ApiFacts7 ApiFacts8 DebugSpec DebugFacts ApiFacts3 Demo Examples PropSerial Spec.
Local Open Scope string_scope. Local Open Scope list_scope.

(** [Debug] of a [Node], [FrozenNode], [HotNode]: always succeeds, changes nothing, and
    shows the name of the type, the data, which neighbours there are, the lock
    count. *)
Theorem C40_node : forall (T : Type) (s : sys T) K i k x, reach s -> stores s K -> s_hands s !! i = Some (HNode k x) ->
  exists d, debug_fmt s i = Ret (s, d) /\
    shows_node s K (match k with Plain => "Node" | Frozen => "FrozenNode" | Hot => "HotNode" end) x d.
Proof.
  intros T s K i k x R Hst Hi. destruct (doc_local_ok s K i k x R Hst Hi) as (d & E & Hd). exists d. unfold debug_fmt. rewrite Hi, E.
  split; [reflexivity|]. destruct k; exact Hd.
Qed.
Print Assumptions C40_node.
(** [debug_print_subtree] of a [Node] or [HotNode] shows exactly the subtree, in order.
    Missing: the name for a [FrozenNode], see [C40_frozen_refuted]. *)
Theorem C40_subtree_partial : forall (T : Type) (s : sys T) K i k x ts, reach s -> stores s K -> s_hands s !! i = Some (HNode k x) ->
  shape K x (Rose x ts) ->
  exists name t dt dd ds, tree_of s x = Some t /\
    debug_subtree s i = Ret (DStruct name [("tree", dt); ("data", dd); ("children", DList ds)]) /\
    (k <> Frozen -> name = match k with Hot => "HotNode" | _ => "Node" end) /\
    shows_tree s t dt /\ shows_data (s_nodes s) x dd /\ Forall2 (shows (s_nodes s)) ts ds.
Proof.
  intros T s K i k x ts R Hst Hi Hs. destruct (doc_subtree_ok s K i k x ts R Hst Hi Hs) as (t & dt & dd & ds & Et & E & H).
  exists (type_name (subtree_type k)), t, dt, dd, ds. split; [exact Et|]. unfold debug_subtree. rewrite Hi. split; [exact E|]. split; [|exact H].
  intros Hk. destruct k; [reflexivity|reflexivity|destruct (Hk eq_refl)].
Qed.
Print Assumptions C40_subtree_partial.
(** The subtree of a [FrozenNode] is printed as that of a ["Node"]. *)
Theorem C40_frozen_refuted : forall (T : Type) (s : sys T) K i x, reach s -> stores s K -> s_hands s !! i = Some (HNode Frozen x) ->
  exists l, debug_subtree s i = Ret (DStruct "Node" l).
Proof.
  intros T s K i x R Hst Hi. destruct (RoseFacts.shape_exists K x (proj2 Hst)) as [[y ts] Hs].
  { destruct (ApiFacts7.handle_tree s K i Frozen x R Hst Hi) as (t & rc & lk & _ & _ & _ & H). exact H. }
  assert (y = x) as -> by (inversion Hs; reflexivity).
  destruct (doc_subtree_ok s K i Frozen x ts R Hst Hi Hs) as (t & dt & dd & ds & Et & E & H). eexists. unfold debug_subtree. rewrite Hi. exact E.
Qed.
Print Assumptions C40_frozen_refuted.
(** [Debug] of a [Tree] shows the lock count, [Tree::debug_print] also all its nodes. *)
Theorem C40_tree : forall (T : Type) (s : sys T) K i t, reach s -> stores s K -> s_hands s !! i = Some (HTree t) ->
  (exists d, debug_fmt s i = Ret (s, d) /\ shows_tree s t d) /\
  exists r rt dl dn, is_top K r /\ tree_of s r = Some t /\ shape K r rt /\
    debug_tree s i = Ret (DStruct "Tree" [("lock_manager", dl); ("nodes", dn)]) /\ shows_lock s t dl /\ shows (s_nodes s) rt dn.
Proof.
  intros T s K i t R Hst Hi. split.
  - destruct (doc_tree_local_ok s K t R Hst) as (d & E & Hd).
    { exact (h_tree _ _ (i_h _ _ (reach_stores_inv s K R Hst)) i t Hi). }
    exists d. unfold debug_fmt. rewrite Hi, E. split; [reflexivity|exact Hd].
  - unfold debug_tree. rewrite Hi. exact (doc_tree_ok s K i t R Hst Hi).
Qed.
Print Assumptions C40_tree.
(** [Debug] of weak references: the node if it is alive, "dropped" otherwise; nothing
    is changed (the temporary handle is released again). *)
Theorem C40_weak_node : forall (T : Type) (s : sys T) K i x, reach s -> stores s K -> s_hands s !! i = Some (HNodeWeak x) ->
  exists s' d, debug_fmt s i = Ret (s', d) /\ unaffected s s' /\
    ((is_Some (K !! x) /\ exists d', d = DTuple "NodeWeak" d' /\ shows_node s K "Node" x d') \/
     (K !! x = None /\ d = DRaw "NodeWeak(<dropped>)")).
Proof. exact @debug_weak_node. Qed.
Print Assumptions C40_weak_node.
Theorem C40_weak_tree : forall (T : Type) (s : sys T) K i t, reach s -> stores s K -> s_hands s !! i = Some (HTreeWeak t) ->
  exists s' d, debug_fmt s i = Ret (s', d) /\ unaffected s s' /\
    ((tree_held s (s_hands s) t /\ shows_tree s t d) \/ (~ tree_held s (s_hands s) t /\ d = DRaw "TreeWeak(<dropped>)")).
Proof. exact @debug_weak_tree. Qed.
Print Assumptions C40_weak_tree.

(** Node 4 of [demo], with children 10 and 12, 12 being borrowed. *)
Example C40_nonvacuous : let sb := after (demo_ops ++ [OpBorrow 13 TakeMut]) in
  reach sb /\ stores sb (forest_of (s_nodes sb)) /\ s_hands sb !! 5 = Some (HNode Hot 4) /\ shape (forest_of (s_nodes sb)) 4 sh4 /\
  debug_subtree sb 5 = Ret (DStruct "HotNode"
    [("tree", DStruct "Tree" [("lock_manager", DStruct "HierarchyLockManager" [("num_grants", DStruct "Cell" [("value", DNum 7)])])]);
     ("data", DData 104);
     ("children", DList [DStruct "Node" [("data", DData 110); ("children", DList [])];
                         DStruct "Node" [("data", DRaw "<borrowed>"); ("children", DList [])]])]) /\
  match debug_fmt sb 5 with
  | Ret (_, DStruct "HotNode" [_; ("parent", DRaw "Some(_)"); ("prev_sibling", DRaw "None"); ("next_sibling", DRaw "Some(_)"); ("first_child", DRaw "Some(_)"); _]) => True
  | _ => False end.
Proof.
  split; [apply after_reach|]. split; [apply after_stores|]. split; [vm_compute; reflexivity|].
  split; [repeat (constructor; try (vm_compute; reflexivity))|]. split; vm_compute; done.
Qed.
(** Weak references to node 10 and to tree 1, alive and dropped; a frozen node. *)
Definition debug_ops : list (op nat) :=
  [OpNewTree 1; OpDowngrade 2; OpTree 2; OpDowngrade 4; OpNewTree 2; OpBundle Frozen 8].
Definition debug_dead : list (op nat) := [OpDrop 2; OpDrop 4].
Example C40_nonvacuous_weak : reach (after debug_ops) /\ s_hands (after debug_ops) !! 3 = Some (HNodeWeak 0) /\
  s_hands (after debug_ops) !! 5 = Some (HTreeWeak 1) /\ s_hands (after debug_ops) !! 9 = Some (HNode Frozen 6) /\
  match debug_fmt (after debug_ops) 3 with Ret (_, DTuple "NodeWeak" (DStruct "Node" _)) => True | _ => False end /\
  match debug_fmt (after debug_ops) 5 with Ret (_, DStruct "Tree" _) => True | _ => False end /\
  match debug_fmt (after (debug_ops ++ debug_dead)) 3 with Ret (_, DRaw "NodeWeak(<dropped>)") => True | _ => False end /\
  match debug_fmt (after (debug_ops ++ debug_dead)) 5 with Ret (_, DRaw "TreeWeak(<dropped>)") => True | _ => False end.
Proof. split; [apply after_reach|]. vm_compute. done. Qed.
