(** * PropQuery: queries through handles (C45) and the panicking methods (C44). *)
From Verif Require Import Heap System SysSpec ApiSpec MoveSpec Serial SerialSpec Api QuerySpec QueryFacts ApiFacts ApiFacts3 PropMove Demo Spec.

(** ** C44 *)
(** Each panicking method panics exactly if its fallible counterpart panics (a grant of another
    tree) or returns an error, for the reason named by [refuses]; otherwise it does the same and returns the
    bare result. *)
Theorem C44_panics_iff : forall (T : Type) (s : sys T) K c, reach s -> stores s K -> well_typed s (try_of c) ->
  ((must_panic s (try_of c) \/ refuses s K c) /\ pstep s c = Panic) \/
  (~ must_panic s (try_of c) /\ ~ refuses s K c /\
   exists s' r, pstep s c = Ret (s', r) /\ step s (try_of c) = Ret (s', r) /\ plain_result c r).
Proof. exact @pcall_ok. Qed.
Print Assumptions C44_panics_iff.
(** [clone_subtree], [clone_tree] and [clone_insert_subtree] panic exactly if some data of the source is
    exclusively borrowed. *)
Theorem C44_clone_subtree : forall (T : Type) (s : sys T) K x t, reach s -> stores s K -> shape K x t ->
  ((exists y, y ∈ rose_nodes t /\ borrowed (s_nodes s) y) /\ pclone_subtree s x = Panic) \/
  ((forall y, y ∈ rose_nodes t -> ~ borrowed (s_nodes s) y) /\
   exists s' i td, pclone_subtree s x = Ret (s', i) /\ data_tree (s_nodes s) t td /\ builds s s' i td).
Proof. exact @pclone_ok. Qed.
Print Assumptions C44_clone_subtree.
Theorem C44_clone_tree : forall (T : Type) (s : sys T) K x t, reach s -> stores s K -> shape K x t ->
  ((exists y, y ∈ rose_nodes t /\ borrowed (s_nodes s) y) /\ pclone_tree s x = Panic) \/
  ((forall y, y ∈ rose_nodes t -> ~ borrowed (s_nodes s) y) /\
   exists s' i td, pclone_tree s x = Ret (s', i) /\ data_tree (s_nodes s) t td /\ builds_as (fun _ u => HTree u) s s' i td).
Proof. exact @pclone_tree_ok. Qed.
Print Assumptions C44_clone_tree.
Theorem C44_clone_insert : forall (T : Type) (s : sys T) K x t ad j y fuel, reach s -> stores s K -> shape K x t -> s_hands s !! j = Some (HNode Hot y) ->
  has_place K ad y -> (forall q, dest_parent K (dest_of ad y) q -> ~ below K x q) -> dfs_fuel (s_nodes s) <= fuel ->
  ((exists z, z ∈ rose_nodes t /\ borrowed (s_nodes s) z) /\ pclone_insert_subtree fuel s x ad j = Panic) \/
  ((forall z, z ∈ rose_nodes t -> ~ borrowed (s_nodes s) z) /\
   exists s' i n t0 td, pclone_insert_subtree fuel s x ad j = Ret (s', i) /\ s_hands s !! i = None /\ data_tree (s_nodes s) t td /\
     grafts s K n (dest_of ad y) t0 td s' /\ s_hands s' = <[i := HNode Hot n]> (s_hands s)).
Proof. exact @pclone_insert_ok. Qed.
Print Assumptions C44_clone_insert.
(** The same at a place inside the source, where it may also never return; [l]: the
    nodes of the source before that place. *)
Theorem C44_clone_insert_inside : forall (T : Type) (s : sys T) K x t ad j y fuel, reach s -> stores s K -> shape K x t -> s_hands s !! j = Some (HNode Hot y) ->
  has_place K ad y -> (forall q, dest_parent K (dest_of ad y) q -> below K x q) -> S (S (dfs_fuel (s_nodes s))) <= fuel ->
  exists l, comes_before K x (dest_of ad y) l /\
    ((l = [x] /\
      (((exists z, z ∈ rose_nodes t /\ borrowed (s_nodes s) z) /\ pclone_insert_subtree fuel s x ad j = Panic) \/
       ((forall z, z ∈ rose_nodes t -> ~ borrowed (s_nodes s) z) /\
        exists s' i n t0 d us, pclone_insert_subtree fuel s x ad j = Ret (s', i) /\ s_hands s !! i = None /\ data_tree (s_nodes s) t (Rose d us) /\
          grafts s K n (dest_of ad y) t0 (Rose d (Rose d [] :: us)) s' /\ s_hands s' = <[i := HNode Hot n]> (s_hands s)))) \/
     (l <> [x] /\
      (((exists z, z ∈ l /\ borrowed (s_nodes s) z) /\ pclone_insert_subtree fuel s x ad j = Panic) \/
       ((forall z, z ∈ l -> ~ borrowed (s_nodes s) z) /\ forall fuel', pclone_insert_subtree fuel' s x ad j = NoFuel)))).
Proof. exact @pclone_inside_ok. Qed.
Print Assumptions C44_clone_insert_inside.
(** Without a place at the destination it panics. *)
Theorem C44_clone_insert_no_place : forall (T : Type) (s : sys T) K x t ad j y fuel, reach s -> stores s K -> shape K x t ->
  s_hands s !! j = Some (HNode Hot y) -> ~ has_place K ad y -> pclone_insert_subtree fuel s x ad j = Panic.
Proof. exact @pclone_no_place. Qed.
Print Assumptions C44_clone_insert_no_place.
(** The states of [C22_inside_nonvacuous] and [C22_no_place_nonvacuous]: one copy with an
    extra child, two calls that do not return, one panic. *)
Example C44_clone_insert_nonvacuous : reach demo /\ stores demo demoK /\
  s_hands demo !! 5 = Some (HNode Hot 4) /\ s_hands demo !! 13 = Some (HNode Hot 12) /\ s_hands demo !! 19 = Some (HNode Hot 16) /\
  match pclone_insert_subtree 60 demo 4 AFirstChild 5 with
  | Ret (s', i) => s_hands s' !! i = Some (HNode Hot 22) /\ forest_of (s_nodes s') !! 22 = Some [25; 28; 31]
  | _ => False end /\
  pclone_insert_subtree 60 demo 4 ANextSibling 13 = NoFuel /\ pclone_insert_subtree 60 demo 4 ALastChild 13 = NoFuel /\
  pclone_insert_subtree 60 demo 4 ANextSibling 19 = Panic.
Proof.
  split; [exact demo_reach|]. split; [exact demo_stores|]. split; [vm_compute; reflexivity|]. split; [vm_compute; reflexivity|]. split; [vm_compute; reflexivity|].
  split; [vm_compute; done|]. split; [vm_compute; reflexivity|]. split; vm_compute; reflexivity.
Qed.
(** [HotNode::new_tree] never panics: a new tree of one node, and a hot handle on it. *)
Theorem C44_new_hot_tree : forall (T : Type) (s : sys T) K d, reach s -> stores s K ->
  exists s' i (n : nid) (t : tid), step_new_hot_tree s d = Ret (s', OutHandle i) /\ reach s' /\
    s_nodes s !! n = None /\ unknown s n /\ s_trees s !! t = None /\ s_hands s !! i = None /\
    s_hands s' = <[i := HNode Hot n]> (s_hands s) /\ stores s' (<[n := []]> K) /\ payload s' n = Some (d, Lent 0) /\ tree_of s' n = Some t /\
    forall y, y <> n -> payload s' y = payload s y /\ tree_of s' y = tree_of s y.
Proof. exact @new_hot_tree_ok. Qed.
Print Assumptions C44_new_hot_tree.
Definition lent : sys nat := nxt demo (OpBorrow 13 TakeMut).
Example C44_nonvacuous : reach demo /\ stores demo demoK /\
  well_typed demo (try_of (PCreate (ByHot 5) 7 ANextSibling)) /\ well_typed demo (try_of (PMove (ByHot 5) ANextSibling 3)) /\
  well_typed demo (try_of (PReplace (ByHot 19))) /\
  refuses demo demoK (PCreate (ByHot 3) 7 ANextSibling) /\ refuses demo demoK (PReplace (ByHot 3)) /\
  refuses demo demoK (PMove (ByHot 5) ANextSibling 3) /\
  pstep demo (PCreate (ByHot 3) 7 ANextSibling) = Panic /\ pstep demo (PReplace (ByHot 3)) = Panic /\ pstep demo (PMove (ByHot 5) ANextSibling 3) = Panic /\
  match pstep demo (PReplace (ByHot 19)), pstep demo (PMove (ByHot 5) ANextSibling 7) with Ret (_, OutUnit), Ret (_, OutUnit) => True | _, _ => False end /\
  (exists y, y ∈ rose_nodes (Rose 4 [Rose 10 []; Rose 12 []]) /\ borrowed (s_nodes lent) y) /\ pclone_subtree lent 4 = Panic /\
  match pclone_subtree lent 6 with Ret _ => True | _ => False end /\ pstep lent (PRead 13) = Panic.
Proof.
  split; [exact demo_reach|]. split; [exact demo_stores|].
  split; [exists 4; by vm_compute|]. split; [split; [exists 4; by vm_compute|exists 0; by vm_compute]|]. split; [exists 16; by vm_compute|].
  split. { exists Hot, 0. split; [by vm_compute|]. intros [p Hp]. assert (is_top demoK 0) as [_ H] by (apply top_b_ok; by vm_compute). by apply (H p). }
  split. { exists Hot, 0, [4; 6; 8]. split; [by vm_compute|]. split; [apply top_b_ok; by vm_compute|]. split; [by vm_compute|done]. }
  split. { exists Hot, 4, 0. split; [by vm_compute|]. split; [by vm_compute|]. split; [split; [by right|]; right; apply top_b_ok; by vm_compute|].
    intros [[_ F] _]. apply (F 0). exists [4; 6; 8]. split; [by vm_compute|set_solver]. }
  split; [by vm_compute|]. split; [by vm_compute|]. split; [by vm_compute|]. split; [by vm_compute|].
  split. { exists 12. split; [simpl; set_solver|]. unfold borrowed. destruct (s_nodes lent !! 12) as [nd|] eqn:E; [|vm_compute in E; discriminate E].
    exists nd. split; [done|]. assert (n_mut <$> s_nodes lent !! 12 = Some true) as F by (by vm_compute). rewrite E in F. by injection F. }
  split; [by vm_compute|]. split; by vm_compute.
Qed.

(** ** C45 *)
(** Every well-typed question put to a handle, of whatever kind, is answered - in a debug build the
    assertion in [is_root] holds - and the answer is the one [answers] describes in terms of the child lists. *)
Theorem C45_queries_partial : forall (T : Type) (s : sys T) K i k x q, reach s -> stores s K -> s_hands s !! i = Some (HNode k x) -> typed_query s k q ->
  exists a, ask s i q = Ret a /\ answers s K x q a.
Proof. exact @query_ok. Qed.
Print Assumptions C45_queries_partial.
(** [answers] admits one answer. *)
Theorem C45_one_answer : forall (T : Type) (s : sys T) K x q a a', wf K -> answers s K x q a -> answers s K x q a' -> a = a'.
Proof. exact @answers_fun. Qed.
Print Assumptions C45_one_answer.
(** Nothing else is accepted: a question whose argument has the wrong type is not Rust. *)
Theorem C45_ill_typed : forall (T : Type) (s : sys T) i k x q, s_hands s !! i = Some (HNode k x) -> ~ typed_query s k q -> ask s i q = Ret AnsIll.
Proof. exact @query_ill. Qed.
Print Assumptions C45_ill_typed.
(** [Tree::ptr_eq] compares trees. *)
Theorem C45_tree_ptr_eq : forall (T : Type) (s : sys T) i j t u, s_hands s !! i = Some (HTree t) -> s_hands s !! j = Some (HTree u) ->
  exists b, tree_ptr_eq s i j = AnsBool b /\ (b = true <-> t = u).
Proof. exact @tree_ptr_eq_ok. Qed.
Print Assumptions C45_tree_ptr_eq.
(** [first_last_child], [first_last_sibling]: two new handles, or [None] if there is no child. *)
Theorem C45_first_last_child_partial : forall (T : Type) (s : sys T) K i k x ks, reach s -> stores s K -> s_hands s !! i = Some (HNode k x) -> K !! x = Some ks ->
  match head ks, last ks with
  | Some y, Some z => exists s' j1 j2, step_first_last_child s i = Ret (s', Some (j1, j2)) /\ reach s' /\ gives_two s s' j1 j2 k y z
  | _, _ => ks = [] /\ step_first_last_child s i = Ret (s, None)
  end.
Proof. exact @first_last_child_ok. Qed.
Print Assumptions C45_first_last_child_partial.
Theorem C45_first_last_sibling_partial : forall (T : Type) (s : sys T) K i k x, reach s -> stores s K -> s_hands s !! i = Some (HNode k x) ->
  exists y z s' j1 j2, step_first_last_sibling s i = Ret (s', Some (j1, j2)) /\ reach s' /\ gives_two s s' j1 j2 k y z /\
    ((is_top K x /\ y = x /\ z = x) \/ exists p ks, K !! p = Some ks /\ x ∈ ks /\ head ks = Some y /\ last ks = Some z).
Proof. exact @first_last_sibling_ok. Qed.
Print Assumptions C45_first_last_sibling_partial.
(** [Node::from] on a hot or frozen node: the handle is exchanged for a plain one on the same node,
    and its lock is given back. *)
Theorem C45_into_plain_partial : forall (T : Type) (s : sys T) i k x, reach s -> s_hands s !! i = Some (HNode k x) -> k <> Plain ->
  exists s' j, step_into_plain s i = Ret (s', OutHandle j) /\ reach s' /\ exchanges s s' i j (HNode Plain x).
Proof. exact @into_plain_ok. Qed.
Print Assumptions C45_into_plain_partial.
Example C45_nonvacuous : reach demo /\ stores demo demoK /\ s_hands demo !! 7 = Some (HNode Hot 6) /\ s_hands demo !! 3 = Some (HNode Hot 0) /\
  ask demo 7 QIsRoot = Ret (AnsBool false) /\ ask demo 3 QIsRoot = Ret (AnsBool true) /\
  ask demo 7 QHasPrevSibling = Ret (AnsBool true) /\ ask demo 9 QHasNextSibling = Ret (AnsBool false) /\ ask demo 3 QNumChildren = Ret (AnsNum 3) /\
  ask demo 3 QHasOneChild = Ret (AnsBool false) /\ ask demo 9 QHasOneChild = Ret (AnsBool true) /\ ask demo 5 QHasMultipleChildren = Ret (AnsBool true) /\
  ask demo 5 QCountChildren = Ret (AnsNum 2) /\ ask demo 9 QCountPreceding = Ret (AnsNum 2) /\ ask demo 5 QCountFollowing = Ret (AnsNum 2) /\
  ask demo 15 QCountAncestors = Ret (AnsNum 2) /\ ask demo 15 (QSameTree 3) = Ret (AnsBool true) /\ ask demo 15 (QSameTree 21) = Ret (AnsBool false) /\
  ask demo 15 (QPtrEq 15) = Ret (AnsBool true) /\ ask demo 15 (QPtrEq 9) = Ret (AnsBool false) /\ typed_query demo Hot (QSameTree 21) /\
  match step_first_last_child demo 3, step_first_last_sibling demo 7 with Ret (_, Some _), Ret (_, Some _) => True | _, _ => False end /\
  match step_into_plain demo 7 with Ret (s', OutHandle j) => s_hands s' !! 7 = None /\ s_hands s' !! j = Some (HNode Plain 6) | _ => False end.
Proof.
  split; [exact demo_reach|]. split; [exact demo_stores|]. do 18 (split; [by vm_compute|]). split; [exists 20; by vm_compute|]. split; [by vm_compute|]. by vm_compute.
Qed.

(** After a refused move (C11) the moved node has no parent although it is not the root of its tree:
    the assertion in [is_root] then fails, whatever the kind of handle. *)
Theorem C45_after_refused_move : forall (T : Type) (s : sys T) K a k x ad j y p, reach s -> stores s K -> receiver s a k x ->
  s_hands s !! j = Some (HNode Hot y) -> child_of K p x -> no_place K x ad y ->
  exists s', step s (OpMove a ad j) = Ret (s', OutErr SiblingsWithoutParent) /\
    forall i k', s_hands s !! i = Some (HNode k' x) -> s_hands s' !! i = Some (HNode k' x) /\ ask s' i QIsRoot = Panic.
Proof. exact @refused_root. Qed.
Print Assumptions C45_after_refused_move.
Theorem C45_refuted : exists (os : list (op nat)) s rs i x, steps init os = Ret (s, rs) /\ s_hands s !! i = Some (HNode Hot x) /\ ask s i QIsRoot = Panic.
Proof.
  exists (demo_ops ++ [OpMove (ByHot 5) ANextSibling 3]).
  exists (ran (demo_ops ++ [OpMove (ByHot 5) ANextSibling 3])), (outs (demo_ops ++ [OpMove (ByHot 5) ANextSibling 3])), 5, 4.
  split; [apply ran_ok; by vm_compute|]. split; by vm_compute.
Qed.
Print Assumptions C45_refuted.
