(** * PropAny: what holds after every history of calls, also of the calls that damage
    the links (C23, C24, C25, C26, C27, C29, C30, C35, C37).

    [any s] (GenSpec.v): the state [s] is reached by calls that returned, with no
    restriction on which ones, and with any corruption of the links in between. *)
From Verif Require Import Heap Edit System SysSpec ApiSpec ApiFacts ApiFacts3 ApiFacts5 GenSpec GenFacts GenFacts3 GenFacts5 GenFacts6 GenFacts7 ApiFacts8 FlowSpec FlowFacts Demo Spec.

(** A history after which the links are inconsistent: node 8, the last of three
    siblings, was detached and its tree frozen; the tree it left still refers to it,
    and a node created there is linked to it. *)
Definition broken_ops : list (op nat) :=
  demo_ops ++ [OpDetach (ByHot 9); OpPlain 9; OpDrop 9; OpDrop 15; OpBundle Frozen 23; OpCreate (ByHot 3) 125 ALastChild;
               OpTree 24; OpDowngrade 27; OpPlain 5; OpDowngrade 29].
Definition broken : sys nat := ran broken_ops.
Lemma broken_any : any broken.
Proof. apply ran_any. by vm_compute. Qed.
(** It is not the state of any forest: 8 belongs to one tree, its next sibling to another. *)
Example broken_is_broken : fnext (s_nodes broken) 8 = Some 25 /\ tree_of broken 8 = Some 22 /\ tree_of broken 25 = Some 1.
Proof. by vm_compute. Qed.

(** Every history counts, guarded or not. *)
Theorem any_history : forall (T : Type) (os : list (op T)) s rs, steps init os = Ret (s, rs) -> any s.
Proof. exact @steps_any. Qed.
Print Assumptions any_history.

(** ** C23 *)
Theorem C23_any_exclusive : forall (T : Type) (s : sys T) t, any s -> is_Some (s_trees s !! t) ->
  ~ (some_lock s Hot t /\ some_lock s Frozen t).
Proof. intros T s t H. exact (any_exclusive s t (any_ok s H)). Qed.
Print Assumptions C23_any_exclusive.
Theorem C23_any_acquire_token : forall (T : Type) (s : sys T) k i t,
  any s -> s_hands s !! i = Some (HTree t) -> has_lock k ->
  (~ some_lock s (opposite k) t /\
     exists s' j, step s (OpLock k i) = Ret (s', OutHandle j) /\ hands_out s s' j (token k t)) \/
  (some_lock s (opposite k) t /\ step s (OpLock k i) = Ret (s, OutLockErr)).
Proof. intros T s k i t H. exact (any_lock s k i t (any_ok s H)). Qed.
Print Assumptions C23_any_acquire_token.
Theorem C23_any_acquire_bundle : forall (T : Type) (s : sys T) k i x t,
  any s -> s_hands s !! i = Some (HNode Plain x) -> tree_of s x = Some t -> has_lock k ->
  (~ some_lock s (opposite k) t /\
     exists s' j, step s (OpBundle k i) = Ret (s', OutHandle j) /\ swaps s s' i j (HNode k x)) \/
  (some_lock s (opposite k) t /\
     forall s' r, step s (OpBundle k i) = Ret (s', r) -> r = OutLockErr /\ s_hands s' = delete i (s_hands s)).
Proof. intros T s k i x t H. exact (any_bundle s k i x t (any_ok s H)). Qed.
Print Assumptions C23_any_acquire_bundle.
Example C23_any_nonvacuous : any broken /\ s_hands broken !! 27 = Some (HTree 22) /\ some_lock broken Frozen 22 /\ some_lock broken Hot 1 /\
  nxt_out broken (OpLock Hot 27) = OutLockErr /\ nxt_out broken (OpLock Frozen 27) = OutHandle 31 /\ s_hands broken !! 29 = Some (HNode Plain 4).
Proof.
  split; [exact broken_any|]. split; [by vm_compute|]. split; [right; exists 8; split; [done|]; split; [by vm_compute|exists 24; by vm_compute]|].
  split; [right; exists 4; split; [done|]; split; [by vm_compute|exists 5; by vm_compute]|]. by vm_compute.
Qed.

(** ** C24 *)
Theorem C24_any_balance : forall (T : Type) (s : sys T) t tr, any s -> s_trees s !! t = Some tr ->
  exists g p, holders s (s_hands s) Hot t g /\ holders s (s_hands s) Frozen t p /\
    t_cnt tr = (Z.of_nat g - Z.of_nat p)%Z /\ (g = 0 \/ p = 0).
Proof. intros T s t tr H. exact (any_balance s t tr (any_ok s H)). Qed.
Print Assumptions C24_any_balance.
(** Dropping never panics, and takes away that handle only. *)
Theorem C24_any_release : forall (T : Type) (s : sys T) i hd, any s -> s_hands s !! i = Some hd ->
  step s (OpDrop i) <> Panic /\
  forall s' r, step s (OpDrop i) = Ret (s', r) -> r = OutUnit /\ s_hands s' = delete i (s_hands s).
Proof. intros T s i hd H. exact (any_drop s i hd (any_ok s H)). Qed.
Print Assumptions C24_any_release.
(** Dropping a token always succeeds and gives back exactly one unit. *)
Theorem C24_any_release_token : forall (T : Type) (s : sys T) i k t, any s -> s_hands s !! i = Some (token k t) -> has_lock k ->
  exists s', step s (OpDrop i) = Ret (s', OutUnit) /\ unmoved s s' /\ s_hands s' = delete i (s_hands s) /\
    forall tr, s_trees s !! t = Some tr ->
      t_cnt <$> s_trees s' !! t = Some (t_cnt tr - match k with Frozen => -1 | _ => 1 end)%Z.
Proof. intros T s i k t H. exact (any_drop_token s i k t (any_ok s H)). Qed.
Print Assumptions C24_any_release_token.
Example C24_any_nonvacuous : any broken /\ t_cnt <$> s_trees broken !! 1 = Some 6%Z /\ t_cnt <$> s_trees broken !! 22 = Some (-1)%Z /\
  nxt_out broken (OpDrop 24) = OutUnit /\ t_cnt <$> s_trees (nxt broken (OpDrop 24)) !! 22 = Some 0%Z.
Proof. split; [exact broken_any|]. by vm_compute. Qed.

(** ** C25 *)
(** Whatever a call that leaves the user's handles as they are (detaching, moving, ...) does to the nodes: the count of each
    tree that exists afterwards has grown by one for each node with hot handles that came in, has shrunk by one for each that
    left, and the other way round for frozen ones; other holders are unaffected. *)
Theorem C25_any_flow : forall (T : Type) (s : sys T) (o : op T) (u : sys T) (r : out T) t,
  any s -> step s o = Ret (u, r) -> s_hands u = s_hands s -> is_Some (s_trees u !! t) ->
  exists gi go pi po, card (joins s u Hot t) gi /\ card (joins u s Hot t) go /\ card (joins s u Frozen t) pi /\ card (joins u s Frozen t) po /\
    lock_cnt u t = (lock_cnt s t + Z.of_nat gi - Z.of_nat go - Z.of_nat pi + Z.of_nat po)%Z.
Proof. intros T s o u r t H E. exact (any_flow s o u r t (any_ok s H) (any_ok u (any_step s o u r H E)) E). Qed.
Print Assumptions C25_any_flow.
Example C25_any_nonvacuous : any broken /\ s_hands broken !! 3 = Some (HNode Hot 0) /\ nxt_out broken (OpDetach (ByHot 26)) = OutUnit /\
  let u := nxt broken (OpDetach (ByHot 26)) in
  s_hands u !! 3 = Some (HNode Hot 0) /\ lock_cnt broken 1 = 6%Z /\ lock_cnt u 1 = 5%Z /\ tree_of u 25 = Some 31 /\ lock_cnt u 31 = 1%Z.
Proof. split; [exact broken_any|]. by vm_compute. Qed.

(** ** C26 *)
Theorem C26_any_wrong_grant : forall (T : Type) (s : sys T) o, any s -> must_panic s o -> step s o = Panic.
Proof. intros T s o H. exact (any_wrong_grant s o (any_ok s H)). Qed.
Print Assumptions C26_any_wrong_grant.
(** Without a grant of its tree and without a hot handle nothing can be edited, and
    neither exists while the tree is frozen: every edit of a node of a frozen tree is
    ill-typed or panics. *)
Theorem C26_any_no_authority : forall (T : Type) (s : sys T) t a k x, any s -> some_lock s Frozen t -> is_Some (s_trees s !! t) ->
  receiver s a k x -> tree_of s x <> Some t.
Proof. intros T s t a k x H. exact (any_no_authority s t a k x (any_ok s H)). Qed.
Print Assumptions C26_any_no_authority.
Example C26_any_nonvacuous : any broken /\ some_lock broken Frozen 22 /\ is_Some (s_trees broken !! 22) /\ receiver broken (ByHot 3) Hot 0.
Proof.
  split; [exact broken_any|]. split; [right; exists 8; split; [done|]; split; [by vm_compute|exists 24; by vm_compute]|]. vm_compute. eauto.
Qed.

(** ** C27 *)
(** A handle never dangles: its node and its tree are allocated, its data can be read
    (unless borrowed), it can be cloned, and its tree can be asked for. *)
Theorem C27_any_handle : forall (T : Type) (s : sys T) i k x, any s -> s_hands s !! i = Some (HNode k x) ->
  exists d l t tr, payload s x = Some (d, l) /\ tree_of s x = Some t /\ s_trees s !! t = Some tr /\
    step s (OpGet i) = Ret (s, match l with LentMut => OutBorrowErr | Lent _ => OutData d end) /\
    (exists s' j, step s (OpClone i) = Ret (s', OutHandle j) /\ hands_out s s' j (HNode k x)) /\
    (exists s' j, step s (OpTree i) = Ret (s', OutHandle j) /\ hands_out s s' j (HTree t)).
Proof. intros T s i k x H. exact (any_handle s i k x (any_ok s H)). Qed.
Print Assumptions C27_any_handle.
(** A call leaves every handle alone except the one it consumes. *)
Theorem C27_any_hands : forall (T : Type) (s : sys T) o s' r, any s -> step s o = Ret (s', r) -> hands_after s o s' r.
Proof. intros T s o s' r H E. exact (proj2 (proj2 (step_fine s o s' r (any_ok s H) E))). Qed.
Print Assumptions C27_any_hands.
Example C27_any_nonvacuous : any broken /\ s_hands broken !! 26 = Some (HNode Hot 25) /\ nxt_out broken (OpGet 26) = OutData 125 /\
  nxt_out broken (OpDetach (ByHot 26)) = OutUnit.
Proof. split; [exact broken_any|]. by vm_compute. Qed.

(** ** C28 *)
(** No tree core outlives its handles (nodes may: [C28_refuted]). *)
Theorem C28_any_trees : forall (T : Type) (s : sys T) t, any s -> (is_Some (s_trees s !! t) <-> tree_held s (s_hands s) t).
Proof. intros T s t H. exact (any_trees s t (any_ok s H)). Qed.
Print Assumptions C28_any_trees.

(** ** C29 *)
Theorem C29_any_queries : forall (T : Type) (s : sys T) i k x j k' y t0, any s ->
  s_hands s !! i = Some (HNode k x) -> s_hands s !! j = Some (HNode k' y) ->
  belongs_to s x t0 = Ret (bool_decide (tree_of s x = Some t0)) /\
  valid_for_node s t0 x = Ret (bool_decide (tree_of s x = Some t0)) /\
  belongs_to_same_tree s i x j y = Ret (bool_decide (tree_of s x = tree_of s y)).
Proof. intros T s i k x j k' y t0 H. exact (any_queries s i k x j k' y t0 (any_ok s H)). Qed.
Print Assumptions C29_any_queries.

(** ** C30 *)
Theorem C30_any_weak_tree : forall (T : Type) (s : sys T) i t, any s -> s_hands s !! i = Some (HTreeWeak t) ->
  (tree_held s (s_hands s) t -> exists s' j, step s (OpUpgrade i) = Ret (s', OutHandle j) /\ hands_out s s' j (HTree t)) /\
  (~ tree_held s (s_hands s) t -> step s (OpUpgrade i) = Ret (s, OutNone)).
Proof. intros T s i t H. exact (any_weak_tree s i t (any_ok s H)). Qed.
Print Assumptions C30_any_weak_tree.
(** An upgrade that returns gives a handle on that very node exactly if it is still
    allocated. *)
Theorem C30_any_weak_node_partial : forall (T : Type) (s : sys T) i x s' r, any s -> s_hands s !! i = Some (HNodeWeak x) ->
  step s (OpUpgrade i) = Ret (s', r) ->
  (s_nodes s !! x = None /\ r = OutNone /\ s' = s) \/
  (exists j, is_Some (s_nodes s !! x) /\ r = OutHandle j /\ hands_out s s' j (HNode Plain x)).
Proof. intros T s i x s' r H. exact (any_weak_node s i x s' r (any_ok s H)). Qed.
Print Assumptions C30_any_weak_node_partial.
(** What a weak reference or a token refers to never comes back to life. *)
Theorem C30_any_no_resurrection : forall (T : Type) (s : sys T) o s' r i hd, any s -> step s o = Ret (s', r) -> s_hands s !! i = Some hd ->
  (forall x, hd = HNodeWeak x -> s_nodes s !! x = None -> s_nodes s' !! x = None) /\
  (forall t, hd = HTreeWeak t \/ hd = HGrant t \/ hd = HProhib t -> s_trees s !! t = None -> s_trees s' !! t = None).
Proof. intros T s o s' r i hd H. exact (any_gone s o s' r i hd (any_ok s H)). Qed.
Print Assumptions C30_any_no_resurrection.
Example C30_any_nonvacuous : any broken /\ s_hands broken !! 28 = Some (HTreeWeak 22) /\ s_hands broken !! 30 = Some (HNodeWeak 4) /\
  nxt_out broken (OpUpgrade 28) = OutHandle 31 /\ nxt_out broken (OpUpgrade 30) = OutHandle 31 /\
  nxt_out (nxt (nxt broken (OpDrop 24)) (OpDrop 27)) (OpUpgrade 28) = OutNone.
Proof. split; [exact broken_any|]. by vm_compute. Qed.

(** ** C35 *)
Theorem C35_any_data : forall (T : Type) (s : sys T) o s' r y, any s -> step s o = Ret (s', r) -> ~ writes_data o ->
  is_Some (s_nodes s !! y) -> is_Some (s_nodes s' !! y) -> payload s' y = payload s y.
Proof. intros T s o s' r y H. exact (any_data s o s' r y (any_ok s H)). Qed.
Print Assumptions C35_any_data.
(** Reading, writing, borrowing data, in any state whatsoever: reading is refused exactly while the data is mutably
    borrowed, writing exactly while it is borrowed at all, borrows are granted by the rules [lends]; and nothing else changes. *)
Theorem C35_any_write : forall (T : Type) (s : sys T) i k x d l d', s_hands s !! i = Some (HNode k x) -> payload s x = Some (d, l) ->
  (match l with LentMut => step s (OpGet i) = Ret (s, OutBorrowErr) | Lent _ => step s (OpGet i) = Ret (s, OutData d) end) /\
  (l <> Lent 0 -> step s (OpSet i d') = Ret (s, OutBorrowErr)) /\
  (l = Lent 0 -> exists s', step s (OpSet i d') = Ret (s', OutUnit) /\ writes s x d' l s') /\
  (forall b, (forall l', ~ lends b l l') -> step s (OpBorrow i b) = Ret (s, OutBorrowErr)) /\
  (forall b l', lends b l l' -> exists s', step s (OpBorrow i b) = Ret (s', OutUnit) /\ writes s x d l' s').
Proof. exact @any_write. Qed.
Print Assumptions C35_any_write.
Example C35_any_nonvacuous : any broken /\ payload broken 8 = Some (108, Lent 0) /\
  payload (nxt broken (OpMove (ByHot 26) AFirstChild 5)) 8 = Some (108, Lent 0).
Proof. split; [exact broken_any|]. by vm_compute. Qed.

(** ** C37 *)
(** The calls that do not follow links never panic. *)
Theorem C37_any_calm : forall (T : Type) (s : sys T) o, any s -> link_free o -> step s o <> Panic.
Proof. intros T s o H. exact (any_calm s o (any_ok s H)). Qed.
Print Assumptions C37_any_calm.
