(** * PropSerial: comparison, serialization, building and cloning of subtrees
    (C19-C22).  [stores s K]: the state stores the ordered forest [K];
    [shape K x t]: [t] is the subtree of [x]; see Spec.v, ApiSpec.v, SerialSpec.v. *)
From Verif Require Import Heap Edit System SysSpec ApiSpec ApiFacts Serial SerialSpec EqFacts SerFacts BracketFacts BuildFacts5 BuildFacts6 BuildFacts7 BuildFacts8 BuildFacts12 BuildFacts9 BuildFacts16 EqFacts2 IterFacts RoseFacts ApiFacts3 Demo Examples Spec.
From Verif Require PropMove.

(** Subtrees of [demo] for the examples: 4 -> [10; 12], 6, 16 -> [20]. *)
Definition sh4 : rose nid := Rose 4 [Rose 10 []; Rose 12 []].
Lemma demo_sh4 : shape demoK 4 sh4.
Proof. repeat (constructor; try (vm_compute; reflexivity)). Qed.
Lemma demo_sh6 : shape demoK 6 (Rose 6 []).
Proof. repeat (constructor; try (vm_compute; reflexivity)). Qed.
Lemma demo_sh16 : shape demoK 16 (Rose 16 [Rose 20 []]).
Proof. repeat (constructor; try (vm_compute; reflexivity)). Qed.
Definition unborrowed (l : list nid) : bool := forallb (fun y => match s_nodes demo !! y with Some nd => negb (n_mut nd) | None => false end) l.
Lemma unborrowed_ok l : unborrowed l = true -> forall y, y ∈ l -> ~ borrowed (s_nodes demo) y.
Proof.
  intros H y Hy (nd & E & Hm). unfold unborrowed in H. rewrite forallb_forall in H.
  specialize (H y (proj1 (elem_of_list_In _ _) Hy)). rewrite E, Hm in H. discriminate H.
Qed.

(** The state reached by a concrete computation, without writing it down. *)
Definition run_st {A B} (d : A) (m : run (A * B)) : A := match m with Ret (a, _) => a | _ => d end.
Lemma run_st_ok {A B} (d : A) (m : run (A * B)) b : match m with Ret (_, y) => Some y | _ => None end = Some b -> m = Ret (run_st d m, b).
Proof. destruct m as [[? ?]| |]; simpl; congruence. Qed.
Lemma reach_forest_of {T} (s : sys T) : reach s -> stores s (forest_of (s_nodes s)).
Proof. intros R. destruct (reach_stores _ R) as [K' HK']. rewrite (forest_of_ok _ K'); [exact HK'|apply HK'|apply HK']. Qed.
Definition ci_state s x ad j : sys nat := run_st s (clone_insert_subtree 50 s x ad j).
Lemma ci_left {T} (s : sys T) K x t ad j y fuel s' e : reach s -> stores s K -> shape K x t ->
  s_hands s !! j = Some (HNode Hot y) -> has_place K ad y -> (forall q, dest_parent K (dest_of ad y) q -> ~ below K x q) ->
  dfs_fuel (s_nodes s) <= fuel -> clone_insert_subtree fuel s x ad j = Ret (s', HErr e) -> stores s' (forest_of (s_nodes s')).
Proof.
  intros R Hst Hs Hj Hp Hq Hf E. destruct (clone_insert_ok s K x t ad j y fuel R Hst Hs Hj Hp Hq Hf) as (s2 & r & E2 & H).
  rewrite E in E2. injection E2 as <- <-. assert (reach s') as R'.
  { destruct H as (_ & _ & _ & [[_ ->]|(n & t0 & td & _ & G)]); [exact R|exact (gr_reach _ _ _ _ _ _ _ G)]. }
  destruct (reach_stores _ R') as [K' HK']. rewrite (forest_of_ok _ K'); [exact HK'|apply HK'|apply HK'].
Qed.

(** ** C19 *)
(** Comparing nodes with data of two types (so necessarily different nodes): the
    answer always comes, and is as [eq_answer] says: [Ok(true)] exactly if the two
    subtrees have the same shape and pairwise equal data and nothing is borrowed,
    [Ok(false)] only if they differ, [Err] only if a node of them is borrowed. *)
Theorem C19_try_eq : forall (T U : Type) (eqb : T -> U -> bool) (h1 : heap T) (h2 : heap U) K1 K2 x y t1 t2,
  rep h1 K1 -> wf K1 -> rep h2 K2 -> wf K2 -> shape K1 x t1 -> shape K2 y t2 ->
  exists r, try_eq_apart eqb h1 h2 x y = Ret r /\ eq_answer eqb h1 h2 t1 t2 r.
Proof. exact @try_eq_apart_answer. Qed.
Print Assumptions C19_try_eq.
(** Comparing the nodes of two handles, possibly of the same tree, of nested
    subtrees or of the same node. *)
Theorem C19_nodes : forall (T : Type) (eqb : T -> T -> bool) (s : sys T) K i j k k' x y t1 t2,
  stores s K -> s_hands s !! i = Some (HNode k x) -> s_hands s !! j = Some (HNode k' y) -> shape K x t1 -> shape K y t2 ->
  exists r, node_try_eq eqb s i j = Ret r /\
    (x = y -> r = Some true) /\ (x <> y -> eq_answer eqb (s_nodes s) (s_nodes s) t1 t2 r).
Proof. exact @node_try_eq_ok. Qed.
Print Assumptions C19_nodes.
(** Comparing two trees. *)
Theorem C19_trees : forall (T : Type) (eqb : T -> T -> bool) (s : sys T) K i j t u x y t1 t2,
  reach s -> stores s K -> s_hands s !! i = Some (HTree t) -> s_hands s !! j = Some (HTree u) ->
  is_top K x -> tree_of s x = Some t -> is_top K y -> tree_of s y = Some u -> shape K x t1 -> shape K y t2 ->
  exists r, tree_try_eq eqb s i j = Ret r /\
    (t = u -> r = Some true) /\ (t <> u -> eq_answer eqb (s_nodes s) (s_nodes s) t1 t2 r).
Proof. exact @tree_try_eq_ok. Qed.
Print Assumptions C19_trees.
(** Exactly which answer: the subtrees are read in parallel in document order as long as the events agree ([eq_exactly],
    SerialSpec.v); a borrowed node is an error only if no difference comes before it. *)
Theorem C19_exact : forall (T U : Type) (eqb : T -> U -> bool) (h1 : heap T) (h2 : heap U) K1 K2 x y t1 t2,
  rep h1 K1 -> wf K1 -> rep h2 K2 -> wf K2 -> shape K1 x t1 -> shape K2 y t2 ->
  exists r, try_eq_apart eqb h1 h2 x y = Ret r /\ eq_exactly eqb h1 h2 t1 t2 r /\ forall r', eq_exactly eqb h1 h2 t1 t2 r' -> r' = r.
Proof.
  intros T U eqb h1 h2 K1 K2 x y t1 t2 R1 W1 R2 W2 S1 S2. destruct (try_eq_apart_exact eqb h1 h2 K1 K2 x y t1 t2 R1 W1 R2 W2 S1 S2) as (r & E & H).
  exists r. split; [exact E|]. split; [exact H|]. intros r' H'. exact (exactly_unique eqb h1 h2 t1 t2 r' r H' H).
Qed.
Print Assumptions C19_exact.
(** [==] between nodes, and between trees: [true] for the same node or tree; otherwise a panic where the comparison meets a
    borrowed node, and the answer of the comparison if it does not. *)
Theorem C19_node_eq : forall (T : Type) (eqb : T -> T -> bool) (s : sys T) K i j k k' x y t1 t2,
  stores s K -> s_hands s !! i = Some (HNode k x) -> s_hands s !! j = Some (HNode k' y) -> shape K x t1 -> shape K y t2 ->
  (x = y -> eq_expect (node_try_eq eqb s i j) = Ret true) /\
  (x <> y -> (eq_expect (node_try_eq eqb s i j) = Panic /\ eq_exactly eqb (s_nodes s) (s_nodes s) t1 t2 None) \/
             exists b, eq_expect (node_try_eq eqb s i j) = Ret b /\ eq_exactly eqb (s_nodes s) (s_nodes s) t1 t2 (Some b)).
Proof. intros T eqb s K i j k k' x y t1 t2 Hst Hi Hj S1 S2. exact (expect_eq eqb (s_nodes s) t1 t2 _ _ (node_try_eq_exact eqb s K i j k k' x y t1 t2 Hst Hi Hj S1 S2)). Qed.
Print Assumptions C19_node_eq.
Theorem C19_tree_eq : forall (T : Type) (eqb : T -> T -> bool) (s : sys T) K i j t u x y t1 t2,
  reach s -> stores s K -> s_hands s !! i = Some (HTree t) -> s_hands s !! j = Some (HTree u) ->
  is_top K x -> tree_of s x = Some t -> is_top K y -> tree_of s y = Some u -> shape K x t1 -> shape K y t2 ->
  (t = u -> eq_expect (tree_try_eq eqb s i j) = Ret true) /\
  (t <> u -> (eq_expect (tree_try_eq eqb s i j) = Panic /\ eq_exactly eqb (s_nodes s) (s_nodes s) t1 t2 None) \/
             exists b, eq_expect (tree_try_eq eqb s i j) = Ret b /\ eq_exactly eqb (s_nodes s) (s_nodes s) t1 t2 (Some b)).
Proof.
  intros T eqb s K i j t u x y t1 t2 R Hst Hi Hj Tx Ex Ty Ey S1 S2.
  exact (expect_eq eqb (s_nodes s) t1 t2 _ _ (tree_try_eq_exact eqb s K i j t u x y t1 t2 R Hst Hi Hj Tx Ex Ty Ey S1 S2)).
Qed.
Print Assumptions C19_tree_eq.
(** 8 -> [14] and 16 -> [20], all data equal: a borrow of 20 is an error, unless the roots already differ. *)
Example C19_exact_nonvacuous : stores demo demoK /\ shape demoK 8 (Rose 8 [Rose 14 []]) /\ shape demoK 16 (Rose 16 [Rose 20 []]) /\
  s_hands demo !! 9 = Some (HNode Hot 8) /\ s_hands demo !! 19 = Some (HNode Hot 16) /\ s_hands demo !! 21 = Some (HNode Hot 20) /\
  events_before_end (Rose 8 [Rose 14 []]) = [Open 8; Open 14; Close 14] /\
  eq_expect (node_try_eq (fun _ _ => true) demo 9 19) = Ret true /\
  eq_expect (node_try_eq (fun _ _ => true) (nxt demo (OpBorrow 21 TakeMut)) 9 19) = Panic /\
  eq_expect (node_try_eq Nat.eqb (nxt demo (OpBorrow 21 TakeMut)) 9 19) = Ret false /\
  eq_expect (node_try_eq Nat.eqb (nxt demo (OpBorrow 21 TakeMut)) 21 21) = Ret true.
Proof.
  split; [exact demo_stores|]. split; [repeat (constructor; try (vm_compute; reflexivity))|]. split; [exact demo_sh16|]. vm_compute. done.
Qed.
(** The subtrees of 4 and 16 differ in shape; those of 6 and 16 in shape although one
    is a prefix of the other; with a trivial data equality 6 and 10 are equal, with
    the real one they are not; 4 and itself. *)
Example C19_nonvacuous : reach demo /\ stores demo demoK /\ shape demoK 4 sh4 /\ shape demoK 6 (Rose 6 []) /\
  s_hands demo !! 5 = Some (HNode Hot 4) /\ s_hands demo !! 7 = Some (HNode Hot 6) /\
  node_try_eq (fun _ _ => true) demo 5 19 = Ret (Some false) /\ node_try_eq (fun _ _ => true) demo 7 19 = Ret (Some false) /\
  node_try_eq (fun _ _ => true) demo 7 11 = Ret (Some true) /\ node_try_eq Nat.eqb demo 7 11 = Ret (Some false) /\
  node_try_eq Nat.eqb demo 5 5 = Ret (Some true) /\
  node_try_eq Nat.eqb (nxt demo (OpBorrow 13 TakeMut)) 5 9 = Ret (Some false) /\
  node_try_eq (fun _ _ => true) (nxt demo (OpBorrow 7 TakeMut)) 7 11 = Ret None.
Proof. split; [exact demo_reach|]. split; [exact demo_stores|]. split; [exact demo_sh4|]. split; [exact demo_sh6|]. vm_compute. done. Qed.

(** ** C20 *)
(** The events of a subtree: one [Open] per node in document order with its data (an
    error in its place if the data is mutably borrowed), the closings between them
    in one [Close], nothing superfluous. *)
Theorem C20_events : forall (T : Type) (h : heap T) K x t, rep h K -> wf K -> shape K x t ->
  exists es items, expand es = brackets t /\ compact es /\
    enumerates (ser_next h) (dfs_start (Some x)) items /\ Forall2 (reads h) es items.
Proof. exact @to_events_ok. Qed.
Print Assumptions C20_events.
(** Collecting and rebuilding: a new tree with the same data tree. *)
Theorem C20_roundtrip : forall (T : Type) (s : sys T) K x t, reach s -> stores s K -> shape K x t ->
  (forall y, y ∈ rose_nodes t -> ~ borrowed (s_nodes s) y) ->
  exists es td, enumerates (ser_next (s_nodes s)) (dfs_start (Some x)) (map Some es) /\ data_tree (s_nodes s) t td /\
    expand es = brackets td /\ compact es /\
    exists s' i, build s es = Ret (s', inl i) /\ builds s s' i td.
Proof. exact @roundtrip. Qed.
Print Assumptions C20_roundtrip.
(** The copy compares equal to the original, if every datum equals itself. *)
Theorem C20_equal : forall (T : Type) (eqb : T -> T -> bool) (s : sys T) K x t, (forall d, eqb d d = true) ->
  reach s -> stores s K -> shape K x t -> (forall y, y ∈ rose_nodes t -> ~ borrowed (s_nodes s) y) ->
  exists es s' i n, enumerates (ser_next (s_nodes s)) (dfs_start (Some x)) (map Some es) /\
    build s es = Ret (s', inl i) /\ s_hands s' !! i = Some (HNode Plain n) /\ n <> x /\
    try_eq eqb (s_nodes s') x n = Ret (Some true) /\ try_eq eqb (s_nodes s') n x = Ret (Some true).
Proof.
  intros T eqb s K x t He R Hst Hs Hb. destruct (roundtrip s K x t R Hst Hs Hb) as (es & td & H1 & H2 & _ & _ & s' & i & H3 & H4).
  destruct (copy_equal eqb s K s' i td x t _ He Hst Hs H2 Hb H4) as (n & u & Hi & _ & Hn & E1 & E2).
  exists es, s', i, n. auto 10.
Qed.
Print Assumptions C20_equal.
Example C20_nonvacuous : reach demo /\ stores demo demoK /\ shape demoK 4 sh4 /\
  (forall y, y ∈ rose_nodes sh4 -> ~ borrowed (s_nodes demo) y) /\
  enumerates (ser_next (s_nodes demo)) (dfs_start (Some 4)) (map Some [EOpen 104; EOpen 110; EClose 1; EOpen 112; EClose 2]) /\
  match build demo [EOpen 104; EOpen 110; EClose 1; EOpen 112; EClose 2] with
  | Ret (s', inl i) => s_hands s' !! i = Some (HNode Plain 22) /\ forest_of (s_nodes s') !! 22 = Some [27; 30]
  | _ => False end.
Proof.
  split; [exact demo_reach|]. split; [exact demo_stores|]. split; [exact demo_sh4|]. split; [apply unborrowed_ok; vm_compute; done|].
  split; [|vm_compute; done]. repeat (eapply enumerates_cons; [vm_compute; reflexivity|]). apply enumerates_nil. vm_compute; reflexivity.
Qed.

(** ** C21 *)
(** Any finite sequence of events: the build succeeds and gives the tree the
    sequence denotes (closings at the end may be missing); or it fails with
    [RootNotOpened] because nothing or first a closing comes, or with [RootClosed]
    because something comes after a whole tree; a failure leaves no trace. *)
Theorem C21_build : forall (T : Type) (s : sys T) (es : list (event T)), reach s ->
  exists s' r, build s es = Ret (s', r) /\
    match r with
    | inl i => exists k td, denotes es k td /\ builds s s' i td
    | inr RootNotOpened => unaffected s s' /\ (expand es = [] \/ exists l, expand es = None :: l)
    | inr RootClosed => unaffected s s' /\ exists td post, post <> [] /\ expand es = brackets td ++ post
    | inr BorrowData => False
    end.
Proof. exact @build_ok. Qed.
Print Assumptions C21_build.
(** The cases exclude each other, and the denoted tree is unique. *)
Theorem C21_exclusive : forall (T : Type) (es : list (event T)),
  (forall k td, denotes es k td ->
     (forall k' td', denotes es k' td' -> k' = k /\ td' = td) /\
     expand es <> [] /\ (forall l, expand es <> None :: l) /\ forall td' post, expand es = brackets td' ++ post -> post = []) /\
  (forall td post, expand es = brackets td ++ post -> expand es <> [] /\ forall l, expand es <> None :: l).
Proof. exact @events_exclusive. Qed.
Print Assumptions C21_exclusive.
(** Collecting into a [HotNode] or [FrozenNode] ([k]), or a [Tree]. *)
Theorem C21_build_locked : forall (T : Type) (s : sys T) k (es : list (event T)), reach s -> k <> Plain ->
  exists s' r, build_locked s k es = Ret (s', r) /\
    match r with
    | inl i => exists c td, denotes es c td /\ builds_as (fun n _ => HNode k n) s s' i td
    | inr RootNotOpened => unaffected s s' /\ (expand es = [] \/ exists l, expand es = None :: l)
    | inr RootClosed => unaffected s s' /\ exists td post, post <> [] /\ expand es = brackets td ++ post
    | inr BorrowData => False
    end.
Proof. exact @build_locked_ok. Qed.
Print Assumptions C21_build_locked.
Theorem C21_build_tree : forall (T : Type) (s : sys T) (es : list (event T)), reach s ->
  exists s' r, build_tree s es = Ret (s', r) /\
    match r with
    | inl i => exists c td, denotes es c td /\ builds_as (fun _ u => HTree u) s s' i td
    | inr RootNotOpened => unaffected s s' /\ (expand es = [] \/ exists l, expand es = None :: l)
    | inr RootClosed => unaffected s s' /\ exists td post, post <> [] /\ expand es = brackets td ++ post
    | inr BorrowData => False
    end.
Proof. exact @build_tree_ok. Qed.
Print Assumptions C21_build_tree.
(** What a builder says about itself after any accepted events. *)
Theorem C21_observers : forall (T : Type) (s : sys T) (es : list (event T)) s' b', reach s ->
  b_push_all s b_new es = Ret (s', b', None) ->
  (b_is_root_available b' = true <-> expand es <> []) /\
  (b_is_root_closed b' = true <-> exists td, expand es = brackets td).
Proof. exact @builder_state. Qed.
Print Assumptions C21_observers.
(** [Close(0)] is accepted by every builder in every state and does nothing. *)
Theorem C21_close_zero : forall (T : Type) (s : sys T) b, b_push s b (EClose 0) = Ret (s, b, None).
Proof. reflexivity. Qed.
Print Assumptions C21_close_zero.
Example C21_nonvacuous : reach demo /\ denotes [EOpen 1; EOpen 2; EClose 1; EClose 0; EOpen 3] 2 (Rose 1 [Rose 2 []; Rose 3 []]) /\
  match build (T := nat) init [EOpen 1; EOpen 2; EClose 1; EClose 0; EOpen 3] with
  | Ret (s', inl i) => s_hands s' !! i = Some (HNode Plain 0) /\ forest_of (s_nodes s') !! 0 = Some [5; 8] | _ => False end /\
  match build (T := nat) init [EOpen 1; EOpen 2; EClose 3] with Ret (s', inr RootClosed) => map_to_list (s_nodes s') = [] | _ => False end /\
  match build (T := nat) init [EOpen 1; EClose 1; EOpen 3] with Ret (s', inr RootClosed) => map_to_list (s_nodes s') = [] | _ => False end /\
  match build (T := nat) init [EClose 0; EClose 1; EOpen 1] with Ret (s', inr RootNotOpened) => True | _ => False end.
Proof. split; [exact demo_reach|]. vm_compute. done. Qed.
(** A builder made by [with_root] for the existing node [x] with data [d]: as
    long as the events do not close [x] itself and go on (always, if [x] is a
    root), they are the inside of a tree with root [d]; what they denote is added
    after the children [x] already has, and nothing else changes.  A root is never
    left: [RootClosed]. *)
Theorem C21_with_root : forall (T : Type) (s : sys T) K i x d borrow (es : list (event T)), reach s -> stores s K ->
  s_hands s !! i = Some (HNode Hot x) -> payload s x = Some (d, borrow) ->
  (is_top K x \/ exists post td, Some d :: expand es ++ post = brackets td) ->
  exists s1 b1 s2 b2 o, b_with_root s i = Ret (s1, b1) /\ b_push_all s1 b1 es = Ret (s2, b2, o) /\
    match o with
    | None => exists k us, Some d :: expand es ++ replicate k None = brackets (Rose d us) /\
        exists s3 p, b_finish s2 b2 = Ret (s3, inl p) /\ appends s K x us s3 /\ s_hands s !! p = None /\
          s_hands s3 = <[p := HNode Plain x]> (delete i (s_hands s))
    | Some e => e = RootClosed /\ exists us post, post <> [] /\ Some d :: expand es = brackets (Rose d us) ++ post /\ appends s K x us s2
    end.
Proof. exact @with_root_ok. Qed.
Print Assumptions C21_with_root.
Example C21_with_root_nonvacuous : reach demo /\ stores demo demoK /\ s_hands demo !! 5 = Some (HNode Hot 4) /\ payload demo 4 = Some (104, Lent 0) /\
  (Some 104 :: expand [EOpen 7; EOpen 8; EClose 2; EOpen 9] ++ [None; None] = brackets (Rose 104 [Rose 7 [Rose 8 []]; Rose 9 []])) /\
  match b_with_root demo 5 with
  | Ret (s1, b1) => match b_push_all s1 b1 [EOpen 7; EOpen 8; EClose 2; EOpen 9] with
    | Ret (s2, b2, None) => match b_finish s2 b2 with
      | Ret (s3, inl p) => s_hands s3 !! p = Some (HNode Plain 4) /\ (length <$> forest_of (s_nodes s3) !! 4 = Some 4)
      | _ => False end
    | _ => False end
  | _ => False end.
Proof. split; [exact demo_reach|]. split; [exact demo_stores|]. vm_compute. done. Qed.
(** A builder made by [with_root] for a node that is not a root leaves the subtree
    of that node: closing it makes its parent the current node.  Builder root: the
    node 4, with [is_root_closed] false after the close; the next node opened (24)
    is a child of 0. *)
Theorem C21_with_root_refuted : exists (s : sys nat) K s1 b s2 b2 K2,
  reach s /\ stores s K /\ s_hands s !! 5 = Some (HNode Hot 4) /\ b_with_root s 5 = Ret (s1, b) /\
  b_push_all s1 b [EClose 1; EOpen 777] = Ret (s2, b2, None) /\ b_is_root_closed b2 = false /\
  stores s2 K2 /\ child_of K 0 4 /\ exists n, K !! n = None /\ child_of K2 0 n /\ ~ child_of K2 4 n.
Proof.
  set (r0 := run_st demo (b_with_root demo 5)). set (b0 := mkBuilder (Some 22) (Some 5)).
  set (r1 := run_st (demo, b_new) (b_push_all r0 b0 [EClose 1; EOpen 777])).
  assert (b_with_root demo 5 = Ret (r0, b0)) as E0 by (apply run_st_ok; vm_compute; reflexivity).
  assert (b_push_all r0 b0 [EClose 1; EOpen 777] = Ret (r1, None)) as E1 by (apply run_st_ok; vm_compute; reflexivity).
  assert (r1.2 = mkBuilder (Some 22) (Some 25)) as Eb by (vm_compute; reflexivity).
  assert (stores r1.1 (forest_of (s_nodes r1.1))) as Hst.
  { apply reach_forest_of. apply (reach_push_all r0 b0 [EClose 1; EOpen 777] r1.1 r1.2 None); [|rewrite <-surjective_pairing; exact E1].
    exact (reach_with_root demo 5 r0 b0 demo_reach E0). }
  exists demo, demoK, r0, b0, r1.1, r1.2, (forest_of (s_nodes r1.1)).
  split; [exact demo_reach|]. split; [exact demo_stores|]. split; [vm_compute; reflexivity|].
  split; [exact E0|]. split; [rewrite <-surjective_pairing; exact E1|]. split; [rewrite Eb; reflexivity|]. split; [exact Hst|].
  split; [exists [4; 6; 8]; split; [vm_compute; reflexivity|clear; set_solver]|].
  exists 24. split; [vm_compute; reflexivity|]. split.
  - eexists. split; [vm_compute; reflexivity|]. clear; set_solver.
  - intros (ks & E & Hin). assert (Some ks = Some [10; 12]) as [= ->] by (rewrite <-E; vm_compute; reflexivity). clear -Hin. set_solver.
Qed.
Print Assumptions C21_with_root_refuted.
(** A failing [close] is not without effect: after [Open; Open; Close(3)] and the
    error, the current node is the root and no longer its child. *)
Theorem C21_failed_close_refuted : exists (s1 s2 : sys nat) b1 b2 c1 c2 x1 x2,
  b_push_all init b_new [EOpen 1; EOpen 2] = Ret (s1, b1, None) /\ b_close s1 b1 3 = Ret (s2, b2, Some RootClosed) /\
  b_cur b1 = Some c1 /\ s_hands s1 !! c1 = Some (HNode Hot x1) /\ b_cur b2 = Some c2 /\ s_hands s2 !! c2 = Some (HNode Hot x2) /\ x1 <> x2.
Proof.
  set (r1 := run_st (init, b_new) (b_push_all (T := nat) init b_new [EOpen 1; EOpen 2])).
  set (r2 := run_st (init, b_new) (b_close r1.1 r1.2 3)).
  exists r1.1, r2.1, r1.2, r2.2, (default 0 (b_cur r1.2)), (default 0 (b_cur r2.2)), 5, 0.
  split; [rewrite <-surjective_pairing; apply run_st_ok; vm_compute; reflexivity|].
  split; [rewrite <-surjective_pairing; apply run_st_ok; vm_compute; reflexivity|].
  repeat (split; [vm_compute; reflexivity|]). done.
Qed.
Print Assumptions C21_failed_close_refuted.

(** ** C22 *)
(** [try_clone_subtree] and [try_clone_tree]: a new tree with the same data tree,
    everything else as before; an error exactly if a node of the source is mutably
    borrowed, and then without trace. *)
Theorem C22_clone_subtree : forall (T : Type) (s : sys T) K x t, reach s -> stores s K -> shape K x t ->
  exists s' o, clone_subtree s x = Ret (s', o) /\
    match o with
    | Some i => (forall y, y ∈ rose_nodes t -> ~ borrowed (s_nodes s) y) /\
                exists td, data_tree (s_nodes s) t td /\ builds s s' i td
    | None => (exists y, y ∈ rose_nodes t /\ borrowed (s_nodes s) y) /\ unaffected s s'
    end.
Proof. exact @clone_ok. Qed.
Print Assumptions C22_clone_subtree.
Theorem C22_clone_tree : forall (T : Type) (s : sys T) K x t, reach s -> stores s K -> shape K x t ->
  exists s' o, clone_tree s x = Ret (s', o) /\
    match o with
    | Some i => (forall y, y ∈ rose_nodes t -> ~ borrowed (s_nodes s) y) /\
                exists td, data_tree (s_nodes s) t td /\ builds_as (fun _ u => HTree u) s s' i td
    | None => (exists y, y ∈ rose_nodes t /\ borrowed (s_nodes s) y) /\ unaffected s s'
    end.
Proof. exact @clone_tree_ok. Qed.
Print Assumptions C22_clone_tree.
(** The copy compares equal to its source. *)
Theorem C22_clone_equal : forall (T : Type) (eqb : T -> T -> bool) (s : sys T) K x t s' i, (forall d, eqb d d = true) ->
  reach s -> stores s K -> shape K x t -> clone_subtree s x = Ret (s', Some i) ->
  exists n, s_hands s' !! i = Some (HNode Plain n) /\ n <> x /\ try_eq eqb (s_nodes s') x n = Ret (Some true).
Proof.
  intros T eqb s K x t s' i He R Hst Hs E. destruct (clone_ok s K x t R Hst Hs) as (s2 & o & E2 & H).
  rewrite E in E2. injection E2 as <- <-. destruct H as (Hb & td & Hd & Hbu).
  destruct (copy_equal eqb s K s' i td x t _ He Hst Hs Hd Hb Hbu) as (n & u & Hi & _ & Hn & E1 & _). eauto.
Qed.
Print Assumptions C22_clone_equal.
(** [try_clone_insert_subtree] at a place outside the source: a copy at the
    destination, everything else as before; on an error nothing, or (missing: see
    [C22_error_refuted]) a part of the copy stays at the destination. *)
Theorem C22_clone_insert_partial : forall (T : Type) (s : sys T) K x t ad j y fuel, reach s -> stores s K -> shape K x t ->
  s_hands s !! j = Some (HNode Hot y) -> has_place K ad y ->
  (forall q, dest_parent K (dest_of ad y) q -> ~ below K x q) -> dfs_fuel (s_nodes s) <= fuel ->
  exists s' r, clone_insert_subtree fuel s x ad j = Ret (s', r) /\
    match r with
    | HOk i => (forall z, z ∈ rose_nodes t -> ~ borrowed (s_nodes s) z) /\ s_hands s !! i = None /\
        exists n t0 td, data_tree (s_nodes s) t td /\ grafts s K n (dest_of ad y) t0 td s' /\ s_hands s' = <[i := HNode Hot n]> (s_hands s)
    | HErr e => e = BorrowNodeData /\ (exists z, z ∈ rose_nodes t /\ borrowed (s_nodes s) z) /\ s_hands s' = s_hands s /\
        ((borrowed (s_nodes s) x /\ s' = s) \/
         (exists n t0 td, partial_copy (s_nodes s) t td /\ grafts s K n (dest_of ad y) t0 td s'))
    end.
Proof. exact @clone_insert_ok. Qed.
Print Assumptions C22_clone_insert_partial.
Example C22_nonvacuous : reach demo /\ stores demo demoK /\ shape demoK 4 sh4 /\ s_hands demo !! 19 = Some (HNode Hot 16) /\
  has_place demoK ALastChild 16 /\ (forall q, dest_parent demoK (dest_of ALastChild 16) q -> ~ below demoK 4 q) /\
  match clone_subtree demo 4 with Ret (s', Some i) => s_hands s' !! i = Some (HNode Plain 22) | _ => False end /\
  match clone_insert_subtree 50 demo 4 ALastChild 19 with
  | Ret (s', HOk i) => s_hands s' !! i = Some (HNode Hot 22) /\ forest_of (s_nodes s') !! 22 = Some [25; 28] /\ forest_of (s_nodes s') !! 16 = Some [20; 22]
  | _ => False end.
Proof.
  split; [exact demo_reach|]. split; [exact demo_stores|]. split; [exact demo_sh4|]. split; [vm_compute; done|]. split; [exact Logic.I|].
  split; [|vm_compute; done].
  intros q Hq Hb. apply (shape_nodes demoK 4 sh4 q demo_sh4) in Hb. simpl in Hq. subst q. clear -Hb. set_solver.
Qed.
(** A destination inside the source: the copy is read while it is made.  The copy of
    the leaf 6, put below 6, has a child. *)
Theorem C22_self_refuted : exists (s : sys nat) K s' i n k, reach s /\ stores s K /\ K !! 6 = Some [] /\
  s_hands s !! 7 = Some (HNode Hot 6) /\ clone_insert_subtree 50 s 6 ALastChild 7 = Ret (s', HOk i) /\
  s_hands s' !! i = Some (HNode Hot n) /\ ffirst (s_nodes s') n = Some k.
Proof.
  exists demo, demoK, (ci_state demo 6 ALastChild 7), 29, 22, 25. split; [exact demo_reach|]. split; [exact demo_stores|].
  split; [vm_compute; reflexivity|]. split; [vm_compute; reflexivity|]. split; [apply run_st_ok; vm_compute; reflexivity|]. split; vm_compute; reflexivity.
Qed.
Print Assumptions C22_self_refuted.
(** Exactly what happens at a place inside the source.  [l]: the nodes of the source
    before that place.  Directly before the first child of the source ([l = [x]]): the
    copy has one node more, a childless copy of [x], first; an error exactly if a node
    is mutably borrowed.  Anywhere else: an error if a node before the place is mutably
    borrowed, and otherwise the call never returns. *)
Theorem C22_inside_exact : forall (T : Type) (s : sys T) K x t ad j y fuel, reach s -> stores s K -> shape K x t ->
  s_hands s !! j = Some (HNode Hot y) -> has_place K ad y ->
  (forall q, dest_parent K (dest_of ad y) q -> below K x q) -> S (S (dfs_fuel (s_nodes s))) <= fuel ->
  exists l, comes_before K x (dest_of ad y) l /\
    ((l = [x] /\ exists s' r, clone_insert_subtree fuel s x ad j = Ret (s', r) /\
        match r with
        | HOk i => (forall z, z ∈ rose_nodes t -> ~ borrowed (s_nodes s) z) /\ s_hands s !! i = None /\
            exists n t0 d us, data_tree (s_nodes s) t (Rose d us) /\ grafts s K n (dest_of ad y) t0 (Rose d (Rose d [] :: us)) s' /\
              s_hands s' = <[i := HNode Hot n]> (s_hands s)
        | HErr e => e = BorrowNodeData /\ (exists z, z ∈ rose_nodes t /\ borrowed (s_nodes s) z) /\ s_hands s' = s_hands s /\
            ((borrowed (s_nodes s) x /\ s' = s) \/
             (exists n t0 d us td, data_tree (s_nodes s) t (Rose d us) /\ breaks_off (Rose d (Rose d [] :: us)) td /\ grafts s K n (dest_of ad y) t0 td s'))
        end) \/
     (l <> [x] /\ (exists z, z ∈ l /\ borrowed (s_nodes s) z) /\
        exists s', clone_insert_subtree fuel s x ad j = Ret (s', HErr BorrowNodeData) /\ s_hands s' = s_hands s /\
          ((borrowed (s_nodes s) x /\ s' = s) \/
           (exists n t0 ts td, data_tree (s_nodes s) t ts /\ breaks_off ts td /\ grafts s K n (dest_of ad y) t0 td s'))) \/
     (l <> [x] /\ (forall z, z ∈ l -> ~ borrowed (s_nodes s) z) /\ forall fuel', clone_insert_subtree fuel' s x ad j = NoFuel)).
Proof. exact @clone_inside. Qed.
Print Assumptions C22_inside_exact.
(** The subtree of 4 (children 10, 12): before its first child, after its last child,
    below 12. *)
Example C22_inside_nonvacuous : reach demo /\ stores demo demoK /\ shape demoK 4 sh4 /\
  s_hands demo !! 5 = Some (HNode Hot 4) /\ s_hands demo !! 13 = Some (HNode Hot 12) /\
  has_place demoK AFirstChild 4 /\ has_place demoK ANextSibling 12 /\ has_place demoK ALastChild 12 /\
  (forall ad y, (ad, y) ∈ [(AFirstChild, 4); (ANextSibling, 12); (ALastChild, 12)] -> forall q, dest_parent demoK (dest_of ad y) q -> below demoK 4 q) /\
  match clone_insert_subtree 60 demo 4 AFirstChild 5 with
  | Ret (s', HOk i) => s_hands s' !! i = Some (HNode Hot 22) /\ forest_of (s_nodes s') !! 4 = Some [22; 10; 12] /\
                       forest_of (s_nodes s') !! 22 = Some [25; 28; 31] /\ payload s' 25 = Some (104, Lent 0)
  | _ => False end /\
  clone_insert_subtree 60 demo 4 ANextSibling 13 = NoFuel /\ clone_insert_subtree 60 demo 4 ALastChild 13 = NoFuel.
Proof.
  split; [exact demo_reach|]. split; [exact demo_stores|]. split; [exact demo_sh4|]. split; [vm_compute; reflexivity|]. split; [vm_compute; reflexivity|].
  split; [exact Logic.I|].
  assert (child_of demoK 4 12) as H412 by (exists [10; 12]; split; [vm_compute; reflexivity|clear; set_solver]).
  split; [exists 4; exact H412|]. split; [exact Logic.I|].
  split.
  { intros ad y Hin q Hq. apply elem_of_cons in Hin as [[= -> ->]|Hin]; [simpl in Hq; subst q; constructor|].
    apply elem_of_cons in Hin as [[= -> ->]|Hin]; [|apply elem_of_list_singleton in Hin as [= -> ->]; simpl in Hq; subst q; econstructor; [constructor|exact H412]].
    simpl in Hq. rewrite (wf_uniq _ (proj2 demo_stores) q 4 12 Hq H412). constructor. }
  split; [vm_compute; done|]. split; vm_compute; reflexivity.
Qed.
(** No place at the destination (next to a root): refused, without trace. *)
Theorem C22_no_place : forall (T : Type) (s : sys T) K x t ad j y fuel, reach s -> stores s K -> shape K x t ->
  s_hands s !! j = Some (HNode Hot y) -> ~ has_place K ad y ->
  exists s' e, clone_insert_subtree fuel s x ad j = Ret (s', HErr e) /\
    (borrowed (s_nodes s) x -> e = BorrowNodeData) /\ (~ borrowed (s_nodes s) x -> e = SiblingsWithoutParent) /\
    s_nodes s' = s_nodes s /\ s_trees s' = s_trees s /\ s_hands s' = s_hands s.
Proof. exact @clone_no_place. Qed.
Print Assumptions C22_no_place.
Example C22_no_place_nonvacuous : reach demo /\ stores demo demoK /\ shape demoK 4 sh4 /\ s_hands demo !! 19 = Some (HNode Hot 16) /\
  ~ has_place demoK ANextSibling 16 /\
  match clone_insert_subtree 60 demo 4 ANextSibling 19 with Ret (_, HErr SiblingsWithoutParent) => True | _ => False end.
Proof.
  split; [exact demo_reach|]. split; [exact demo_stores|]. split; [exact demo_sh4|]. split; [vm_compute; reflexivity|].
  split; [|vm_compute; done]. intros [q Hq]. refine (proj2 (PropMove.top_b_ok demoK 16 _) q Hq). by vm_compute.
Qed.
(** It may never end: with every amount of fuel, when [x] has the only child [c], a
    leaf, and the copy of [x] is put below [c]. *)
Theorem C22_diverges_refuted : forall (T : Type) (s : sys T) K x c j, reach s -> stores s K -> K !! x = Some [c] -> K !! c = Some [] ->
  s_hands s !! j = Some (HNode Hot c) -> ~ borrowed (s_nodes s) x -> ~ borrowed (s_nodes s) c ->
  forall fuel, clone_insert_subtree fuel s x ALastChild j = NoFuel.
Proof. exact @clone_insert_diverges. Qed.
Print Assumptions C22_diverges_refuted.
Example C22_diverges_nonvacuous : reach demo /\ stores demo demoK /\ demoK !! 16 = Some [20] /\ demoK !! 20 = Some [] /\
  s_hands demo !! 21 = Some (HNode Hot 20) /\ forall y, y ∈ [16; 20] -> ~ borrowed (s_nodes demo) y.
Proof. split; [exact demo_reach|]. split; [exact demo_stores|]. split; [vm_compute; done|]. split; [vm_compute; done|]. split; [vm_compute; done|]. apply unborrowed_ok. vm_compute. done. Qed.
(** An error leaves a part of the copy behind: the data of 12 being borrowed, the
    copy of 4 below 16 fails, and 16 has a new child. *)
Theorem C22_error_refuted : exists (s : sys nat) K s' K', reach s /\ stores s K /\ K !! 16 = Some [20] /\
  s_hands s !! 19 = Some (HNode Hot 16) /\ clone_insert_subtree 50 s 4 ALastChild 19 = Ret (s', HErr BorrowNodeData) /\
  stores s' K' /\ K' !! 16 = Some [20; 22] /\ K' !! 22 = Some [25].
Proof.
  set (sb := after (demo_ops ++ [OpBorrow 13 TakeMut])).
  assert (reach sb) as R by apply after_reach. assert (stores sb (forest_of (s_nodes sb))) as Hst by apply after_stores.
  assert (shape (forest_of (s_nodes sb)) 4 sh4) as Hs by (repeat (constructor; try (vm_compute; reflexivity))).
  assert (forall q, dest_parent (forest_of (s_nodes sb)) (dest_of ALastChild 16) q -> ~ below (forest_of (s_nodes sb)) 4 q) as Hq.
  { intros q Hq Hb. apply (shape_nodes _ 4 sh4 q Hs) in Hb. simpl in Hq. subst q. clear -Hb. set_solver. }
  assert (clone_insert_subtree 50 sb 4 ALastChild 19 = Ret (ci_state sb 4 ALastChild 19, HErr BorrowNodeData)) as E2 by (apply run_st_ok; vm_compute; reflexivity).
  assert (s_hands sb !! 19 = Some (HNode Hot 16)) as Hj by (vm_compute; reflexivity).
  assert (dfs_fuel (s_nodes sb) <= 50) as Hf by (vm_compute; lia).
  exists sb, (forest_of (s_nodes sb)), (ci_state sb 4 ALastChild 19), (forest_of (s_nodes (ci_state sb 4 ALastChild 19))).
  split; [exact R|]. split; [exact Hst|]. split; [vm_compute; reflexivity|]. split; [exact Hj|]. split; [exact E2|].
  split; [|split; vm_compute; reflexivity].
  exact (ci_left sb _ 4 sh4 ALastChild 19 16 50 _ _ R Hst Hs Hj Logic.I Hq Hf E2).
Qed.
Print Assumptions C22_error_refuted.
