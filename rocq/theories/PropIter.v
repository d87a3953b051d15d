(** * PropIter: iterating while the trees change (C41, C42). *)
From Verif Require Import HIter HIterSpec HIterFacts HIterFacts2 HIterFacts3 Demo PropLock ApiFacts ApiFacts2 ApiFacts3 Spec.

(** ** C41 *)
(** Partial: the other code makes [safe] calls; after an unsafe one there is no forest
    to speak of. *)
(** A depth-first traversal from a plain node.  Whatever safe calls other code makes
    between the calls of [next] (they may edit, detach, move and drop anything the
    iterator does not own), no call panics, each returns a handle on the node the
    cursor stands at, and the cursor moves to the following event of the forest of
    that moment.  If the subtree has the shape [t] at the times of the calls, the
    events are those of [t]. *)
Theorem C41_depth_first_partial : forall (T : Type) (s : sys T) i x t, reach s -> s_hands s !! i = Some (HNode Plain x) ->
  exists s1 st, hdfs_start s i = Ret (s1, st) /\ reach s1 /\ same_view s s1 /\
    (forall j hd, s_hands s !! j = Some hd -> s_hands s1 !! j = Some hd) /\
    (forall n, walks hdfs_next hdfs_owns (fun s e c => names s Plain e c.1) dfs_moves n s1 st (Some (Open x, x))) /\
    (rose_root t = x -> yields_while hdfs_next hdfs_owns (fun s e c => names s Plain e c.1) (fun K => shape K x t) s1 st
       (map (fun e => (e, x)) (dfs_events t))).
Proof. intros T s i x t. exact (hdfs_yields Plain s i x t). Qed.
Print Assumptions C41_depth_first_partial.
Theorem C41_reverse_depth_first_partial : forall (T : Type) (s : sys T) i x t, reach s -> s_hands s !! i = Some (HNode Plain x) ->
  exists s1 st, hrdfs_start s i = Ret (s1, st) /\ reach s1 /\ same_view s s1 /\
    (forall j hd, s_hands s !! j = Some hd -> s_hands s1 !! j = Some hd) /\
    (forall n, walks hrdfs_next hdfs_owns (fun s e c => names s Plain e c.1) rdfs_moves n s1 st (Some (Close x, x))) /\
    (rose_root t = x -> yields_while hrdfs_next hdfs_owns (fun s e c => names s Plain e c.1) (fun K => shape K x t) s1 st
       (map (fun e => (e, x)) (reverse (dfs_events t)))).
Proof. intros T s i x t. exact (hrdfs_yields Plain s i x t). Qed.
Print Assumptions C41_reverse_depth_first_partial.
(** Ancestors, following and preceding siblings. *)
Theorem C41_linear_partial : forall (T : Type) (s : sys T) i x v, reach s -> s_hands s !! i = Some (HNode Plain x) ->
  forall n, walks (hsib_next v) hsib_owns (fun s j y => s_hands s !! j = Some (HNode Plain y)) (fun K y o => nav_spec K v y o) n s (Some i) (Some x).
Proof. intros T s i x v H Hi n. exact (hsib_walks v Plain n s (Some i) (Some x) H Hi). Qed.
Print Assumptions C41_linear_partial.
Theorem C41_linear_fixed_partial : forall (T : Type) (s : sys T) i x p l1 l2 l, reach s -> s_hands s !! i = Some (HNode Plain x) ->
  yields_while (hsib_next NParent) hsib_owns (fun s j y => s_hands s !! j = Some (HNode Plain y))
    (fun K => anc K x l) s (Some i) (x :: l) /\
  yields_while (hsib_next NNext) hsib_owns (fun s j y => s_hands s !! j = Some (HNode Plain y))
    (fun K => K !! p = Some (l1 ++ x :: l2)) s (Some i) (x :: l2) /\
  yields_while (hsib_next NPrev) hsib_owns (fun s j y => s_hands s !! j = Some (HNode Plain y))
    (fun K => K !! p = Some (l1 ++ x :: l2)) s (Some i) (x :: reverse l1).
Proof.
  intros T s i x p l1 l2 l H Hi. exact (conj (hsib_anc_yields Plain s i x l H Hi)
    (conj (hsib_next_yields Plain s i x p l1 l2 H Hi) (hsib_prev_yields Plain s i x p l1 l2 H Hi))).
Qed.
Print Assumptions C41_linear_fixed_partial.

(** A plain handle 22 on the node 4; after the first call of [next] the cursor stands
    at the node 10; other code now gives the node 10 a child 25, and after the next
    call the cursor stands at that child. *)
Definition walk_demo : sys nat := after (demo_ops ++ [OpPlain 5]).
Definition walk1 : sys nat * option (dft nat) * hdfs_state :=
  match (x ← hdfs_start walk_demo 22; hdfs_next (fst x) (snd x)) with Ret r => r | _ => (init, None, None) end.
Definition walk_op : op nat := OpCreate (ByHot 11) 124 AFirstChild.
Definition walk_mid : sys nat := nxt walk1.1.1 walk_op.
Definition walk2 : sys nat * option (dft nat) * hdfs_state :=
  match hdfs_next walk_mid walk1.2 with Ret r => r | _ => (init, None, None) end.
Lemma walk1_reach : reach walk1.1.1.
Proof.
  assert (s_hands walk_demo !! 22 = Some (HNode Plain 4)) as Hi by (vm_compute; reflexivity).
  destruct (hdfs_yields Plain walk_demo 22 4 (Rose 4 []) (after_reach _) Hi) as (s1 & st & E & R & _ & _ & W & _).
  destruct (reach_stores s1 R) as [K HK]. destruct (W 1 s1 K (others_none _ _) HK) as (s2 & r & st' & E2 & R2 & _).
  unfold walk1. rewrite E. cbn [mbind run_bind fst snd]. rewrite E2. exact R2.
Qed.
Example C41_nonvacuous : reach walk_demo /\ s_hands walk_demo !! 22 = Some (HNode Plain 4) /\
  walk1.1.2 = Some (Open 23) /\ hdfs_owns walk1.2 = [24; 22] /\ s_hands walk1.1.1 !! 24 = Some (HNode Plain 10) /\
  others (hdfs_owns walk1.2) walk1.1.1 walk_mid /\ nxt_out walk1.1.1 walk_op = OutHandle 26 /\
  forest_of (s_nodes walk_mid) !! 10 = Some [25] /\ walk2.1.2 = Some (Open 24) /\
  hdfs_owns walk2.2 = [27; 22] /\ s_hands walk2.1.1 !! 27 = Some (HNode Plain 25).
Proof.
  split; [apply after_reach|]. split; [vm_compute; reflexivity|]. split; [vm_compute; reflexivity|]. split; [vm_compute; reflexivity|].
  split; [vm_compute; reflexivity|]. split; [|vm_compute; done].
  destruct (reach_stores _ walk1_reach) as [K HK].
  assert (step walk1.1.1 walk_op = Ret (walk_mid, OutHandle 26)) as E by (exact (nxt_ok walk1.1.1 walk_op (OutHandle 26) ltac:(vm_compute; reflexivity) ltac:(vm_compute; reflexivity))).
  assert (forall i, i ∈ op_args walk_op -> i ∉ hdfs_owns walk1.2) as Ha.
  { assert (hdfs_owns walk1.2 = [24; 22]) as -> by (vm_compute; reflexivity). intros i Hi. simpl in Hi. clear -Hi. set_solver. }
  exact (others_call _ walk1.1.1 K walk_op walk_mid (OutHandle 26) walk_mid HK Logic.I Ha E (others_none _ walk_mid)).
Qed.

(** ** C42 *)
(** The double-ended frozen traverser enumerates the subtree as it was when the
    traversal began, from both ends, whatever safe calls other code makes between
    the calls: nobody can change the tree while the iterator lives. *)
Theorem C42_frozen_traversal_partial : forall (T : Type) (s : sys T) K i x t max, reach s -> stores s K ->
  s_hands s !! i = Some (HNode Frozen x) -> shape K x t ->
  exists s1 st, hsh_start s i = Ret (s1, st) /\ reach s1 /\ same_view s s1 /\
    (forall j hd, s_hands s !! j = Some hd -> s_hands s1 !! j = Some hd) /\
    forall bs, withstands (hsh_next max) (hsh_next_back max) hsh_owns (fun s => names_at s Frozen) bs s1 st
      (dfs_events (rose_depths 0 (rose_cut max t))).
Proof. exact @hsh_yields. Qed.
Print Assumptions C42_frozen_traversal_partial.

(** The tree 22 -> [26] with the frozen handle 29: taking one event from each end, an
    edit of another tree and an attempt to lock this tree for editing in between. *)
Definition ftrav : run (sys nat * list (option (dft (nat * nat))) * list (out nat)) :=
  '(s1, st) ← hsh_start frozen_demo 29;
  '(s2, a, st2) ← hsh_next None s1 st;
  '(s3, r) ← steps s2 [OpLock Hot 30; OpCreate (ByHot 11) 124 AFirstChild];
  '(s4, b, st3) ← hsh_next_back None s3 st2;
  '(s5, c, st4) ← hsh_next None s4 st3;
  '(s6, d, st5) ← hsh_next None s5 st4;
  '(s7, e, _) ← hsh_next_back None s6 st5;
  Ret (s7, [a; b; c; d; e], r).
Example C42_nonvacuous : reach frozen_demo /\ stores frozen_demo frozenK /\ s_hands frozen_demo !! 29 = Some (HNode Frozen 22) /\
  shape frozenK 22 (Rose 22 [Rose 26 []]) /\
  match ftrav with
  | Ret (s, l, r) => (r = [OutLockErr; OutHandle 35]) /\
      (map (option_map (ev_map (fun v => (s_hands s !! fst v, snd v)))) l =
       [Some (Open (Some (HNode Frozen 22), 0)); Some (Close (Some (HNode Frozen 22), 0));
        Some (Open (Some (HNode Frozen 26), 1)); Some (Close (Some (HNode Frozen 26), 1)); None])
  | _ => False
  end.
Proof.
  split; [exact frozen_reach|]. split; [exact frozen_stores|]. split; [vm_compute; reflexivity|]. split.
  - constructor; [vm_compute; reflexivity|]. constructor; [|constructor]. constructor; [vm_compute; reflexivity|constructor].
  - vm_compute. done.
Qed.
