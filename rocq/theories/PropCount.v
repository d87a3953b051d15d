(** * PropCount: the counters cannot overflow (C46).

    The code counts handles, locks and children in machine integers
    (`NonZeroUsize`, `usize`, `isize`; membership.rs:179,200, lock.rs:102,139,424,
    internal.rs num_children); the model counts in [nat] and [Z].  These theorems
    say that no counter exceeds the number of live handles or of live nodes, each of
    which occupies memory of its own: the two ways of counting agree.  (Between the
    calls; inside one call at most a few temporary handles are added.) *)
From Verif Require Import Heap System SysSpec ApiSpec GenSpec CountFacts ApiFacts3 Demo PropAny Spec.

(** After every history: the reference count of a node and the number of its locks
    are at most the number of handles; so is the count of grants (positive) or
    prohibitions (negative) of a tree. *)
Theorem C46_any_counts : forall (T : Type) (s : sys T), any s ->
  (forall (x : nid) nd (t : tid) rc lk, s_nodes s !! x = Some nd -> n_mem nd = MStrong t rc lk ->
    0 < rc /\ lk <= rc /\ rc <= size (s_hands s)) /\
  (forall (t : tid) tr, s_trees s !! t = Some tr -> (Z.abs (t_cnt tr) <= Z.of_nat (size (s_hands s)))%Z).
Proof. exact @any_counts'. Qed.
Print Assumptions C46_any_counts.
(** The number of children is less than the number of nodes. *)
Theorem C46_num_children_partial : forall (T : Type) (s : sys T) (x : nid) nd, reach s -> s_nodes s !! x = Some nd -> n_nch nd < size (s_nodes s).
Proof. exact @reach_nch. Qed.
Print Assumptions C46_num_children_partial.
Example C46_nonvacuous : any broken /\ size (s_hands broken) = 13 /\ t_cnt <$> s_trees broken !! 1 = Some 6%Z /\
  n_mem <$> s_nodes broken !! 4 = Some (MStrong 1 2 1) /\
  reach demo /\ n_nch <$> s_nodes demo !! 0 = Some 3 /\ size (s_nodes demo) = 9.
Proof. split; [exact broken_any|]. split; [by vm_compute|]. split; [by vm_compute|]. split; [by vm_compute|]. split; [exact demo_reach|]. by vm_compute. Qed.
