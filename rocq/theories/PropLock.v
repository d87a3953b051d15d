(** * PropLock: edit grants and prohibitions (C23-C26). *)
From Verif Require Import Heap Edit System SysSpec ApiSpec ApiFacts ApiFacts2 ApiFacts3 ApiFacts4 ApiFacts5 ApiFacts6 ApiFacts7 ApiFacts8 Demo Examples Spec.

(** The demo states for this file: [frozen_demo] is [demo] plus a third tree 22 -> [26]
    with a frozen handle and a prohibition token; [grant_demo] has a plain handle on
    the tree 0 together with a grant token for it and one for another tree. *)
Definition frozen_ops : list (op nat) :=
  demo_ops ++ [OpNewTree 122; OpBundle Hot 24; OpCreate (ByHot 25) 126 AFirstChild; OpPlain 25; OpDrop 25; OpDrop 27;
               OpBundle Frozen 28; OpTree 29; OpLock Frozen 30].
Definition frozen_demo : sys nat := after frozen_ops.
Definition frozenK : forest := Eval vm_compute in forest_of (s_nodes frozen_demo).
Lemma frozen_reach : reach frozen_demo. Proof. apply after_reach. Qed.
Lemma frozen_stores : stores frozen_demo frozenK.
Proof. replace frozenK with (forest_of (s_nodes frozen_demo)) by (vm_compute; reflexivity). apply after_stores. Qed.
Definition grant_ops : list (op nat) :=
  [OpNewTree 100; OpTree 2; OpLock Hot 3; OpCreate (ByGrant 2 4) 105 ALastChild; OpNewTree 107; OpTree 9; OpLock Hot 10].
Definition grant_demo : sys nat := after grant_ops.
Definition grantK : forest := Eval vm_compute in forest_of (s_nodes grant_demo).
Lemma grant_reach : reach grant_demo. Proof. apply after_reach. Qed.
Lemma grant_stores : stores grant_demo grantK.
Proof. replace grantK with (forest_of (s_nodes grant_demo)) by (vm_compute; reflexivity). apply after_stores. Qed.

(** [some_lock s k t]: some token of kind [k] for [t] is alive, or some node of [t]
    has a handle of kind [k]. *)

(** ** C23 *)
Theorem C23_exclusive : forall (T : Type) (s : sys T) t, reach s -> is_Some (s_trees s !! t) ->
  ~ (some_lock s Hot t /\ some_lock s Frozen t).
Proof.
  intros T s t H Ht [A B]. destruct (reach_stores s H) as [K HK].
  exact (lock_exclusive s K t (reach_stores_inv s K H HK) Ht A B).
Qed.
Print Assumptions C23_exclusive.

(** Acquiring succeeds exactly when no lock of the other kind is alive. *)
Theorem C23_acquire_token : forall (T : Type) (s : sys T) k i t,
  reach s -> s_hands s !! i = Some (HTree t) -> has_lock k ->
  (~ some_lock s (opposite k) t /\
     exists s' j, step s (OpLock k i) = Ret (s', OutHandle j) /\ gives s s' j (token k t)) \/
  (some_lock s (opposite k) t /\ step s (OpLock k i) = Ret (s, OutLockErr)).
Proof. exact @lock_api. Qed.
Print Assumptions C23_acquire_token.
Theorem C23_acquire_bundle : forall (T : Type) (s : sys T) k i x t,
  reach s -> s_hands s !! i = Some (HNode Plain x) -> tree_of s x = Some t -> has_lock k ->
  (~ some_lock s (opposite k) t /\
     exists s' j, step s (OpBundle k i) = Ret (s', OutHandle j) /\ exchanges s s' i j (HNode k x)) \/
  (some_lock s (opposite k) t /\
     exists s' K, stores s K /\ step s (OpBundle k i) = Ret (s', OutLockErr) /\ drops s K i t s').
Proof. exact @bundle_api. Qed.
Print Assumptions C23_acquire_bundle.
Example C23_nonvacuous : reach frozen_demo /\ s_hands frozen_demo !! 30 = Some (HTree 23) /\ some_lock frozen_demo Frozen 23 /\
  some_lock frozen_demo Hot 1 /\ nxt_out frozen_demo (OpLock Hot 30) = OutLockErr /\
  nxt_out frozen_demo (OpLock Frozen 30) = OutHandle 32.
Proof.
  split; [exact frozen_reach|]. split; [by vm_compute|].
  split; [left; exists 31; split; [done|by vm_compute]|].
  split; [right; exists 4; split; [done|]; split; [by vm_compute|exists 5; by vm_compute]|]. by vm_compute.
Qed.

(** ** C24 *)
(** The count kept in the tree is the number of live tokens plus the number of nodes
    with at least one live locking handle (negative for prohibitions). *)
Theorem C24_balance : forall (T : Type) (s : sys T) t tr, reach s -> s_trees s !! t = Some tr ->
  exists g p, holders s (s_hands s) Hot t g /\ holders s (s_hands s) Frozen t p /\
    t_cnt tr = (Z.of_nat g - Z.of_nat p)%Z /\ (g = 0 \/ p = 0).
Proof. intros T s t tr H Ht. destruct (reach_stores s H) as [K HK]. exact (lock_count s K t tr H HK Ht). Qed.
Print Assumptions C24_balance.
(** Dropping any handle or token succeeds: no release panics. *)
Theorem C24_release_never_panics : forall (T : Type) (s : sys T) i hd, reach s -> s_hands s !! i = Some hd ->
  exists s', step s (OpDrop i) = Ret (s', OutUnit) /\ reach s' /\ s_hands s' = delete i (s_hands s).
Proof. exact @drop_any. Qed.
Print Assumptions C24_release_never_panics.
(** A tree without lock holders has count zero and accepts either kind. *)
Theorem C24_reacquire : forall (T : Type) (s : sys T) i t k, reach s -> s_hands s !! i = Some (HTree t) ->
  (forall k', ~ some_lock s k' t) -> has_lock k ->
  exists s' j, step s (OpLock k i) = Ret (s', OutHandle j) /\ gives s s' j (token k t).
Proof.
  intros T s i t k H Hi Hn Hk. destruct (lock_api s k i t H Hi Hk) as [[_ A]|[A _]]; [exact A|]. by apply Hn in A.
Qed.
Print Assumptions C24_reacquire.
Example C24_nonvacuous : reach frozen_demo /\ t_cnt <$> s_trees frozen_demo !! 1 = Some 7%Z /\
  t_cnt <$> s_trees frozen_demo !! 23 = Some (-2)%Z /\
  t_cnt <$> s_trees (nxt (nxt frozen_demo (OpDrop 29)) (OpDrop 31)) !! 23 = Some 0%Z /\
  nxt_out (nxt (nxt frozen_demo (OpDrop 29)) (OpDrop 31)) (OpLock Hot 30) = OutHandle 32.
Proof. split; [exact frozen_reach|]. vm_compute. done. Qed.

(** ** C25 *)
(** Detaching: the new tree gets exactly one grant per node of the subtree with a hot
    handle, and the old tree loses as many. *)
Theorem C25_detach_partial : forall (T : Type) (s : sys T) K a k x p ks,
  reach s -> stores s K -> receiver s a k x -> K !! p = Some ks -> x ∈ ks -> (last_not_first K x -> alone s K x) ->
  exists s' t t' m, step s (OpDetach a) = Ret (s', OutUnit) /\ tree_of s x = Some t /\ tree_of s' x = Some t' /\
    card (hot_in s K x) m /\ (is_Some (s_trees s' !! t) -> lock_cnt s' t = (lock_cnt s t - Z.of_nat m)%Z) /\
    lock_cnt s' t' = Z.of_nat m.
Proof. exact @detach_counts. Qed.
Print Assumptions C25_detach_partial.
Theorem C25_move_partial : forall (T : Type) (s : sys T) K a k x ad j y t t',
  reach s -> stores s K -> receiver s a k x -> s_hands s !! j = Some (HNode Hot y) ->
  (exists p, child_of K p x) -> (last_not_first K x -> alone s K x) -> ~ below K x y -> has_place K ad y ->
  tree_of s x = Some t -> tree_of s y = Some t' -> t <> t' ->
  exists s' m, step s (OpMove a ad j) = Ret (s', OutUnit) /\ tree_of s' x = Some t' /\
    card (hot_in s K x) m /\ (is_Some (s_trees s' !! t) -> lock_cnt s' t = (lock_cnt s t - Z.of_nat m)%Z) /\
    lock_cnt s' t' = (lock_cnt s t' + Z.of_nat m)%Z.
Proof. exact @move_counts. Qed.
Print Assumptions C25_move_partial.
(** [lock_cnt s t] is the count of the tree, so by [C24_balance] it is the number of
    holders. *)
Example C25_nonvacuous : reach demo /\ stores demo demoK /\ receiver demo (ByHot 5) Hot 4 /\ lock_cnt demo 1 = 7%Z /\
  lock_cnt demo 17 = 2%Z /\
  let s' := nxt demo (OpMove (ByHot 5) AFirstChild 21) in lock_cnt s' 1 = 4%Z /\ lock_cnt s' 17 = 5%Z.
Proof. split; [exact demo_reach|]. split; [exact demo_stores|]. vm_compute. done. Qed.

(** ** C26 *)
(** An edit with a grant of another tree panics; nothing has been changed by then,
    since the check is the first thing the call does. *)
Theorem C26_wrong_grant : forall (T : Type) (s : sys T) K o, reach s -> stores s K ->
  safe s K o -> well_typed s o -> must_panic s o -> step s o = Panic.
Proof. intros T s K o H Hst Hs Hw Hp. exact (reach_panic s K o H Hst Hs Hp Hw). Qed.
Print Assumptions C26_wrong_grant.
Example C26_grant_nonvacuous : reach grant_demo /\ stores grant_demo grantK /\
  receiver grant_demo (ByGrant 2 4) Plain 0 /\ must_panic grant_demo (OpCreate (ByGrant 2 11) 1 AFirstChild) /\
  step grant_demo (OpCreate (ByGrant 2 11) 1 AFirstChild) = Panic /\
  nxt_out grant_demo (OpCreate (ByGrant 2 4) 1 AFirstChild) = OutHandle 13.
Proof.
  split; [exact grant_reach|]. split; [exact grant_stores|].
  split. { split; [done|]. split; [by vm_compute|]. exists 1. by vm_compute. }
  split. { exists 0, 8. vm_compute. split; [done|]. split; done. }
  by vm_compute.
Qed.

(** While a prohibition is alive for a tree, no call whatsoever changes the children
    of its nodes, takes a node out of it or puts one in. *)
Theorem C26_frozen_partial : forall (T : Type) (s : sys T) K o s' r K' t,
  reach s -> stores s K -> safe s K o -> step s o = Ret (s', r) -> stores s' K' ->
  some_lock s Frozen t -> is_Some (s_trees s !! t) ->
  (forall y, tree_of s y = Some t -> is_Some (s_nodes s' !! y) -> K' !! y = K !! y /\ tree_of s' y = Some t) /\
  (forall y, tree_of s' y = Some t -> tree_of s y = Some t).
Proof. exact @frozen_immutable. Qed.
Print Assumptions C26_frozen_partial.
Example C26_frozen_nonvacuous : reach frozen_demo /\ stores frozen_demo frozenK /\ some_lock frozen_demo Frozen 23 /\
  frozenK !! 22 = Some [26] /\ nxt_out frozen_demo (OpDetach (ByHot 5)) = OutUnit.
Proof.
  split; [exact frozen_reach|]. split; [exact frozen_stores|]. split; [left; exists 31; split; [done|by vm_compute]|]. by vm_compute.
Qed.

(** Without the guard [safe] on the history this fails: the last child 8 of 0 is detached
    and its tree frozen; appending a child to 0 then writes the [next_sibling] of the
    frozen node 8. *)
Theorem C26_refuted : exists (os : list (op nat)) s rs x t n s' i,
  steps init os = Ret (s, rs) /\ tree_of s x = Some t /\ some_lock s Frozen t /\ next_sibling_link (s_nodes s) x = None /\
  step s (OpCreate (ByHot 3) 125 ALastChild) = Ret (s', OutHandle i) /\ s_hands s' !! i = Some (HNode Hot n) /\
  next_sibling_link (s_nodes s') x = Some n /\ tree_of s' n <> Some t.
Proof.
  pose (os := demo_ops ++ [OpDetach (ByHot 9); OpPlain 9; OpDrop 9; OpDrop 15; OpBundle Frozen 23]).
  exists os, (ran os), (outs os), 8, 22, 25, (nxt (ran os) (OpCreate (ByHot 3) 125 ALastChild)), 26.
  split; [apply ran_ok; by vm_compute|]. split; [by vm_compute|].
  split; [right; exists 8; split; [done|]; split; [by vm_compute|exists 24; by vm_compute]|]. split; [by vm_compute|].
  split; [apply nxt_ok; by vm_compute|]. by vm_compute.
Qed.
Print Assumptions C26_refuted.
