(** * PropEq: comparing nodes and trees is an equivalence relation (C54), as [impl Eq for Node], [HotNode], [FrozenNode] and
    [Tree] promise.  The comparison [eqb] of the data need only be symmetric and transitive ([PartialEq]). *)
From Verif Require Import Heap System Serial SysSpec SerialSpec ApiSpec ApiFacts2 ApiFacts3 EqFacts3 Demo Spec.

(** [a.try_eq(b)] and [a == b] for nodes: every node equals itself, even while it or a node below is mutably borrowed; the answer,
    error or panic does not depend on the order of the two; equality is transitive. *)
Theorem C54_nodes : forall (T : Type) (eqb : T -> T -> bool) (s : sys T),
  (forall d e, eqb d e = eqb e d) -> (forall d e f, eqb d e = true -> eqb e f = true -> eqb d f = true) -> reach s ->
  (forall i k x, s_hands s !! i = Some (HNode k x) -> node_try_eq eqb s i i = Ret (Some true)) /\
  (forall i j k k' x y, s_hands s !! i = Some (HNode k x) -> s_hands s !! j = Some (HNode k' y) ->
     node_try_eq eqb s i j = node_try_eq eqb s j i) /\
  (forall i j l k1 k2 k3 x y z, s_hands s !! i = Some (HNode k1 x) -> s_hands s !! j = Some (HNode k2 y) -> s_hands s !! l = Some (HNode k3 z) ->
     node_try_eq eqb s i j = Ret (Some true) -> node_try_eq eqb s j l = Ret (Some true) -> node_try_eq eqb s i l = Ret (Some true)) /\
  (forall i j b, eq_expect (node_try_eq eqb s i j) = Ret b <-> node_try_eq eqb s i j = Ret (Some b)).
Proof.
  intros T eqb s Hs Ht R. split; [intros i k x; exact (node_eq_refl eqb s i k x R)|]. split; [intros i j k k' x y; exact (node_eq_sym eqb Hs s i j k k' x y R)|].
  split; [intros i j l k1 k2 k3 x y z; exact (node_eq_trans eqb Ht s i j l k1 k2 k3 x y z R)|].
  intros i j b. destruct (node_try_eq eqb s i j) as [[c|]| |]; cbn; split; intros E; try discriminate E; injection E as ->; reflexivity.
Qed.
Print Assumptions C54_nodes.
(** The same for trees. *)
Theorem C54_trees : forall (T : Type) (eqb : T -> T -> bool) (s : sys T),
  (forall d e, eqb d e = eqb e d) -> (forall d e f, eqb d e = true -> eqb e f = true -> eqb d f = true) -> reach s ->
  (forall i t, s_hands s !! i = Some (HTree t) -> tree_try_eq eqb s i i = Ret (Some true)) /\
  (forall i j t u, s_hands s !! i = Some (HTree t) -> s_hands s !! j = Some (HTree u) -> tree_try_eq eqb s i j = tree_try_eq eqb s j i) /\
  (forall i j l t u v, s_hands s !! i = Some (HTree t) -> s_hands s !! j = Some (HTree u) -> s_hands s !! l = Some (HTree v) ->
     tree_try_eq eqb s i j = Ret (Some true) -> tree_try_eq eqb s j l = Ret (Some true) -> tree_try_eq eqb s i l = Ret (Some true)) /\
  (forall i j b, eq_expect (tree_try_eq eqb s i j) = Ret b <-> tree_try_eq eqb s i j = Ret (Some b)).
Proof.
  intros T eqb s Hs Ht R. split; [intros i t; exact (tree_eq_refl eqb s i t R)|]. split; [intros i j t u; exact (tree_eq_sym eqb Hs s i j t u R)|].
  split; [intros i j l t u v; exact (tree_eq_trans eqb Ht s i j l t u v R)|].
  intros i j b. destruct (tree_try_eq eqb s i j) as [[c|]| |]; cbn; split; intros E; try discriminate E; injection E as ->; reflexivity.
Qed.
Print Assumptions C54_trees.

(** Data compared modulo 2; two equal subtrees in different trees, and an unequal one. *)
Definition parity (a b : nat) : bool := Nat.eqb (Nat.modulo a 2) (Nat.modulo b 2).
Definition eq_ops : list (op nat) := demo_ops ++ [OpTree 3; OpTree 19].
Example C54_nonvacuous : (forall d e, parity d e = parity e d) /\ (forall d e f, parity d e = true -> parity e f = true -> parity d f = true) /\
  reach (after eq_ops) /\ s_hands (after eq_ops) !! 9 = Some (HNode Hot 8) /\ s_hands (after eq_ops) !! 19 = Some (HNode Hot 16) /\
  s_hands (after eq_ops) !! 5 = Some (HNode Hot 4) /\ s_hands (after eq_ops) !! 22 = Some (HTree 1) /\ s_hands (after eq_ops) !! 23 = Some (HTree 17) /\
  node_try_eq parity (after eq_ops) 9 19 = Ret (Some true) /\ node_try_eq parity (after eq_ops) 5 19 = Ret (Some false) /\
  tree_try_eq parity (after eq_ops) 22 23 = Ret (Some false).
Proof.
  split. { intros d e. apply Nat.eqb_sym. } split. { intros d e f H1 H2. apply Nat.eqb_eq in H1, H2. apply Nat.eqb_eq. congruence. }
  split; [apply after_reach|]. by vm_compute.
Qed.
