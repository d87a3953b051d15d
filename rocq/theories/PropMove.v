(** * PropMove: what a move of a non-root node does in every case. *)
From Verif Require Import Heap System SysSpec ApiSpec MisledSpec MoveSpec ApiFacts ApiFacts3 MoveFacts GraftFacts5 Demo Spec.

Lemma top_b_ok K x : bool_decide (is_Some (K !! x)) && negb (kid_b K x) = true -> is_top K x.
Proof.
  intros [H1 H2]%andb_prop. apply bool_decide_eq_true_1 in H1. split; [exact H1|]. intros p Hp. apply negb_true_iff in H2.
  enough (kid_b K x = true) by congruence. apply kid_b_ok. eauto.
Qed.

(** ** C08: every move returns, and is refused exactly when there is no place: next to a root, or next to the moved
    node itself - except that a move of a root within its tree is never refused. *)
Theorem C08_outcome : forall (T : Type) (s : sys T) K a k x ad j y,
  reach s -> stores s K -> receiver s a k x -> s_hands s !! j = Some (HNode Hot y) ->
  exists s' r, step s (OpMove a ad j) = Ret (s', r) /\
    ((refused_move s K x ad y /\ r = OutErr SiblingsWithoutParent) \/ (~ refused_move s K x ad y /\ r = OutUnit)).
Proof. exact @move_total. Qed.
Print Assumptions C08_outcome.
Example C08_outcome_nonvacuous : reach demo /\ stores demo demoK /\ receiver demo (ByHot 5) Hot 4 /\ receiver demo (ByHot 19) Hot 16 /\ s_hands demo !! 3 = Some (HNode Hot 0) /\
  refused_move demo demoK 4 ANextSibling 0 /\ refused_move demo demoK 16 ANextSibling 0 /\ ~ refused_move demo demoK 4 ALastChild 0 /\ ~ refused_move demo demoK 0 ANextSibling 0.
Proof.
  split; [exact demo_reach|]. split; [exact demo_stores|]. split; [by vm_compute|]. split; [by vm_compute|]. split; [by vm_compute|].
  assert (is_top demoK 0) as T0 by (apply top_b_ok; by vm_compute).
  split; [split; [split; [by right|by right]|]; intros [[_ F] _]; apply (F 0); exists [4; 6; 8]; split; [by vm_compute|set_solver]|].
  split; [split; [split; [by right|by right]|]; intros [_ F]; by vm_compute in F|].
  split; [by intros [[[?|?] _] _]|]. intros [_ F]. by apply F.
Qed.

(** ** C08, the case left open by [C08_last_exact_partial]: the last of several children is moved to the
    last place below its own parent, where it already was.  In the result it is gone from the child list. *)
Theorem C08_last_place_exact : forall (T : Type) (s : sys T) K a k x ad j y p f m,
  reach s -> stores s K -> receiver s a k x -> s_hands s !! j = Some (HNode Hot y) ->
  K !! p = Some (f :: m ++ [x]) -> (ad = ALastChild /\ y = p) \/ (ad = ANextSibling /\ last (f :: m) = Some y) ->
  exists g s', step s (OpMove a ad j) = Ret (s', OutUnit) /\ reshapes s g (<[p := f :: m]> K) /\ dangles g p f x s'.
Proof. exact @move_last_place. Qed.
Print Assumptions C08_last_place_exact.
(** The two cover all moves of a last child inside its tree, not below itself. *)
Theorem C08_last_place_only : forall K x ad y K' p f m ks',
  wf K -> K !! p = Some (f :: m ++ [x]) -> moved K x (dest_of ad y) K' -> K' !! p = Some ks' -> last ks' = Some x ->
  (ad = ALastChild /\ y = p) \/ (ad = ANextSibling /\ last (f :: m) = Some y).
Proof. exact @last_place_dest. Qed.
Print Assumptions C08_last_place_only.
Example C08_last_place_nonvacuous : reach demo /\ stores demo demoK /\ receiver demo (ByHot 9) Hot 8 /\
  s_hands demo !! 3 = Some (HNode Hot 0) /\ s_hands demo !! 7 = Some (HNode Hot 6) /\ demoK !! 0 = Some (4 :: [6] ++ [8]) /\ last [4; 6] = Some 6.
Proof.
  split; [exact demo_reach|]. split; [exact demo_stores|]. split; [by vm_compute|]. split; [by vm_compute|]. split; [by vm_compute|].
  split; by vm_compute.
Qed.

(** ** C09: a move to a place below the moved node is never refused; the links then say that the node is below itself. *)
Theorem C09_below_exact : forall (T : Type) (s : sys T) K a k x ad j y p,
  reach s -> stores s K -> receiver s a k x -> s_hands s !! j = Some (HNode Hot y) ->
  child_of K p x -> below K x y -> ~ no_place K x ad y ->
  exists K' g s' q, step s (OpMove a ad j) = Ret (s', OutUnit) /\ moved K x (dest_of ad y) K' /\ relinks s g K' /\ cut_off K x g s' /\
    child_of K' q x /\ below K' x q.
Proof. exact @move_below. Qed.
Print Assumptions C09_below_exact.
Example C09_below_nonvacuous : reach demo /\ stores demo demoK /\ receiver demo (ByHot 5) Hot 4 /\
  s_hands demo !! 5 = Some (HNode Hot 4) /\ s_hands demo !! 13 = Some (HNode Hot 12) /\ child_of demoK 0 4 /\ below demoK 4 4 /\ below demoK 4 12 /\
  ~ no_place demoK 4 AFirstChild 4 /\ ~ no_place demoK 4 APreviousSibling 12.
Proof.
  split; [exact demo_reach|]. split; [exact demo_stores|]. split; [by vm_compute|]. split; [by vm_compute|]. split; [by vm_compute|].
  split; [exists [4; 6; 8]; split; [by vm_compute|set_solver]|]. split; [constructor|].
  assert (child_of demoK 4 12) as Hc by (exists [10; 12]; split; [by vm_compute|set_solver]).
  split; [econstructor; [constructor|exact Hc]|]. split; [by intros [[?|?] _]|]. intros [_ [?|[_ Ht]]]; [done|]. by apply (Ht 4).
Qed.

(** ** C11: a move that is refused has cut the node off from its parent, and nothing else. *)
Theorem C11_same_exact : forall (T : Type) (s : sys T) K a k x ad j y p,
  reach s -> stores s K -> receiver s a k x -> s_hands s !! j = Some (HNode Hot y) ->
  child_of K p x -> tree_of s x = tree_of s y -> no_place K x ad y ->
  exists K1 g s', step s (OpMove a ad j) = Ret (s', OutErr SiblingsWithoutParent) /\ unlinked K x K1 /\ reshapes s g K1 /\ cut_off K x g s'.
Proof. exact @move_same_fails. Qed.
Print Assumptions C11_same_exact.
(** With a destination in another tree, the cut-off nodes moreover belong to that tree now, as an
    unreachable second root; if nothing keeps their old tree it is deallocated. *)
Theorem C11_other_exact : forall (T : Type) (s : sys T) K a k x ad j y p,
  reach s -> stores s K -> receiver s a k x -> s_hands s !! j = Some (HNode Hot y) ->
  child_of K p x -> tree_of s x <> tree_of s y -> no_place K x ad y ->
  exists K1 K2 t t' g s', step s (OpMove a ad j) = Ret (s', OutErr SiblingsWithoutParent) /\ tree_of s x = Some t /\ tree_of s y = Some t' /\
    unlinked K x K1 /\ carries s K1 x t t' g K2 /\ stores g K2 /\ is_top K2 x /\
    (forall u, is_Some (s_trees g !! u) -> t_root <$> s_trees g !! u = t_root <$> s_trees s !! u) /\ cut_off K x g s'.
Proof. exact @move_other_fails. Qed.
Print Assumptions C11_other_exact.
Example C11_exact_nonvacuous : reach demo /\ stores demo demoK /\ receiver demo (ByHot 5) Hot 4 /\
  s_hands demo !! 3 = Some (HNode Hot 0) /\ s_hands demo !! 19 = Some (HNode Hot 16) /\ child_of demoK 0 4 /\
  tree_of demo 4 = tree_of demo 0 /\ tree_of demo 4 <> tree_of demo 16 /\ no_place demoK 4 ANextSibling 0 /\ no_place demoK 4 APreviousSibling 16.
Proof.
  split; [exact demo_reach|]. split; [exact demo_stores|]. split; [by vm_compute|]. split; [by vm_compute|]. split; [by vm_compute|].
  split; [exists [4; 6; 8]; split; [by vm_compute|set_solver]|]. split; [by vm_compute|]. split; [by vm_compute|].
  split; (split; [auto|right; apply top_b_ok; by vm_compute]).
Qed.
