(** * ApiFacts9: the loop check. *)
From Verif Require Import Heap Edit System SysSpec HeapFacts ApiSpec Spec.

Section ApiFacts9.
Context {T : Type}.
Implicit Types (h : heap T) (s : sys T).

Lemma insert_new_err h n dest h' e : insert_orphan h n true dest = Ret (h', HErr e) -> e = SiblingsWithoutParent.
Proof.
  assert (forall p, insert_as_first_child_of h n true p <> Ret (h', HErr AncestorDescendantLoop) /\
    forall e', insert_as_first_child_of h n true p <> Ret (h', HErr e')) as A1.
  { intros p. unfold insert_as_first_child_of. simpl. destruct (first_last_child_link h p) as [[[]|]| |]; simpl; split; congruence. }
  assert (forall p e', insert_as_last_child_of h n true p <> Ret (h', HErr e')) as A2.
  { intros p. unfold insert_as_last_child_of. simpl. destruct (first_last_child_link h p) as [[[]|]| |]; simpl; congruence. }
  destruct dest as [p|p|y|y]; simpl.
  - intros E. by apply (proj2 (A1 p)) in E.
  - intros E. by apply A2 in E.
  - destruct (parent_link h y) as [p|]; [|congruence]. destruct (prev_sibling_link h y) as [[q|]| |]; simpl; try done.
    + destruct (insert_between h n p q y); simpl; congruence.
    + intros E. by apply (proj2 (A1 p)) in E.
  - destruct (parent_link h y) as [p|]; [|congruence]. destruct (next_sibling_link h y) as [q|]; simpl.
    + destruct (insert_between h n p y q); simpl; congruence.
    + intros E. by apply A2 in E.
Qed.

Lemma unlink_new h x h' b : is_root h x = false -> new_by_unlink h x = Ret (h', b) -> b = true.
Proof.
  intros Hr. unfold new_by_unlink. rewrite Hr. intros E.
  repeat (match type of E with
    | context [match ?d with _ => _ end] => destruct d; simpl in E
    | context [mbind _ ?d] => destruct d; simpl in E
    end; try done). all: congruence.
Qed.

(** Whatever the state: moving a non-root node is never refused for being a loop. *)
Lemma no_loop_error s a k x ad j s' e : receiver s a k x -> is_root (s_nodes s) x = false ->
  step s (OpMove a ad j) = Ret (s', OutErr e) -> e = SiblingsWithoutParent.
Proof.
  intros Hr Hroot. assert (forall y, (r ← move_subtree s x ad y; out_of r) = Ret (s', OutErr e) -> e = SiblingsWithoutParent) as G.
  { intros y. unfold move_subtree. destruct (link_tree_core s x) as [t| |]; simpl; try done.
    destruct (link_tree_core s y) as [t'| |]; simpl; try done. destruct (decide (t = t')); simpl.
    - unfold move_inside_same_tree. rewrite Hroot. destruct (new_by_unlink (s_nodes s) x) as [[h1 b]| |] eqn:E1; simpl; try done.
      apply unlink_new in E1; [|done]. subst b. destruct (insert_orphan h1 x true (dest_of ad y)) as [[h2 [u|e']]| |] eqn:E2; simpl; try done.
      unfold out_of. simpl. intros E. assert (e' = e) as -> by congruence. by eapply insert_new_err.
    - unfold move_to_another_tree. destruct (new_by_unlink (s_nodes s) x) as [[h1 b]| |] eqn:E1; simpl; try done.
      apply unlink_new in E1; [|done]. subst b. destruct (set_subtree_tree _ _ _ _) as [[s2|]| |]; simpl; try done.
      destruct (insert_orphan (s_nodes s2) x true (dest_of ad y)) as [[h2 [u|e']]| |] eqn:E2; simpl; try done.
      unfold out_of. simpl. intros E. assert (e' = e) as -> by congruence. by eapply insert_new_err. }
  simpl. destruct (s_hands s !! j) as [[[] y| | | | |]|]; unfold ill; try congruence.
  destruct a as [i|i g]; simpl in Hr |- *.
  - destruct Hr as [-> ->]. apply G.
  - destruct Hr as (-> & -> & t & _ & ->). destruct (tree_core s x) as [t0| |]; simpl; try done.
    destruct (decide (t0 = t)); [apply G|done].
Qed.
End ApiFacts9.
