(** * GenFacts2: the link surgery touches nothing but links, whatever the links are. *)
From Verif Require Import Heap Edit System SysSpec SysFacts SysFacts2 SysFacts3 SysFacts7 SysFacts11 GenSpec GenFacts Spec.

Section GenFacts2.
Context {T : Type}.
Implicit Types (h : heap T) (s : sys T).

Ltac meta_set :=
  repeat match goal with
  | |- same_meta ?h ?h => apply meta_refl
  | |- same_meta _ (match ?o with _ => _ end) => destruct o
  | |- same_meta _ (connect_adjacent_siblings _ _ _) => unfold connect_adjacent_siblings
  | |- same_meta _ (num_children_add _ _ _) => unfold num_children_add
  | |- same_meta _ (disconnect _ _) => unfold disconnect
  | |- same_meta _ (set_next _ _ _) => eapply meta_trans; [|apply meta_set_next]
  | |- same_meta _ (set_prev _ _ _) => eapply meta_trans; [|apply meta_set_prev]
  | |- same_meta _ (set_parent _ _ _) => eapply meta_trans; [|apply meta_set_parent]
  | |- same_meta _ (set_first _ _ _) => eapply meta_trans; [|apply meta_set_first]
  | |- same_meta _ (set_nch _ _ _) => eapply meta_trans; [|apply meta_set_nch]
  end.
Tactic Notation "sb" hyp(E) ident(a) ident(E1) := cbv beta zeta delta [mbind run_bind] in E;
  match type of E with match ?m with _ => _ end = _ => destruct m as [a| |] eqn:E1; cbv beta iota zeta delta [mbind run_bind] in E; [|discriminate E|discriminate E] end.

Lemma sub_meta h x v h' : num_children_sub h x v = Ret h' -> same_meta h h'.
Proof. unfold num_children_sub. destruct (v <=? fnch h x); [|discriminate]. intros [= <-]. meta_set. Qed.
Lemma unlink_meta h n h' b : new_by_unlink h n = Ret (h', b) -> same_meta h h'.
Proof.
  unfold new_by_unlink. destruct (is_root h n); [intros [= <- <-]; apply meta_refl|]. intros E.
  sb E a E1. sb E b1 E2. sb E h1 E3. injection E as <- <-. meta_set.
  all: destruct (parent_link h n) as [p|]; [|injection E3 as <-; apply meta_refl].
  all: sb E3 a3 E4; sb E3 a5 E5; apply sub_meta in E3; (eapply meta_trans; [|exact E3]); meta_set.
Qed.
Lemma first_meta h n b p h' r : insert_as_first_child_of h n b p = Ret (h', r) -> same_meta h h'.
Proof.
  unfold insert_as_first_child_of. intros E. sb E a E1. destruct a; [injection E as <- <-; apply meta_refl|]. sb E a2 E2. injection E as <- <-. meta_set.
Qed.
Lemma last_meta h n b p h' r : insert_as_last_child_of h n b p = Ret (h', r) -> same_meta h h'.
Proof.
  unfold insert_as_last_child_of. intros E. sb E a E1. destruct a; [injection E as <- <-; apply meta_refl|]. sb E a2 E2. injection E as <- <-. meta_set.
Qed.
Lemma between_meta h n p a b h' : insert_between h n p a b = Ret h' -> same_meta h h'.
Proof. unfold insert_between. intros E. sb E a1 E1. sb E a2 E2. sb E a3 E3. sb E a4 E4. sb E a5 E5. injection E as <-. meta_set. Qed.
Lemma insert_meta h n b dest h' r : insert_orphan h n b dest = Ret (h', r) -> same_meta h h'.
Proof.
  unfold insert_orphan. destruct dest as [p|p|a|a]; [apply first_meta|apply last_meta| |].
  - destruct (parent_link h a) as [p|]; [|intros [= <- <-]; apply meta_refl]. intros E. sb E a0 E0. destruct a0 as [q|]; [|by apply first_meta in E].
    sb E a1 E1. injection E as <- <-. by apply between_meta in E1.
  - destruct (parent_link h a) as [p|]; [|intros [= <- <-]; apply meta_refl]. destruct (next_sibling_link h a) as [q|]; [|apply last_meta].
    intros E. sb E a0 E0. injection E as <- <-. by apply between_meta in E0.
Qed.
Lemma move_meta h n dest h' r : move_inside_same_tree h n dest = Ret (h', r) -> same_meta h h'.
Proof.
  unfold move_inside_same_tree. destruct (is_root h n); [intros [= <- <-]; apply meta_refl|]. intros E. sb E a E0. destruct a as [h1 b].
  eapply meta_trans; [by eapply unlink_meta|by eapply insert_meta].
Qed.
Lemma iparent_meta h x n h' b : interrupt_parent h x n = Ret (h', b) -> same_meta h h'.
Proof.
  unfold interrupt_parent. destruct (parent_link h x) as [p|]; [|intros [= <- <-]; meta_set]. intros E. sb E h1 E0. sb E a0 E1.
  destruct a0 as [h2 r]. destruct r as [u|]; [|discriminate E]. injection E as <- <-. eapply meta_trans; [|by eapply move_meta].
  destruct (next_sibling_link h x); [by eapply between_meta|]. sb E0 a2 E2. destruct a2 as [h3 r]. destruct r; [|discriminate E0]. injection E0 as <-. by eapply last_meta.
Qed.
Lemma reparent_meta : forall fuel h c p h', reparent_chain fuel h c p = Ret h' -> same_meta h h'.
Proof.
  induction fuel as [|f IH]; intros h c p h'; cbn [reparent_chain]; destruct c as [x|]; try (intros [= <-]; apply meta_refl).
  intros E. eapply meta_trans; [|by eapply IH]. meta_set.
Qed.
Lemma ichild_meta h x n h' : interrupt_child h x n = Ret h' -> same_meta h h'.
Proof.
  unfold interrupt_child. intros E. sb E a0 E0. injection E as <-. apply reparent_meta in E0. do 2 (eapply meta_trans; [|apply meta_set_nch]).
  eapply meta_trans; [|exact E0]. meta_set.
Qed.
Lemma nonroot_meta h x p h' : replace_with_children_nonroot h x p = Ret h' -> same_meta h h'.
Proof.
  unfold replace_with_children_nonroot. intros E. sb E h0 E0. sb E a0 E1. sb E h1 E2. sb E a2 E3. sb E h2 E4. injection E as <-.
  apply reparent_meta in E0. apply sub_meta in E4. unfold num_children_add. eapply meta_trans; [|apply meta_set_nch]. eapply meta_trans; [|exact E4].
  eapply meta_trans; [exact E0|]. clear E0 E4 E3. destruct (first_child_link h x) as [c|].
  - sb E2 a5 E5. destruct a0 as [q|], (next_sibling_link h0 x) as [z|].
    + injection E2 as <-. meta_set.
    + destruct (first_child_link _ p); [|discriminate E2]. injection E2 as <-. meta_set.
    + destruct (last_child_link_weak _ p); [|discriminate E2]. injection E2 as <-. meta_set.
    + injection E2 as <-. meta_set.
  - destruct a0 as [q|], (next_sibling_link h0 x) as [z|].
    + injection E2 as <-. meta_set.
    + injection E2 as <-. meta_set.
    + destruct (last_child_link_weak _ p); [|discriminate E2]. injection E2 as <-. meta_set.
    + injection E2 as <-. meta_set.
Qed.
Lemma replace_meta h x h' r : replace_with_children h x = Ret (h', r) -> same_meta h h'.
Proof.
  unfold replace_with_children. destruct (parent_link h x) as [p|].
  - intros E. sb E h1 E0. injection E as <- <-. apply nonroot_meta in E0. eapply meta_trans; [exact E0|]. meta_set.
  - intros E. sb E a0 E0. destruct (fnch h x) as [|[|m]]; [injection E as <- <-; apply meta_refl| |injection E as <- <-; apply meta_refl].
    destruct (first_child_link h x); [|discriminate E]. injection E as <- <-. meta_set.
Qed.
End GenFacts2.
