(** * CardFacts: counting lemmas for [card]. *)
From Verif Require Import SysSpec.

Lemma card_ext P Q n : card P n -> (forall x, P x <-> Q x) -> card Q n.
Proof. intros (l & H1 & H2 & H3) H. exists l. split_and!; [done| |done]. intros x. by rewrite H2, H. Qed.

Lemma card_unique P n m : card P n -> card P m -> n = m.
Proof.
  intros (l & H1 & H2 & <-) (l' & H1' & H2' & <-).
  apply Permutation_length, NoDup_Permutation; [done..|]. intros x. by rewrite H2, H2'.
Qed.

Lemma card_none P : (forall x, ~ P x) -> card P 0.
Proof. intros H. exists []. split_and!; [constructor| |done]. intros x. rewrite elem_of_nil. naive_solver. Qed.

Lemma card_0 P : card P 0 -> forall x, ~ P x.
Proof. intros (l & _ & H & Hl) x Hx. apply H in Hx. destruct l; [set_solver|done]. Qed.

Lemma card_pos P n x : card P n -> P x -> 0 < n.
Proof. intros (l & _ & H & <-) Hx. apply H in Hx. destruct l; [set_solver|simpl; lia]. Qed.

Lemma card_S P n : card P (S n) -> exists x, P x.
Proof. intros ([|x l] & _ & H & Hl); [done|]. exists x. apply H. by left. Qed.

Lemma card_add P Q n x : card P n -> ~ P x -> (forall y, Q y <-> y = x \/ P y) -> card Q (S n).
Proof.
  intros (l & H1 & H2 & <-) Hx HQ. exists (x :: l). split_and!; [|set_solver|done].
  constructor; [by rewrite H2|done].
Qed.

Lemma card_remove P Q n x : card P n -> P x -> (forall y, Q y <-> y <> x /\ P y) ->
  exists m, n = S m /\ card Q m.
Proof.
  intros (l & H1 & H2 & <-) Hx HQ. apply H2 in Hx.
  apply elem_of_list_split in Hx as (l1 & l2 & ->).
  exists (length (l1 ++ l2)). split; [rewrite !app_length; simpl; lia|].
  assert (x ∉ l1 ++ l2 /\ NoDup (l1 ++ l2)) as [Hn Hd].
  { rewrite <-Permutation_middle in H1. by apply NoDup_cons in H1. }
  exists (l1 ++ l2). split_and!; [done| |done].
  intros y. rewrite HQ, <-H2. set_solver.
Qed.

Lemma card_1 (P : nat -> Prop) x : P x -> (forall y, P y -> y = x) -> card P 1.
Proof. intros H1 H2. exists [x]. split_and!; [apply NoDup_singleton| |done]. intros y. rewrite elem_of_list_singleton. naive_solver. Qed.
