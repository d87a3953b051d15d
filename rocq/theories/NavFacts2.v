(** * NavFacts2: all accessors, in terms of positions in child lists. *)
From Verif Require Import Heap Edit Spec HeapFacts SpecFacts NavFacts.

Section Facts.
Context {T : Type}.
Implicit Types (h : heap T) (K : forest).

Lemma parent_iff h K x p : rep h K -> wf K -> is_Some (K !! x) -> (parent_link h x = Some p <-> child_of K p x).
Proof.
  intros Hr Hw Hx. split; [|by apply parent_link_child].
  intros E. destruct (top_or_child K x Hx) as [Ht|[q Hq]].
  - by rewrite (parent_link_top _ _ _ Hr Ht) in E.
  - rewrite (parent_link_child _ _ _ _ Hr Hq) in E. by simplify_eq.
Qed.

Lemma root_iff h K x : rep h K -> wf K -> is_Some (K !! x) -> (is_root h x = true <-> is_top K x).
Proof.
  intros Hr Hw Hx. split; [|by apply is_root_top].
  intros E. destruct (top_or_child K x Hx) as [Ht|[q Hq]]; [done|].
  by rewrite (is_root_child _ _ _ _ Hr Hq) in E.
Qed.

Lemma split_at (ks : list nid) i c : ks !! i = Some c ->
  exists l1 l2, ks = l1 ++ c :: l2 /\ length l1 = i.
Proof.
  intros H. exists (take i ks), (drop (S i) ks). split.
  - by rewrite take_drop_middle.
  - apply take_length_le. apply lookup_lt_Some in H. lia.
Qed.

Lemma sibling_facts h K p ks i c : rep h K -> wf K -> K !! p = Some ks -> ks !! i = Some c ->
  next_sibling_link h c = ks !! S i /\
  prev_sibling_link h c = Ret (match i with 0 => None | S j => ks !! j end) /\
  has_next_sibling h c = bool_decide (is_Some (ks !! S i)) /\
  has_prev_sibling h c = Ret (bool_decide (i <> 0)) /\
  is_last_sibling h c = bool_decide (ks !! S i = None) /\
  is_first_sibling h c = Ret (bool_decide (i = 0)) /\
  first_sibling h c = Ret (default c (head ks)) /\
  last_sibling h c = Ret (default c (last ks)) /\
  first_last_sibling h c = Ret (default c (head ks), default c (last ks)).
Proof.
  intros Hr Hw Hp Hi. destruct (split_at _ _ _ Hi) as (l1 & l2 & -> & Hl).
  pose proof (split_child_of _ _ _ _ _ Hp) as Hc.
  assert ((l1 ++ c :: l2) !! S i = head l2) as HS.
  { rewrite lookup_app_r by lia. replace (S i - length l1) with 1 by lia. by destruct l2. }
  assert (match i with 0 => None | S j => (l1 ++ c :: l2) !! j end = last l1) as HP.
  { destruct i as [|j]; [by destruct l1|]. rewrite lookup_app_l by lia.
    rewrite last_lookup. by replace (pred (length l1)) with j by lia. }
  pose proof (fnext_split _ _ _ _ _ _ Hr Hp) as Hn.
  pose proof (prev_sibling_split _ _ _ _ _ _ Hr Hw Hp) as Hv.
  rewrite HS, HP. split_and!.
  - done.
  - done.
  - unfold has_next_sibling. rewrite Hn. by destruct l2.
  - unfold has_prev_sibling. unfold prev_sibling_link in Hv.
    destruct (prev_sibling_cyclic_link h c) as [a| |]; try done. cbn in *.
    injection Hv as Hv. destruct (list_snoc_inv l1) as [->|(l1' & z & ->)].
    + simpl in *. subst i. destruct (fnext h a); done.
    + rewrite last_snoc in Hv. rewrite app_length in Hl. simpl in Hl.
      rewrite bool_decide_eq_true_2 by lia. destruct (fnext h a); done.
  - unfold is_last_sibling. rewrite Hn. by destruct l2.
  - rewrite (is_first_split _ _ _ _ _ _ Hr Hw Hp). destruct l1; simpl in Hl; subst; done.
  - unfold first_sibling. rewrite (parent_link_child _ _ _ _ Hr Hc), (first_child_rep _ _ _ _ Hr Hp).
    by destruct l1.
  - unfold last_sibling. rewrite (parent_link_child _ _ _ _ Hr Hc), (last_child_rep _ _ _ _ Hr Hw Hp).
    cbn. rewrite last_app_cons, (last_default_cons c c). done.
  - unfold first_last_sibling. rewrite (parent_link_child _ _ _ _ Hr Hc), (first_last_rep _ _ _ _ Hr Hw Hp).
    cbn. destruct l1 as [|z l1]; simpl.
    + by rewrite (last_default_cons c c).
    + rewrite last_cons, last_app_cons, (last_default_cons c c). done.
Qed.

Lemma top_facts h K x : rep h K -> wf K -> is_top K x ->
  parent_link h x = None /\ next_sibling_link h x = None /\ prev_sibling_link h x = Ret None /\
  has_next_sibling h x = false /\ has_prev_sibling h x = Ret false /\
  is_last_sibling h x = true /\ is_first_sibling h x = Ret true /\
  first_sibling h x = Ret x /\ last_sibling h x = Ret x /\ first_last_sibling h x = Ret (x, x).
Proof.
  intros Hr Hw Hx. pose proof (fnext_top _ _ _ Hr Hx) as Hn. pose proof (psc_top _ _ _ Hr Hx) as Hc.
  pose proof (parent_link_top _ _ _ Hr Hx) as Hp.
  unfold next_sibling_link, has_next_sibling, has_prev_sibling, is_last_sibling, is_first_sibling,
    first_sibling, last_sibling, first_last_sibling.
  rewrite (prev_sibling_top _ _ _ Hr Hx), Hn, Hp, Hc. cbn. rewrite Hn.
  unfold is_last_sibling. rewrite Hn. done.
Qed.

Lemma children_facts h K x ks : rep h K -> wf K -> K !! x = Some ks ->
  first_child_link h x = head ks /\ last_child_link h x = Ret (last ks) /\
  first_last_child_link h x = Ret (match head ks, last ks with Some f, Some l => Some (f, l) | _, _ => None end) /\
  fnch h x = length ks /\
  has_children h x = bool_decide (ks <> []) /\
  has_one_child h x = bool_decide (length ks = 1) /\
  has_multiple_children h x = bool_decide (1 < length ks).
Proof.
  intros Hr Hw Hx. pose proof (rep_nch _ _ Hr _ _ Hx) as Hk.
  unfold has_children, has_one_child, has_multiple_children. rewrite Hk.
  split_and!.
  - by apply first_child_rep with K.
  - by apply last_child_rep with K.
  - rewrite (first_last_rep _ _ _ _ Hr Hw Hx). destruct ks as [|f m]; [done|].
    by rewrite (last_default_cons f f).
  - done.
  - destruct ks; done.
  - destruct (Nat.eqb_spec (length ks) 1); [rewrite bool_decide_eq_true_2|rewrite bool_decide_eq_false_2]; done.
  - destruct (Nat.ltb_spec 1 (length ks)); [rewrite bool_decide_eq_true_2|rewrite bool_decide_eq_false_2]; (done || lia).
Qed.

End Facts.
