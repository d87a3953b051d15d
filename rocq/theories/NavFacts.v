(** * NavFacts: what the getters return on a heap that stores a forest. *)
From Verif Require Import Heap Spec HeapFacts SpecFacts.

Section Nav.
Context {T : Type}.
Implicit Types (h : heap T) (K : forest).

Lemma rep_child_alive h K p c : rep h K -> wf K -> child_of K p c -> alive h c = true.
Proof. intros Hr Hw Hc. eapply rep_alive; [done|]. eapply wf_dom; eauto. Qed.
Lemma rep_parent_alive h K p c : rep h K -> child_of K p c -> alive h p = true.
Proof. intros Hr (ks & Hp & _). eapply rep_alive; eauto. Qed.

Lemma fparent_child h K p c : rep h K -> child_of K p c -> fparent h c = Some p.
Proof.
  intros Hr Hc. destruct (child_of_split _ _ _ Hc) as (l1 & l2 & Hp).
  eapply rep_split; eauto.
Qed.

Lemma parent_link_child h K p c : rep h K -> child_of K p c -> parent_link h c = Some p.
Proof.
  intros Hr Hc. unfold parent_link. erewrite fparent_child by eauto. simpl.
  erewrite rep_parent_alive by eauto. done.
Qed.
Lemma parent_link_top h K x : rep h K -> is_top K x -> parent_link h x = None.
Proof. intros Hr Hx. unfold parent_link. by destruct (rep_top _ _ Hr _ Hx) as (-> & _). Qed.

Lemma is_root_child h K p c : rep h K -> child_of K p c -> is_root h c = false.
Proof. intros Hr Hc. pose proof (parent_link_child _ _ _ _ Hr Hc). unfold is_root, parent_link in *. by destruct (upgrade _ _). Qed.
Lemma is_root_top h K x : rep h K -> is_top K x -> is_root h x = true.
Proof. intros Hr Hc. pose proof (parent_link_top _ _ _ Hr Hc). unfold is_root, parent_link in *. by destruct (upgrade _ _). Qed.

Lemma upgrade_alive h x : alive h x = true -> upgrade h (Some x) = Some x.
Proof. simpl. by intros ->. Qed.

Lemma elem_of_last {A} (l : list A) x : last l = Some x -> x ∈ l.
Proof. intros H. apply last_Some in H as [l' ->]. set_solver. Qed.

Lemma psc_split h K p l1 c l2 : rep h K -> wf K -> K !! p = Some (l1 ++ c :: l2) ->
  prev_sibling_cyclic_link h c = Ret (default (default c (last l2)) (last l1)).
Proof.
  intros Hr Hw Hp. unfold prev_sibling_cyclic_link.
  destruct (rep_split _ _ _ _ _ _ Hr Hp) as (_ & _ & ->).
  rewrite upgrade_alive; [done|].
  eapply rep_child_alive; [done|done|]. exists (l1 ++ c :: l2). split; [done|].
  destruct (last l1) as [a|] eqn:E1; simpl.
  - apply elem_of_last in E1. set_solver.
  - destruct (last l2) as [a|] eqn:E2; simpl; [|set_solver].
    apply elem_of_last in E2. set_solver.
Qed.

Lemma psc_top h K x : rep h K -> is_top K x -> prev_sibling_cyclic_link h x = Ret x.
Proof.
  intros Hr Hx. unfold prev_sibling_cyclic_link.
  destruct (rep_top _ _ Hr _ Hx) as (_ & _ & ->).
  rewrite upgrade_alive; [done|]. eapply rep_alive; [done|]. by destruct Hx.
Qed.

Lemma fnext_split h K p l1 c l2 : rep h K -> K !! p = Some (l1 ++ c :: l2) -> fnext h c = head l2.
Proof. intros Hr Hp. eapply rep_split; eauto. Qed.

Lemma fnext_last h K p ks c : rep h K -> K !! p = Some ks -> last ks = Some c -> fnext h c = None.
Proof.
  intros Hr Hp Hl. apply last_Some in Hl as [l' ->].
  by rewrite (fnext_split _ _ _ _ _ _ Hr Hp).
Qed.

Lemma fnext_top h K x : rep h K -> is_top K x -> fnext h x = None.
Proof. intros Hr Hx. by destruct (rep_top _ _ Hr _ Hx) as (_ & -> & _). Qed.

Lemma cyc_next h K p l1 c l2 : rep h K -> K !! p = Some (l1 ++ c :: l2) ->
  fnext h (default (default c (last l2)) (last l1)) =
  match last l1 with Some _ => Some c | None => None end.
Proof.
  intros Hr Hp. destruct (last l1) as [a|] eqn:E1; simpl.
  - apply last_Some in E1 as [l' ->]. rewrite <-app_assoc in Hp.
    rewrite (fnext_split _ _ _ _ _ _ Hr Hp). done.
  - eapply fnext_last; [done|done|]. rewrite last_app, (last_default_cons c c). done.
Qed.

Lemma prev_sibling_split h K p l1 c l2 : rep h K -> wf K -> K !! p = Some (l1 ++ c :: l2) ->
  prev_sibling_link h c = Ret (last l1).
Proof.
  intros Hr Hw Hp. unfold prev_sibling_link. rewrite (psc_split _ _ _ _ _ _ Hr Hw Hp). simpl.
  rewrite (cyc_next _ _ _ _ _ _ Hr Hp). destruct (last l1); done.
Qed.

Lemma prev_sibling_top h K x : rep h K -> is_top K x -> prev_sibling_link h x = Ret None.
Proof.
  intros Hr Hx. unfold prev_sibling_link. rewrite (psc_top _ _ _ Hr Hx). simpl.
  by rewrite (fnext_top _ _ _ Hr Hx).
Qed.

Lemma is_first_split h K p l1 c l2 : rep h K -> wf K -> K !! p = Some (l1 ++ c :: l2) ->
  is_first_sibling h c = Ret (match l1 with [] => true | _ => false end).
Proof.
  intros Hr Hw Hp. unfold is_first_sibling. rewrite (psc_split _ _ _ _ _ _ Hr Hw Hp). simpl.
  unfold is_last_sibling. rewrite (cyc_next _ _ _ _ _ _ Hr Hp).
  destruct l1 as [|a l1]; [done|]. rewrite (last_default_cons a a). done.
Qed.

Lemma first_child_rep h K p ks : rep h K -> K !! p = Some ks -> first_child_link h p = head ks.
Proof. intros Hr. by apply rep_first. Qed.

Lemma first_last_rep h K p ks : rep h K -> wf K -> K !! p = Some ks ->
  first_last_child_link h p =
  Ret (match ks with [] => None | f :: m => Some (f, default f (last m)) end).
Proof.
  intros Hr Hw Hp. unfold first_last_child_link. rewrite (first_child_rep _ _ _ _ Hr Hp).
  destruct ks as [|f m]; [done|]. cbn [head].
  rewrite (psc_split _ _ _ [] f m Hr Hw Hp). done.
Qed.

Lemma last_child_rep h K p ks : rep h K -> wf K -> K !! p = Some ks ->
  last_child_link h p = Ret (last ks).
Proof.
  intros Hr Hw Hp. unfold last_child_link. rewrite (first_child_rep _ _ _ _ Hr Hp).
  destruct ks as [|f m]; [done|]. cbn [head].
  rewrite (psc_split _ _ _ [] f m Hr Hw Hp). simpl default.
  by rewrite (last_default_cons f f).
Qed.

Lemma last_child_weak_rep h K p ks : rep h K -> wf K -> K !! p = Some ks ->
  last_child_link_weak h p = match ks with [] => None | _ => Some (last ks) end.
Proof.
  intros Hr Hw Hp. unfold last_child_link_weak. rewrite (first_child_rep _ _ _ _ Hr Hp).
  destruct ks as [|f m]; [done|]. cbn [head].
  destruct (rep_split _ _ _ [] f m Hr Hp) as (_ & _ & ->).
  by rewrite (last_default_cons f f).
Qed.

End Nav.
