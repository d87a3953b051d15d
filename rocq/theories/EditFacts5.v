(** * EditFacts5: [try_replace_with_children] as a whole; node creation. *)
From Verif Require Import Heap Edit Spec HeapFacts SpecFacts NavFacts EditFacts EditFacts2 EditFacts3 EditFacts4.

Section Facts.
Context {T : Type}.
Implicit Types (h : heap T) (K : forest).

Lemma replace_child_ok h K p ks this cs :
  rep h K -> wf K -> K !! p = Some ks -> this ∈ ks -> K !! this = Some cs ->
  (head ks = Some this \/ last ks <> Some this \/ cs <> []) ->
  exists h2, replace_with_children h this = Ret (h2, HOk None) /\
    rep h2 (<[this := []]> (<[p := splice this cs ks]> K)) /\
    wf (<[this := []]> (<[p := splice this cs ks]> K)) /\
    is_top (<[this := []]> (<[p := splice this cs ks]> K)) this /\
    same_meta h h2.
Proof.
  intros Hr Hw Hp Hin Ht Hside. unfold replace_with_children.
  assert (child_of K p this) as Hpt by (eapply child_intro; [exact Hp|done]).
  rewrite (parent_link_child _ _ _ _ Hr Hpt).
  apply elem_of_list_split in Hin as (l1 & l2 & ->).
  pose proof (wf_nodup _ Hw _ _ Hp) as Hnd.
  assert (this ∉ l1). { apply NoDup_app in Hnd as (_ & Hd & _). intros Hi. apply (Hd _ Hi). by left. }
  rewrite splice_split by done.
  destruct (replace_nonroot_ok _ _ _ _ _ _ _ Hr Hw Hp Ht) as (h2 & -> & Hr2 & Hm2).
  { destruct Hside as [Hs|[Hs|Hs]]; [left|right; left|by right; right].
    - destruct l1; [done|]. simpl in Hs. simplify_eq. exfalso. set_solver.
    - intros ->. apply Hs. by rewrite last_app_cons. }
  destruct (replace_wf _ _ _ _ _ _ Hw Hp Ht). cbn. eexists; split_and!; done.
Qed.

Lemma replace_root_err h K this ks :
  rep h K -> wf K -> is_top K this -> K !! this = Some ks -> length ks <> 1 ->
  replace_with_children h this = Ret (h, HErr (if decide (ks = []) then EmptyTree else SiblingsWithoutParent)).
Proof.
  intros Hr Hw Ht Hks Hl. unfold replace_with_children.
  rewrite (parent_link_top _ _ _ Hr Ht), (is_root_top _ _ _ Hr Ht), (rep_nch _ _ Hr _ _ Hks). cbn.
  destruct ks as [|a [|b ks]]; simpl in *; [done|done|]. done.
Qed.

Lemma replace_root_ok h K this c :
  rep h K -> wf K -> is_top K this -> K !! this = Some [c] ->
  exists h2, replace_with_children h this = Ret (h2, HOk (Some c)) /\
    rep h2 (<[this := []]> K) /\ wf (<[this := []]> K) /\ is_top (<[this := []]> K) c /\
    is_top (<[this := []]> K) this /\ same_meta h h2.
Proof.
  intros Hr Hw Ht Hks. unfold replace_with_children.
  rewrite (parent_link_top _ _ _ Hr Ht), (is_root_top _ _ _ Hr Ht), (rep_nch _ _ Hr _ _ Hks). cbn.
  unfold first_child_link. rewrite (rep_first _ _ Hr _ _ Hks). cbn.
  assert (child_of K this c) as Hc by (eapply child_intro; [exact Hks|ls]).
  assert (this <> c) as Hne by (intros ->; eapply child_irrefl; eauto).
  assert (alive h c = true) as Hac by (eapply rep_child_alive; eauto).
  assert (alive h this = true) as Hat by (eapply rep_alive; eauto).
  assert (forall x y, child_of (<[this := []]> K) x y <-> x <> this /\ child_of K x y) as Hch.
  { intros x y. rewrite child_of_insert. set_solver. }
  assert (is_top (<[this := []]> K) c) as Hct.
  { split; [apply is_Some_insert; right; eapply wf_dom; eauto|]. intros x. rewrite Hch. intros [Hx Hy].
    apply Hx. eapply wf_uniq; eauto. }
  assert (is_top (<[this := []]> K) this) as Htt.
  { split; [apply is_Some_insert; by left|]. intros x. rewrite Hch. intros [Hx Hy]. by apply Ht in Hy. }
  eexists; split_and!; [done| | |done|done|].
  2: { eapply (wf_detach K this [c] c []); done. }
  2: { intros x. unfold disconnect. hs. done. }
  destruct (rep_linked _ _ Hr _ _ Hks 0 c) as (L1 & L2 & L3); [done|]. simpl in L2, L3.
  unfold disconnect. eapply rep_local; [exact Hr| | |].
  - apply alive_dom'. intros x. hs; rewrite (rep_dom_alive _ _ x Hr), !is_Some_insert.
    split; [by right|]. intros [->|]; [|done]. eauto.
  - intros x ks Hx. destruct (decide (x = this)) as [->|Hxt].
    { rewrite lookup_insert in Hx. simplify_eq. right. hs; rewrite Hat; done. }
    rewrite lookup_insert_ne in Hx by done. left. split_and!; [done|by hs|by hs|].
    intros y Hy. assert (child_of K x y) as Hxy by (eapply child_intro; [exact Hx|done]).
    assert (y <> c) by (intros ->; apply Hxt; eapply wf_uniq; eauto).
    assert (y <> this) by (intros ->; by apply Ht in Hxy).
    by hs.
  - intros x Hx. destruct (decide (x = this)) as [->|Hxt]; [hs; rewrite ?Hat; done|].
    destruct (decide (x = c)) as [->|Hxc]; [hs; rewrite ?Hac, ?L2, ?L3; done|].
    hs. apply (rep_top _ _ Hr). destruct Hx as [Hx1 Hx2]. rewrite is_Some_insert in Hx1.
    split; [naive_solver|]. intros q Hq. destruct (decide (q = this)) as [->|].
    + destruct Hq as (ks & E & Hin). rewrite Hks in E. simplify_eq. ls.
    + apply (Hx2 q), Hch. done.
Qed.

End Facts.
