(** * EditFacts2: creation, moves, interrupting nodes, replacement. *)
From Verif Require Import Heap Edit Spec HeapFacts SpecFacts NavFacts EditFacts.

(** ** Ancestors *)

Lemma NoDup_dom_length (K : forest) (l : list nid) :
  NoDup l -> (forall x, x ∈ l -> is_Some (K !! x)) -> length l <= size K.
Proof.
  intros Hnd Hin. rewrite <-size_dom.
  rewrite <-(size_list_to_set (C := gset nid) l) by done.
  apply subseteq_size. intros x. rewrite elem_of_list_to_set, elem_of_dom. auto.
Qed.

Lemma anc_exists_aux K : wf K -> forall k x v,
  size K - length v <= k -> is_Some (K !! x) -> NoDup (x :: v) ->
  (forall y, y ∈ v -> below K x y) -> exists l, anc K x l.
Proof.
  intros Hw k. induction k as [|k IH]; intros x v Hk Hx Hnd Hv.
  - exfalso.
    assert (length (x :: v) <= size K) as Hle; [|simpl in Hle; lia].
    apply NoDup_dom_length; [done|]. intros y Hy. apply elem_of_cons in Hy as [->|Hy]; [done|].
    eapply below_alive; eauto.
  - destruct (top_or_child K x Hx) as [Ht|[p Hp]].
    + exists []. by constructor.
    + destruct (IH p (x :: v)) as [l Hl].
      * simpl. assert (length (x :: v) <= size K) as Hle; [|simpl in Hle; lia].
        apply NoDup_dom_length; [done|]. intros y Hy. apply elem_of_cons in Hy as [->|Hy]; [done|].
        eapply below_alive; eauto.
      * destruct Hp as (ks & ? & ?). eauto.
      * constructor; [|done]. intros Hin.
        apply (no_cycle K p x Hw Hp). apply elem_of_cons in Hin as [->|Hin]; [apply below_refl|auto].
      * intros y Hy. apply elem_of_cons in Hy as [->|Hy].
        -- eapply below_step; [apply below_refl|done].
        -- eapply below_trans; [|apply Hv; done]. eapply below_step; [apply below_refl|done].
      * exists (p :: l). by econstructor.
Qed.

Lemma anc_exists K x : wf K -> is_Some (K !! x) -> exists l, anc K x l.
Proof.
  intros Hw Hx. apply (anc_exists_aux K Hw (size K) x []); try done.
  - simpl. lia.
  - apply NoDup_singleton.
  - intros y Hy. by apply elem_of_nil in Hy.
Qed.

Lemma anc_below K x l y : anc K x l -> y ∈ l -> below K y x.
Proof.
  induction 1 as [|x p l Hp Ha IH]; intros Hy; [by apply elem_of_nil in Hy|].
  apply elem_of_cons in Hy as [->|Hy].
  - eapply below_step; [apply below_refl|done].
  - eapply below_step; eauto.
Qed.

Lemma below_anc K x l y : wf K -> anc K x l -> below K y x -> y = x \/ y ∈ l.
Proof.
  intros Hw. induction 1 as [x Ht|x p l Hp Ha IH]; intros Hb.
  - destruct (below_parent_inv _ _ _ Hb) as [->|(q & Hq & _)]; [by left|].
    destruct Ht as [_ Ht]. by destruct (Ht q).
  - destruct (below_parent_inv _ _ _ Hb) as [->|(q & Hq & Hbq)]; [by left|right].
    assert (q = p) as -> by (eapply wf_uniq; eauto).
    destruct (IH Hbq) as [->|]; ls.
Qed.

Lemma anc_NoDup K x l : wf K -> anc K x l -> NoDup (x :: l).
Proof.
  intros Hw. induction 1 as [x Ht|x p l Hp Ha IH]; [apply NoDup_singleton|].
  constructor; [|done]. intros Hin. apply (no_cycle K p x Hw Hp).
  apply elem_of_cons in Hin as [->|Hin]; [apply below_refl|].
  eapply anc_below; eauto.
Qed.

Lemma anc_alive K x l : is_Some (K !! x) -> anc K x l -> forall y, y ∈ x :: l -> is_Some (K !! y).
Proof.
  intros Hx Ha. revert Hx. induction Ha as [x Ht|x p l Hp Ha IH]; intros Hx y Hy.
  - apply elem_of_cons in Hy as [->|Hy]; [done|ls].
  - apply elem_of_cons in Hy as [->|Hy]; [done|]. apply IH; [|done].
    destruct Hp as (ks & ? & ?). eauto.
Qed.

Lemma anc_length K x l : wf K -> is_Some (K !! x) -> anc K x l -> length l < size K.
Proof.
  intros Hw Hx Ha. assert (length (x :: l) <= size K) as H; [|simpl in H; lia].
  apply NoDup_dom_length; [by eapply anc_NoDup|]. by eapply anc_alive.
Qed.

Lemma anc_det K x l1 l2 : wf K -> anc K x l1 -> anc K x l2 -> l1 = l2.
Proof.
  intros Hw H1. revert l2. induction H1 as [x Ht|x p l Hp Ha IH]; intros l2 H2; inversion H2 as [y Hy|y q l' Hq Hl]; subst; try done.
  - destruct Ht as [_ Ht]. by destruct (Ht q).
  - destruct Hy as [_ Hy]. by destruct (Hy p).
  - assert (q = p) as -> by (eapply wf_uniq; eauto). f_equal. auto.
Qed.

(** Every node has exactly one topmost ancestor. *)
Lemma top_exists K x : wf K -> is_Some (K !! x) -> exists r, is_top K r /\ below K r x.
Proof.
  intros Hw Hx. destruct (anc_exists K x Hw Hx) as [l Ha]. clear Hx.
  induction Ha as [x Ht|x p l Hp Ha IH].
  - exists x. split; [done|apply below_refl].
  - destruct IH as (r & Hr & Hb). exists r. split; [done|]. by eapply below_step.
Qed.

Lemma below_dec_fuel K n p l : wf K -> anc K p l -> below K n p <-> n ∈ p :: l.
Proof.
  intros Hw Ha. split.
  - intros Hb. destruct (below_anc _ _ _ _ Hw Ha Hb) as [->|]; ls.
  - intros Hin. apply elem_of_cons in Hin as [->|Hin]; [apply below_refl|by eapply anc_below].
Qed.

Section Facts.
Context {T : Type}.
Implicit Types (h : heap T) (K : forest).

Lemma rep_size h K : rep h K -> size h = size K.
Proof.
  intros Hr. rewrite <-!size_dom. f_equal. apply set_eq. intros x.
  rewrite !elem_of_dom. apply (rep_dom _ _ Hr).
Qed.

Lemma is_ancestor_of_anc h K n p l fuel : rep h K -> wf K -> anc K p l -> length l < fuel ->
  is_ancestor_of fuel h n (Some p) = Ret (bool_decide (n ∈ p :: l)).
Proof.
  intros Hr Hw Ha. revert fuel. induction Ha as [p Ht|p q l Hq Ha IH]; intros fuel Hf;
    destruct fuel as [|fuel]; try (simpl in Hf; lia); cbn [is_ancestor_of];
    (destruct (decide (n = p)) as [->|]; [rewrite bool_decide_eq_true_2 by ls; done|]).
  - rewrite (parent_link_top _ _ _ Hr Ht).
    destruct fuel; cbn [is_ancestor_of]; rewrite bool_decide_eq_false_2 by ls; done.
  - rewrite (parent_link_child _ _ _ _ Hr Hq). rewrite IH by (simpl in Hf; lia).
    f_equal. apply bool_decide_ext. ls.
Qed.

Lemma loop_check_old h K n p : rep h K -> wf K -> is_Some (K !! p) ->
  exists b, loop_check h n false p = Ret b /\ (b = true <-> below K n p).
Proof.
  intros Hr Hw Hp. destruct (anc_exists K p Hw Hp) as [l Ha].
  exists (bool_decide (n ∈ p :: l)). split.
  - unfold loop_check. eapply is_ancestor_of_anc; eauto. unfold walk_fuel.
    rewrite (rep_size _ _ Hr). pose proof (anc_length _ _ _ Hw Hp Ha). lia.
  - rewrite bool_decide_eq_true. symmetry. by apply below_dec_fuel.
Qed.

Lemma loop_check_ok h K n p is_new : rep h K -> wf K -> is_Some (K !! p) -> ~ below K n p ->
  loop_check h n is_new p = Ret false.
Proof.
  intros Hr Hw Hp Hnb. destruct is_new; [done|].
  destruct (loop_check_old h K n p Hr Hw Hp) as ([] & -> & Hb); [|done].
  destruct Hnb. by apply Hb.
Qed.

Lemma insert_first_any h K p n is_new : rep h K -> wf K -> is_Some (K !! p) -> ~ below K n p ->
  insert_as_first_child_of h n is_new p = insert_as_first_child_of h n true p.
Proof.
  intros. unfold insert_as_first_child_of. by rewrite (loop_check_ok h K n p is_new), (loop_check_ok h K n p true).
Qed.
Lemma insert_last_any h K p n is_new : rep h K -> wf K -> is_Some (K !! p) -> ~ below K n p ->
  insert_as_last_child_of h n is_new p = insert_as_last_child_of h n true p.
Proof.
  intros. unfold insert_as_last_child_of. by rewrite (loop_check_ok h K n p is_new), (loop_check_ok h K n p true).
Qed.

Lemma ins_before_perm s n l : s ∈ l -> ins_before s n l ≡ₚ n :: l.
Proof.
  induction l as [|x l IH]; intros Hs; [by apply elem_of_nil in Hs|]. simpl.
  case_decide; [done|]. rewrite IH by ls. apply Permutation_swap.
Qed.
Lemma ins_after_perm s n l : s ∈ l -> ins_after s n l ≡ₚ n :: l.
Proof.
  induction l as [|x l IH]; intros Hs; [by apply elem_of_nil in Hs|]. simpl.
  case_decide; [apply Permutation_swap|]. rewrite IH by ls. apply Permutation_swap.
Qed.

(** [attached] as one changed child list. *)
Lemma attached_perm K n dest K' : wf K -> attached K n dest K' ->
  exists p ks ks', dest_parent K dest p /\ K !! p = Some ks /\ K' = <[p := ks']> K /\ ks' ≡ₚ n :: ks.
Proof.
  intros Hw Ha. inversion Ha as [p ks Hp|p ks Hp|s p ks Hp Hs|s p ks Hp Hs]; subst.
  - exists p, ks, (n :: ks). done.
  - exists p, ks, (ks ++ [n]). split_and!; try done. rewrite Permutation_app_comm. done.
  - exists p, ks, (ins_before s n ks). split_and!; try done; [exists ks; done|]. by apply ins_before_perm.
  - exists p, ks, (ins_after s n ks). split_and!; try done; [exists ks; done|]. by apply ins_after_perm.
Qed.

Lemma dest_parent_det K dest p q : wf K -> dest_parent K dest p -> dest_parent K dest q -> p = q.
Proof. intros Hw. destruct dest; simpl; try congruence; apply wf_uniq; done. Qed.

Lemma attached_wf K n dest K' p : wf K -> is_top K n -> attached K n dest K' ->
  dest_parent K dest p -> ~ below K n p -> wf K'.
Proof.
  intros Hw Hn Ha Hp Hnb. destruct (attached_perm _ _ _ _ Hw Ha) as (q & ks & ks' & Hq & Hks & -> & Hperm).
  assert (p = q) as -> by (eapply dest_parent_det; eauto). eapply wf_attach; eauto.
Qed.

(** [OrphanRoot::insert] puts a top node at its destination. *)
(** Whatever the destination, if the loop check is not made or passes. *)
Lemma insert_orphan_rep h K n dest K' p is_new :
  rep h K -> wf K -> is_top K n -> attached K n dest K' ->
  dest_parent K dest p -> (is_new = true \/ ~ below K n p) ->
  exists h', insert_orphan h n is_new dest = Ret (h', HOk tt) /\ rep h' K' /\ same_meta h h'.
Proof.
  intros Hr Hw Hn Ha Hdp Hnb.
  inversion Ha as [q ks Hp|q ks Hp|s q ks Hp Hs|s q ks Hp Hs]; subst; simpl in *; subst.
  - assert (insert_as_first_child_of h n is_new q = insert_as_first_child_of h n true q) as ->
      by (destruct Hnb as [->|?]; [done|apply (insert_first_any h K); eauto]).
    destruct (insert_first_ok _ _ _ _ _ Hr Hw Hp Hn) as (h' & E & ?). exists h'. naive_solver.
  - assert (insert_as_last_child_of h n is_new q = insert_as_last_child_of h n true q) as ->
      by (destruct Hnb as [->|?]; [done|apply (insert_last_any h K); eauto]).
    destruct (insert_last_ok _ _ _ _ _ Hr Hw Hp Hn) as (h' & E & ?). exists h'. naive_solver.
  - assert (p = q) as -> by (eapply wf_uniq; [exact Hw|exact Hdp|exists ks; done]).
    rewrite (parent_link_child _ _ _ _ Hr Hdp).
    apply elem_of_list_split in Hs as (l1 & l2 & ->).
    assert (s ∉ l1) as Hsl. { pose proof (wf_nodup _ Hw _ _ Hp) as Hnd. apply NoDup_app in Hnd. naive_solver ls. }
    rewrite (prev_sibling_split _ _ _ _ _ _ Hr Hw Hp). cbn.
    rewrite ins_before_split in * by done.
    destruct (list_snoc_inv l1) as [->|(l' & a & ->)].
    + cbn. assert (insert_as_first_child_of h n is_new q = insert_as_first_child_of h n true q) as ->
      by (destruct Hnb as [->|?]; [done|apply (insert_first_any h K); eauto]).
      destruct (insert_first_ok _ _ _ _ _ Hr Hw Hp Hn) as (h' & E & ?). exists h'. naive_solver.
    + rewrite last_snoc. rewrite <-app_assoc in Hp. rewrite <-app_assoc. cbn in *.
      destruct (insert_between_ok _ _ _ _ _ _ _ _ Hr Hw Hp Hn) as (h' & E & ?).
      exists h'. rewrite E. naive_solver.
  - assert (p = q) as -> by (eapply wf_uniq; [exact Hw|exact Hdp|exists ks; done]).
    rewrite (parent_link_child _ _ _ _ Hr Hdp).
    apply elem_of_list_split in Hs as (l1 & l2 & ->).
    assert (s ∉ l1) as Hsl. { pose proof (wf_nodup _ Hw _ _ Hp) as Hnd. apply NoDup_app in Hnd. naive_solver ls. }
    unfold next_sibling_link. rewrite (fnext_split _ _ _ _ _ _ Hr Hp).
    rewrite ins_after_split in * by done.
    destruct l2 as [|b l2]; cbn.
    + assert (insert_as_last_child_of h n is_new q = insert_as_last_child_of h n true q) as ->
      by (destruct Hnb as [->|?]; [done|apply (insert_last_any h K); eauto]).
      destruct (insert_last_ok _ _ _ _ _ Hr Hw Hp Hn) as (h' & E & ?). exists h'.
      rewrite <-app_assoc in *. naive_solver.
    + destruct (insert_between_ok _ _ _ _ _ _ _ _ Hr Hw Hp Hn) as (h' & E & ?).
      exists h'. rewrite E. naive_solver.
Qed.
Lemma insert_orphan_ok h K n dest K' p is_new :
  rep h K -> wf K -> is_top K n -> attached K n dest K' ->
  dest_parent K dest p -> ~ below K n p ->
  exists h', insert_orphan h n is_new dest = Ret (h', HOk tt) /\ rep h' K' /\ wf K' /\ same_meta h h'.
Proof.
  intros Hr Hw Hn Ha Hdp Hnb.
  destruct (insert_orphan_rep h K n dest K' p is_new Hr Hw Hn Ha Hdp (or_intror Hnb)) as (h' & E & Hr' & M).
  exists h'. split; [exact E|]. split; [exact Hr'|]. split; [|exact M]. exact (attached_wf _ _ _ _ _ Hw Hn Ha Hdp Hnb).
Qed.

(** Siblings of a root are refused, and nothing is written. *)
Lemma insert_orphan_sibling_of_top h K n is_new s dest :
  rep h K -> is_top K s -> (dest = PreviousSiblingOf s \/ dest = NextSiblingOf s) ->
  insert_orphan h n is_new dest = Ret (h, HErr SiblingsWithoutParent).
Proof. intros Hr Hs [-> | ->]; simpl; by rewrite (parent_link_top _ _ _ Hr Hs). Qed.

(** The loop check that does run (for a node that was already a root). *)
Lemma insert_orphan_loop h K n p dest :
  rep h K -> wf K -> is_Some (K !! p) -> below K n p -> (dest = FirstChildOf p \/ dest = LastChildOf p) ->
  insert_orphan h n false dest = Ret (h, HErr AncestorDescendantLoop).
Proof.
  intros Hr Hw Hp Hb Hd. destruct (loop_check_old h K n p Hr Hw Hp) as (b & E & Hb').
  destruct b; [|by apply Hb' in Hb].
  destruct Hd as [-> | ->]; cbn [insert_orphan]; unfold insert_as_first_child_of, insert_as_last_child_of;
    rewrite E; done.
Qed.

(** ** Unlinking *)
Lemma unlinked_split K n K' : wf K -> unlinked K n K' ->
  exists q l1 l2, K !! q = Some (l1 ++ n :: l2) /\ K' = <[q := l1 ++ l2]> K /\ n ∉ l1 /\ n ∉ l2.
Proof.
  intros Hw (q & ks & Hq & Hn & ->). apply elem_of_list_split in Hn as (l1 & l2 & ->).
  pose proof (wf_nodup _ Hw _ _ Hq) as Hnd. apply NoDup_app in Hnd as (? & ? & Hnd).
  apply NoDup_cons in Hnd as [? ?]. exists q, l1, l2. rewrite without_split by ls.
  split_and!; try done. ls.
Qed.

Lemma last_not_first_side K q l1 n l2 :
  K !! q = Some (l1 ++ n :: l2) -> ~ last_not_first K n -> n ∉ l1 -> l1 = [] \/ l2 <> [].
Proof.
  intros Hq Hl Hn. destruct l1 as [|a l1]; [by left|right]. intros ->. apply Hl.
  exists q, (a :: l1 ++ [n]). split_and!; try done.
  - rewrite app_comm_cons. apply last_snoc.
  - simpl. intros [= ->]. ls.
Qed.

Lemma unlinked_wf K n K' : wf K -> unlinked K n K' -> wf K' /\ is_top K' n.
Proof.
  intros Hw Hu. destruct (unlinked_split _ _ _ Hw Hu) as (q & l1 & l2 & Hq & -> & _ & _).
  eapply wf_detach; [done|done|]. by rewrite Permutation_middle.
Qed.

Lemma below_unlinked K n K' x y : wf K -> unlinked K n K' -> below K' x y -> below K x y.
Proof.
  intros Hw Hu. destruct (unlinked_split _ _ _ Hw Hu) as (q & l1 & l2 & Hq & -> & _ & _).
  induction 1 as [|p c Hb IH Hc]; [apply below_refl|]. eapply below_step; [done|].
  apply child_of_insert in Hc as [[-> Hc]|[? ?]]; [|done].
  exists (l1 ++ n :: l2). split; [done|ls].
Qed.

Lemma unlink_any h K n K' : rep h K -> wf K -> unlinked K n K' -> ~ last_not_first K n ->
  exists h', new_by_unlink h n = Ret (h', true) /\ rep h' K' /\ wf K' /\ is_top K' n /\ same_meta h h'.
Proof.
  intros Hr Hw Hu Hl. pose proof (unlinked_wf _ _ _ Hw Hu) as [Hw' Ht].
  destruct (unlinked_split _ _ _ Hw Hu) as (q & l1 & l2 & Hq & -> & Hn1 & Hn2).
  destruct (unlink_ok h K q l1 n l2) as (h' & E & Hr' & Hm); try done.
  { eapply last_not_first_side; eauto. }
  exists h'. done.
Qed.

Lemma same_meta_trans h1 h2 h3 : same_meta h1 h2 -> same_meta h2 h3 -> same_meta h1 h3.
Proof. intros H1 H2 x. by rewrite H2, H1. Qed.

(** ** Moves inside one tree *)
Lemma move_ok h K n dest K' :
  rep h K -> wf K -> moved K n dest K' -> ~ last_not_first K n ->
  ~ below K n (dest_anchor dest) ->
  exists h', move_inside_same_tree h n dest = Ret (h', HOk tt) /\ rep h' K' /\ wf K' /\ same_meta h h'.
Proof.
  intros Hr Hw (K1 & Hu & Ha) Hl Hnb.
  unfold move_inside_same_tree.
  assert (exists q, child_of K q n) as [q Hq]. { destruct Hu as (q & ks & ? & ? & _). exists q, ks. done. }
  rewrite (is_root_child _ _ _ _ Hr Hq).
  destruct (unlink_any _ _ _ _ Hr Hw Hu Hl) as (h1 & E & Hr1 & Hw1 & Ht & Hm1). rewrite E. cbn.
  destruct (attached_perm _ _ _ _ Hw1 Ha) as (p & ks & ks' & Hp & _ & _ & _).
  destruct (insert_orphan_ok h1 K1 n dest K' p true) as (h' & E' & Hr' & Hw' & Hm'); try done.
  - intros Hb. apply Hnb. eapply below_unlinked; [done|done|].
    destruct dest; simpl in *; subst; try done; eapply below_step; eauto.
  - exists h'. split_and!; try done. by eapply same_meta_trans.
Qed.

End Facts.
