(** * ApiFacts8: lock counts of the trees involved in a detach or a move. *)
From Verif Require Import Heap Edit System SysSpec CardFacts HeapFacts SpecFacts NavFacts NavFacts2 EditFacts EditFacts2 EditFacts3 EditFacts4 EditFacts5 IterSpec RoseFacts AdjFacts TravFacts TdFacts TdFacts2 SysFacts SysFacts2 SysFacts3 SysFacts4 SysFacts5 SysFacts6 SysFacts7 SysFacts8 SysFacts9 SysFacts10 SysFacts11 SysFacts12 SysFacts13 SysFacts14 SysFacts15 ApiSpec ApiFacts ApiFacts2 ApiFacts3 ApiFacts4 ApiFacts5 ApiFacts6 ApiFacts7 Spec.

Section ApiFacts8.
Context {T : Type}.
Implicit Types (s : sys T) (K : forest) (x y : nid) (t : tid).

Definition lock_cnt s t : Z := match s_trees s !! t with Some tr => t_cnt tr | None => 0%Z end.

Lemma unknown_tokens s t' : unknown s t' -> (forall k i, ~ token_holder (s_hands s) k t' i).
Proof. intros Hu k i [_ Hi]. apply (Hu i _ Hi). by destruct k. Qed.

Lemma new_tree_empty s K t' : reach s -> stores s K -> s_trees s !! t' = None -> forall y, tree_of s y <> Some t'.
Proof.
  intros H Hst Hn y E. destruct (proj1 (no_garbage s K H Hst) y (tree_alive_node s y t' E)) as (t & E' & [? Ht]).
  assert (t = t') as -> by congruence. congruence.
Qed.

Lemma splits_counts s K K1 x t t' s' K2 : reach s -> stores s K -> reach s' -> wf K1 -> is_Some (K1 !! x) ->
  (forall z, below K1 x z -> tree_of s z = Some t) -> thawed s (s_hands s) t -> is_Some (s_trees s !! t) ->
  splits s K1 x t t' s' K2 ->
  exists m, card (hot_below s K1 x) m /\ (is_Some (s_trees s' !! t) -> lock_cnt s' t = (lock_cnt s t - Z.of_nat m)%Z) /\
    lock_cnt s' t' = Z.of_nat m.
Proof.
  intros H Hst H' W1 Hx Hb Th [tr Htr] Sp. pose proof (reach_stores_inv s K H Hst) as I.
  pose proof (reach_stores_inv s' K2 H' (sp_stores _ _ _ _ _ _ _ Sp)) as I'.
  pose proof (new_tree_empty s K t' H Hst (sp_new _ _ _ _ _ _ _ Sp)) as He.
  pose proof (unknown_tokens s t' (sp_unknown _ _ _ _ _ _ _ Sp)) as Hk.
  assert (t <> t') as Hne. { intros ->. rewrite (sp_new _ _ _ _ _ _ _ Sp) in Htr. done. }
  destruct (carries_counts s K K1 x t t' s' K2 K2 I I' (sp_carries _ _ _ _ _ _ _ Sp) Hne W1 Hx Hb Th) as (m & A & B & C).
  - split; [intros i; apply Hk|]. intros y (_ & E & _). by apply (He y).
  - eauto.
  - intros _. split; [intros i; apply Hk|exact He].
  - exists m. split; [exact A|]. unfold lock_cnt. rewrite Htr. split.
    + intros [tr' Htr']. rewrite Htr'. by apply B.
    + destruct (cy_dest _ _ _ _ _ _ _ (sp_carries _ _ _ _ _ _ _ Sp)) as [tr' Htr']. rewrite Htr'. rewrite (C tr' Htr').
      rewrite (sp_new _ _ _ _ _ _ _ Sp). lia.
Qed.

Lemma card_eqv (P Q : nat -> Prop) n : (forall y, P y <-> Q y) -> card P n -> card Q n.
Proof. intros HPQ (l & A & B & C). exists l. split; [done|]. split; [|done]. intros x. by rewrite B. Qed.

Definition hot_in s K x (y : nid) : Prop := below K x y /\ exists i, s_hands s !! i = Some (HNode Hot y).

Lemma receiver_thawed s K a k x t : reach s -> stores s K -> receiver s a k x -> tree_of s x = Some t ->
  thawed s (s_hands s) t /\ is_Some (s_trees s !! t) /\ is_Some (K !! x).
Proof.
  intros H Hst Hr Et. destruct (receiver_facts s K a k x (reach_stores_inv s K H Hst) Hr) as (i & t1 & _ & E & A & B & C & _).
  assert (t1 = t) as -> by congruence. split; [done|]. split; [done|]. by apply (stores_alive s K).
Qed.

Lemma subtree_tree s K x y t : reach s -> stores s K -> tree_of s x = Some t -> below K x y -> tree_of s y = Some t.
Proof.
  intros H Hst Et Hb. rewrite (below_tree s K noX x y); [done| |done]. apply sinv_pinv, (reach_stores_inv s K H Hst).
Qed.

Lemma detach_counts s K a k x p ks : reach s -> stores s K -> receiver s a k x -> K !! p = Some ks -> x ∈ ks -> (last_not_first K x -> alone s K x) ->
  exists s' t t' m, step s (OpDetach a) = Ret (s', OutUnit) /\ tree_of s x = Some t /\ tree_of s' x = Some t' /\
    card (hot_in s K x) m /\ (is_Some (s_trees s' !! t) -> lock_cnt s' t = (lock_cnt s t - Z.of_nat m)%Z) /\
    lock_cnt s' t' = Z.of_nat m.
Proof.
  intros H Hst Hr Hp Hin Hl. destruct (proj2 (detach_api s K a k x H Hst Hr) p ks Hp Hin Hl) as (s' & t & t' & K2 & E & Et & Sp).
  assert (unlinked K x (<[p := without x ks]> K)) as Hu by (by exists p, ks).
  destruct (receiver_thawed s K a k x t H Hst Hr Et) as (Th & Htr & Hx).
  assert (reach s') as H'.
  { eapply reach_step; [exact H|exact Hst| |exact E]. intros k' x' Hrc. by destruct (receiver_unique _ _ _ _ _ _ Hr Hrc) as [-> ->]. }
  destruct (unlinked_wf K x _ (proj2 Hst) Hu) as [W1 [Htop _]].
  assert (forall z, below (<[p := without x ks]> K) x z <-> below K x z) as Hbe by (intros z; by apply unlinked_below; [apply Hst|]).
  destruct (splits_counts s K _ x t t' s' K2 H Hst H' W1 Htop) as (m & A & B & C); [|done|done|exact Sp|].
  { intros z Hz. apply Hbe in Hz. by eapply subtree_tree. }
  exists s', t, t', m. split; [exact E|]. split; [exact Et|]. split.
  { apply (cy_in _ _ _ _ _ _ _ (sp_carries _ _ _ _ _ _ _ Sp)). constructor. }
  split; [|done]. eapply card_eqv; [|exact A]. intros y. unfold hot_below, hot_in. by rewrite Hbe.
Qed.

Lemma move_counts s K a k x ad j y t t' : reach s -> stores s K -> receiver s a k x -> s_hands s !! j = Some (HNode Hot y) ->
  (exists p, child_of K p x) -> (last_not_first K x -> alone s K x) -> ~ below K x y -> has_place K ad y ->
  tree_of s x = Some t -> tree_of s y = Some t' -> t <> t' ->
  exists s' m, step s (OpMove a ad j) = Ret (s', OutUnit) /\ tree_of s' x = Some t' /\
    card (hot_in s K x) m /\ (is_Some (s_trees s' !! t) -> lock_cnt s' t = (lock_cnt s t - Z.of_nat m)%Z) /\
    lock_cnt s' t' = (lock_cnt s t' + Z.of_nat m)%Z.
Proof.
  intros H Hst Hr Hj Hp Hl Hb Hpl Et Et' Hne.
  destruct (move_api s K a k x ad j y H Hst Hr Hj Hp Hl Hb Hpl) as (s' & t1 & t1' & E & Et1 & Et1' & _ & B).
  assert (t1 = t) as -> by congruence. assert (t1' = t') as -> by congruence.
  destruct (B Hne) as (K1 & K2 & K3 & Hu & C & At & S3).
  assert (reach s') as H'.
  { eapply reach_step; [exact H|exact Hst| |exact E]. intros k' x' y' Hrc Hj'. destruct (receiver_unique _ _ _ _ _ _ Hr Hrc) as [-> ->].
    assert (y' = y) as -> by congruence. right; by left. }
  destruct (receiver_thawed s K a k x t H Hst Hr Et) as (Th & [tr Htr] & Hx).
  destruct (unlinked_wf K x _ (proj2 Hst) Hu) as [W1 [Htop _]].
  assert (forall z, below K1 x z <-> below K x z) as Hbe by (intros z; by apply unlinked_below; [apply Hst|]).
  destruct (handle_tree s K j Hot y H Hst Hj) as (t2 & _ & _ & _ & E2 & [tr' Htr'] & _). assert (t2 = t') as -> by congruence.
  pose proof (reach_stores_inv s K H Hst) as I. pose proof (reach_stores_inv s' K3 H' S3) as I'.
  assert (thawed s (s_hands s) t') as Th'.
  { assert (~ some_lock s Frozen t') as Hn.
    { intros Hf. apply (lock_exclusive s K t' I); [eauto| |exact Hf]. right. exists y. split; [done|]. split; [done|by exists j]. }
    split; [intros i Hi; apply Hn; left; by exists i|intros z Hz; apply Hn; right; by exists z]. }
  destruct (carries_counts s K K1 x t t' s' K2 K3 I I' C Hne W1 Htop) as (m & A & B' & D); try done.
  { intros z Hz. apply Hbe in Hz. by eapply subtree_tree. }
  { intros Hz. congruence. }
  exists s', m. split; [exact E|]. split; [apply (cy_in _ _ _ _ _ _ _ C); constructor|]. split.
  { eapply card_eqv; [|exact A]. intros z. unfold hot_below, hot_in. by rewrite Hbe. }
  unfold lock_cnt. rewrite Htr, Htr'. split.
  - intros [tr2 Htr2]. rewrite Htr2. by apply B'.
  - destruct (cy_dest _ _ _ _ _ _ _ C) as [tr2 Htr2]. rewrite Htr2, (D tr2 Htr2), Htr'. done.
Qed.

End ApiFacts8.
