(** * GraftFacts2: moves of a whole tree, as calls of the API. *)
From Verif Require Import Heap Edit System SysSpec CardFacts HeapFacts SpecFacts NavFacts NavFacts2 EditFacts EditFacts2 EditFacts3 EditFacts4 EditFacts5 IterSpec RoseFacts AdjFacts TravFacts TdFacts TdFacts2 SysFacts SysFacts2 SysFacts3 SysFacts4 SysFacts5 SysFacts6 SysFacts7 SysFacts8 SysFacts9 SysFacts10 SysFacts11 SysFacts12 SysFacts13 SysFacts14 SysFacts15 GraftFacts ApiSpec ApiFacts ApiFacts2 ApiFacts3 ApiFacts4 ApiFacts5 ApiFacts6 MisledSpec Misled Misled2 Misled3 Misled4 Misled5 Misled6 Misled7 Misled8 MoveSpec MoveFacts GraftSpec Spec.

Section GraftFacts2.
Context {T : Type}.
Implicit Types (h : heap T) (s : sys T) (K : forest).

Lemma grafting_intro s K a k x j y t t' : inv s K -> receiver s a k x -> s_hands s !! j = Some (HNode Hot y) -> is_top K x ->
  tree_of s x = Some t -> tree_of s y = Some t' -> t <> t' ->
  grafting s K x t y t' /\ forall ad, move_subtree s x ad y = move_to_another_tree s x (dest_of ad y) t'.
Proof.
  intros H Hrc Hj Htop Ht Ht' Hne.
  destruct (receiver_facts s K a k x H Hrc) as (i & u & Hi & Et & Htr & Hth & Ha & Hk & El). assert (u = t) as -> by congruence.
  destruct (handle_tree s K j Hot y H Hj) as (u' & tr' & Et' & Htr' & _ & _ & El'). assert (u' = t') as -> by congruence.
  assert (thawed s (s_hands s) t') as Hth'.
  { apply thawed_holders. exact (handle_excl s K j Hot y t' H Hj ltac:(done) Et'). }
  split.
  - split; [exact H|exact Htop|by exists i, k|by exists j, Hot|exact Et|exact Et'|exact Hne|exact Hth|exact Hth'].
  - intros ad. unfold move_subtree. rewrite El, El'. cbn [mbind run_bind]. by rewrite decide_False.
Qed.

Lemma gm_hands_over s K x ro t0 y t' s2 : grafting s K x t0 y t' -> shape K x ro -> gm s ro t0 t' s2 (rose_nodes ro) -> hands_over s K x t' s2.
Proof.
  intros G Hro M. split.
  - exact (g_hands _ _ _ _ _ _ M).
  - intros z Hz. apply (shape_nodes _ _ _ _ Hro) in Hz. rewrite (g_in _ _ _ _ _ _ M z Hz). by rewrite decide_True.
  - intros z Hz. unfold tree_of. rewrite (g_out _ _ _ _ _ _ M z); [done|]. intros Hin. apply Hz. by apply (shape_nodes _ _ _ _ Hro).
  - intros z. apply (memonly_payload s s2). exact (g_mem _ _ _ _ _ _ M).
  - exact (g_root _ _ _ _ _ _ M).
Qed.
Lemma relink_hands_over s K x t' s2 h3 : hands_over s K x t' s2 -> same_meta (s_nodes s2) h3 -> hands_over s K x t' (with_nodes s2 h3).
Proof.
  intros [A B C D E] M. split; [exact A| | | |exact E].
  - intros z Hz. rewrite relink_tree_of by done. by apply B.
  - intros z Hz. rewrite relink_tree_of by done. by apply C.
  - intros z. rewrite relink_payload by done. apply D.
Qed.

(** A [Tree] handle keeps the tree. *)
Lemma graft_kept s K a k x ad j y t t' i : reach s -> stores s K -> receiver s a k x -> s_hands s !! j = Some (HNode Hot y) -> is_top K x ->
  tree_of s x = Some t -> tree_of s y = Some t' -> t <> t' -> s_hands s !! i = Some (HTree t) -> has_place K ad y ->
  exists s' K', step s (OpMove a ad j) = Ret (s', OutUnit) /\ hands_over s K x t' s' /\ attached K x (dest_of ad y) K' /\ stores s' K'.
Proof.
  intros R Hst Hrc Hj Htop Ht Ht' Hne Hi Hpl. pose proof (reach_stores_inv s K R Hst) as H.
  destruct (grafting_intro s K a k x j y t t' H Hrc Hj Htop Ht Ht' Hne) as [G Em].
  destruct (graft_held s K x t y t' ad G (adoptable_place _ _ _ Hpl) (ex_intro _ i Hi)) as (s2 & h3 & K3 & ro & Hro & M2 & Hatt & E & Hr3 & Hw3 & M3).
  exists (with_nodes s2 h3), K3. split; [|split; [|split; [exact Hatt|split; [exact Hr3|exact Hw3]]]].
  - rewrite <-Em in E. rewrite (move_step_eq s K a k x ad j y _ H Hrc Hj E). reflexivity.
  - apply relink_hands_over; [|done]. by eapply gm_hands_over.
Qed.

Lemma graft_kept_refused s K a k x ad j y t t' i : reach s -> stores s K -> receiver s a k x -> s_hands s !! j = Some (HNode Hot y) -> is_top K x ->
  tree_of s x = Some t -> tree_of s y = Some t' -> t <> t' -> s_hands s !! i = Some (HTree t) -> no_place K x ad y ->
  exists s', step s (OpMove a ad j) = Ret (s', OutErr SiblingsWithoutParent) /\ hands_over s K x t' s' /\ stores s' K.
Proof.
  intros R Hst Hrc Hj Htop Ht Ht' Hne Hi [Had Hy]. pose proof (reach_stores_inv s K R Hst) as H. pose proof (inv_wf s K H) as Hw. pose proof (s_rep _ _ (i_s _ _ H)) as Hr.
  assert (is_top K y) as Hty by (destruct Hy as [->|Hy]; [congruence|exact Hy]).
  destruct (grafting_intro s K a k x j y t t' H Hrc Hj Htop Ht Ht' Hne) as [G Em].
  destruct (shape_exists K x Hw (proj1 Htop)) as [ro Hro].
  destruct (quiet_subtree s K x ro t t' Hr Hw Htop Hro (gr_ne _ _ _ _ _ _ G) (gr_hx _ _ _ _ _ _ G) [] (gr_gm _ _ _ _ _ _ _ G Hro) (ex_intro _ i Hi)) as (s2 & E2 & M2).
  pose proof (gm_rep _ _ _ _ _ Hr _ _ M2) as Hr2.
  exists s2. split; [|split; [by eapply gm_hands_over|split; [exact Hr2|exact Hw]]].
  assert (move_subtree s x ad y = Ret (with_nodes s2 (s_nodes s2), HErr SiblingsWithoutParent)) as E.
  { rewrite Em. unfold move_to_another_tree. rewrite (root_unlink s K x H Htop). cbn [mbind run_bind].
    replace (with_nodes s (s_nodes s)) with s by (by destruct s). rewrite E2. cbn [mbind run_bind].
    by rewrite (no_place_err (s_nodes s2) K ad y x false Hr2 Hty Had). }
  rewrite (move_step_eq s K a k x ad j y _ H Hrc Hj E). simpl. by destruct s2.
Qed.
End GraftFacts2.
