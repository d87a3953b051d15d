(** * DepthFacts9: no call in a reachable state nests destructors, whole trees included. *)
From Verif Require Import Heap Edit System SysSpec ApiSpec CardFacts HeapFacts SpecFacts NavFacts NavFacts2 EditFacts EditFacts2 EditFacts3 EditFacts4 EditFacts5 IterSpec RoseFacts AdjFacts TravFacts TdFacts TdFacts2 SysFacts SysFacts2 SysFacts3 SysFacts4 SysFacts5 SysFacts6 SysFacts7 SysFacts8 SysFacts9 SysFacts10 SysFacts11 SysFacts12 SysFacts13 SysFacts14 SysFacts15 Misled Misled2 Misled3 ApiFacts ApiFacts2 Depth DepthFacts DepthFacts2 DepthFacts3 DepthFacts4 DepthFacts5 DepthFacts6 DepthFacts7 GraftFacts GraftFacts2 GraftFacts3 TearFacts GraftFacts5 DepthFacts8 Spec.

Section DepthFacts9.
Context {T : Type}.
Implicit Types (h : heap T) (s : sys T) (hm : gmap nat handle).

Lemma upto_subtree_agrees n s tp x t' r : set_subtree_upto n s tp x t' = Ret r -> set_subtree_upto n s tp x t' = set_subtree_tree s tp x t'.
Proof. intros E. eapply agrees_ret; [apply upto_memberships|exact E]. Qed.

Lemma upto_graft n s K x t0 y t' ad : grafting s K x t0 y t' ->
  move_other_upto (S n) s x (dest_of ad y) t' = move_to_another_tree s x (dest_of ad y) t'.
Proof.
  intros G. pose proof (gr_inv _ _ _ _ _ _ G) as H. pose proof (s_wf _ _ (i_s _ _ H)) as Hw. pose proof (s_rep _ _ (i_s _ _ H)) as Hr.
  destruct (shape_exists K x Hw (proj1 (gr_top _ _ _ _ _ _ G))) as [ro Hro].
  unfold move_other_upto, move_to_another_tree. rewrite (root_unlink s K x H (gr_top _ _ _ _ _ _ G)). cbn [mbind run_bind].
  replace (with_nodes s (s_nodes s)) with s by (by destruct s).
  assert (exists r, set_subtree_upto (S n) s [] x t' = Ret r) as [r E]; [|by rewrite (upto_subtree_agrees _ _ _ _ _ _ E)].
  pose proof (gr_gm _ _ _ _ _ _ ro G Hro) as M.
  destruct (tree_handle_dec s t0) as [[i Hi]|Hno].
  - destruct (up_quiet_subtree n s K x ro t0 t' Hr Hw (gr_top _ _ _ _ _ _ G) Hro (gr_ne _ _ _ _ _ _ G) (gr_hx _ _ _ _ _ _ G) [] M (ex_intro _ i Hi)) as (s2 & E & _). eauto.
  - destruct (up_lost_subtree n s K x ro t0 t' Hr Hw (gr_top _ _ _ _ _ _ G) Hro (gr_ne _ _ _ _ _ _ G) (gr_hx _ _ _ _ _ _ G) Hno (gr_src _ _ _ _ _ _ G)) as (s2 & E & _).
    + intros z Hz Ht. apply (shape_nodes _ _ _ _ Hro). by apply (gr_below _ _ _ _ _ _ _ G).
    + intros u tr Hu Hut F. apply (shape_nodes _ _ _ _ Hro) in F. apply (gr_below _ _ _ _ _ _ _ G) in F as [_ F].
      destruct (s_root _ _ (i_s _ _ H) _ _ Hu) as [_ E]. rewrite E in F. congruence.
    + exact M.
    + eauto.
Qed.

Lemma depth_any n s K o : inv s K -> step_upto (S n) s o = step s o.
Proof.
  intros H. pose proof (inv_wf s K H) as W.
  assert ((forall a ad j, o <> OpMove a ad j) \/ exists a ad j, o = OpMove a ad j) as [Hno|(a & ad & j & ->)] by (destruct o; eauto; left; discriminate).
  { apply (depth_step n s K o H). destruct o; try exact Logic.I. by destruct (Hno a ad j). }
  cbn [step_upto step]. destruct (s_hands s !! j) as [[[] y| | | | |]|] eqn:Hj; lazymatch goal with |- ill _ = _ => reflexivity | _ => idtac end.
  apply (upto_with s K _ _ _ H). intros k x Hrc.
  destruct (receiver_facts s K a k x H Hrc) as (i & t & Hi & Et & Ht & Hth & Ha & Hk & El).
  destruct (receiver_facts s K (ByHot j) Hot y H (conj eq_refl Hj)) as (j' & t' & Hj' & Et' & Ht' & Hth' & Ha' & _ & El').
  unfold move_upto, move_subtree. rewrite El, El'. cbn [mbind run_bind]. destruct (decide (t = t')) as [->|Hne]; [reflexivity|].
  destruct (top_or_child K x W (proj1 (inv_alive s K x H) Ha)) as [Htop|(p & ks & Hp & Hin)].
  - destruct (grafting_intro s K a k x j y t t' H Hrc Hj Htop Et Et' Hne) as [G _]. by rewrite (upto_graft n s K x t y t' ad G).
  - by rewrite (upto_move_ok n s K i k x t j' Hot y t' ad p ks H Hi Et Hth Hj' Et' Hth' Hne Hp Hin).
Qed.
End DepthFacts9.
