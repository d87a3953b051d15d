(** * DepthFacts4: detaching, replacing and moving nest no destructors. *)
From Verif Require Import Heap Edit System SysSpec CardFacts HeapFacts SpecFacts NavFacts NavFacts2 EditFacts EditFacts2 EditFacts3 EditFacts4 EditFacts5 IterSpec RoseFacts AdjFacts TravFacts TdFacts TdFacts2 SysFacts SysFacts2 SysFacts3 SysFacts4 SysFacts5 SysFacts6 SysFacts7 SysFacts8 SysFacts9 SysFacts10 SysFacts11 SysFacts12 SysFacts13 SysFacts14 SysFacts15 Misled Misled2 Misled3 Depth DepthFacts DepthFacts2 DepthFacts3 Spec.

(** Overwriting a previous-sibling link does not matter. *)
Section Sp.
Context {T : Type} (n : nat).
Implicit Types (s : sys T) (h : heap T).
Variables (f : nid) (v : option nid).
Notation sp := (sp (T := T) f v).
Notation rsp := (rsp (T := T) f v).
Notation rosp := (rosp (T := T) f v).

Lemma usp_release s pins x : release_upto n (sp s) pins x = rsp (release_upto n s pins x).
Proof. unfold release_upto, walk_fuel. unfold Misled.sp at 1. simpl s_nodes. rewrite sp_size. apply sp_release. Qed.

Lemma usp_teardown f0 pins : forall s e, teardown_upto n f0 pins (sp s) e = rsp (teardown_upto n f0 pins s e).
Proof.
  induction f0 as [|f0 IH]; intros s e; [by destruct e|].
  destruct e as [e|]; [|done]. cbn [teardown_upto]. change (s_nodes (sp s)) with (set_prev (s_nodes s) f v). rewrite sp_dft.
  destruct e as [w|w]; [apply IH|].
  assert (forall hh, with_nodes (sp s) (set_prev hh f v) = sp (with_nodes s hh)) as Hw by done.
  assert (forall s1, (s2 ← release_upto n (sp s1) (ev_pin (dft_next (s_nodes s) (Close w)) ++ pins) w; teardown_upto n f0 pins s2 (dft_next (s_nodes s) (Close w))) =
    rsp (s2 ← release_upto n s1 (ev_pin (dft_next (s_nodes s) (Close w)) ++ pins) w; teardown_upto n f0 pins s2 (dft_next (s_nodes s) (Close w)))) as Hk.
  { intros s1. rewrite usp_release. apply rsp_bind. intros s2. apply IH. }
  rewrite sp_parent_link. destruct (parent_link (s_nodes s) w) as [p|].
  - cbv zeta. rewrite sp_set_next, sp_first, sp_next, sp_set_first, Hw.
    destruct (ffirst _ p) as [o|].
    + rewrite usp_release. apply rsp_bind. exact Hk.
    + cbn [mbind run_bind]. apply Hk.
  - cbn [mbind run_bind]. apply Hk.
Qed.

Lemma usp_drop_tree pins tpins s t : drop_tree_upto n pins tpins (sp s) t = rsp (drop_tree_upto n pins tpins s t).
Proof.
  unfold drop_tree_upto. change (s_trees (sp s)) with (s_trees s). destruct (s_trees s !! t) as [tr|]; [|done].
  rewrite sp_tree_referenced. destruct (tree_referenced s tpins t); [done|].
  unfold dfs_fuel. change (s_nodes (sp s)) with (set_prev (s_nodes s) f v). rewrite sp_size.
  rewrite usp_teardown. apply rsp_bind. intros s1. change (s_trees (sp s1)) with (s_trees s1).
  change (with_trees (sp s1) (delete t (s_trees s1))) with (sp (with_trees s1 (delete t (s_trees s1)))).
  apply usp_release.
Qed.

Lemma usp_set_tree_core s pins tpins x t' : set_tree_core_upto n (sp s) pins tpins x t' = rosp (set_tree_core_upto n s pins tpins x t').
Proof.
  unfold set_tree_core_upto. rewrite sp_mem. destruct (n_memb s x) as [[o|t rc lk]|]; [by rewrite sp_put_mem| |done].
  assert ((if Nat.eqb lk 0 then Some (sp s) else transfer_lock (sp s) t t') =
    option_map sp (if Nat.eqb lk 0 then Some s else transfer_lock s t t')) as -> by (destruct (Nat.eqb lk 0); [done|apply sp_transfer]).
  destruct (if Nat.eqb lk 0 then Some s else transfer_lock s t t') as [s1|]; [|done]. cbn [option_map].
  rewrite sp_put_mem, usp_drop_tree. unfold rsp, rosp. destruct (drop_tree_upto n _ _ _ _); done.
Qed.

Lemma usp_memberships f0 tpins t' : forall s st, set_memberships_upto n f0 (sp s) tpins st t' = rosp (set_memberships_upto n f0 s tpins st t').
Proof.
  induction f0 as [|f0 IH]; intros s st.
  - cbn [set_memberships_upto]. rewrite sp_dfs. destruct (link_dfs_next (s_nodes s) st) as [[ev st']| |]; [|done|done].
    cbn [mbind run_bind]. by destruct ev.
  - cbn [set_memberships_upto]. rewrite sp_dfs. destruct (link_dfs_next (s_nodes s) st) as [[ev st']| |]; [|done|done].
    cbn [mbind run_bind]. destruct ev as [e|]; [|done].
    assert (match e with Open y => set_tree_core_upto n (sp s) (y :: ev_pin (option_map fst st')) tpins y t' | Close _ => Ret (Some (sp s)) end =
      rosp (match e with Open y => set_tree_core_upto n s (y :: ev_pin (option_map fst st')) tpins y t' | Close _ => Ret (Some s) end)) as ->.
    { destruct e; [apply usp_set_tree_core|done]. }
    destruct (match e with Open y => set_tree_core_upto n s (y :: ev_pin (option_map fst st')) tpins y t' | Close _ => Ret (Some s) end)
      as [[s1|]| |]; [|done|done|done].
    unfold rosp at 1. cbn [mbind run_bind]. cbn [option_map]. rewrite usp_release. unfold rsp.
    destruct (release_upto n s1 _ _) as [s2| |]; cbn [mbind run_bind]; [apply IH|done|done].
Qed.

Lemma usp_create_new_tree s tpins x : create_new_tree_upto n (sp s) tpins x = rsp (create_new_tree_upto n s tpins x).
Proof.
  unfold create_new_tree_upto. cbv zeta. change (s_fresh (sp s)) with (s_fresh s). change (s_trees (sp s)) with (s_trees s).
  set (s1 := with_fresh (with_trees s (<[s_fresh s := mkTree x 0]> (s_trees s))) (S (s_fresh s))).
  change (with_fresh (with_trees (sp s) (<[s_fresh s := mkTree x 0]> (s_trees s))) (S (s_fresh s))) with (sp s1).
  unfold set_subtree_upto, dfs_fuel. change (s_nodes (sp s1)) with (set_prev (s_nodes s1) f v). rewrite sp_size.
  rewrite usp_memberships. unfold rosp, rsp. destruct (set_memberships_upto _ _ _ _ _ _) as [[s2|]| |]; done.
Qed.

End Sp.

Section DepthFacts4.
Context {T : Type} (n : nat).
Implicit Types (h : heap T) (s : sys T) (hm : gmap nat handle) (K : forest).

Lemma stray_before s K x t0 tp ro : stray s K x t0 -> shape K x ro ->
  exists s1, s1 = with_fresh (with_trees s (<[s_fresh s := mkTree x 0]> (s_trees s))) (S (s_fresh s)) /\
    before_loop s1 K x t0 (s_fresh s) /\ mid s1 K x ro t0 (s_fresh s) s1 K [] (s_fresh s :: tp).
Proof.
  intros S Hsh. set (t' := s_fresh s : tid). set (s1 := with_fresh (with_trees s (<[t' := mkTree x 0]> (s_trees s))) (Datatypes.S t')).
  pose proof (st_f _ _ _ _ S) as [F1 F2 F3 F4].
  assert (s_trees s !! t' = None) as Hn. { destruct (s_trees s !! t') eqn:E; [|done]. assert (t' < s_fresh s); [|unfold t' in *; lia]. apply F2. eauto. }
  assert (forall k i, ~ token_holder (s_hands s) k t' i) as Htok. { intros k i [_ Hi]. apply F3 in Hi as [_ Hi]. destruct k; simpl in Hi; unfold t' in Hi; lia. }
  assert (forall y, tree_of s y <> Some t') as Hmem. { intros y Hy. apply F4 in Hy. unfold t' in Hy. lia. }
  assert (t0 <> t') as Hne. { intros ->. by apply (Hmem x), S. }
  assert (forall u, u <> t' -> s_trees s1 !! u = s_trees s !! u) as Hto. { intros u Hu. simpl. by rewrite lookup_insert_ne. }
  assert (s_trees s1 !! t' = Some (mkTree x 0)) as Htn. { simpl. by rewrite lookup_insert. }
  assert (forall y, tree_of s1 y = tree_of s y) as Htree by done.
  pose proof (st_pinv _ _ _ _ S) as P.
  assert (before_loop s1 K x t0 t') as B.
  { split.
    - intros p c Hc. rewrite !Htree. by apply P.
    - intros y Hy. destruct (p_top _ _ _ P y Hy) as [->|(u & tr & A1 & A2 & A3)]; [by left|right]. exists u, tr. rewrite Htree, Hto; [done|].
      intros ->. congruence.
    - intros u tr Hu. destruct (decide (u = t')) as [->|Hu1].
      + rewrite Htn in Hu. injection Hu as <-. by left.
      + right. rewrite Hto in Hu by done. split; [by eapply S|]. rewrite Htree. by apply P.
    - done.
    - apply S. }
  assert (mid s1 K x ro t0 t' s1 K [] (t' :: tp)) as M.
  { split.
    - apply P.
    - apply P.
    - apply S.
    - done.
    - intros y Hy. rewrite decide_False by apply not_elem_of_nil. rewrite Htree. apply (shape_nodes _ _ _ _ Hsh) in Hy.
      rewrite <-(st_tree _ _ _ _ S). by apply (below_tree _ _ _ _ _ P).
    - done.
    - left. split; [done|]. split; [intros y; done|done].
    - simpl. apply hinv_new_tree; [apply S|done|done|done].
    - apply S.
    - split; [apply Htok|]. intros y (_ & Hy & _). by apply (Hmem y).
    - rewrite Htn. eauto.
    - intros u Hu Hnot. assert (u <> t') by (intros ->; apply Hnot; by left). rewrite Hto in Hu by done. by apply (st_held _ _ _ _ S).
    - done.
    - done. }
  exists s1. split; [done|]. split; [exact B|exact M].
Qed.

Lemma upto_new_tree s K x t0 tp : stray s K x t0 -> create_new_tree_upto (S n) s tp x = create_new_tree s tp x.
Proof.
  intros Z. destruct (shape_exists K x (p_wf _ _ _ (st_pinv _ _ _ _ Z)) (proj1 (st_top _ _ _ _ Z))) as [ro Hro].
  destruct (stray_before s K x t0 tp ro Z Hro) as (s1 & Es1 & B & M).
  destruct (upto_subtree n s1 K x ro t0 (s_fresh s) B tp M) as (s' & K' & E & _).
  assert (create_new_tree_upto (S n) s tp x = Ret s') as E1.
  { transitivity (r ← set_subtree_upto (S n) s1 tp x (s_fresh s); match r with Some s2 => Ret s2 | None => Panic end); [by rewrite Es1|]. by rewrite E. }
  eapply agrees_ret; [apply upto_create_new_tree|exact E1].
Qed.

Lemma upto_tpins s pins (t t' : tid) : t <> t' -> drop_tree_upto (S n) pins [] s t = drop_tree_upto (S n) pins [t'] s t.
Proof.
  intros Hne. unfold drop_tree_upto. destruct (s_trees s !! t); [|done].
  assert (tree_referenced s [] t = tree_referenced s [t'] t) as ->; [|done].
  apply eq_true_iff_eq. rewrite !tree_referenced_iff, elem_of_list_singleton, elem_of_nil. naive_solver.
Qed.

Lemma upto_finish s K x t0 : stray s K x t0 ->
  exists s3 s4, create_new_tree_upto (S n) s [t0] x = Ret s3 /\ drop_tree_upto (S n) [] [] s3 t0 = Ret s4.
Proof.
  intros Z. pose proof (upto_new_tree s K x t0 [t0] Z) as E0.
  destruct (shape_exists K x (p_wf _ _ _ (st_pinv _ _ _ _ Z)) (proj1 (st_top _ _ _ _ Z))) as [ro Hro].
  destruct (create_new_tree_ok _ _ _ _ [t0] ro Z Hro) as (s1 & s3 & K3 & Es1 & E & B & M).
  set (t' := s_fresh s : tid) in *.
  apply (mid_extE _ _ _ _ _ _ _ _ _ _ [t0; t']) in M.
  2:{ intros u [->|[->|Hu]%elem_of_cons]%elem_of_cons; [right; by left|by left|by apply elem_of_nil in Hu]. }
  destruct (mid_drop s1 K x ro t0 t' B s3 K3 (rose_nodes ro) [t'] [] M) as (s4 & K4 & E4 & M4).
  - by left.
  - intros Hu%elem_of_list_singleton. by apply (b_ne _ _ _ _ _ B).
  - intros z Hz. by apply elem_of_nil in Hz.
  - exists s3, s4. split; [congruence|]. rewrite (upto_tpins s3 [] t0 t'); [|apply B].
    rewrite (upto_mid_drop n s1 K x ro t0 t' B s3 K3 (rose_nodes ro) [t'] [] M). exact E4.
Qed.

End DepthFacts4.
