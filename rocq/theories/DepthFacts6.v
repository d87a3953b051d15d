(** * DepthFacts6: detaching, replacing and moving on a bounded stack. *)
From Verif Require Import Heap Edit System SysSpec ApiSpec CardFacts HeapFacts SpecFacts NavFacts NavFacts2 EditFacts EditFacts2 EditFacts3 EditFacts4 EditFacts5 IterSpec RoseFacts AdjFacts TravFacts TdFacts TdFacts2 SysFacts SysFacts2 SysFacts3 SysFacts4 SysFacts5 SysFacts6 SysFacts7 SysFacts8 SysFacts9 SysFacts10 SysFacts11 SysFacts12 SysFacts13 SysFacts14 SysFacts15 Misled Misled2 Misled3 Depth DepthFacts DepthFacts2 DepthFacts3 DepthFacts4 ApiFacts2 DepthFacts5 Spec.

Section DepthFacts6.
Context {T : Type}.
Implicit Types (h : heap T) (s : sys T) (hm : gmap nat handle).

(** ** Detaching *)
Lemma upto_detach_ok n s K i k x t0 K1 : inv s K -> s_hands s !! i = Some (HNode k x) -> tree_of s x = Some t0 -> thawed s (s_hands s) t0 ->
  unlinked K x K1 -> ~ last_not_first K x -> detach_upto (S n) s x = detach_subtree s x.
Proof.
  intros H Hi Ht Hth Hu Hl. pose proof (i_s _ _ H) as Hs.
  destruct (unlink_any (s_nodes s) K x K1 (s_rep _ _ Hs) (s_wf _ _ Hs) Hu Hl) as (h' & E & Hr & Hw & Htop & M).
  pose proof (unlink_stray s K i k x t0 h' K1 H Hi Ht Hth Hu Hr Hw M) as Z.
  unfold detach_upto, detach_subtree. destruct (is_root (s_nodes s) x); [reflexivity|]. rewrite E. cbn [mbind run_bind].
  exact (upto_new_tree n _ _ _ _ [] Z).
Qed.

Lemma upto_detach_last n s K i k x t0 p f m : inv s K -> s_hands s !! i = Some (HNode k x) -> tree_of s x = Some t0 -> thawed s (s_hands s) t0 ->
  K !! p = Some (f :: m ++ [x]) -> detach_upto (S n) s x = detach_subtree s x.
Proof.
  intros H Hi Ht Hth Hp. pose proof (i_s _ _ H) as Hs.
  destruct (unlink_cut _ K p f m x (s_rep _ _ Hs) (s_wf _ _ Hs) Hp) as (h1 & E & C).
  destruct (last_stray s K i k x t0 p f m h1 H Hi Ht Hth Hp C) as (h' & -> & M & Z).
  unfold detach_upto, detach_subtree. destruct (is_root (s_nodes s) x); [reflexivity|]. rewrite E. cbn [mbind run_bind].
  change (with_nodes s (set_prev h' f (Some x))) with (sp f (Some x) (with_nodes s h')).
  rewrite usp_create_new_tree, sp_create_new_tree. by rewrite (upto_new_tree n _ _ _ _ [] Z).
Qed.

Lemma upto_detach_root n s x : is_root (s_nodes s) x = true -> detach_upto (S n) s x = detach_subtree s x.
Proof. intros E. unfold detach_upto, detach_subtree. by rewrite E. Qed.

(** ** Replacing *)
Lemma upto_replace_child n s K i k x t0 p ks cs : inv s K -> s_hands s !! i = Some (HNode k x) -> tree_of s x = Some t0 -> thawed s (s_hands s) t0 ->
  K !! p = Some ks -> x ∈ ks -> K !! x = Some cs -> (head ks = Some x \/ last ks <> Some x \/ cs <> []) ->
  replace_upto (S n) s x = replace_node s x.
Proof.
  intros H Hi Ht Hth Hp Hx Hcs Hok. pose proof (i_s _ _ H) as Hs. pose proof (s_wf _ _ Hs) as Hw.
  destruct (replace_child_ok (s_nodes s) K p ks x cs (s_rep _ _ Hs) Hw Hp Hx Hcs Hok) as (h' & E & Hr & Hw' & Htop & M).
  set (K1 := <[x := []]> (<[p := splice x cs ks]> K)) in *.
  assert (child_of K p x) as Hpx by (by exists ks).
  assert (p <> x) as Hpne. { intros ->. apply (below_antisym_child _ _ _ Hw Hpx). constructor. }
  assert (forall q c, child_of K1 q c <-> (q = p /\ child_of K x c) \/ (q <> x /\ c <> x /\ child_of K q c)) as Hch.
  { intros q c. unfold K1. rewrite !child_of_insert. rewrite (splice_elem x cs ks c (wf_nodup _ Hw _ _ Hp) Hx). split.
    - intros [[_ Hc]|[Hq [[-> [Hc|[Hc1 Hc2]]]|[Hq2 Hc]]]]; [by apply elem_of_nil in Hc|left|right|right].
      + split; [done|by exists cs].
      + split; [done|]. split; [done|by exists ks].
      + split; [done|]. split; [|done]. intros ->. apply Hq2. by apply (wf_uniq _ Hw q p x).
    - intros [[-> Hc]|(Hq & Hc1 & Hc)].
      + right. split; [done|]. left. split; [done|]. left. destruct Hc as (l & Hl & Hc). congruence.
      + right. split; [done|]. destruct (decide (q = p)) as [->|]; [left|by right]. split; [done|]. right. split; [|done].
        destruct Hc as (l & Hl & Hc). congruence. }
  assert (forall y, is_Some (K1 !! y) <-> is_Some (K !! y)) as Hdom.
  { intros y. unfold K1. rewrite !is_Some_insert. split; [intros [->|[->|?]]; [rewrite Hcs; eauto|rewrite Hp; eauto|done]|auto]. }
  assert (forall t tr, s_trees s !! t = Some tr -> t_root tr <> x) as Hroot.
  { intros t tr Htr E1. destruct (s_root _ _ Hs _ _ Htr) as [[_ A] _]. apply (A p). by rewrite E1. }
  assert (stray (with_nodes s h') K1 x t0) as S.
  { destruct (handle_tree s K i k x H Hi) as (t1 & tr & A1 & A2 & _). assert (t1 = t0) as -> by congruence. split.
    - eapply pinv_relink; [apply sinv_pinv; exact Hs|done|done|done|..].
      + intros q c Hc. apply Hch in Hc as [[-> Hc]|(_ & _ & Hc)]; [|by apply (s_child _ _ Hs)].
        rewrite (s_child _ _ Hs _ _ Hc). by apply (s_child _ _ Hs).
      + intros y [Hy1 Hy2]. destruct (decide (x = y)) as [|Hne]; [by left|right]. split; [|by intros []].
        split; [by apply Hdom|]. intros q Hq. destruct (decide (q = x)) as [->|Hqx].
        * apply (Hy2 p). apply Hch. by left.
        * apply (Hy2 q). apply Hch. right. done.
      + intros t tr1 Htr. destruct (s_root _ _ Hs _ _ Htr) as [[B1 B2] _]. split; [by apply Hdom|].
        intros q Hq. apply Hch in Hq as [[-> Hc]|(_ & _ & Hc)]; [by apply (B2 x)|by apply (B2 q)].
    - done.
    - by rewrite relink_tree_of.
    - simpl. rewrite A2. eauto.
    - exact Hroot.
    - apply hinv_relink; [apply H|done].
    - intros u Hu1. rewrite held_relink by done. by apply (i_held _ _ H).
    - apply finv_relink; [apply H|done].
    - destruct Hth as [B1 B2]. split; [exact B1|]. intros y. unfold node_holder. rewrite relink_tree_of by done. apply B2.
    - simpl. eauto. }
  destruct (upto_finish n _ _ _ _ S) as (s3 & s4 & E3 & E4).
  eapply agrees_ret; [apply upto_replace|].
  unfold replace_upto. destruct (handle_tree s K i k x H Hi) as (t1 & tr & A1 & A2 & _ & A4 & _). assert (t1 = t0) as -> by congruence.
  rewrite A4. cbn [mbind run_bind]. rewrite E. cbn [mbind run_bind]. rewrite E3. cbn [mbind run_bind]. rewrite E4. reflexivity.
Qed.

Lemma upto_replace_root n s K i k x t0 c : inv s K -> s_hands s !! i = Some (HNode k x) -> tree_of s x = Some t0 -> thawed s (s_hands s) t0 ->
  is_top K x -> K !! x = Some [c] -> replace_upto (S n) s x = replace_node s x.
Proof.
  intros H Hi Ht Hth Hxt Hc. pose proof (i_s _ _ H) as Hs. pose proof (s_wf _ _ Hs) as Hw.
  destruct (replace_root_ok (s_nodes s) K x c (s_rep _ _ Hs) Hw Hxt Hc) as (h' & E & Hr & Hw' & Htopc & Htop & M).
  set (K1 := <[x := []]> K) in *.
  assert (child_of K x c) as Hxc by (exists [c]; split; [done|by left]).
  assert (c <> x) as Hcx. { intros ->. by apply (proj2 Hxt x). }
  assert (forall q y, child_of K1 q y <-> q <> x /\ child_of K q y) as Hch.
  { intros q y. unfold K1. rewrite child_of_insert. split; [intros [[_ Hy]|[? ?]]; [by apply elem_of_nil in Hy|done]|intros [? ?]; by right]. }
  assert (forall y, is_Some (K1 !! y) <-> is_Some (K !! y)) as Hdom.
  { intros y. unfold K1. rewrite !is_Some_insert. split; [intros [->|?]; [rewrite Hc; eauto|done]|auto]. }
  destruct (s_top _ _ Hs x Hxt) as (t1 & tr0 & A1 & A2 & A3). assert (t1 = t0) as -> by congruence.
  set (s1 := put_root (with_nodes s h') t0 c).
  assert (s_trees s1 !! t0 = Some (mkTree c (t_cnt tr0))) as Hst. { unfold s1. rewrite put_root_lookup, decide_True by done. simpl. by rewrite A2. }
  assert (forall u, u <> t0 -> s_trees s1 !! u = s_trees s !! u) as Hso. { intros u Hu. unfold s1. by rewrite put_root_lookup, decide_False. }
  assert (forall u, is_Some (s_trees s1 !! u) <-> is_Some (s_trees s !! u)) as Hal.
  { intros u. destruct (decide (u = t0)) as [->|]; [rewrite Hst, A2; split; eauto|by rewrite Hso]. }
  assert (forall y, tree_of s1 y = tree_of s y) as Htree. { intros y. change (tree_of (with_nodes s h') y = tree_of s y). by apply relink_tree_of. }
  assert (tree_of s c = Some t0) as Htc. { rewrite <-Ht. by apply (s_child _ _ Hs). }
  assert (stray s1 K1 x t0) as S.
  { split.
    - split.
      + done.
      + done.
      + intros q y Hy. rewrite !Htree. apply Hch in Hy as [_ Hy]. by apply (s_child _ _ Hs).
      + intros y Hy. destruct (decide (x = y)) as [|Hne]; [by left|right]. rewrite Htree. destruct (decide (y = c)) as [->|Hyc].
        * exists t0. eexists. split; [done|]. split; [exact Hst|done].
        * destruct Hy as [Hy1 Hy2]. destruct (s_top _ _ Hs y) as (u & tr & B1 & B2 & B3).
          { split; [by apply Hdom|]. intros q Hq. destruct (decide (q = x)) as [->|Hqx].
            - destruct Hq as (l & Hl & Hq). rewrite Hc in Hl. injection Hl as <-. apply elem_of_list_singleton in Hq. done.
            - apply (Hy2 q). by apply Hch. }
          exists u, tr. split; [done|]. split; [|done]. rewrite Hso; [done|]. intros ->. assert (tr = tr0) as -> by congruence. congruence.
      + intros u tr Hu. rewrite Htree. destruct (decide (u = t0)) as [->|Hne].
        * rewrite Hst in Hu. injection Hu as <-. done.
        * rewrite Hso in Hu by done. destruct (s_root _ _ Hs _ _ Hu) as [[B1 B2] B3]. split; [|done].
          split; [by apply Hdom|]. intros q Hq. apply Hch in Hq as [_ Hq]. by apply (B2 q).
    - done.
    - by rewrite Htree.
    - rewrite Hst. eauto.
    - intros u tr Hu. destruct (decide (u = t0)) as [->|Hne].
      + rewrite Hst in Hu. injection Hu as <-. done.
      + rewrite Hso in Hu by done. intros E1. destruct (s_root _ _ Hs _ _ Hu) as [_ B3]. congruence.
    - apply hinv_put_root. apply hinv_relink; [apply H|done].
    - intros u Hu. apply Hal in Hu. change (tree_held (with_nodes s h') (s_hands s) u). rewrite held_relink by done. by apply (i_held _ _ H).
    - destruct (finv_relink s h' (i_f _ _ H) M) as [B1 B2 B3 B4]. split; [exact B1| |exact B3|exact B4]. intros u Hu. apply B2. by apply Hal.
    - destruct Hth as [B1 B2]. split; [exact B1|]. intros y. unfold node_holder. rewrite Htree. apply B2.
    - simpl. eauto. }
  destruct (upto_finish n _ _ _ _ S) as (s3 & s4 & E3 & E4).
  eapply agrees_ret; [apply upto_replace|].
  unfold replace_upto. destruct (handle_tree s K i k x H Hi) as (t1 & tr & B1 & B2 & _ & B4 & _). assert (t1 = t0) as -> by congruence.
  rewrite B4. cbn [mbind run_bind]. rewrite E. cbn [mbind run_bind]. fold s1. rewrite E3. cbn [mbind run_bind]. rewrite E4. reflexivity.
Qed.

Lemma upto_replace_err n s K i k x t0 ks : inv s K -> s_hands s !! i = Some (HNode k x) -> tree_of s x = Some t0 ->
  is_top K x -> K !! x = Some ks -> length ks <> 1 -> replace_upto (S n) s x = replace_node s x.
Proof.
  intros H Hi Ht Hx Hks Hl. unfold replace_upto, replace_node. destruct (handle_tree s K i k x H Hi) as (t1 & tr & A1 & A2 & _ & A4 & _).
  rewrite A4. cbn [mbind run_bind]. by rewrite (replace_root_err _ _ _ _ (s_rep _ _ (i_s _ _ H)) (s_wf _ _ (i_s _ _ H)) Hx Hks Hl).
Qed.

Lemma upto_replace_last n s K i k x t0 p f m : inv s K -> s_hands s !! i = Some (HNode k x) -> tree_of s x = Some t0 -> thawed s (s_hands s) t0 ->
  K !! p = Some (f :: m ++ [x]) -> K !! x = Some [] -> replace_upto (S n) s x = replace_node s x.
Proof.
  intros H Hi Ht Hth Hp Hx. pose proof (i_s _ _ H) as Hs.
  destruct (replace_cut _ K p f m x (s_rep _ _ Hs) (s_wf _ _ Hs) Hp Hx) as (h1 & E & C).
  destruct (last_stray s K i k x t0 p f m h1 H Hi Ht Hth Hp C) as (h' & -> & M & Z).
  destruct (upto_finish n _ _ _ _ Z) as (s3 & s4 & E3 & E4).
  eapply agrees_ret; [apply upto_replace|].
  unfold replace_upto. destruct (SysFacts5.handle_tree s K i k x H Hi) as (t1 & tr & A1 & A2 & _ & A4 & _). assert (t1 = t0) as -> by congruence.
  rewrite A4. cbn [mbind run_bind]. rewrite E. cbn [mbind run_bind].
  change (with_nodes s (set_prev h' f (Some x))) with (sp f (Some x) (with_nodes s h')).
  rewrite usp_create_new_tree, E3. unfold rsp. cbn [mbind run_bind]. rewrite usp_drop_tree, E4. reflexivity.
Qed.

(** ** Moving *)
Lemma upto_carry n s K i k x t0 j ky y t' K1 h' : inv s K -> s_hands s !! i = Some (HNode k x) -> tree_of s x = Some t0 -> thawed s (s_hands s) t0 ->
  s_hands s !! j = Some (HNode ky y) -> tree_of s y = Some t' -> thawed s (s_hands s) t' -> t0 <> t' ->
  unlinked K x K1 -> rep h' K1 -> same_meta (s_nodes s) h' ->
  set_subtree_upto (S n) (with_nodes s h') [] x t' = set_subtree_tree (with_nodes s h') [] x t'.
Proof.
  intros H Hi Ht Hth Hj Hty Hth' Hne Hu Hr M. pose proof (i_s _ _ H) as Hs. pose proof (s_wf _ _ Hs) as Hw.
  destruct (unlinked_wf _ _ _ Hw Hu) as [Hw1 Htop].
  pose proof (unlink_stray s K i k x t0 h' K1 H Hi Ht Hth Hu Hr Hw1 M) as S.
  set (s0 := with_nodes s h') in *.
  destruct (shape_exists K1 x Hw1 (proj1 Htop)) as [ro Hro].
  pose proof (st_pinv _ _ _ _ S) as P.
  assert (is_Some (s_trees s !! t')) as Hta. { destruct (handle_tree s K j ky y H Hj) as (t1 & tr & A1 & A2 & _). assert (t1 = t') as -> by congruence. rewrite A2. eauto. }
  assert (before_loop s0 K1 x t0 t') as B.
  { split.
    - apply P.
    - intros z Hz. destruct (p_top _ _ _ P z Hz) as [->|?]; [by left|by right].
    - intros u tr Hu1. right. split; [by eapply S|]. by apply P.
    - done.
    - apply S. }
  assert (forall z, tree_of s0 z = tree_of s z) as Htree. { intros z. by apply relink_tree_of. }
  assert (mid s0 K1 x ro t0 t' s0 K1 [] [t']) as M0.
  { split.
    - done.
    - done.
    - done.
    - done.
    - intros z Hz. rewrite decide_False by apply not_elem_of_nil. apply (shape_nodes _ _ _ _ Hro) in Hz.
      rewrite <-(st_tree _ _ _ _ S). by apply (below_tree _ _ _ _ _ P).
    - done.
    - left. split; [done|]. split; [intros z; done|done].
    - apply S.
    - apply S.
    - destruct Hth' as [B1 B2]. split; [exact B1|]. intros z. unfold node_holder. rewrite Htree. apply B2.
    - done.
    - intros u Hu1 _. by apply (st_held _ _ _ _ S).
    - done.
    - done. }
  destruct (upto_subtree n s0 K1 x ro t0 t' B [] M0) as (s2 & K2 & E2 & _).
  eapply agrees_ret; [apply upto_memberships|exact E2].
Qed.

Lemma usp_subtree n f v s tp x t' : set_subtree_upto n (sp f v s) tp x t' = rosp f v (set_subtree_upto n s tp x t').
Proof.
  unfold set_subtree_upto. assert (dfs_fuel (s_nodes (sp f v s)) = dfs_fuel (s_nodes s)) as ->; [|apply usp_memberships].
  unfold dfs_fuel, walk_fuel, sp. simpl. by rewrite sp_size.
Qed.
Lemma sp_subtree f v s tp x t' : set_subtree_tree (sp f v s) tp x t' = rosp f v (set_subtree_tree s tp x t').
Proof.
  unfold set_subtree_tree. assert (dfs_fuel (s_nodes (sp f v s)) = dfs_fuel (s_nodes s)) as ->; [|apply sp_memberships].
  unfold dfs_fuel, walk_fuel, sp. simpl. by rewrite sp_size.
Qed.

Lemma upto_move_ok n s K i k x t0 j ky y t' ad p ks : inv s K -> s_hands s !! i = Some (HNode k x) -> tree_of s x = Some t0 -> thawed s (s_hands s) t0 ->
  s_hands s !! j = Some (HNode ky y) -> tree_of s y = Some t' -> thawed s (s_hands s) t' -> t0 <> t' ->
  K !! p = Some ks -> x ∈ ks -> move_other_upto (S n) s x (dest_of ad y) t' = move_to_another_tree s x (dest_of ad y) t'.
Proof.
  intros H Hi Ht Hth Hj Hty Hth' Hne Hp Hx. pose proof (i_s _ _ H) as Hs. pose proof (s_wf _ _ Hs) as Hw.
  unfold move_other_upto, move_to_another_tree.
  destruct (lnf_dec K p ks x Hw Hp Hx) as [(f & m & -> & _)|Hok].
  - destruct (unlink_cut _ K p f m x (s_rep _ _ Hs) Hw Hp) as (h1 & E & C). rewrite E. cbn [mbind run_bind].
    destruct (cut_rep _ K p f m x h1 (s_rep _ _ Hs) Hw Hp C) as (h' & Hr & M & ->).
    change (with_nodes s (set_prev h' f (Some x))) with (sp f (Some x) (with_nodes s h')).
    rewrite usp_subtree, sp_subtree.
    by rewrite (upto_carry n s K i k x t0 j ky y t' _ h' H Hi Ht Hth Hj Hty Hth' Hne (last_unlinked K p f m x Hw Hp) Hr M).
  - destruct (child_unlinked K p x) as [K1 Hu]. { by exists ks. }
    destruct (unlink_any (s_nodes s) K x K1 (s_rep _ _ Hs) Hw Hu) as (h' & E & Hr & Hw1 & Htop & M).
    { exact (not_lnf K p ks x Hw Hp Hx Hok). }
    rewrite E. cbn [mbind run_bind]. by rewrite (upto_carry n s K i k x t0 j ky y t' K1 h' H Hi Ht Hth Hj Hty Hth' Hne Hu Hr M).
Qed.

End DepthFacts6.
