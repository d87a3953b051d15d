(** * Misled: freeing and rehoming nodes never read a previous-sibling link.

    [sp f v s]: the state [s] with the previous-sibling link of the node [f]
    overwritten by [v].  Everything [detach] does after the unlinking commutes with
    that overwriting. *)
From Verif Require Import Heap Edit Traverse System SysSpec SysFacts SysFacts3 TdFacts EditFacts Spec.

Section Misled.
Context {T : Type}.
Implicit Types (s : sys T) (h : heap T).
Variables (f : nid) (v : option nid).

Definition sp s : sys T := with_nodes s (set_prev (s_nodes s) f v).

Definition up (nd : node T) : node T :=
  mkNode (n_data nd) (n_lend nd) (n_parent nd) (n_first nd) (n_next nd) v (n_nch nd) (n_mem nd).

Lemma sp_look h y : set_prev h f v !! y = (fun nd => if decide (y = f) then up nd else nd) <$> h !! y.
Proof.
  unfold set_prev. destruct (decide (y = f)) as [->|Hn].
  - rewrite lookup_alter. done.
  - rewrite lookup_alter_ne by done. by destruct (h !! y).
Qed.

Ltac lk := intros; rewrite ?sp_look; match goal with |- context [?h !! ?y] => destruct (h !! y); simpl; try done; destruct (decide _); done end.

Lemma sp_alive h y : alive (set_prev h f v) y = alive h y.
Proof. unfold alive. rewrite sp_look. by destruct (h !! y). Qed.
Lemma sp_first h y : ffirst (set_prev h f v) y = ffirst h y.
Proof. unfold ffirst. rewrite sp_look. destruct (h !! y); simpl; [by destruct (decide _)|done]. Qed.
Lemma sp_next h y : fnext (set_prev h f v) y = fnext h y.
Proof. unfold fnext. rewrite sp_look. destruct (h !! y); simpl; [by destruct (decide _)|done]. Qed.
Lemma sp_parent h y : fparent (set_prev h f v) y = fparent h y.
Proof. unfold fparent. rewrite sp_look. destruct (h !! y); simpl; [by destruct (decide _)|done]. Qed.
Lemma sp_parent_link h y : parent_link (set_prev h f v) y = parent_link h y.
Proof. unfold parent_link. rewrite sp_parent. unfold upgrade. destruct (fparent h y); [|done]. by rewrite sp_alive. Qed.
Lemma sp_dft h e : dft_next (set_prev h f v) e = dft_next h e.
Proof. unfold dft_next, first_child_link, next_sibling_link. destruct e; rewrite ?sp_first, ?sp_next, ?sp_parent_link; done. Qed.
Lemma sp_size h : size (set_prev h f v) = size h.
Proof.
  rewrite <- !size_dom. f_equal. apply set_eq. intros y. rewrite !elem_of_dom, sp_look. by rewrite fmap_is_Some.
Qed.
Lemma sp_mem s y : n_memb (sp s) y = n_memb s y.
Proof. unfold n_memb, sp. simpl. rewrite sp_look. destruct (s_nodes s !! y); simpl; [by destruct (decide _)|done]. Qed.

Lemma sp_delete h x : delete x (set_prev h f v) = set_prev (delete x h) f v.
Proof.
  unfold set_prev. apply map_eq. intros y. destruct (decide (y = x)) as [->|Hn].
  - rewrite lookup_delete. destruct (decide (x = f)) as [->|]; [by rewrite lookup_alter, lookup_delete|].
    by rewrite lookup_alter_ne, lookup_delete.
  - rewrite lookup_delete_ne by done. destruct (decide (y = f)) as [->|]; [by rewrite !lookup_alter, lookup_delete_ne|].
    by rewrite !lookup_alter_ne, lookup_delete_ne.
Qed.
Lemma alter_swap (g1 g2 : node T -> node T) a b h : (forall nd, g1 (g2 nd) = g2 (g1 nd)) ->
  alter g1 a (alter g2 b h) = alter g2 b (alter g1 a h).
Proof.
  intros Hg. destruct (decide (a = b)) as [->|Hn]; [|by rewrite alter_commute].
  rewrite <- !alter_compose. apply alter_ext. intros nd _. apply Hg.
Qed.
Lemma sp_set_next h x w : set_next (set_prev h f v) x w = set_prev (set_next h x w) f v.
Proof. unfold set_next, set_prev. by apply alter_swap. Qed.
Lemma sp_set_first h x w : set_first (set_prev h f v) x w = set_prev (set_first h x w) f v.
Proof. unfold set_first, set_prev. by apply alter_swap. Qed.
Lemma sp_set_mem h x m : set_mem (set_prev h f v) x m = set_prev (set_mem h x m) f v.
Proof. unfold set_mem, set_prev. by apply alter_swap. Qed.

Lemma bool_iff (a b : bool) : (a = true <-> b = true) -> a = b.
Proof. destruct a, b; intros [H1 H2]; try done; [by rewrite H1|by rewrite H2]. Qed.

Lemma sp_referenced s pins x : referenced (sp s) pins x = referenced s pins x.
Proof.
  apply bool_iff. rewrite !referenced_true. unfold sp. simpl. split.
  - intros [H|[H|[[y H]|H]]]; [by left|by right; left| |by right; right; right].
    rewrite sp_first, sp_next in H. right; right; left. by exists y.
  - intros [H|[H|[[y H]|H]]]; [by left|by right; left| |by right; right; right].
    right; right; left. exists y. by rewrite sp_first, sp_next.
Qed.
Lemma sp_tree_referenced s tpins t : tree_referenced (sp s) tpins t = tree_referenced s tpins t.
Proof.
  apply bool_iff. rewrite !tree_referenced_iff. split; (intros [H|[H|(x & rc & lk & H)]]; [by left|by right; left|]);
  right; right; exists x, rc, lk; by rewrite sp_mem in *.
Qed.

Definition rsp (r : run (sys T)) : run (sys T) := s ← r; Ret (sp s).

Lemma rsp_bind (r : run (sys T)) (k k' : sys T -> run (sys T)) : (forall s, k (sp s) = rsp (k' s)) ->
  mbind k (rsp r) = rsp (mbind k' r).
Proof. intros Hk. unfold rsp. destruct r as [s| |]; cbn [mbind run_bind]; [apply Hk|done|done]. Qed.

Lemma sp_release n pins : forall s x, release n pins (sp s) x = rsp (release n pins s x).
Proof.
  induction n as [|n IH]; intros s x.
  - simpl. rewrite sp_look. destruct (s_nodes s !! x) as [nd|] eqn:E; simpl; [|done]. rewrite sp_referenced.
    by destruct (referenced s pins x).
  - simpl. rewrite sp_look. destruct (s_nodes s !! x) as [nd|] eqn:E; simpl; [|done]. rewrite sp_referenced.
    destruct (referenced s pins x); [done|].
    assert (n_mem (if decide (x = f) then up nd else nd) = n_mem nd) as -> by (by destruct (decide _)).
    assert (n_first (if decide (x = f) then up nd else nd) = n_first nd) as -> by (by destruct (decide _)).
    assert (n_next (if decide (x = f) then up nd else nd) = n_next nd) as -> by (by destruct (decide _)).
    destruct (n_mem nd); [|done].
    assert (with_nodes (sp s) (delete x (set_prev (s_nodes s) f v)) = sp (with_nodes s (delete x (s_nodes s)))) as ->.
    { unfold sp, with_nodes. simpl. by rewrite sp_delete. }
    assert (forall s1, match n_next nd with Some c => release n pins (sp s1) c | None => Ret (sp s1) end =
      rsp (match n_next nd with Some c => release n pins s1 c | None => Ret s1 end)) as Hn.
    { intros s1. destruct (n_next nd); [apply IH|done]. }
    destruct (n_first nd) as [c|].
    + rewrite IH. apply rsp_bind. exact Hn.
    + cbn [mbind run_bind]. apply Hn.
Qed.
Lemma sp_release_all s pins x : release_all (sp s) pins x = rsp (release_all s pins x).
Proof. unfold release_all, walk_fuel. unfold sp at 1. simpl s_nodes. rewrite sp_size. apply sp_release. Qed.

Lemma sp_teardown n pins : forall s e, teardown n pins (sp s) e = rsp (teardown n pins s e).
Proof.
  induction n as [|n IH]; intros s e; [by destruct e|].
  destruct e as [e|]; [|done]. cbn [teardown]. change (s_nodes (sp s)) with (set_prev (s_nodes s) f v). rewrite sp_dft.
  destruct e as [w|w]; [apply IH|].
  assert (forall hh, with_nodes (sp s) (set_prev hh f v) = sp (with_nodes s hh)) as Hw by done.
  assert (forall s1, (s2 ← release_all (sp s1) (ev_pin (dft_next (s_nodes s) (Close w)) ++ pins) w; teardown n pins s2 (dft_next (s_nodes s) (Close w))) =
    rsp (s2 ← release_all s1 (ev_pin (dft_next (s_nodes s) (Close w)) ++ pins) w; teardown n pins s2 (dft_next (s_nodes s) (Close w)))) as Hk.
  { intros s1. rewrite sp_release_all. apply rsp_bind. intros s2. apply IH. }
  rewrite sp_parent_link. destruct (parent_link (s_nodes s) w) as [p|].
  - cbv zeta. rewrite sp_set_next, sp_first, sp_next, sp_set_first, Hw.
    destruct (ffirst _ p) as [o|].
    + rewrite sp_release_all. apply rsp_bind. exact Hk.
    + cbn [mbind run_bind]. apply Hk.
  - cbn [mbind run_bind]. apply Hk.
Qed.

Lemma sp_drop_tree pins tpins s t : drop_tree_if_dead pins tpins (sp s) t = rsp (drop_tree_if_dead pins tpins s t).
Proof.
  unfold drop_tree_if_dead. change (s_trees (sp s)) with (s_trees s). destruct (s_trees s !! t) as [tr|]; [|done].
  rewrite sp_tree_referenced. destruct (tree_referenced s tpins t); [done|].
  unfold dfs_fuel. change (s_nodes (sp s)) with (set_prev (s_nodes s) f v). rewrite sp_size.
  rewrite sp_teardown. apply rsp_bind. intros s1. change (s_trees (sp s1)) with (s_trees s1).
  change (with_trees (sp s1) (delete t (s_trees s1))) with (sp (with_trees s1 (delete t (s_trees s1)))).
  apply sp_release_all.
Qed.

Definition rosp (r : run (option (sys T))) : run (option (sys T)) := o ← r; Ret (option_map sp o).

Lemma sp_put_mem s x m : put_mem (sp s) x m = sp (put_mem s x m).
Proof. unfold put_mem, sp, with_nodes. simpl. by rewrite sp_set_mem. Qed.

Lemma sp_transfer s t t' : transfer_lock (sp s) t t' = option_map sp (transfer_lock s t t').
Proof.
  assert (forall k u, lock_tree (sp s) k u = option_map sp (lock_tree s k u)) as Hl.
  { intros k u. unfold lock_tree. change (s_trees (sp s)) with (s_trees s). destruct (s_trees s !! u) as [tr|]; [|done].
    destruct k; [done| |]; destruct (_ <? _)%Z; done. }
  unfold transfer_lock. change (s_trees (sp s)) with (s_trees s). destruct (s_trees s !! t) as [tr|]; [|done].
  destruct (t_cnt tr); [done| |]; rewrite Hl; destruct (lock_tree s _ t') as [s1|]; simpl; try done; by destruct (s_trees s1 !! t).
Qed.

Lemma sp_set_tree_core s pins tpins x t' : set_tree_core (sp s) pins tpins x t' = rosp (set_tree_core s pins tpins x t').
Proof.
  unfold set_tree_core. rewrite sp_mem. destruct (n_memb s x) as [[o|t rc lk]|]; [by rewrite sp_put_mem| |done].
  assert ((if Nat.eqb lk 0 then Some (sp s) else transfer_lock (sp s) t t') =
    option_map sp (if Nat.eqb lk 0 then Some s else transfer_lock s t t')) as -> by (destruct (Nat.eqb lk 0); [done|apply sp_transfer]).
  destruct (if Nat.eqb lk 0 then Some s else transfer_lock s t t') as [s1|]; [|done]. cbn [option_map].
  rewrite sp_put_mem, sp_drop_tree. unfold rsp, rosp. destruct (drop_tree_if_dead _ _ _ _); done.
Qed.

Lemma sp_dfs s st : link_dfs_next (s_nodes (sp s)) st = link_dfs_next (s_nodes s) st.
Proof. unfold link_dfs_next. destruct st as [[e x]|]; [|done]. simpl s_nodes. by rewrite sp_dft. Qed.

Lemma sp_memberships n tpins t' : forall s st, set_memberships n (sp s) tpins st t' = rosp (set_memberships n s tpins st t').
Proof.
  induction n as [|n IH]; intros s st.
  - cbn [set_memberships]. rewrite sp_dfs. destruct (link_dfs_next (s_nodes s) st) as [[ev st']| |]; [|done|done].
    cbn [mbind run_bind]. by destruct ev.
  - cbn [set_memberships]. rewrite sp_dfs. destruct (link_dfs_next (s_nodes s) st) as [[ev st']| |]; [|done|done].
    cbn [mbind run_bind]. destruct ev as [e|]; [|done].
    assert (match e with Open y => set_tree_core (sp s) (y :: ev_pin (option_map fst st')) tpins y t' | Close _ => Ret (Some (sp s)) end =
      rosp (match e with Open y => set_tree_core s (y :: ev_pin (option_map fst st')) tpins y t' | Close _ => Ret (Some s) end)) as ->.
    { destruct e; [apply sp_set_tree_core|done]. }
    destruct (match e with Open y => set_tree_core s (y :: ev_pin (option_map fst st')) tpins y t' | Close _ => Ret (Some s) end)
      as [[s1|]| |]; [|done|done|done].
    unfold rosp at 1. cbn [mbind run_bind]. cbn [option_map]. rewrite sp_release_all. unfold rsp.
    destruct (release_all s1 _ _) as [s2| |]; cbn [mbind run_bind]; [apply IH|done|done].
Qed.

Lemma sp_create_new_tree s tpins x : create_new_tree (sp s) tpins x = rsp (create_new_tree s tpins x).
Proof.
  unfold create_new_tree. cbv zeta. change (s_fresh (sp s)) with (s_fresh s). change (s_trees (sp s)) with (s_trees s).
  set (s1 := with_fresh (with_trees s (<[s_fresh s := mkTree x 0]> (s_trees s))) (S (s_fresh s))).
  change (with_fresh (with_trees (sp s) (<[s_fresh s := mkTree x 0]> (s_trees s))) (S (s_fresh s))) with (sp s1).
  unfold set_subtree_tree, dfs_fuel. change (s_nodes (sp s1)) with (set_prev (s_nodes s1) f v). rewrite sp_size.
  rewrite sp_memberships. unfold rosp, rsp. destruct (set_memberships _ _ _ _ _) as [[s2|]| |]; done.
Qed.

End Misled.
