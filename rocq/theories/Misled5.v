(** * Misled5: moving the last of several siblings. *)
From Verif Require Import Heap Edit System SysSpec CardFacts HeapFacts SpecFacts NavFacts NavFacts2 EditFacts EditFacts2 EditFacts3 EditFacts4 EditFacts5 IterSpec RoseFacts AdjFacts TravFacts TdFacts TdFacts2 SysFacts SysFacts2 SysFacts3 SysFacts4 SysFacts5 SysFacts6 SysFacts7 SysFacts8 SysFacts9 SysFacts10 SysFacts11 SysFacts12 SysFacts13 SysFacts14 SysFacts15 Misled Misled2 Misled3 Misled4 Spec.

Section Misled5.
Context {T : Type}.
Implicit Types (h : heap T) (s g : sys T) (K : forest).

Lemma move_other_last s K i k x t0 j ky y t' ad p f m : inv s K -> s_hands s !! i = Some (HNode k x) -> tree_of s x = Some t0 -> thawed s (s_hands s) t0 ->
  s_hands s !! j = Some (HNode ky y) -> tree_of s y = Some t' -> thawed s (s_hands s) t' -> t0 <> t' ->
  K !! p = Some (f :: m ++ [x]) -> adoptable K ad y ->
  exists g K2 K3, move_to_another_tree s x (dest_of ad y) t' = Ret (sp f (Some x) g, HOk tt) /\ carried s (<[p := f :: m]> K) x t0 t' g K2 /\
    attached K2 x (dest_of ad y) K3 /\ inv g K3.
Proof.
  intros H Hi Ht Hth Hj Hty Hth' Hne Hp Had. pose proof (i_s _ _ H) as Hs. pose proof (s_wf _ _ Hs) as Hw.
  destruct (unlink_cut _ K p f m x (s_rep _ _ Hs) Hw Hp) as (h1 & E & C).
  destruct (cut_rep _ K p f m x h1 (s_rep _ _ Hs) Hw Hp C) as (h' & Hr & M & ->).
  pose proof (last_unlinked K p f m x Hw Hp) as Hu.
  assert (child_of K p f) as Hpf. { exists (f :: m ++ [x]). split; [done|left]. }
  assert (child_of K p x) as Hpx. { exists (f :: m ++ [x]). split; [done|set_solver]. }
  assert (x <> f) as Hxf.
  { intros <-. pose proof (wf_nodup _ Hw _ _ Hp) as Hnd. apply NoDup_cons in Hnd as [Hnd _]. apply Hnd. set_solver. }
  destruct (move_other_core s K i k x t0 j ky y t' ad _ h' H Hi Ht Hth Hj Hty Hth' Hne Hu Hr M Had)
    as (s2 & K2 & K3 & h3 & E2 & E3 & Ca & A & I & R2 & W2 & T2 & D2 & O2).
  exists (with_nodes s2 h3), K2, K3. split; [|done].
  unfold move_to_another_tree. rewrite E. cbn [mbind run_bind].
  change (with_nodes s (set_prev h' f (Some x))) with (sp f (Some x) (with_nodes s h')).
  unfold set_subtree_tree, dfs_fuel in *. change (s_nodes (sp f (Some x) (with_nodes s h'))) with (set_prev h' f (Some x)). rewrite sp_size.
  rewrite sp_memberships. change (s_nodes (with_nodes s h')) with h' in E2. rewrite E2. unfold rosp. cbn [mbind run_bind option_map].
  change (s_nodes (sp f (Some x) s2)) with (set_prev (s_nodes s2) f (Some x)).
  destruct (attached_perm _ _ _ _ W2 A) as (pd & ks & ks' & Hpd & Hks & HK3 & _).
  rewrite (misled_insert (s_nodes s2) K2 x (dest_of ad y) K3 pd ks ks' f (Some x) R2 W2 T2 A Hpd Hks).
  - rewrite E3. unfold hsp. cbn [mbind run_bind]. done.
  - rewrite HK3. by rewrite lookup_insert.
  - done.
  - left. intros Hin. assert (child_of K2 pd f) as Hcf by (by exists ks).
    assert (tree_of s2 f = Some t') as F1 by (by eapply D2).
    assert (tree_of s2 f = tree_of s f) as F2.
    { apply O2; [|by eapply wf_dom]. intros Hb. destruct (unlinked_child K x _ Hw Hu) as (Hch & _ & _).
      assert (below K x f) as Hb'. { clear -Hb Hch. induction Hb as [|q c Hb IH Hc]; [constructor|]. econstructor; [exact IH|]. by apply Hch. }
      assert (p = x \/ below K x p) as Hb2.
      { inversion Hb' as [e|q c Hq Hc e]; [by subst|]. right. assert (q = p) as -> by exact (wf_uniq _ Hw q p f Hc Hpf). done. }
      assert (below K x p) as Hb3. { destruct Hb2 as [->|?]; [constructor|done]. }
      by eapply (no_cycle K p x). }
    assert (tree_of s f = Some t0) as F3. { rewrite (s_child _ _ Hs _ _ Hpf), <-(s_child _ _ Hs _ _ Hpx). done. }
    congruence.
Qed.

Lemma attached_head K n dest K' pd f m ks2 : wf K -> attached K n dest K' -> dest_parent K dest pd ->
  K !! pd = Some (f :: m) -> K' !! pd = Some ks2 -> head ks2 = Some f \/ head ks2 = Some n.
Proof.
  intros Hw Ha Hpd Hks Hks2. inversion Ha as [q l Hq|q l Hq|s1 q l Hq Hs1|s1 q l Hq Hs1]; subst; simpl in *; subst.
  - rewrite lookup_insert in Hks2. injection Hks2 as <-. by right.
  - rewrite lookup_insert in Hks2. injection Hks2 as <-. assert (l = f :: m) as -> by congruence. by left.
  - assert (pd = q) as -> by (eapply wf_uniq; [exact Hw|exact Hpd|by exists l]). assert (l = f :: m) as -> by congruence.
    rewrite lookup_insert in Hks2. injection Hks2 as <-. simpl. destruct (decide (f = s1)); [by right|by left].
  - assert (pd = q) as -> by (eapply wf_uniq; [exact Hw|exact Hpd|by exists l]). assert (l = f :: m) as -> by congruence.
    rewrite lookup_insert in Hks2. injection Hks2 as <-. simpl. destruct (decide (f = s1)); by left.
Qed.

(** The misleading link is that of the new first child of the old parent. *)
Lemma move_same_last s K x dest K' p f m ks' : inv s K -> K !! p = Some (f :: m ++ [x]) -> moved K x dest K' -> ~ below K x (dest_anchor dest) ->
  tree_of s (dest_anchor dest) = tree_of s x -> K' !! p = Some ks' -> last ks' <> Some x ->
  exists h' f', head ks' = Some f' /\ move_inside_same_tree (s_nodes s) x dest = Ret (set_prev h' f' (Some x), HOk tt) /\ reshaped s (with_nodes s h') K'.
Proof.
  intros H Hp Hm Hb Ht Hks' Hl. pose proof (i_s _ _ H) as Hs. pose proof (s_wf _ _ Hs) as Hw.
  destruct (unlink_cut _ K p f m x (s_rep _ _ Hs) Hw Hp) as (h1 & E & C).
  destruct (cut_rep _ K p f m x h1 (s_rep _ _ Hs) Hw Hp C) as (h0 & Hr & M & ->).
  pose proof (last_unlinked K p f m x Hw Hp) as Hu. destruct (unlinked_wf _ _ _ Hw Hu) as [Hw1 Htop].
  assert (child_of K p x) as Hpx. { exists (f :: m ++ [x]). split; [done|set_solver]. }
  assert (x <> f) as Hxf.
  { intros <-. pose proof (wf_nodup _ Hw _ _ Hp) as Hnd. apply NoDup_cons in Hnd as [Hnd _]. apply Hnd. set_solver. }
  assert (attached (<[p := f :: m]> K) x dest K') as Ha.
  { destruct Hm as (K1 & Hu1 & Ha). assert (K1 = <[p := f :: m]> K) as ->; [|done].
    destruct Hu as (q & ks & Hq & Hin & ->). destruct Hu1 as (q1 & ks1 & Hq1 & Hin1 & ->).
    assert (q1 = q) as -> by (eapply wf_uniq; [exact Hw|by exists ks1|by exists ks]). congruence. }
  set (K1 := <[p := f :: m]> K) in *.
  destruct (attached_perm _ _ _ _ Hw1 Ha) as (pd & ks & ks2 & Hpd & Hks & HK3 & _).
  destruct (insert_orphan_ok h0 K1 x dest K' pd true Hr Hw1 Htop Ha Hpd) as (h' & E' & Hr' & Hw' & M').
  { intros Hb1. apply Hb. eapply below_unlinked; [exact Hw|exact Hu|]. destruct dest; simpl in *; subst; try done; eapply below_step; eauto. }
  assert (reshaped s (with_nodes s h') K') as R. { eapply moved_reshaped; try done. by eapply same_meta_trans. }
  assert (is_root (s_nodes s) x = false) as Hroot by (by eapply is_root_child; [apply Hs|]).
  assert (K' !! pd = Some ks2) as HKpd by (rewrite HK3; by rewrite lookup_insert).
  unfold move_inside_same_tree. rewrite Hroot, E. cbn [mbind run_bind].
  destruct (decide (pd = p)) as [->|Hpp].
  - assert (ks = f :: m) as ->. { unfold K1 in Hks. rewrite lookup_insert in Hks. by injection Hks. }
    assert (ks' = ks2) as -> by congruence.
    assert (head ks2 = Some f \/ head ks2 = Some x) as [Hh|Hh].
    { exact (attached_head K1 x dest K' p f m ks2 Hw1 Ha Hpd Hks HKpd). }
    + exists h', f. split; [done|]. split; [|done]. rewrite (misled_insert h0 K1 x dest K' p (f :: m) ks2 f (Some x)); try done; [|by right].
      rewrite E'. done.
    + exists h', x. split; [done|]. split; [|done]. rewrite (misled_insert_first h0 K1 x dest K' p (f :: m) ks2 f); try done. by rewrite E'.
  - assert (ks' = f :: m) as ->. { rewrite HK3, lookup_insert_ne in Hks' by done. unfold K1 in Hks'. rewrite lookup_insert in Hks'. by injection Hks'. }
    exists h', f. split; [done|]. split; [|done].
    rewrite (misled_insert h0 K1 x dest K' pd ks ks2 f (Some x)); try done; [by rewrite E'|]. left. intros Hin.
    apply Hpp. eapply (wf_uniq K1 Hw1 pd p f); [by exists ks|]. exists (f :: m). split; [unfold K1; by rewrite lookup_insert|left].
Qed.

(** ** When the rest of the old tree disappears, so does the misleading link *)

Lemma sp_dead f v g : s_nodes g !! f = None -> sp f v g = g.
Proof.
  intros Hf. destruct g as [h tr hd fr]. unfold sp, with_nodes, set_prev. simpl in *. f_equal. apply map_eq. intros y.
  destruct (decide (y = f)) as [->|]; [by rewrite lookup_alter, Hf|by rewrite lookup_alter_ne].
Qed.

Lemma carried_gone s K x K1 t0 t' g K2 K3 f : inv s K -> unlinked K x K1 -> carried s K1 x t0 t' g K2 -> inv g K3 -> t' <> t0 ->
  s_trees g !! t0 = None -> tree_of s f = Some t0 -> ~ below K x f -> s_nodes g !! f = None.
Proof.
  intros H Hu C I Hne Hd Hf Hb. destruct (s_nodes g !! f) as [nd|] eqn:E; [exfalso|done].
  assert (is_Some (s_nodes g !! f)) as Ha by eauto. destruct (sinv_tree _ _ _ (i_s _ _ I) Ha) as (t & tr & A & B & _).
  assert (tree_of g f = tree_of s f) as F. { apply (ca_out _ _ _ _ _ _ _ C); [|done]. intros Hb1. apply Hb. eapply below_unlinked; [apply (i_s _ _ H)|exact Hu|exact Hb1]. }
  congruence.
Qed.

Lemma carried_alone s K x K1 t0 t' g K2 K3 : inv s K -> unlinked K x K1 -> carried s K1 x t0 t' g K2 -> inv g K3 -> t' <> t0 ->
  (forall i, s_hands s !! i <> Some (HTree t0)) -> (forall i k y, s_hands s !! i = Some (HNode k y) -> tree_of s y = Some t0 -> below K1 x y) ->
  s_trees g !! t0 = None.
Proof.
  intros H Hu C I Hne A1 A2. destruct (s_trees g !! t0) as [tr|] eqn:E; [exfalso|done].
  destruct (i_held _ _ I t0 ltac:(eauto)) as [[i Hi]|(i & k & y & Hi & Hy)].
  - rewrite (ca_hands _ _ _ _ _ _ _ C) in Hi. by apply (A1 i).
  - assert (is_Some (s_nodes g !! y)) as Ha by (by eapply handle_alive).
    rewrite (ca_hands _ _ _ _ _ _ _ C) in Hi.
    assert (~ below K1 x y) as Hb. { intros Hb. rewrite (ca_in _ _ _ _ _ _ _ C y Hb) in Hy. congruence. }
    apply Hb. eapply A2; [exact Hi|]. by rewrite <-(ca_out _ _ _ _ _ _ _ C y Hb Ha).
Qed.

End Misled5.
