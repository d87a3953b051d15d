(** * DepthFacts3: rehoming a subtree nests no destructors. *)
From Verif Require Import Heap Edit System SysSpec CardFacts HeapFacts SpecFacts NavFacts NavFacts2 EditFacts EditFacts2 EditFacts3 EditFacts4 EditFacts5 IterSpec RoseFacts AdjFacts TravFacts TdFacts TdFacts2 SysFacts SysFacts2 SysFacts3 SysFacts4 SysFacts5 SysFacts6 SysFacts7 SysFacts8 SysFacts9 SysFacts10 SysFacts11 SysFacts12 SysFacts13 SysFacts14 SysFacts15 Depth DepthFacts DepthFacts2 Spec.

Section DepthFacts3.
Context {T : Type} (n : nat).
Implicit Types (h : heap T) (s : sys T) (hm : gmap nat handle) (K : forest).

Lemma upto_tree_gen s K t tr pins tpins :
  rep (s_nodes s) K -> wf K -> hinv s (s_hands s) -> s_trees s !! t = Some tr -> is_top K (t_root tr) ->
  (forall y, below K (t_root tr) y -> tree_of s y = Some t) ->
  (forall t2 tr2, s_trees s !! t2 = Some tr2 -> below K (t_root tr) (t_root tr2) -> t2 = t) ->
  drop_tree_upto (S n) pins tpins s t = drop_tree_if_dead pins tpins s t.
Proof.
  intros Hr Hw H Htr Ht Hall Hroots. destruct (tree_referenced s tpins t) eqn:Href.
  { unfold drop_tree_upto, drop_tree_if_dead. by rewrite Htr, Href. }
  destruct (drop_tree_gen s K t tr pins tpins Hr Hw H Htr Ht Hall Hroots Href) as (_ & _ & _ & _ & Hweak).
  destruct (upto_tree_ok n s K (t_root tr) t tr pins tpins) as (h' & E & _); try done.
  { intros y Hy. destruct (Hweak y Hy) as [A B]. split_and!; [done|done|]. intros t2 tr2 Ht2 <-. by eapply Hroots. }
  eapply agrees_ret; [apply upto_drop_tree|exact E].
Qed.

Section Loop.
Variables (s0 : sys T) (K0 : forest) (x : nid) (ro : rose nid) (t0 t' : tid).
Notation before_loop := (before_loop s0 K0 x t0 t').
Notation mid := (mid s0 K0 x ro t0 t').
Hypothesis B : before_loop.

Lemma upto_mid_drop s K D E pins : mid s K D (t0 :: E) ->
  drop_tree_upto (S n) pins E s t0 = drop_tree_if_dead pins E s t0.
Proof.
  intros M. destruct (s_trees s !! t0) as [tr|] eqn:Etr.
  2:{ unfold drop_tree_upto, drop_tree_if_dead. by rewrite Etr. }
  (* the old tree is still intact *)
  destruct (m_kept _ _ _ _ _ _ _ _ _ _ M) as [(-> & A2 & A3)|(tr0 & L0 & _ & _ & _ & _ & _ & A6 & _)]; [|congruence].
  assert (exists tr0, s_trees s0 !! t0 = Some tr0 /\ t_root tr0 = t_root tr) as (tr0 & Etr0 & Er).
  { specialize (A3 t0). rewrite Etr in A3. destruct (s_trees s0 !! t0) as [q|]; [|done]. exists q. split; [done|]. by injection A3. }
  destruct (b_root _ _ _ _ _ B _ _ Etr0) as [[? _]|(Hrx & Hrt & Hrm)]; [by destruct (b_ne _ _ _ _ _ B)|]. rewrite Er in Hrx, Hrt, Hrm.
  set (r := t_root tr) in *.
  assert (forall y, below K0 r y -> y ∉ rose_nodes ro) as Hdisj.
  { intros y Hb Hy. apply (shape_nodes _ _ _ _ (m_shape _ _ _ _ _ _ _ _ _ _ M)) in Hy.
    destruct (below_common K0 r x y (m_wf _ _ _ _ _ _ _ _ _ _ M) Hb Hy) as [Hc|Hc].
    - apply Hrx. eapply below_top; [done|apply M].
    - apply Hrx. symmetry. by eapply below_top. }
  assert (forall y, is_Some (s_nodes s !! y) <-> is_Some (K0 !! y)) as Hdom by apply (m_rep _ _ _ _ _ _ _ _ _ _ M).
  assert (forall y, below K0 r y -> is_Some (K0 !! y)) as Hbal. { intros y Hb. eapply below_dom; [apply M| |done]. apply Hrt. }
  assert (forall y, below K0 r y -> tree_of s0 y = Some t0) as Hb0.
  { intros y Hb. rewrite <-Hrm. clear -Hb B. induction Hb as [|p c Hb IH Hc]; [done|]. by rewrite (b_child _ _ _ _ _ B _ _ Hc). }
  assert (forall y, below K0 r y -> tree_of s y = Some t0) as Hbt.
  { intros y Hb. rewrite (m_out _ _ _ _ _ _ _ _ _ _ M); [by apply Hb0|by apply Hdisj|]. by apply Hdom, Hbal. }
  assert (forall t2 tr2, s_trees s !! t2 = Some tr2 -> below K0 r (t_root tr2) -> t2 = t0) as Hother.
  { intros t2 tr2 H2 Hb. assert (exists q, s_trees s0 !! t2 = Some q /\ t_root q = t_root tr2) as (q & Eq1 & Eq2).
    { specialize (A3 t2). rewrite H2 in A3. destruct (s_trees s0 !! t2) as [q|]; [|done]. exists q. split; [done|]. by injection A3. }
    destruct (b_root _ _ _ _ _ B _ _ Eq1) as [[-> Ex]|(_ & Ht2 & Hm2)]; rewrite Eq2 in *.
    - rewrite Ex in Hb. exfalso. apply Hrx. eapply below_top; [done|apply M].
    - apply Hb0 in Hb. congruence. }
  exact (upto_tree_gen s K0 t0 tr pins E (m_rep _ _ _ _ _ _ _ _ _ _ M) (m_wf _ _ _ _ _ _ _ _ _ _ M) (m_hinv _ _ _ _ _ _ _ _ _ _ M) Etr Hrt Hbt Hother).
Qed.

Lemma upto_open s K D E pins y : mid s K D E -> t' ∈ E -> y ∈ rose_nodes ro -> y ∉ D -> (forall z, z ∈ pins -> z ∈ rose_nodes ro) ->
  exists s' K', set_tree_core_upto (S n) s pins E y t' = Ret (Some s') /\ mid s' K' (y :: D) E.
Proof.
  intros M HE Hy HyD Hpins. destruct (mid_open s0 K0 x ro t0 t' B s K D E pins y M HE Hy HyD Hpins) as (s' & K' & E1 & M').
  exists s', K'. split; [|exact M']. rewrite <-E1.
  pose proof (m_in _ _ _ _ _ _ _ _ _ _ M y Hy) as Ht. rewrite decide_False in Ht by done.
  unfold set_tree_core_upto, set_tree_core. destruct (n_memb s y) as [m|] eqn:Hm; [|done]. destruct m as [o|t rc lk]; [done|].
  assert (t = t0) as -> by (unfold tree_of in Ht; rewrite Hm in Ht; congruence).
  destruct (retree_strong s (s_hands s) y t0 t' rc lk (m_hinv _ _ _ _ _ _ _ _ _ _ M) Hm (b_ne _ _ _ _ _ B) (m_dest _ _ _ _ _ _ _ _ _ _ M) (m_thaw0 _ _ _ _ _ _ _ _ _ _ M) (m_thaw1 _ _ _ _ _ _ _ _ _ _ M))
      as (s1 & -> & Hh & R).
  pose proof (mid_retree s0 K0 x ro t0 t' _ _ _ _ _ _ M R Hh Hy HyD) as M1.
  by rewrite (upto_mid_drop _ _ _ _ pins M1).
Qed.

Lemma upto_mid_release s K D E pins y : mid s K D E -> y ∈ rose_nodes ro -> release_upto (S n) s pins y = Ret s.
Proof.
  intros M Hy. pose proof (mid_release s0 K0 x ro t0 t' B s K D E pins y M Hy) as E1. destruct (referenced s pins y) eqn:Er; [by apply upto_noop|].
  destruct (s_nodes s !! y) as [nd|] eqn:Ey; [|by apply upto_dead]. exfalso.
  unfold release_all, walk_fuel in E1. simpl in E1. rewrite Ey, Er in E1. destruct (n_mem nd) eqn:Em; [|discriminate E1].
  set (s1 := with_nodes s (delete y (s_nodes s))) in E1.
  assert (forall m (a b : sys T) c, release m pins a c = Ret b -> s_nodes a !! y = None -> s_nodes b !! y = None) as Hkeep.
  { clear. intros m; induction m as [|m IH]; intros a b c; simpl; (destruct (s_nodes a !! c) as [q|] eqn:Ec; [|by intros [= <-]]); (destruct (referenced a pins c); [by intros [= <-]|]); [done|].
    destruct (n_mem q); [|done]. set (a1 := with_nodes a _). intros E Ha.
    assert (s_nodes a1 !! y = None) as Ha1. { unfold a1. simpl. destruct (decide (y = c)) as [->|]; [apply lookup_delete|by rewrite lookup_delete_ne]. }
    destruct (match n_first q with Some c0 => release m pins a1 c0 | None => Ret a1 end) as [a2| |] eqn:E2; try discriminate E. cbn [mbind run_bind] in E.
    assert (s_nodes a2 !! y = None) as Ha2. { destruct (n_first q); [by eapply IH|by injection E2 as <-]. }
    destruct (n_next q); [by eapply IH|by injection E as <-]. }
  destruct (match n_first nd with Some c => release (size (s_nodes s)) pins s1 c | None => Ret s1 end) as [s2| |] eqn:E2; try discriminate E1. cbn [mbind run_bind] in E1.
  assert (s_nodes s1 !! y = None) as H1 by apply lookup_delete.
  assert (s_nodes s2 !! y = None) as H2. { destruct (n_first nd); [by eapply Hkeep|by injection E2 as <-]. }
  assert (s_nodes s !! y = None); [|congruence]. destruct (n_next nd); [by eapply Hkeep|by injection E1 as <-].
Qed.

Lemma upto_loop E : t' ∈ E -> forall rest pre e s K fuel, dfs_events ro = pre ++ e :: rest -> mid s K (opens pre) E -> length rest < fuel ->
  exists s' K', set_memberships_upto (S n) fuel s E (Some (e, x)) t' = Ret (Some s') /\ mid s' K' (rose_nodes ro) E.
Proof.
  intros HE. induction rest as [|b rest IH]; intros pre e s K fuel Hev M Hf; (destruct fuel as [|fuel]; [lia|]); simpl.
  - assert (e = Close x) as ->.
    { pose proof (last_events ro) as X. rewrite Hev in X. rewrite last_snoc in X. rewrite (shape_root _ _ _ (m_shape _ _ _ _ _ _ _ _ _ _ M)) in X. congruence. }
    rewrite decide_True by done. simpl. exists s, K. split; [done|]. eapply mid_ext; [exact M|]. intros y. rewrite elem_opens. split.
    + intros Hy. assert (Open y ∈ dfs_events ro) as X by (rewrite Hev; apply elem_of_app; by left). by apply dfs_events_elem in X.
    + intros Hy. assert (Open y ∈ dfs_events ro) as X by (by apply dfs_events_elem). rewrite Hev in X.
      apply elem_of_app in X as [X|X]; [done|]. apply elem_of_list_singleton in X. done.
  - pose proof (shape_events_nodup _ _ _ (m_wf _ _ _ _ _ _ _ _ _ _ M) (m_shape _ _ _ _ _ _ _ _ _ _ M)) as Hnd.
    pose proof (shape_adj _ _ _ _ (m_rep _ _ _ _ _ _ _ _ _ _ M) (m_wf _ _ _ _ _ _ _ _ _ _ M) (m_shape _ _ _ _ _ _ _ _ _ _ M)) as Hadj.
    rewrite Hev in Hnd, Hadj. rewrite adj_app in Hadj. destruct Hadj as (_ & Hadj & _). rewrite adj_cons in Hadj. destruct Hadj as [Hadj _].
    destruct (Hadj b eq_refl) as [Hnext _].
    assert (e <> Close x) as Hne.
    { intros ->. pose proof (last_events ro) as X. rewrite Hev in X. rewrite (shape_root _ _ _ (m_shape _ _ _ _ _ _ _ _ _ _ M)) in X.
      apply NoDup_app in Hnd as (_ & _ & Hnd). apply NoDup_cons in Hnd as [Hnd _]. apply Hnd.
      rewrite last_app in X. change (last (Close x :: b :: rest)) with (last (b :: rest)) in X.
      destruct (last (b :: rest)) as [z|] eqn:El; [|destruct rest; [done|simpl in El; by rewrite last_cons in El; destruct (last rest)]].
      injection X as ->. by apply elem_of_last in El. }
    rewrite decide_False by done. rewrite dft_next_g, Hnext. simpl.
    assert (ev_val e ∈ rose_nodes ro) as Hve. { apply dfs_events_elem. rewrite Hev. apply elem_of_app. right. by left. }
    assert (ev_val b ∈ rose_nodes ro) as Hvb. { apply dfs_events_elem. rewrite Hev. apply elem_of_app. right. right. by left. }
    assert (exists s1 K1, (match e with Open y => set_tree_core_upto (S n) s [y; ev_val b] E y t' | Close _ => Ret (Some s) end) = Ret (Some s1) /\ mid s1 K1 (opens (pre ++ [e])) E) as (s1 & K1 & Es1 & M1).
    { destruct e as [y|y].
      - destruct (upto_open s K (opens pre) E [y; ev_val b] y M HE) as (s1 & K1 & E1 & M1).
        + exact Hve.
        + rewrite elem_opens. intros Hy. apply NoDup_app in Hnd as (_ & Hnd & _). apply (Hnd _ Hy). by left.
        + intros z [->|[->|Hz]%elem_of_cons]%elem_of_cons; [exact Hve|exact Hvb|by apply elem_of_nil in Hz].
        + exists s1, K1. split; [done|]. eapply mid_ext; [exact M1|]. intros z. rewrite elem_of_cons, !elem_opens, elem_of_app, elem_of_list_singleton.
          split; [intros [->|?]; auto|intros [?|[= ->]]; auto].
      - exists s, K. split; [done|]. eapply mid_ext; [exact M|]. intros z. rewrite !elem_opens, elem_of_app, elem_of_list_singleton.
        split; [auto|intros [?|?]; done]. }
    assert ((match e with Open y => set_tree_core_upto (S n) s (y :: [ev_val b]) E y t' | Close _ => Ret (Some s) end) = Ret (Some s1)) as -> by exact Es1.
    simpl. rewrite (upto_mid_release s1 K1 _ E [ev_val b] (ev_val e) M1 Hve). simpl.
    eapply (IH (pre ++ [e])); [by rewrite Hev, <-app_assoc|exact M1|simpl in Hf; lia].
Qed.

Lemma upto_subtree tp : mid s0 K0 [] (t' :: tp) ->
  exists s' K', set_subtree_upto (S n) s0 tp x t' = Ret (Some s') /\ mid s' K' (rose_nodes ro) (t' :: tp).
Proof.
  intros M. pose proof (head_events ro) as Hh. rewrite (shape_root _ _ _ (m_shape _ _ _ _ _ _ _ _ _ _ M)) in Hh.
  destruct (dfs_events ro) as [|e rest] eqn:Eev; [done|]. injection Hh as ->.
  unfold set_subtree_upto. eapply (upto_loop (t' :: tp) (elem_of_list_here _ _) rest []); [done|exact M|].
  pose proof (dfs_events_length ro) as Hl. rewrite Eev in Hl. simpl in Hl.
  pose proof (nodes_length_le _ _ _ _ (m_rep _ _ _ _ _ _ _ _ _ _ M) (m_wf _ _ _ _ _ _ _ _ _ _ M) (m_shape _ _ _ _ _ _ _ _ _ _ M)). unfold dfs_fuel. lia.
Qed.

End Loop.
End DepthFacts3.
