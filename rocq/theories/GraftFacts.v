(** * GraftFacts: giving a whole tree to another one. *)
From Verif Require Import Heap Edit System SysSpec CardFacts HeapFacts SpecFacts NavFacts NavFacts2 EditFacts EditFacts2 EditFacts3 EditFacts4 EditFacts5 IterSpec RoseFacts AdjFacts TravFacts TdFacts TdFacts2 SysFacts SysFacts2 SysFacts3 SysFacts4 SysFacts5 SysFacts6 SysFacts7 SysFacts8 SysFacts9 SysFacts10 SysFacts11 SysFacts12 SysFacts13 SysFacts14 SysFacts15 ApiSpec Spec.

Section Graft.
Context {T : Type}.
Implicit Types (h : heap T) (s : sys T) (hm : gmap nat handle) (K : forest).

Section Quiet.
Variables (s0 : sys T) (K : forest) (x : nid) (ro : rose nid) (t0 t' : tid).
Hypothesis (Hrep : rep (s_nodes s0) K) (Hwf : wf K) (Htop : is_top K x) (Hsh : shape K x ro) (Hne : t0 <> t').
Hypothesis (Hhand : exists i k, s_hands s0 !! i = Some (HNode k x)).

(** The nodes of [D] have changed trees; nothing was deallocated. *)
Record gm s (D : list nid) : Prop := {
  g_mem : memonly (s_nodes s0) (s_nodes s);
  g_root : forall u : tid, t_root <$> s_trees s !! u = t_root <$> s_trees s0 !! u;
  g_in : forall y, y ∈ rose_nodes ro -> tree_of s y = Some (if decide (y ∈ D) then t' else t0);
  g_out : forall y, y ∉ rose_nodes ro -> n_memb s y = n_memb s0 y;
  g_hinv : hinv s (s_hands s);
  g_thaw0 : thawed s (s_hands s) t0;
  g_thaw1 : thawed s (s_hands s) t';
  g_dest : is_Some (s_trees s !! t');
  g_hands : s_hands s = s_hands s0;
  g_fresh : s_fresh s = s_fresh s0;
}.

Lemma gm_retree s s' D y : gm s D -> retreed s s' y t' -> hinv s' (s_hands s) -> y ∈ rose_nodes ro -> y ∉ D -> gm s' (y :: D).
Proof.
  intros M R H Hy HyD. pose proof (g_in _ _ M y Hy) as Ht. rewrite decide_False in Ht by done. split.
  - intros z. rewrite (rt_mem _ _ _ _ R z). apply (g_mem _ _ M z).
  - intros u. rewrite (rt_root _ _ _ _ R). apply M.
  - intros z Hz. destruct (decide (z = y)) as [->|Hzy].
    + rewrite decide_True by (by left). apply R.
    + rewrite (rt_tree _ _ _ _ _ R Hzy), (g_in _ _ M z Hz).
      destruct (decide (z ∈ D)); [rewrite decide_True by (by right); done|rewrite decide_False; [done|]]. intros [?|?]%elem_of_cons; done.
  - intros z Hz. assert (z <> y) as Hzy by (by intros ->). rewrite (rt_other _ _ _ _ R z Hzy). by apply M.
  - rewrite (rt_hands _ _ _ _ R). exact H.
  - rewrite (rt_hands _ _ _ _ R). eapply retree_thawed; [done|done|apply M|apply M].
  - rewrite (rt_hands _ _ _ _ R). eapply retree_thawed; [done|done|apply M|apply M].
  - apply (root_trees_alive s s'); [apply R|apply M].
  - rewrite (rt_hands _ _ _ _ R). apply M.
  - rewrite (rt_fresh _ _ _ _ R). apply M.
Qed.

Lemma gm_ext s D D' : gm s D -> (forall y, y ∈ D <-> y ∈ D') -> gm s D'.
Proof.
  intros [M1 M2 M3 M4 M5 M6 M7 M8 M9 M10] H. split; try assumption.
  intros y Hy. rewrite (M3 y Hy). destruct (decide (y ∈ D)) as [Hd|Hd], (decide (y ∈ D')) as [Hd'|Hd']; try done; exfalso; [apply Hd'|apply Hd]; by apply H.
Qed.

(** The first half of giving [y] the tree [t']; what is left is to drop the reference to [t0]. *)
Lemma gm_put s D y : gm s D -> y ∈ rose_nodes ro -> y ∉ D -> exists s1, gm s1 (y :: D) /\
  forall pins E, set_tree_core s pins E y t' =
    match n_memb s y with
    | Some (MStrong _ _ _) => s2 ← drop_tree_if_dead pins E s1 t0; Ret (Some s2)
    | _ => Ret (Some s1)
    end.
Proof.
  intros M Hy HyD. pose proof (g_in _ _ M y Hy) as Ht. rewrite decide_False in Ht by done.
  unfold set_tree_core. assert (exists m, n_memb s y = Some m) as [m Hm].
  { unfold tree_of in Ht. destruct (n_memb s y) as [m|]; [by exists m|done]. }
  rewrite Hm. destruct m as [o|t rc lk].
  - destruct (retree_weak s (s_hands s) y o t' (g_hinv _ _ M) Hm) as [Hh R]. eexists. split; [eapply gm_retree; [exact M|exact R|exact Hh|done|done]|done].
  - assert (t = t0) as -> by (unfold tree_of in Ht; rewrite Hm in Ht; congruence).
    destruct (retree_strong s (s_hands s) y t0 t' rc lk (g_hinv _ _ M) Hm Hne (g_dest _ _ M) (g_thaw0 _ _ M) (g_thaw1 _ _ M))
      as (s1 & E1 & Hh & R). eexists. split; [eapply gm_retree; [exact M|exact R|exact Hh|done|done]|]. intros pins E. by rewrite E1.
Qed.

Lemma gm_open s D E pins y : gm s D -> y ∈ rose_nodes ro -> y ∉ D ->
  (forall s1, gm s1 (y :: D) -> (exists t rc lk, n_memb s y = Some (MStrong t rc lk)) -> tree_referenced s1 E t0 = true) ->
  exists s', set_tree_core s pins E y t' = Ret (Some s') /\ gm s' (y :: D).
Proof.
  intros M Hy HyD Href. destruct (gm_put s D y M Hy HyD) as (s1 & M1 & Es). exists s1. split; [|exact M1]. rewrite Es.
  destruct (n_memb s y) as [[o|t rc lk]|] eqn:Em; [done| |done].
  unfold drop_tree_if_dead. destruct (s_trees s1 !! t0); [|done]. rewrite (Href s1 M1); [done|eauto].
Qed.

Lemma gm_rep s D : gm s D -> rep (s_nodes s) K.
Proof. intros M. eapply rep_memonly; [exact Hrep|apply M]. Qed.

Lemma gm_release s D pins y : gm s D -> y ∈ rose_nodes ro -> release_all s pins y = Ret s.
Proof.
  intros M Hy. apply release_noop, referenced_true. pose proof (gm_rep s D M) as Hr. destruct (decide (y = x)) as [->|Hyx].
  - right. left. rewrite (g_hands _ _ M). exact Hhand.
  - right. right. left. apply (shape_nodes _ _ _ _ Hsh) in Hy. inversion Hy as [|p c Hb Hc]; subst; [done|].
    destruct Hc as (ks & Hks & Hin). apply elem_of_list_lookup in Hin as [i Hi]. destruct i as [|i].
    + exists p. left. rewrite (rep_first _ _ Hr _ _ Hks). by destruct ks.
    + destruct (ks !! i) as [z|] eqn:Ez.
      * exists z. right. destruct (rep_linked _ _ Hr _ _ Hks i z Ez) as (_ & -> & _). done.
      * apply lookup_ge_None in Ez. apply lookup_lt_Some in Hi. lia.
Qed.

(** One turn of the loop that deallocates nothing. *)
Lemma gm_turn E pre e b rest s fuel : dfs_events ro = pre ++ e :: b :: rest -> gm s (opens pre) ->
  (forall y s1, e = Open y -> gm s1 (opens (pre ++ [e])) -> (exists t rc lk, n_memb s y = Some (MStrong t rc lk)) -> tree_referenced s1 E t0 = true) ->
  exists s1, set_memberships (S fuel) s E (Some (e, x)) t' = set_memberships fuel s1 E (Some (b, x)) t' /\ gm s1 (opens (pre ++ [e])) /\
    (match e with Open _ => True | Close _ => s1 = s end).
Proof.
  intros Hev M Href. simpl. pose proof (gm_rep s _ M) as Hr.
  pose proof (shape_events_nodup _ _ _ Hwf Hsh) as Hnd.
  pose proof (shape_adj _ _ _ _ Hr Hwf Hsh) as Hadj.
  rewrite Hev in Hnd, Hadj. rewrite adj_app in Hadj. destruct Hadj as (_ & Hadj & _). rewrite adj_cons in Hadj. destruct Hadj as [Hadj _].
  destruct (Hadj b eq_refl) as [Hnext _].
  assert (e <> Close x) as Hnx.
  { intros ->. pose proof (last_events ro) as X. rewrite Hev in X. rewrite (shape_root _ _ _ Hsh) in X.
    apply NoDup_app in Hnd as (_ & _ & Hnd). apply NoDup_cons in Hnd as [Hnd _]. apply Hnd.
    rewrite last_app in X. change (last (Close x :: b :: rest)) with (last (b :: rest)) in X.
    destruct (last (b :: rest)) as [z|] eqn:El; [|destruct rest; [done|simpl in El; by rewrite last_cons in El; destruct (last rest)]].
    injection X as ->. by apply elem_of_last in El. }
  rewrite decide_False by done. rewrite dft_next_g, Hnext. simpl.
  assert (ev_val e ∈ rose_nodes ro) as Hve. { apply dfs_events_elem. rewrite Hev. apply elem_of_app. right. by left. }
  assert (exists s1, (match e with Open y => set_tree_core s [y; ev_val b] E y t' | Close _ => Ret (Some s) end) = Ret (Some s1) /\ gm s1 (opens (pre ++ [e])) /\
    match e with Open _ => True | Close _ => s1 = s end) as (s1 & Es1 & M1 & Hs1).
  { destruct e as [y|y].
    - assert (forall z, z ∈ y :: opens pre <-> z ∈ opens (pre ++ [Open y])) as Hops.
      { intros z. rewrite elem_of_cons, !elem_opens, elem_of_app, elem_of_list_singleton. split; [intros [->|?]; auto|intros [?|[= ->]]; auto]. }
      destruct (gm_open s (opens pre) E [y; ev_val b] y M) as (s1 & E1 & M1).
      + exact Hve.
      + rewrite elem_opens. intros Hy. apply NoDup_app in Hnd as (_ & Hnd & _). apply (Hnd _ Hy). by left.
      + intros s1 M1 Hm. apply (Href y s1); [done| |done]. eapply gm_ext; [exact M1|exact Hops].
      + exists s1. split; [done|]. split; [|done]. eapply gm_ext; [exact M1|exact Hops].
    - exists s. split; [done|]. split; [|done]. eapply gm_ext; [exact M|]. intros z. rewrite !elem_opens, elem_of_app, elem_of_list_singleton.
      split; [auto|intros [?|?]; done]. }
  exists s1. split; [|done].
  assert ((match e with Open y => set_tree_core s (y :: [ev_val b]) E y t' | Close _ => Ret (Some s) end) = Ret (Some s1)) as -> by exact Es1.
  simpl. rewrite (gm_release s1 _ [ev_val b] (ev_val e) M1 Hve). done.
Qed.

Lemma gm_end E pre e s fuel : dfs_events ro = pre ++ [e] -> gm s (opens pre) ->
  set_memberships (S fuel) s E (Some (e, x)) t' = Ret (Some s) /\ gm s (rose_nodes ro).
Proof.
  intros Hev M. assert (e = Close x) as ->.
  { pose proof (last_events ro) as X. rewrite Hev in X. rewrite last_snoc in X. rewrite (shape_root _ _ _ Hsh) in X. congruence. }
  simpl. rewrite decide_True by done. simpl.
  assert (release_all s [] x = Ret s) as Hrel.
  { apply (gm_release s _ [] x M). apply (shape_nodes _ _ _ _ Hsh). constructor. }
  split.
  - rewrite ?Hrel. by destruct fuel.
  - eapply gm_ext; [exact M|]. intros y. rewrite elem_opens. split.
    + intros Hy. assert (Open y ∈ dfs_events ro) as X by (rewrite Hev; apply elem_of_app; by left). by apply dfs_events_elem in X.
    + intros Hy. assert (Open y ∈ dfs_events ro) as X by (by apply dfs_events_elem). rewrite Hev in X.
      apply elem_of_app in X as [X|X]; [done|]. apply elem_of_list_singleton in X. done.
Qed.

(** The whole loop, if something else keeps the tree [t0]. *)
Lemma quiet_loop E : (exists i, s_hands s0 !! i = Some (HTree t0)) -> forall rest pre e s fuel, dfs_events ro = pre ++ e :: rest -> gm s (opens pre) -> length rest < fuel ->
  exists s', set_memberships fuel s E (Some (e, x)) t' = Ret (Some s') /\ gm s' (rose_nodes ro).
Proof.
  intros [i Hi]. induction rest as [|b rest IH]; intros pre e s fuel Hev M Hf; (destruct fuel as [|fuel]; [simpl in Hf; lia|]).
  - exists s. by apply (gm_end E pre e).
  - destruct (gm_turn E pre e b rest s fuel Hev M) as (s1 & -> & M1 & _).
    { intros y s1 _ M1 _. apply tree_referenced_iff. right. left. exists i. by rewrite (g_hands _ _ M1). }
    eapply (IH (pre ++ [e])); [by rewrite Hev, <-app_assoc|exact M1|simpl in Hf; lia].
Qed.

Lemma quiet_subtree tp : gm s0 [] -> (exists i, s_hands s0 !! i = Some (HTree t0)) ->
  exists s', set_subtree_tree s0 tp x t' = Ret (Some s') /\ gm s' (rose_nodes ro).
Proof.
  intros M Hi. pose proof (head_events ro) as Hh. rewrite (shape_root _ _ _ Hsh) in Hh.
  destruct (dfs_events ro) as [|e rest] eqn:Eev; [done|]. injection Hh as ->.
  unfold set_subtree_tree. eapply (quiet_loop (t' :: tp) Hi rest []); [done|exact M|].
  pose proof (dfs_events_length ro) as Hl. rewrite Eev in Hl. simpl in Hl.
  pose proof (nodes_length_le _ _ _ _ Hrep Hwf Hsh). unfold dfs_fuel. lia.
Qed.
End Quiet.

(** ** The state before *)
Record grafting s K (x : nid) (t0 : tid) (y : nid) (t' : tid) : Prop := {
  gr_inv : inv s K;
  gr_top : is_top K x;
  gr_hx : exists i k, s_hands s !! i = Some (HNode k x);
  gr_hy : exists j k, s_hands s !! j = Some (HNode k y);
  gr_tx : tree_of s x = Some t0;
  gr_ty : tree_of s y = Some t';
  gr_ne : t0 <> t';
  gr_thaw0 : thawed s (s_hands s) t0;
  gr_thaw1 : thawed s (s_hands s) t';
}.

Lemma gr_dest s K x t0 y t' : grafting s K x t0 y t' -> is_Some (s_trees s !! t').
Proof.
  intros G. destruct (gr_hy _ _ _ _ _ _ G) as (j & k & Hj). destruct (handle_tree s K j k y (gr_inv _ _ _ _ _ _ G) Hj) as (t1 & tr & A1 & A2 & _).
  rewrite (gr_ty _ _ _ _ _ _ G) in A1. injection A1 as <-. eauto.
Qed.
Lemma gr_src s K x t0 y t' : grafting s K x t0 y t' -> exists tr, s_trees s !! t0 = Some tr /\ t_root tr = x.
Proof.
  intros G. destruct (s_top _ _ (i_s _ _ (gr_inv _ _ _ _ _ _ G)) x (gr_top _ _ _ _ _ _ G)) as (t & tr & A1 & A2 & A3).
  rewrite (gr_tx _ _ _ _ _ _ G) in A1. injection A1 as <-. eauto.
Qed.
Lemma gr_below s K x t0 y t' z : grafting s K x t0 y t' -> below K x z <-> is_Some (s_nodes s !! z) /\ tree_of s z = Some t0.
Proof.
  intros G. destruct (gr_src _ _ _ _ _ _ G) as (tr & A1 & A2). rewrite <-A2. exact (sinv_below _ _ _ _ _ (i_s _ _ (gr_inv _ _ _ _ _ _ G)) A1).
Qed.
Lemma gr_gm s K x t0 y t' ro : grafting s K x t0 y t' -> shape K x ro -> gm s ro t0 t' s [].
Proof.
  intros G Hsh. pose proof (gr_inv _ _ _ _ _ _ G) as H. split.
  - intros z. done.
  - done.
  - intros z Hz. rewrite decide_False by apply not_elem_of_nil. apply (shape_nodes _ _ _ _ Hsh) in Hz. destruct (proj1 (gr_below _ _ _ _ _ _ _ G) Hz) as [_ E]. exact E.
  - done.
  - exact (i_h _ _ H).
  - exact (gr_thaw0 _ _ _ _ _ _ G).
  - exact (gr_thaw1 _ _ _ _ _ _ G).
  - by eapply gr_dest.
  - done.
  - done.
Qed.

(** The dest node is outside the tree that moves, and so is the parent it gives. *)
Lemma gr_out s K x t0 y t' : grafting s K x t0 y t' -> ~ below K x y.
Proof. intros G Hb. apply (gr_below _ _ _ _ _ _ _ G) in Hb as [_ Hb]. rewrite (gr_ty _ _ _ _ _ _ G) in Hb. injection Hb as E. by apply (gr_ne _ _ _ _ _ _ G). Qed.

Lemma graft_place s K x t0 y t' ad : grafting s K x t0 y t' -> adoptable K ad y ->
  exists K3 p, attached K x (dest_of ad y) K3 /\ dest_parent K (dest_of ad y) p /\ ~ below K x p /\ tree_of s p = Some t' /\
    (forall q c, child_of K3 q c <-> child_of K q c \/ (q = p /\ c = x)) /\ (forall z, is_Some (K3 !! z) <-> is_Some (K !! z)).
Proof.
  intros G Had. pose proof (gr_inv _ _ _ _ _ _ G) as H. pose proof (s_wf _ _ (i_s _ _ H)) as Hw.
  destruct (gr_hy _ _ _ _ _ _ G) as (j & k & Hj).
  assert (is_Some (K !! y)) as HyK. { apply (inv_alive s K y H). by eapply handle_alive. }
  destruct (adoptable_attached K ad y x HyK Had) as [K3 Hatt].
  destruct (attached_child K x _ K3 Hw Hatt) as (p & Hp & HpK & Hch & Hdom).
  pose proof (gr_out _ _ _ _ _ _ G) as Hnb.
  exists K3, p. split; [exact Hatt|]. split; [exact Hp|]. split; [|split; [|split; [exact Hch|exact Hdom]]].
  - intros Hb. destruct ad; simpl in Hp; subst; try done; apply Hnb; by econstructor.
  - pose proof (gr_ty _ _ _ _ _ _ G) as Hty. destruct ad; simpl in Hp; subst; try done; rewrite <-(s_child _ _ (i_s _ _ H) _ _ Hp); done.
Qed.

Lemma root_unlink s K x : inv s K -> is_top K x -> new_by_unlink (s_nodes s) x = Ret (s_nodes s, false).
Proof.
  intros H Ht. assert (is_Some (s_nodes s !! x)) as Ha by (apply (inv_alive s K x H); apply Ht).
  unfold new_by_unlink. by rewrite (proj2 (is_root_spec s K x H Ha) Ht).
Qed.

(** The tree [t0] is kept by a [Tree] handle: all its nodes change trees, its root field stays. *)
Lemma graft_held s K x t0 y t' ad : grafting s K x t0 y t' -> adoptable K ad y -> (exists i, s_hands s !! i = Some (HTree t0)) ->
  exists s2 h3 K3 ro, shape K x ro /\ gm s ro t0 t' s2 (rose_nodes ro) /\ attached K x (dest_of ad y) K3 /\
    move_to_another_tree s x (dest_of ad y) t' = Ret (with_nodes s2 h3, HOk tt) /\ rep h3 K3 /\ wf K3 /\ same_meta (s_nodes s2) h3.
Proof.
  intros G Had Hi. pose proof (gr_inv _ _ _ _ _ _ G) as H. pose proof (s_wf _ _ (i_s _ _ H)) as Hw. pose proof (s_rep _ _ (i_s _ _ H)) as Hr.
  destruct (shape_exists K x Hw (proj1 (gr_top _ _ _ _ _ _ G))) as [ro Hro].
  destruct (quiet_subtree s K x ro t0 t' Hr Hw (gr_top _ _ _ _ _ _ G) Hro (gr_ne _ _ _ _ _ _ G) (gr_hx _ _ _ _ _ _ G) [] (gr_gm _ _ _ _ _ _ _ G Hro) Hi) as (s2 & E2 & M2).
  pose proof (gm_rep _ _ _ _ _ Hr _ _ M2) as Hr2.
  destruct (graft_place _ _ _ _ _ _ _ G Had) as (K3 & p & Hatt & Hp & Hnb & _).
  destruct (insert_orphan_ok (s_nodes s2) K x (dest_of ad y) K3 p false Hr2 Hw (gr_top _ _ _ _ _ _ G) Hatt Hp Hnb) as (h3 & E3 & Hr3 & Hw3 & M3).
  exists s2, h3, K3, ro. split; [exact Hro|]. split; [exact M2|]. split; [exact Hatt|]. split; [|done].
  unfold move_to_another_tree. rewrite (root_unlink s K x H (gr_top _ _ _ _ _ _ G)). cbn [mbind run_bind].
  replace (with_nodes s (s_nodes s)) with s by (by destruct s). rewrite E2. cbn [mbind run_bind]. by rewrite E3.
Qed.

(** ** A tree of one node, kept by nothing else, disappears. *)
Lemma del_tree_hinv s (t0 : tid) : hinv s (s_hands s) -> tree_referenced s [] t0 = false -> hinv (with_trees s (delete t0 (s_trees s))) (s_hands s).
Proof.
  intros H Href.
  assert (~ ((exists i, s_hands s !! i = Some (HTree t0)) \/ exists x rc lk, n_memb s x = Some (MStrong t0 rc lk))) as Hno.
  { intros X. assert (tree_referenced s [] t0 = true); [|congruence]. apply tree_referenced_iff. by right. }
  split.
  - intros x o. apply (h_weak _ _ H).
  - intros x t rc lk Hm. change (n_memb s x = Some (MStrong t rc lk)) in Hm. destruct (h_strong _ _ H x t rc lk Hm) as (A & B & C & D).
    split; [|done]. simpl. destruct (decide (t = t0)) as [->|Hne]; [|by rewrite lookup_delete_ne].
    exfalso. apply Hno. right. eauto.
  - exact (h_node _ _ H).
  - intros i t Hi. simpl. destruct (decide (t = t0)) as [->|Hne]; [exfalso; apply Hno; left; eauto|].
    rewrite lookup_delete_ne by done. by apply (h_tree _ _ H i).
  - intros t tr Ht. simpl in Ht. apply lookup_delete_Some in Ht as [_ Ht]. exact (h_lock _ _ H t tr Ht).
Qed.

Lemma leaf_end pins tpins s (t0 : tid) tr x K : s_trees s !! t0 = Some tr -> t_root tr = x -> rep (s_nodes s) K -> is_top K x -> K !! x = Some [] -> x ∈ pins ->
  tree_referenced s tpins t0 = false -> drop_tree_if_dead pins tpins s t0 = Ret (with_trees s (delete t0 (s_trees s))).
Proof.
  intros Ht <- R Htop Hk Hin Href. unfold drop_tree_if_dead. rewrite Ht, Href.
  destruct (rep_top _ _ R _ Htop) as (Hp & Hn & _). pose proof (rep_first _ _ R _ _ Hk) as Hf.
  assert (parent_link (s_nodes s) (t_root tr) = None) as Hpl by (unfold parent_link; by rewrite Hp).
  assert (forall pins' s', (forall z, z ∈ pins -> z ∈ pins') -> release_all s' pins' (t_root tr) = Ret s') as Hrel.
  { intros pins' s' Hsub. apply release_noop, referenced_true. left. by apply Hsub. }
  assert (teardown (dfs_fuel (s_nodes s)) pins s (Some (Open (t_root tr))) = Ret s) as ->.
  { unfold dfs_fuel. cbn [teardown]. unfold dft_next, first_child_link, next_sibling_link. rewrite Hf. cbn [head].
    rewrite Hpl, Hn. cbn [mbind run_bind ev_pin]. rewrite Hrel by set_solver. cbn [mbind run_bind].
    by destruct (2 * size (s_nodes s)). }
  cbn [mbind run_bind]. by rewrite Hrel.
Qed.

Lemma graft_leaf s K x t0 y t' ad : grafting s K x t0 y t' -> adoptable K ad y -> K !! x = Some [] -> (forall i, s_hands s !! i <> Some (HTree t0)) ->
  exists s' K3, move_to_another_tree s x (dest_of ad y) t' = Ret (s', HOk tt) /\ carried s K x t0 t' s' K /\ attached K x (dest_of ad y) K3 /\ inv s' K3.
Proof.
  intros G Had Hk Hno. pose proof (gr_inv _ _ _ _ _ _ G) as H. pose proof (s_wf _ _ (i_s _ _ H)) as Hw. pose proof (s_rep _ _ (i_s _ _ H)) as Hr.
  pose proof (gr_top _ _ _ _ _ _ G) as Htop.
  assert (shape K x (Rose x [])) as Hsh by (econstructor; [exact Hk|constructor]).
  pose proof (gr_gm _ _ _ _ _ _ _ G Hsh) as M0.
  destruct (gm_put s (Rose x []) t0 t' (gr_ne _ _ _ _ _ _ G) s [] x M0) as (s1 & M1 & Es).
  { by left. } { by apply not_elem_of_nil. }
  assert (forall z, below K x z <-> z = x) as Hbx.
  { intros z. rewrite <-(shape_nodes _ _ _ _ Hsh). simpl. by rewrite elem_of_list_singleton. }
  assert (tree_of s1 x = Some t') as Htx1.
  { rewrite (g_in _ _ _ _ _ _ M1 x) by (by left). by rewrite decide_True by (by left). }
  assert (forall z, z <> x -> n_memb s1 z = n_memb s z) as Hout.
  { intros z Hz. apply (g_out _ _ _ _ _ _ M1). by intros ->%elem_of_list_singleton. }
  assert (forall z rc lk, n_memb s1 z <> Some (MStrong t0 rc lk)) as Hnone.
  { intros z rc lk Hm. assert (tree_of s1 z = Some t0) as Hz by (unfold tree_of; by rewrite Hm).
    destruct (decide (z = x)) as [->|Hzx]; [rewrite Htx1 in Hz; injection Hz as E; by apply (gr_ne _ _ _ _ _ _ G)|].
    assert (tree_of s z = Some t0) as Hz0 by (unfold tree_of in *; by rewrite <-(Hout z Hzx)).
    assert (below K x z) as Hb. { apply (gr_below _ _ _ _ _ _ _ G). split; [|done]. rewrite (Hout z Hzx) in Hm. unfold n_memb in Hm.
      destruct (s_nodes s !! z); [eauto|done]. }
    apply Hbx in Hb. done. }
  assert (forall i, s_hands s1 !! i <> Some (HTree t0)) as Hno1 by (by rewrite (g_hands _ _ _ _ _ _ M1)).
  assert (forall E, t0 ∉ E -> tree_referenced s1 E t0 = false) as Href.
  { intros E HE. destruct (tree_referenced s1 E t0) eqn:Et; [|done]. exfalso. apply tree_referenced_iff in Et as [?|[[i Hi]|(z & rc & lk & Hm)]]; [done|by eapply Hno1|by eapply Hnone]. }
  pose proof (gm_rep _ _ _ _ _ Hr _ _ M1) as R1.
  destruct (gr_src _ _ _ _ _ _ G) as (tr & Htr & Hrt).
  assert (exists tr1, s_trees s1 !! t0 = Some tr1 /\ t_root tr1 = x) as (tr1 & Htr1 & Hrt1).
  { pose proof (g_root _ _ _ _ _ _ M1 t0) as E. rewrite Htr in E. destruct (s_trees s1 !! t0) as [tr1|]; [|done]. injection E as E. exists tr1. split; [done|congruence]. }
  set (s2 := with_trees s1 (delete t0 (s_trees s1))).
  assert (exists t rc lk, n_memb s x = Some (MStrong t rc lk)) as (t & rc & lk & Hm).
  { destruct (gr_hx _ _ _ _ _ _ G) as (i & k & Hi). destruct (n_memb s x) as [[o|t rc lk]|] eqn:Em; [|eauto|].
    - destruct (h_weak _ _ (i_h _ _ H) x o Em) as [_ X]. exfalso. apply (X i). by exists k.
    - pose proof (gr_tx _ _ _ _ _ _ G) as X. unfold tree_of in X. by rewrite Em in X. }
  assert (forall z, is_Some (s_nodes s2 !! z) -> payload s2 z = payload s z) as Hpay.
  { intros z _. apply (memonly_payload s s2). exact (g_mem _ _ _ _ _ _ M1). }
  assert (set_subtree_tree s [] x t' = Ret (Some s2)) as E2.
  { unfold set_subtree_tree, dfs_fuel. cbn [set_memberships]. unfold link_dfs_next, dft_next, first_child_link. rewrite (rep_first _ _ Hr _ _ Hk). cbn [head].
    assert (release_all s2 [x] x = Ret s2) as Hrel1 by (apply release_noop, referenced_true; left; by left).
    assert (release_all s2 [] x = Ret s2) as Hrel0.
    { apply release_noop, referenced_true. right. left. unfold s2. simpl. rewrite (g_hands _ _ _ _ _ _ M1). apply G. }
    rewrite decide_False by done. cbn [mbind run_bind option_map fst ev_pin ev_val]. rewrite Es, Hm.
    rewrite (leaf_end [x; x] [t'] s1 t0 tr1 x K Htr1 Hrt1 R1 Htop Hk).
    2:{ by left. } 2:{ apply Href. intros ->%elem_of_list_singleton. by apply (gr_ne _ _ _ _ _ _ G). }
    cbn [mbind run_bind]. fold s2. rewrite Hrel1. cbn [mbind run_bind]. rewrite decide_True by done. cbn [mbind run_bind option_map fst ev_pin ev_val].
    reflexivity. }
  destruct (graft_place _ _ _ _ _ _ _ G Had) as (K3 & p & Hatt & Hp & Hnb & Htp & Hch & Hdom).
  destruct (insert_orphan_ok (s_nodes s2) K x (dest_of ad y) K3 p false R1 Hw Htop Hatt Hp Hnb) as (h3 & E3 & Hr3 & Hw3 & M3).
  assert (forall z, z <> x -> tree_of s2 z = tree_of s z) as Htree.
  { intros z Hz. change (tree_of s1 z = tree_of s z). unfold tree_of. by rewrite (Hout z Hz). }
  assert (tree_of s2 x = Some t') as Htx2 by exact Htx1.
  assert (pinv s2 K (eq x)) as P.
  { pose proof (i_s _ _ H) as Hs. split; [exact R1|exact Hw| | |].
    - intros q c Hqc. assert (c <> x) as Hc by (intros ->; by apply (proj2 Htop q)).
      assert (q <> x) as Hq. { intros ->. destruct Hqc as (ks & Hks & Hin). rewrite Hk in Hks. injection Hks as <-. by apply not_elem_of_nil in Hin. }
      rewrite !Htree by done. by apply (s_child _ _ Hs).
    - intros z Hz. destruct (decide (x = z)) as [->|Hzx]; [by left|right].
      destruct (s_top _ _ Hs z Hz) as (u & tru & A1 & A2 & A3).
      assert (u <> t0) as Hu. { intros ->. rewrite Htr in A2. injection A2 as <-. congruence. }
      pose proof (g_root _ _ _ _ _ _ M1 u) as E. rewrite A2 in E. destruct (s_trees s1 !! u) as [tru1|] eqn:Eu; [|done]. injection E as E.
      exists u, tru1. rewrite Htree by congruence. split; [done|]. split; [|congruence]. unfold s2. simpl. by rewrite lookup_delete_ne.
    - intros u tru Hu. unfold s2 in Hu. simpl in Hu. apply lookup_delete_Some in Hu as [Hne Hu].
      pose proof (g_root _ _ _ _ _ _ M1 u) as E. rewrite Hu in E. destruct (s_trees s !! u) as [tru0|] eqn:Eu; [|done]. injection E as E.
      rewrite E. destruct (s_root _ _ Hs u tru0 Eu) as [B1 B2]. split; [exact B1|].
      rewrite Htree; [exact B2|]. intros Ex. rewrite Ex, (gr_tx _ _ _ _ _ _ G) in B2. congruence. }
  assert (sinv (with_nodes s2 h3) K3) as Hs3.
  { eapply (attach_pinv s2 K x _ K3 h3 P Htop); [|exact Hatt| |exact Hr3|exact Hw3|exact M3].
    - intros u tru Hu Ex. pose proof (p_root _ _ _ P u tru Hu) as [_ B]. rewrite Ex, Htx2 in B. injection B as <-.
      unfold s2 in Hu. simpl in Hu. apply lookup_delete_Some in Hu as [_ Hu]. pose proof (g_root _ _ _ _ _ _ M1 t') as E. rewrite Hu in E.
      destruct (s_trees s !! t') as [tru0|] eqn:Eu; [|done]. injection E as E.
      destruct (s_root _ _ (i_s _ _ H) t' tru0 Eu) as [_ B2]. rewrite <-E, Ex, (gr_tx _ _ _ _ _ _ G) in B2. injection B2 as B2. by apply (gr_ne _ _ _ _ _ _ G).
    - intros q Hq. assert (q = p) as -> by (eapply dest_parent_det; [exact Hw|exact Hq|exact Hp]). rewrite Htx2.
      rewrite Htree; [exact Htp|]. intros ->. apply Hnb. constructor. }
  assert (hinv s2 (s_hands s2)) as Hh2. { apply (del_tree_hinv s1 t0); [apply M1|]. apply Href, not_elem_of_nil. }
  assert (forall u, u <> t0 -> is_Some (s_trees s2 !! u) <-> is_Some (s_trees s !! u)) as Htrees.
  { intros u Hu. unfold s2. simpl. rewrite lookup_delete_ne by done. pose proof (g_root _ _ _ _ _ _ M1 u) as E.
    destruct (s_trees s1 !! u), (s_trees s !! u); try done; split; eauto. }
  assert (s_hands s2 = s_hands s) as Hhs by exact (g_hands _ _ _ _ _ _ M1).
  assert (~ tree_held s2 (s_hands s2) t0) as Hnh.
  { intros X. apply (referenced_held s2 t0 Hh2) in X. change (tree_referenced s1 [] t0 = true) in X. rewrite Href in X; [done|]. apply not_elem_of_nil. }
  exists (with_nodes s2 h3), K3. split; [|split; [|split; [exact Hatt|]]].
  - unfold move_to_another_tree. rewrite (root_unlink s K x H Htop). cbn [mbind run_bind].
    replace (with_nodes s (s_nodes s)) with s by (by destruct s). rewrite E2. cbn [mbind run_bind]. by rewrite E3.
  - split.
    + exact Hhs.
    + intros z Hz. rewrite relink_tree_of by done. apply Hbx in Hz as ->. exact Htx2.
    + intros z Hz _. rewrite relink_tree_of by done. apply Htree. intros ->. apply Hz. constructor.
    + intros z Hz. rewrite relink_payload by done. apply Hpay. by apply (relink_alive _ _ z M3).
    + intros u Hu _. by apply Htrees.
    + apply Htrees; [by apply not_eq_sym, (gr_ne _ _ _ _ _ _ G)|]. by eapply gr_dest.
    + right. split; [unfold s2; simpl; apply lookup_delete|]. split.
      * change (s_hands (with_nodes s2 h3)) with (s_hands s2). by rewrite held_relink.
      * exists []. split.
        -- intros z. split; [by intros ?%not_elem_of_nil|]. intros (A1 & A2 & A3). exfalso. apply A2. apply (gr_below _ _ _ _ _ _ _ G).
           split; [|exact A3]. by apply (inv_alive s K z H).
        -- apply map_eq. intros z. rewrite prune_lookup. rewrite decide_False; [done|]. apply not_elem_of_nil.
  - split.
    + exact Hs3.
    + apply hinv_relink; [exact Hh2|done].
    + intros u Hu. change (tree_held (with_nodes s2 h3) (s_hands s2) u). rewrite held_relink by done.
      apply (referenced_held s2 u Hh2). change (is_Some (s_trees s2 !! u)) in Hu.
      assert (u <> t0) as Hu0. { intros ->. unfold s2 in Hu. simpl in Hu. rewrite lookup_delete in Hu. by destruct Hu. }
      apply (referenced_held s2 u Hh2). destruct (decide (u = t')) as [->|Hu1].
      * destruct (gr_hy _ _ _ _ _ _ G) as (j & ky & Hj). right. exists j, ky, y. rewrite Hhs. split; [done|]. rewrite Htree; [apply G|].
        intros ->. apply (gr_out _ _ _ _ _ _ G). constructor.
      * apply Htrees in Hu; [|done]. destruct (i_held _ _ H u Hu) as [[i Hi]|(i & k & z & Hi & Hz)]; [left; exists i; by rewrite Hhs|].
        right. exists i, k, z. rewrite Hhs. split; [done|]. rewrite Htree; [done|]. intros ->. rewrite (gr_tx _ _ _ _ _ _ G) in Hz. congruence.
    + apply finv_relink; [|done]. pose proof (i_f _ _ H) as F. change (s_fresh s2) with (s_fresh s1).
      assert (s_fresh s2 = s_fresh s) as Hfr by exact (g_fresh _ _ _ _ _ _ M1). split; rewrite ?Hfr.
      * intros z Hz. apply F. apply (inv_alive s K z H). by apply (rep_dom _ _ R1).
      * intros u Hu. apply (f_trees _ F). destruct (decide (u = t0)) as [->|Hu0]; [|by apply Htrees]. eauto.
      * intros i hd. rewrite Hhs. apply F.
      * intros z u Hz. destruct (decide (z = x)) as [->|Hzx]; [|apply (f_memb _ F z); by rewrite <-(Htree z Hzx)].
        rewrite Htx2 in Hz. injection Hz as <-. apply (f_memb _ F y). apply G.
Qed.

End Graft.
