(** * SysFacts12: giving a whole subtree to another tree. *)
From Verif Require Import Heap Edit System SysSpec CardFacts HeapFacts SpecFacts NavFacts NavFacts2 EditFacts EditFacts2 EditFacts3 IterSpec RoseFacts AdjFacts TravFacts TdFacts TdFacts2 SysFacts SysFacts2 SysFacts3 SysFacts4 SysFacts5 SysFacts6 SysFacts7 SysFacts8 SysFacts9 SysFacts10 SysFacts11 Spec.

Section SysFacts12.
Context {T : Type}.
Implicit Types (h : heap T) (s : sys T) (hm : gmap nat handle) (K : forest).

Lemma below_top K a r : below K a r -> is_top K r -> a = r.
Proof. intros Hb [_ Ht]. destruct Hb as [|p c Hb Hc]; [done|]. by apply Ht in Hc. Qed.

Lemma shape_prune K L x ro : shape K x ro -> (forall y, y ∈ rose_nodes ro -> y ∉ L) -> shape (prune K L) x ro.
Proof.
  revert x. induction ro as [z ts IH] using rose_ind2. intros x Hs Hd.
  inversion Hs as [? ? Hk Hf]; subst. simpl in Hd. constructor.
  - rewrite prune_lookup, decide_False; [done|]. apply Hd. by left.
  - assert (forall t, t ∈ ts -> forall y, y ∈ rose_nodes t -> y ∉ L) as Hd2.
    { intros t Ht y Hy. apply Hd. right. apply elem_of_concat_map. eauto. }
    clear Hs Hk Hd. induction Hf as [|t ts Ht Hf IHts]; [constructor|]. inversion IH; subst. constructor.
    + apply H1; [done|]. apply Hd2. by left.
    + apply IHts; [done|]. intros t1 Ht1. apply Hd2. by right.
Qed.

Section Loop.
Variables (s0 : sys T) (K0 : forest) (x : nid) (ro : rose nid) (t0 t' : tid).

Definition kept s K : Prop :=
  (K = K0 /\ memonly (s_nodes s0) (s_nodes s) /\ forall u, t_root <$> s_trees s !! u = t_root <$> s_trees s0 !! u) \/
  (exists tr0 L0, s_trees s0 !! t0 = Some tr0 /\ (forall y, y ∈ L0 <-> below K0 (t_root tr0) y) /\ K = prune K0 L0 /\
    (forall y, y ∉ L0 -> links <$> s_nodes s !! y = links <$> s_nodes s0 !! y) /\ (forall y, y ∈ L0 -> s_nodes s !! y = None) /\
    s_trees s !! t0 = None /\ (forall u, u <> t0 -> t_root <$> s_trees s !! u = t_root <$> s_trees s0 !! u)).

(** What is known before the loop starts. *)
Record before_loop : Prop := {
  b_child : forall p c, child_of K0 p c -> tree_of s0 c = tree_of s0 p;
  b_top : forall y, is_top K0 y -> y = x \/ exists t tr, tree_of s0 y = Some t /\ s_trees s0 !! t = Some tr /\ t_root tr = y;
  b_root : forall t tr, s_trees s0 !! t = Some tr ->
    (t = t' /\ t_root tr = x) \/ (t_root tr <> x /\ is_top K0 (t_root tr) /\ tree_of s0 (t_root tr) = Some t);
  b_ne : t0 <> t';
  b_hand : exists i k, s_hands s0 !! i = Some (HNode k x);
}.

Record mid s K (D : list nid) (E : list tid) : Prop := {
  m_rep : rep (s_nodes s) K;
  m_wf : wf K;
  m_top : is_top K x;
  m_shape : shape K x ro;
  m_in : forall y, y ∈ rose_nodes ro -> tree_of s y = Some (if decide (y ∈ D) then t' else t0);
  m_out : forall y, y ∉ rose_nodes ro -> is_Some (s_nodes s !! y) -> tree_of s y = tree_of s0 y;
  m_kept : kept s K;
  m_hinv : hinv s (s_hands s);
  m_thaw0 : thawed s (s_hands s) t0;
  m_thaw1 : thawed s (s_hands s) t';
  m_dest : is_Some (s_trees s !! t');
  m_held : forall u, is_Some (s_trees s !! u) -> u ∉ E -> tree_held s (s_hands s) u;
  m_hands : s_hands s = s_hands s0;
  m_fresh : s_fresh s = s_fresh s0;
}.

Hypothesis B : before_loop.

Lemma memonly_trans h1 h2 h3 : memonly h1 h2 -> memonly h2 h3 -> memonly h1 h3.
Proof. intros H1 H2 y. by rewrite H2, H1. Qed.

Lemma root_trees_alive s s' u : t_root <$> s_trees s' !! u = t_root <$> s_trees s !! u -> (is_Some (s_trees s' !! u) <-> is_Some (s_trees s !! u)).
Proof. intros H. destruct (s_trees s' !! u), (s_trees s !! u); try done; split; eauto. Qed.

Lemma kept_retree s s' K y : kept s K -> retreed s s' y t' -> kept s' K.
Proof.
  intros [(A1 & A2 & A3)|(tr0 & L0 & A1 & A2 & A3 & A4 & A5 & A6 & A7)] R.
  - left. split; [done|]. split; [eapply memonly_trans; [done|apply R]|]. intros u. by rewrite (rt_root _ _ _ _ R).
  - right. exists tr0, L0. split_and!; [done|done|done| | | |].
    + intros z Hz. rewrite (rt_mem _ _ _ _ R z). by apply A4.
    + intros z Hz. pose proof (rt_mem _ _ _ _ R z) as X. rewrite (A5 z Hz) in X. simpl in X. by destruct (s_nodes s' !! z).
    + pose proof (rt_root _ _ _ _ R t0) as X. rewrite A6 in X. by destruct (s_trees s' !! t0).
    + intros u Hu. rewrite (rt_root _ _ _ _ R). by apply A7.
Qed.

Lemma mid_retree s s' K D E y : mid s K D E -> retreed s s' y t' -> hinv s' (s_hands s) -> y ∈ rose_nodes ro -> y ∉ D ->
  mid s' K (y :: D) (t0 :: E).
Proof.
  intros M R H Hy HyD. pose proof (m_in _ _ _ _ M y Hy) as Ht. rewrite decide_False in Ht by done. split.
  - eapply rep_memonly; [apply M|apply R].
  - apply M.
  - apply M.
  - apply M.
  - intros z Hz. destruct (decide (z = y)) as [->|Hne].
    + rewrite decide_True by (by left). apply R.
    + rewrite (rt_tree _ _ _ _ _ R Hne), (m_in _ _ _ _ M z Hz).
      destruct (decide (z ∈ D)); [rewrite decide_True by (by right); done|rewrite decide_False; [done|]]. intros [?|?]%elem_of_cons; done.
  - intros z Hz Ha. assert (z <> y) as Hne by (by intros ->). rewrite (rt_tree _ _ _ _ _ R Hne). apply M; [done|].
    by apply (memonly_fields _ _ z (rt_mem _ _ _ _ R)).
  - eapply kept_retree; [apply M|done].
  - rewrite (rt_hands _ _ _ _ R). exact H.
  - rewrite (rt_hands _ _ _ _ R). eapply retree_thawed; [done|done|apply M|apply M].
  - rewrite (rt_hands _ _ _ _ R). eapply retree_thawed; [done|done|apply M|apply M].
  - apply (root_trees_alive s s'); [apply R|apply M].
  - intros u Hu Hn. apply (root_trees_alive s s') in Hu; [|apply R]. rewrite elem_of_cons in Hn.
    destruct (m_held _ _ _ _ M u Hu) as [(i & Hi)|(i & k & z & Hi & Hz)]; [tauto|left; exists i; by rewrite (rt_hands _ _ _ _ R)|right].
    exists i, k, z. rewrite (rt_hands _ _ _ _ R). split; [done|]. rewrite (rt_tree _ _ _ _ _ R); [done|]. intros ->.
    apply Hn. left. congruence.
  - rewrite (rt_hands _ _ _ _ R). apply M.
  - rewrite (rt_fresh _ _ _ _ R). apply M.
Qed.

(** When no reference to the old tree is left it disappears with its nodes. *)
Lemma mid_drop s K D E pins : mid s K D (t0 :: E) -> t' ∈ E -> t0 ∉ E -> (forall z, z ∈ pins -> z ∈ rose_nodes ro) ->
  exists s' K', drop_tree_if_dead pins E s t0 = Ret s' /\ mid s' K' D E.
Proof.
  intros M Ht' Ht0 Hpins. unfold drop_tree_if_dead at 1.
  destruct (s_trees s !! t0) as [tr|] eqn:Etr.
  2:{ exists s, K. split; [done|]. destruct M as [M1 M2 M3 M4 M5 M6 M7 M8 M9 M10 M11 M12 M13 M14]. split; try assumption.
      intros u Hu Hn. apply M12; [done|]. intros [->|?]%elem_of_cons; [rewrite Etr in Hu; by destruct Hu|done]. }
  destruct (tree_referenced s E t0) eqn:Eref.
  { exists s, K. split; [done|]. destruct M as [M1 M2 M3 M4 M5 M6 M7 M8 M9 M10 M11 M12 M13 M14]. split; try assumption.
    intros u Hu Hn. destruct (decide (u = t0)) as [->|Hne].
    - apply tree_referenced_iff in Eref as [?|[?|(z & rc & lk & Hz)]]; [done|by left|right].
      destruct (strong_held s (s_hands s) z t0 rc lk M8 Hz) as (i & k & Hi). exists i, k, z. split; [done|]. unfold tree_of. by rewrite Hz.
    - apply M12; [done|]. intros [?|?]%elem_of_cons; done. }
  (* the old tree is still intact *)
  destruct (m_kept _ _ _ _ M) as [(-> & A2 & A3)|(tr0 & L0 & _ & _ & _ & _ & _ & A6 & _)]; [|congruence].
  assert (exists tr0, s_trees s0 !! t0 = Some tr0 /\ t_root tr0 = t_root tr) as (tr0 & Etr0 & Er).
  { specialize (A3 t0). rewrite Etr in A3. destruct (s_trees s0 !! t0) as [q|]; [|done]. exists q. split; [done|]. by injection A3. }
  destruct (b_root B _ _ Etr0) as [[? _]|(Hrx & Hrt & Hrm)]; [by destruct (b_ne B)|]. rewrite Er in Hrx, Hrt, Hrm.
  set (r := t_root tr) in *.
  assert (forall y, below K0 r y -> y ∉ rose_nodes ro) as Hdisj.
  { intros y Hb Hy. apply (shape_nodes _ _ _ _ (m_shape _ _ _ _ M)) in Hy.
    destruct (below_common K0 r x y (m_wf _ _ _ _ M) Hb Hy) as [Hc|Hc].
    - apply Hrx. eapply below_top; [done|apply M].
    - apply Hrx. symmetry. by eapply below_top. }
  assert (forall y, is_Some (s_nodes s !! y) <-> is_Some (K0 !! y)) as Hdom by apply (m_rep _ _ _ _ M).
  assert (forall y, below K0 r y -> is_Some (K0 !! y)) as Hbal. { intros y Hb. eapply below_dom; [apply M| |done]. apply Hrt. }
  assert (forall y, below K0 r y -> tree_of s0 y = Some t0) as Hb0.
  { intros y Hb. rewrite <-Hrm. clear -Hb B. induction Hb as [|p c Hb IH Hc]; [done|]. by rewrite (b_child B _ _ Hc). }
  assert (forall y, below K0 r y -> tree_of s y = Some t0) as Hbt.
  { intros y Hb. rewrite (m_out _ _ _ _ M); [by apply Hb0|by apply Hdisj|]. by apply Hdom, Hbal. }
  assert (forall t2 tr2, s_trees s !! t2 = Some tr2 -> below K0 r (t_root tr2) -> t2 = t0) as Hother.
  { intros t2 tr2 H2 Hb. assert (exists q, s_trees s0 !! t2 = Some q /\ t_root q = t_root tr2) as (q & Eq1 & Eq2).
    { specialize (A3 t2). rewrite H2 in A3. destruct (s_trees s0 !! t2) as [q|]; [|done]. exists q. split; [done|]. by injection A3. }
    destruct (b_root B _ _ Eq1) as [[-> Ex]|(_ & Ht2 & Hm2)]; rewrite Eq2 in *.
    - rewrite Ex in Hb. exfalso. apply Hrx. eapply below_top; [done|apply M].
    - apply Hb0 in Hb. congruence. }
  destruct (drop_tree_gen s K0 t0 tr pins E (m_rep _ _ _ _ M) (m_wf _ _ _ _ M) (m_hinv _ _ _ _ M) Etr Hrt Hbt Hother Eref)
    as (h' & Ed & (W1 & W2 & W3) & Hh' & Hweak).
  assert (forall y, y ∈ pins -> ~ below K0 r y) as Hpin. { intros y Hy Hb. by apply (Hdisj y Hb), Hpins. }
  unfold drop_tree_if_dead in Ed. rewrite Etr, Eref in Ed.
  destruct (below_list K0 r (m_wf _ _ _ _ M) (proj1 Hrt)) as (L0 & HL0nd & HL0).
  assert (forall y, y ∈ L0 -> h' !! y = None) as Hgone. { intros y Hy. apply W2; [by apply HL0|]. intros Hp. apply (Hpin y Hp). by apply HL0. }
  assert (forall y, y ∉ L0 -> h' !! y = s_nodes s !! y) as Hstay. { intros y Hy. apply W1. intros Hb. by apply Hy, HL0. }
  set (s' := mkSys h' (delete t0 (s_trees s)) (s_hands s) (s_fresh s)).
  assert (forall y, y ∉ L0 -> n_memb s' y = n_memb s y) as Hmm. { intros y Hy. unfold n_memb. simpl. by rewrite Hstay. }
  assert (forall y, y ∉ L0 -> tree_of s' y = tree_of s y) as Htt. { intros y Hy. unfold tree_of. by rewrite Hmm. }
  assert (forall y, y ∈ L0 -> tree_of s' y = None) as Htn. { intros y Hy. unfold tree_of, n_memb. simpl. by rewrite Hgone. }
  assert (forall y, y ∈ rose_nodes ro -> y ∉ L0) as HroL. { intros y Hy Hy2. apply HL0 in Hy2. by apply (Hdisj y Hy2). }
  assert (forall u, u <> t0 -> s_trees s' !! u = s_trees s !! u) as Hts. { intros u Hu. simpl. by rewrite lookup_delete_ne. }
  assert (forall u, thawed s (s_hands s) u -> thawed s' (s_hands s) u) as Hthaw.
  { intros u [T1 T2]. split; [exact T1|]. intros z (C1 & C2 & C3). apply (T2 z). split; [done|]. split; [|done].
    destruct (decide (z ∈ L0)) as [Hz|Hz]; [rewrite Htn in C2; done|by rewrite <-Htt]. }
  exists s', (prune K0 L0). split; [exact Ed|]. split.
  - eapply prune_rep; [apply M|apply M|exact Hrt|exact HL0|exact Hstay|exact Hgone].
  - eapply prune_wf; [apply M|exact Hrt|exact HL0].
  - eapply prune_top; [apply M|exact Hrt|exact HL0|]. split; [|apply M]. apply HroL. apply (shape_nodes _ _ _ _ (m_shape _ _ _ _ M)). constructor.
  - apply shape_prune; [apply M|done].
  - intros y Hy. rewrite Htt by (by apply HroL). by apply M.
  - intros y Hy Ha. destruct (decide (y ∈ L0)) as [Hz|Hz].
    + simpl in Ha. rewrite Hgone in Ha by done. by destruct Ha.
    + rewrite Htt by done. apply M; [done|]. simpl in Ha. by rewrite <-Hstay.
  - right. exists tr0, L0. split_and!; [done| |done| |exact Hgone|simpl; by rewrite lookup_delete|].
    + rewrite Er. exact HL0.
    + intros y Hy. simpl. rewrite Hstay by done. apply A2.
    + intros u Hu. rewrite Hts by done. apply A3.
  - exact Hh'.
  - apply Hthaw. apply M.
  - apply Hthaw. apply M.
  - rewrite Hts; [apply M|]. intros E1. by apply (b_ne B).
  - intros u Hu Hn. destruct (decide (u = t0)) as [->|Hne]; [simpl in Hu; rewrite lookup_delete in Hu; by destruct Hu|].
    rewrite Hts in Hu by done. destruct (m_held _ _ _ _ M u Hu) as [(i & Hi)|(i & k & z & Hi & Hz)].
    { intros [?|?]%elem_of_cons; done. } { left. by exists i. }
    right. exists i, k, z. split; [done|]. rewrite Htt; [done|]. intros Hz0. apply HL0 in Hz0. apply Hweak in Hz0 as [_ Hz0]. by apply (Hz0 i k).
  - apply M.
  - apply M.
Qed.

Lemma mid_weaken s K D E : mid s K D (t0 :: E) -> (is_Some (s_trees s !! t0) -> t0 ∉ E -> tree_held s (s_hands s) t0) -> mid s K D E.
Proof.
  intros [M1 M2 M3 M4 M5 M6 M7 M8 M9 M10 M11 M12 M13 M14] H. split; try assumption.
  intros u Hu Hn. destruct (decide (u = t0)) as [->|]; [by apply H|]. apply M12; [done|]. intros [?|?]%elem_of_cons; done.
Qed.

(** One visited node. *)
Lemma mid_open s K D E pins y : mid s K D E -> t' ∈ E -> y ∈ rose_nodes ro -> y ∉ D -> (forall z, z ∈ pins -> z ∈ rose_nodes ro) ->
  exists s' K', set_tree_core s pins E y t' = Ret (Some s') /\ mid s' K' (y :: D) E.
Proof.
  intros M HE Hy HyD Hpins. pose proof (m_in _ _ _ _ M y Hy) as Ht. rewrite decide_False in Ht by done.
  unfold set_tree_core. assert (exists m, n_memb s y = Some m) as [m Hm].
  { unfold tree_of in Ht. destruct (n_memb s y) as [m|]; [by exists m|done]. }
  rewrite Hm. destruct m as [o|t rc lk].
  - destruct (retree_weak s (s_hands s) y o t' (m_hinv _ _ _ _ M) Hm) as [Hh R]. eexists _, K. split; [done|].
    eapply mid_weaken; [by eapply mid_retree|]. intros Hu Hn. apply (root_trees_alive s) in Hu; [|apply R].
    destruct (m_held _ _ _ _ M t0 Hu Hn) as [(i & Hi)|(i & k & z & Hi & Hz)]; [left; exists i; by rewrite (rt_hands _ _ _ _ R)|right].
    exists i, k, z. rewrite (rt_hands _ _ _ _ R). split; [done|]. rewrite (rt_tree _ _ _ _ _ R); [done|]. intros ->.
    apply (proj2 (h_weak _ _ (m_hinv _ _ _ _ M) _ _ Hm) i). by exists k.
  - assert (t = t0) as -> by (unfold tree_of in Ht; rewrite Hm in Ht; congruence).
    destruct (retree_strong s (s_hands s) y t0 t' rc lk (m_hinv _ _ _ _ M) Hm (b_ne B) (m_dest _ _ _ _ M) (m_thaw0 _ _ _ _ M) (m_thaw1 _ _ _ _ M))
      as (s1 & -> & Hh & R).
    pose proof (mid_retree _ _ _ _ _ _ M R Hh Hy HyD) as M1. destruct (decide (t0 ∈ E)) as [Hin|Hin].
    + exists (put_mem s1 y (MStrong t' rc lk)), K.
      assert (drop_tree_if_dead pins E (put_mem s1 y (MStrong t' rc lk)) t0 = Ret (put_mem s1 y (MStrong t' rc lk))) as ->.
      { unfold drop_tree_if_dead. destruct (s_trees _ !! t0); [|done].
        assert (tree_referenced (put_mem s1 y (MStrong t' rc lk)) E t0 = true) as ->; [|done]. apply tree_referenced_iff. by left. }
      split; [done|]. eapply mid_weaken; [done|]. by intros.
    + destruct (mid_drop _ _ _ _ pins M1 HE Hin Hpins) as (s' & K' & -> & M2). exists s', K'. split; [done|exact M2].
Qed.

Lemma root_in : shape K0 x ro -> x ∈ rose_nodes ro.
Proof. intros H. apply (shape_nodes _ _ _ _ H). constructor. Qed.

(** Dropping the local variable changes nothing. *)
Lemma mid_release s K D E pins y : mid s K D E -> y ∈ rose_nodes ro -> release_all s pins y = Ret s.
Proof.
  intros M Hy. apply release_noop, referenced_true. destruct (decide (y = x)) as [->|Hne].
  - right. left. rewrite (m_hands _ _ _ _ M). apply (b_hand B).
  - right. right. left. apply (shape_nodes _ _ _ _ (m_shape _ _ _ _ M)) in Hy. inversion Hy as [|p c Hb Hc]; subst; [done|].
    destruct Hc as (ks & Hks & Hin). apply elem_of_list_lookup in Hin as [i Hi]. destruct i as [|i].
    + exists p. left. rewrite (rep_first _ _ (m_rep _ _ _ _ M) _ _ Hks). by destruct ks.
    + destruct (ks !! i) as [z|] eqn:Ez.
      * exists z. right. destruct (rep_linked _ _ (m_rep _ _ _ _ M) _ _ Hks i z Ez) as (_ & -> & _). done.
      * apply lookup_ge_None in Ez. apply lookup_lt_Some in Hi. lia.
Qed.

Definition opens (l : list (dft nid)) : list nid := omap (fun e => match e with Open y => Some y | Close _ => None end) l.
Lemma elem_opens l y : y ∈ opens l <-> Open y ∈ l.
Proof.
  unfold opens. rewrite elem_of_list_omap. split; [intros (e & He & E); destruct e; simplify_eq; done|intros H; by exists (Open y)].
Qed.

Lemma mid_ext s K D D' E : mid s K D E -> (forall y, y ∈ D <-> y ∈ D') -> mid s K D' E.
Proof.
  intros [M1 M2 M3 M4 M5 M6 M7 M8 M9 M10 M11 M12 M13 M14] H. split; try assumption.
  intros y Hy. rewrite (M5 y Hy). destruct (decide (y ∈ D)) as [Hd|Hd], (decide (y ∈ D')) as [Hd'|Hd']; try done; exfalso; [apply Hd'|apply Hd]; by apply H.
Qed.

Lemma loop_ok E : t' ∈ E -> forall rest pre e s K fuel, dfs_events ro = pre ++ e :: rest -> mid s K (opens pre) E -> length rest < fuel ->
  exists s' K', set_memberships fuel s E (Some (e, x)) t' = Ret (Some s') /\ mid s' K' (rose_nodes ro) E.
Proof.
  intros HE. induction rest as [|b rest IH]; intros pre e s K fuel Hev M Hf; (destruct fuel as [|fuel]; [lia|]); simpl.
  - assert (e = Close x) as ->.
    { pose proof (last_events ro) as X. rewrite Hev in X. rewrite last_snoc in X. rewrite (shape_root _ _ _ (m_shape _ _ _ _ M)) in X. congruence. }
    rewrite decide_True by done. simpl. exists s, K. split; [done|]. eapply mid_ext; [exact M|]. intros y. rewrite elem_opens. split.
    + intros Hy. assert (Open y ∈ dfs_events ro) as X by (rewrite Hev; apply elem_of_app; by left). by apply dfs_events_elem in X.
    + intros Hy. assert (Open y ∈ dfs_events ro) as X by (by apply dfs_events_elem). rewrite Hev in X.
      apply elem_of_app in X as [X|X]; [done|]. apply elem_of_list_singleton in X. done.
  - pose proof (shape_events_nodup _ _ _ (m_wf _ _ _ _ M) (m_shape _ _ _ _ M)) as Hnd.
    pose proof (shape_adj _ _ _ _ (m_rep _ _ _ _ M) (m_wf _ _ _ _ M) (m_shape _ _ _ _ M)) as Hadj.
    rewrite Hev in Hnd, Hadj. rewrite adj_app in Hadj. destruct Hadj as (_ & Hadj & _). rewrite adj_cons in Hadj. destruct Hadj as [Hadj _].
    destruct (Hadj b eq_refl) as [Hnext _].
    assert (e <> Close x) as Hne.
    { intros ->. pose proof (last_events ro) as X. rewrite Hev in X. rewrite (shape_root _ _ _ (m_shape _ _ _ _ M)) in X.
      apply NoDup_app in Hnd as (_ & _ & Hnd). apply NoDup_cons in Hnd as [Hnd _]. apply Hnd.
      rewrite last_app in X. change (last (Close x :: b :: rest)) with (last (b :: rest)) in X.
      destruct (last (b :: rest)) as [z|] eqn:El; [|destruct rest; [done|simpl in El; by rewrite last_cons in El; destruct (last rest)]].
      injection X as ->. by apply elem_of_last in El. }
    rewrite decide_False by done. rewrite dft_next_g, Hnext. simpl.
    assert (ev_val e ∈ rose_nodes ro) as Hve. { apply dfs_events_elem. rewrite Hev. apply elem_of_app. right. by left. }
    assert (ev_val b ∈ rose_nodes ro) as Hvb. { apply dfs_events_elem. rewrite Hev. apply elem_of_app. right. right. by left. }
    assert (exists s1 K1, (match e with Open y => set_tree_core s [y; ev_val b] E y t' | Close _ => Ret (Some s) end) = Ret (Some s1) /\ mid s1 K1 (opens (pre ++ [e])) E) as (s1 & K1 & Es1 & M1).
    { destruct e as [y|y].
      - destruct (mid_open s K (opens pre) E [y; ev_val b] y M HE) as (s1 & K1 & E1 & M1).
        + exact Hve.
        + rewrite elem_opens. intros Hy. apply NoDup_app in Hnd as (_ & Hnd & _). apply (Hnd _ Hy). by left.
        + intros z [->|[->|Hz]%elem_of_cons]%elem_of_cons; [exact Hve|exact Hvb|by apply elem_of_nil in Hz].
        + exists s1, K1. split; [done|]. eapply mid_ext; [exact M1|]. intros z. rewrite elem_of_cons, !elem_opens, elem_of_app, elem_of_list_singleton.
          split; [intros [->|?]; auto|intros [?|[= ->]]; auto].
      - exists s, K. split; [done|]. eapply mid_ext; [exact M|]. intros z. rewrite !elem_opens, elem_of_app, elem_of_list_singleton.
        split; [auto|intros [?|?]; done]. }
    assert ((match e with Open y => set_tree_core s (y :: [ev_val b]) E y t' | Close _ => Ret (Some s) end) = Ret (Some s1)) as -> by exact Es1.
    simpl. rewrite (mid_release s1 K1 _ E [ev_val b] (ev_val e) M1 Hve). simpl.
    eapply (IH (pre ++ [e])); [by rewrite Hev, <-app_assoc|exact M1|simpl in Hf; lia].
Qed.

Lemma set_subtree_ok tp : mid s0 K0 [] (t' :: tp) ->
  exists s' K', set_subtree_tree s0 tp x t' = Ret (Some s') /\ mid s' K' (rose_nodes ro) (t' :: tp).
Proof.
  intros M. pose proof (head_events ro) as Hh. rewrite (shape_root _ _ _ (m_shape _ _ _ _ M)) in Hh.
  destruct (dfs_events ro) as [|e rest] eqn:Eev; [done|]. injection Hh as ->.
  unfold set_subtree_tree. eapply (loop_ok (t' :: tp) (elem_of_list_here _ _) rest []); [done|exact M|].
  pose proof (dfs_events_length ro) as Hl. rewrite Eev in Hl. simpl in Hl.
  pose proof (nodes_length_le _ _ _ _ (m_rep _ _ _ _ M) (m_wf _ _ _ _ M) (m_shape _ _ _ _ M)). unfold dfs_fuel. lia.
Qed.

End Loop.
End SysFacts12.
