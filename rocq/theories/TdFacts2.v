(** * TdFacts2: dropping a tree core on a heap that stores a forest. *)
From Coq Require Import Wellfounded.
From Verif Require Import Heap System SysSpec HeapFacts SpecFacts NavFacts NavFacts2 EditFacts EditFacts2 EditFacts3 IterSpec RoseFacts TdFacts Spec.

Section Td2.
Context {T : Type}.
Implicit Types (h : heap T) (s : sys T).

Lemma rep_node h K x ks : rep h K -> K !! x = Some ks -> exists nd, h !! x = Some nd.
Proof. intros Hr Hx. apply (rep_dom _ _ Hr). eauto. Qed.

Lemma fnext_inv h K y v : rep h K -> wf K -> fnext h y = Some v ->
  exists p ks i, K !! p = Some ks /\ ks !! i = Some y /\ ks !! S i = Some v.
Proof.
  intros Hr Hw E. assert (is_Some (K !! y)) as Hy.
  { apply (rep_dom _ _ Hr). unfold fnext in E. destruct (h !! y); [eauto|done]. }
  destruct (top_or_child K y Hy) as [Ht|(p & ks & Hp & Hin)].
  - rewrite (fnext_top _ _ _ Hr Ht) in E. done.
  - apply elem_of_list_lookup in Hin as [i Hi]. exists p, ks, i. split_and!; [done|done|].
    destruct (rep_linked _ _ Hr _ _ Hp _ _ Hi) as (_ & E2 & _). by rewrite <-E2.
Qed.

Lemma ffirst_inv h K y v : rep h K -> ffirst h y = Some v ->
  exists ks, K !! y = Some ks /\ ks !! 0 = Some v.
Proof.
  intros Hr E. assert (is_Some (K !! y)) as [ks Hy].
  { apply (rep_dom _ _ Hr). unfold ffirst in E. destruct (h !! y); [eauto|done]. }
  exists ks. split; [done|]. rewrite (rep_first _ _ Hr _ _ Hy) in E. by rewrite <-head_lookup.
Qed.

Lemma rep_owned1 h K : rep h K -> wf K -> owned1 h.
Proof.
  intros Hr Hw. split_and!.
  - intros y1 y2 v E1 E2.
    destruct (fnext_inv _ _ _ _ Hr Hw E1) as (p & ks & i & Hp & Hi & Hv).
    destruct (fnext_inv _ _ _ _ Hr Hw E2) as (q & ks2 & j & Hq & Hj & Hv2).
    assert (p = q) as <-. { eapply (wf_uniq _ Hw); eapply child_intro; eauto using elem_of_list_lookup_2. }
    rewrite Hp in Hq. simplify_eq. pose proof (wf_nodup _ Hw _ _ Hp) as Hnd.
    pose proof (NoDup_lookup _ _ _ _ Hnd Hv Hv2). simplify_eq. congruence.
  - intros y1 y2 v E1 E2.
    destruct (ffirst_inv _ _ _ _ Hr E1) as (ks & Hp & Hi).
    destruct (ffirst_inv _ _ _ _ Hr E2) as (ks2 & Hq & Hj).
    eapply (wf_uniq _ Hw); eapply child_intro; eauto using elem_of_list_lookup_2.
  - intros y1 y2 v E1 E2.
    destruct (ffirst_inv _ _ _ _ Hr E1) as (ks & Hp & Hi).
    destruct (fnext_inv _ _ _ _ Hr Hw E2) as (q & ks2 & j & Hq & Hj & Hv2).
    assert (y1 = q) as <-. { eapply (wf_uniq _ Hw); eapply child_intro; eauto using elem_of_list_lookup_2. }
    rewrite Hp in Hq. simplify_eq.
    pose proof (NoDup_lookup _ _ _ _ (wf_nodup _ Hw _ _ Hp) Hi Hv2). done.
Qed.

Definition weak_node h x : Prop := exists nd m, h !! x = Some nd /\ n_mem nd = MWeak m.

Lemma shape_tds h K : rep h K -> wf K -> forall t x, shape K x t ->
  (forall y, y ∈ rose_nodes t -> weak_node h y) -> tds h (fparent h x) (fnext h x) t.
Proof.
  intros Hr Hw. induction t as [v ts IH] using rose_ind2. intros x Hs Hm.
  inversion Hs as [? ? Hk Hts]; subst. rewrite tds_unfold. split.
  - destruct (Hm v) as (nd & m & Hv & Hmem); [simpl; by left|]. exists nd, m. split; [done|].
    unfold fparent, fnext. rewrite Hv. simpl. split_and!; [done|done| |done].
    pose proof (rep_first _ _ Hr _ _ Hk) as E. unfold ffirst in E. by rewrite Hv in E.
  - assert (linked h v (map rose_root ts)) as Hl by (by apply (rep_linked _ _ Hr)).
    assert (forall pre suf, pre ++ suf = ts -> tdl h v suf) as H; [|by apply (H [])].
    intros pre suf. revert pre. induction suf as [|t suf IHs]; intros pre E; [done|]. simpl.
    assert (t ∈ ts) as Ht by (rewrite <-E; set_solver).
    split; [|apply (IHs (pre ++ [t])); by rewrite <-app_assoc].
    rewrite Forall_forall in IH, Hts. specialize (Hts _ Ht).
    assert (map rose_root ts !! length pre = Some (rose_root t)) as Hi.
    { rewrite <-E, map_app. simpl. apply list_lookup_middle. by rewrite map_length. }
    destruct (Hl _ _ Hi) as (E1 & E2 & _).
    assert (fnext h (rose_root t) = head (map rose_root suf)) as E2'.
    { rewrite E2, <-E, map_app. rewrite lookup_app_r by (rewrite map_length; lia).
      rewrite map_length. replace (S (length pre) - length pre) with 1 by lia. simpl. by destruct suf. }
    rewrite <-E1, <-E2'. apply IH; [done|done|]. intros y Hy. apply Hm. simpl. right.
    apply elem_of_concat_map. eauto.
Qed.

(** Nodes below [r] are gone, or isolated when pinned. *)
Definition swept h h' (K : forest) (r : nid) (pins : list nid) : Prop :=
  (forall y, ~ below K r y -> h' !! y = h !! y) /\
  (forall y, below K r y -> y ∉ pins -> h' !! y = None) /\
  (forall y, below K r y -> y ∈ pins -> exists nd nd', h !! y = Some nd /\ h' !! y = Some nd' /\
     n_first nd' = None /\ n_next nd' = None /\ n_mem nd' = n_mem nd).

Lemma nodes_length_le h K x t : rep h K -> wf K -> shape K x t -> length (rose_nodes t) <= size h.
Proof.
  intros Hr Hw Hs. rewrite (rep_size _ _ Hr).
  apply NoDup_dom_length; [by eapply shape_nodup|].
  intros y Hy. eapply below_alive; [done| |by eapply shape_nodes].
  inversion Hs; subst. eauto.
Qed.

Lemma drop_tree_ok s K r t tr pins tpins :
  rep (s_nodes s) K -> wf K -> is_top K r -> s_trees s !! t = Some tr -> t_root tr = r ->
  (forall y, below K r y -> weak_node (s_nodes s) y /\ (forall i k, s_hands s !! i <> Some (HNode k y)) /\
     (forall t2 tr2, s_trees s !! t2 = Some tr2 -> t_root tr2 = y -> t2 = t)) ->
  tree_referenced s tpins t = false ->
  exists h', drop_tree_if_dead pins tpins s t =
      Ret (mkSys h' (delete t (s_trees s)) (s_hands s) (s_fresh s)) /\
    swept (s_nodes s) h' K r pins.
Proof.
  intros Hr Hw Ht Htr Hroot Hq Href.
  destruct (shape_exists K r Hw) as [ro Hs]; [apply Ht|].
  pose proof (shape_root _ _ _ Hs) as Hrr. destruct ro as [r' ts]. simpl in Hrr. subst r'.
  pose proof (shape_nodup _ _ _ Hw Hs) as Hnd. simpl in Hnd. apply NoDup_cons in Hnd as [Hrn Hnd].
  pose proof (fun y => shape_nodes _ _ _ y Hs) as Hn. simpl in Hn.
  pose proof (nodes_length_le _ _ _ _ Hr Hw Hs) as Hlen. simpl in Hlen.
  assert (tds (s_nodes s) (fparent (s_nodes s) r) (fnext (s_nodes s) r) (Rose r ts)) as Htds.
  { eapply shape_tds; [done..|]. intros y Hy. apply Hq. by apply Hn. }
  rewrite tds_unfold in Htds. destruct Htds as [(nd & m & Hv & Hpar & Hnext & Hfirst & Hmem) Htl].
  destruct (rep_top _ _ Hr _ Ht) as (Tp & Tn & _). rewrite Tp in Hpar. rewrite Tn in Hnext.
  unfold drop_tree_if_dead. rewrite Htr, Href, Hroot.
  set (n := length (concat (map dfs_events ts))).
  assert (exists f, dfs_fuel (s_nodes s) = S (n + S f)) as [f ->].
  { assert (n = 2 * length (concat (map rose_nodes ts))) as En.
    { pose proof (dfs_events_length (Rose r ts)) as E. simpl in E. rewrite app_length in E. simpl in E. unfold n. lia. }
    exists (dfs_fuel (s_nodes s) - n - 2). unfold dfs_fuel. lia. }
  assert (ffirst (s_nodes s) r = head (map rose_root ts)) as Hf by (unfold ffirst; by rewrite Hv).
  destruct (td_kids s pins r ts (s_nodes s) (S f)) as (h1 & E1 & Ho1 & [Htn1 Htn2] & Hfo1 & Hr1);
    [apply Forall_forall; intros; apply td_rose|done|by eapply rep_owned1| |done|eauto|done|done|].
  { intros y Hy. destruct (Hq y) as (_ & H1 & H2); [apply Hn; by right|]. split; [done|].
    intros t2 tr2 Ht2 E. assert (t2 = t) as -> by eauto. rewrite Htr in Ht2. simplify_eq. done. }
  replace (with_nodes s (s_nodes s)) with s in E1 by (by destruct s).
  assert (teardown (S (n + S f)) pins s (Some (Open r)) = Ret (with_nodes s h1)) as ->.
  { change (teardown (S (n + S f)) pins s (Some (Open r))) with
      (teardown (n + S f) pins s (dft_next (s_nodes s) (Open r))).
    assert (dft_next (s_nodes s) (Open r) = Some (match head (map rose_root ts) with Some y => Open y | None => Close r end)) as ->.
    { simpl. unfold first_child_link. rewrite Hf. by destruct (head (map rose_root ts)). }
    unfold n. rewrite E1. destruct Hfo1 as (np & Hnp & Hnp1). rewrite Hv in Hnp. symmetry in Hnp. simplify_eq.
    cbn -[release_all]. unfold next_sibling_link, parent_link, fnext, fparent. rewrite Hnp1. simpl. rewrite Hnext, Hpar. simpl.
    rewrite release_noop.
    - simpl. by destruct f.
    - apply referenced_true. right; right; right. exists t, tr. done. }
  destruct Hfo1 as (np & Hnp & Hnp1). rewrite Hv in Hnp. symmetry in Hnp. simplify_eq.
  cbn -[release_all].
  set (s2 := with_trees (with_nodes s h1) (delete t (s_trees s))).
  assert (forall y, ~ below K (t_root tr) y -> h1 !! y = s_nodes s !! y) as Hout.
  { intros y Hy. apply Hr1; [|by intros ->; apply Hy; constructor]. intros Hy'. apply Hy, Hn. by right. }
  destruct (decide (t_root tr ∈ pins)) as [Hin|Hin].
  - rewrite release_noop by (apply referenced_true; by left).
    exists h1. split; [done|]. split_and!; [done| |].
    + intros y Hy Hyp. apply Hn in Hy. apply elem_of_cons in Hy as [->|Hy]; [done|by apply Htn1].
    + intros y Hy Hyp. apply Hn in Hy. apply elem_of_cons in Hy as [->|Hy]; [|by apply Htn2].
      exists nd. eexists. split; [done|]. split; [exact Hnp1|]. done.
  - erewrite (release_free s2 _ (t_root tr)); [|exact Hnp1| |done|done|exact Hmem].
    + exists (delete (t_root tr) h1). split; [done|]. split_and!.
      * intros y Hy. rewrite lookup_delete_ne; [by apply Hout|]. intros E. apply Hy. rewrite <-E. constructor.
      * intros y Hy Hyp. destruct (decide (y = t_root tr)) as [->|]; [apply lookup_delete|].
        rewrite lookup_delete_ne by done. apply Hn in Hy. apply elem_of_cons in Hy as [->|Hy]; [done|by apply Htn1].
      * intros y Hy Hyp. assert (y <> t_root tr) by (by intros ->). rewrite lookup_delete_ne by done.
        apply Hn in Hy. apply elem_of_cons in Hy as [->|Hy]; [done|by apply Htn2].
    + assert (forall y nd', h1 !! y = Some nd' -> n_first nd' <> Some (t_root tr) /\ n_next nd' <> Some (t_root tr)) as Hno.
      { intros y nd' Hy. destruct (decide (y = t_root tr)) as [->|Hyr].
        { rewrite Hnp1 in Hy. simplify_eq. simpl. rewrite Hnext. done. }
        destruct (decide (y ∈ concat (map rose_nodes ts))) as [Hi|Hi].
        { destruct (decide (y ∈ pins)) as [Hp|Hp].
          - destruct (Htn2 _ Hi Hp) as (a & b & _ & A2 & A3 & A4 & _). rewrite Hy in A2. simplify_eq. rewrite A3, A4. done.
          - rewrite (Htn1 _ Hi Hp) in Hy. done. }
        rewrite Hr1 in Hy by done. split; intros E.
        - assert (ffirst (s_nodes s) y = Some (t_root tr)) as E' by (unfold ffirst; by rewrite Hy).
          destruct (ffirst_inv _ _ _ _ Hr E') as (ks & Hk & Hi0). eapply (proj2 Ht).
          eapply child_intro; [exact Hk|]. by eapply elem_of_list_lookup_2.
        - assert (fnext (s_nodes s) y = Some (t_root tr)) as E' by (unfold fnext; by rewrite Hy).
          destruct (fnext_inv _ _ _ _ Hr Hw E') as (p & ks & i & Hk & _ & Hi0). eapply (proj2 Ht).
          eapply child_intro; [exact Hk|]. by eapply elem_of_list_lookup_2. }
      apply referenced_false; [done| | |].
      * destruct (Hq (t_root tr)) as (_ & H1 & H2); [constructor|]. split; [done|].
        intros t2 tr2. simpl. rewrite lookup_delete_Some. intros [Hne Ht2] E. apply Hne. symmetry. by eapply H2.
      * intros y. simpl. rewrite field_first. intros (nd' & Hy & E). by destruct (Hno _ _ Hy).
      * intros y. simpl. rewrite field_next. intros (nd' & Hy & E). by destruct (Hno _ _ Hy).
Qed.

(** ** The forest without one of its trees *)
Definition prune (K : forest) (L : list nid) : forest := filter (fun kv => kv.1 ∉ L) K.

Lemma prune_lookup K L x : prune K L !! x = if decide (x ∈ L) then None else K !! x.
Proof.
  unfold prune. destruct (decide (x ∈ L)) as [H|H].
  - apply map_filter_lookup_None. right. intros ks Hk. simpl. intros Hn. done.
  - destruct (K !! x) as [ks|] eqn:E.
    + apply map_filter_lookup_Some. done.
    + apply map_filter_lookup_None. by left.
Qed.

Lemma prune_child K L p c : child_of (prune K L) p c <-> p ∉ L /\ child_of K p c.
Proof.
  unfold child_of. setoid_rewrite prune_lookup. destruct (decide (p ∈ L)); naive_solver.
Qed.

Lemma prune_below K L r : wf K -> is_top K r -> (forall y, y ∈ L <-> below K r y) ->
  forall a x, a ∉ L -> (below (prune K L) a x <-> below K a x).
Proof.
  intros Hw Ht HL a x Ha. split.
  - intros H. induction H as [|p c H IH Hc]; [constructor|]. apply prune_child in Hc as [_ Hc].
    by eapply below_step.
  - intros H. induction H as [|p c H IH Hc]; [constructor|]. eapply below_step; [done|].
    apply prune_child. split; [|done]. intros Hp. apply Ha, HL. apply HL in Hp.
    destruct (below_linear _ _ _ _ Hw Hp H) as [H1|H1]; [done|].
    destruct (below_parent_inv _ _ _ H1) as [->|(q & Hq & _)]; [constructor|]. by apply Ht in Hq.
Qed.

Lemma prune_wf K L r : wf K -> is_top K r -> (forall y, y ∈ L <-> below K r y) -> wf (prune K L).
Proof.
  intros Hw Ht HL. split.
  - intros p c. rewrite prune_child. intros [Hp Hc]. rewrite prune_lookup. rewrite decide_False; [by eapply wf_dom|].
    intros Hcl. apply HL in Hcl. destruct (below_parent_inv _ _ _ Hcl) as [->|(q & Hq & Hb)]; [by apply Ht in Hc|].
    apply Hp, HL. by rewrite (wf_uniq _ Hw _ _ _ Hc Hq).
  - intros p ks. rewrite prune_lookup. destruct (decide (p ∈ L)); [done|]. by apply wf_nodup.
  - intros p q c. rewrite !prune_child. intros [_ H1] [_ H2]. by eapply wf_uniq.
  - eapply (wf_incl _ _ (fun c p => child_of K p c)); [|by apply wf_acyclic].
    intros c p. rewrite prune_child. tauto.
Qed.

Lemma prune_top K L r x : wf K -> is_top K r -> (forall y, y ∈ L <-> below K r y) ->
  (is_top (prune K L) x <-> x ∉ L /\ is_top K x).
Proof.
  intros Hw Ht HL. unfold is_top. setoid_rewrite prune_child. rewrite prune_lookup.
  destruct (decide (x ∈ L)) as [H|H].
  { split; [intros [[? ?] _]; done|naive_solver]. }
  split.
  - intros [H1 H2]. split_and!; [done|done|]. intros p Hp. apply (H2 p). split; [|done].
    intros Hpl. apply H, HL. apply HL in Hpl. by eapply below_step.
  - intros [_ [H1 H2]]. split; [done|]. naive_solver.
Qed.

Lemma prune_rep h h' K L r : rep h K -> wf K -> is_top K r -> (forall y, y ∈ L <-> below K r y) ->
  (forall y, y ∉ L -> h' !! y = h !! y) -> (forall y, y ∈ L -> h' !! y = None) -> rep h' (prune K L).
Proof.
  intros Hr Hw Ht HL Ho Hi.
  assert (forall y, y ∉ L -> ffirst h' y = ffirst h y /\ fnch h' y = fnch h y /\ fparent h' y = fparent h y /\
     fnext h' y = fnext h y /\ fprev h' y = fprev h y) as Hf.
  { intros y Hy. unfold ffirst, fnch, fparent, fnext, fprev. by rewrite Ho. }
  split.
  - intros x. rewrite prune_lookup. destruct (decide (x ∈ L)) as [Hx|Hx].
    + rewrite Hi by done. split; intros [? ?]; done.
    + rewrite Ho by done. apply (rep_dom _ _ Hr).
  - intros x ks. rewrite prune_lookup. destruct (decide (x ∈ L)) as [Hx|Hx]; [done|]. intros E.
    rewrite (proj1 (Hf _ Hx)). by apply (rep_first _ _ Hr).
  - intros x ks. rewrite prune_lookup. destruct (decide (x ∈ L)) as [Hx|Hx]; [done|]. intros E.
    destruct (Hf _ Hx) as (_ & -> & _). by apply (rep_nch _ _ Hr).
  - intros x ks. rewrite prune_lookup. destruct (decide (x ∈ L)) as [Hx|Hx]; [done|]. intros E i c Hc.
    assert (c ∉ L) as Hcl.
    { intros Hcl. apply HL in Hcl. assert (child_of K x c) as Hxc by (eapply child_intro; [exact E|]; by eapply elem_of_list_lookup_2).
      destruct (below_parent_inv _ _ _ Hcl) as [->|(q & Hq & Hb)]; [by apply Ht in Hxc|].
      apply Hx, HL. by rewrite (wf_uniq _ Hw _ _ _ Hxc Hq). }
    destruct (Hf _ Hcl) as (_ & _ & -> & -> & ->). by apply (rep_linked _ _ Hr _ _ E).
  - intros x. rewrite (prune_top _ _ _ _ Hw Ht HL). intros [Hx Hxt].
    destruct (Hf _ Hx) as (_ & _ & -> & -> & ->). by apply (rep_top _ _ Hr).
Qed.

End Td2.
