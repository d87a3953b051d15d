(** * TearFacts: the tree destructor when some of the nodes stay (they are pinned, or the user holds them). *)
From Verif Require Import Heap System SysSpec HeapFacts SpecFacts NavFacts NavFacts2 EditFacts EditFacts2 EditFacts3 IterSpec RoseFacts TdFacts TdFacts2 Spec.

Section Tear.
Context {T : Type}.
Implicit Types (h : heap T) (s : sys T).

(** What the destructor leaves of a node that stays. *)
Definition bare (nd : node T) : node T :=
  mkNode (n_data nd) (n_lend nd) (n_parent nd) None None (n_prev nd) (n_nch nd) (n_mem nd).

(** A subtree in the heap, as the destructor sees it. *)
Fixpoint tears h (p : option nid) (nx : option nid) (t : rose nid) {struct t} : Prop :=
  match t with
  | Rose v ts =>
      (exists nd, h !! v = Some nd /\ n_parent nd = p /\ n_next nd = nx /\
         n_first nd = head (map rose_root ts)) /\
      (fix go ts := match ts with
       | [] => True
       | t :: ts' => tears h (Some v) (head (map rose_root ts')) t /\ go ts'
       end) ts
  end.
Fixpoint tearl h (v : nid) (ts : list (rose nid)) : Prop :=
  match ts with
  | [] => True
  | t :: ts' => tears h (Some v) (head (map rose_root ts')) t /\ tearl h v ts'
  end.

Lemma tears_unfold h p nx v ts : tears h p nx (Rose v ts) <->
  (exists nd, h !! v = Some nd /\ n_parent nd = p /\ n_next nd = nx /\
     n_first nd = head (map rose_root ts)) /\ tearl h v ts.
Proof.
  simpl. assert (forall l, (fix go ts := match ts with
       | [] => True
       | t :: ts' => tears h (Some v) (head (map rose_root ts')) t /\ go ts'
       end) l <-> tearl h v l) as E; [|by rewrite E].
  induction l as [|a l IH]; simpl; [done|]. by rewrite IH.
Qed.

Lemma tears_frame h h' : forall t p nx, tears h p nx t -> (forall y, y ∈ rose_nodes t -> h' !! y = h !! y) -> tears h' p nx t.
Proof.
  induction t as [v ts IH] using rose_ind2. intros p nx H Hf.
  rewrite tears_unfold in H |- *. destruct H as [(nd & H1 & H2) H3].
  split. { exists nd. split; [|done]. rewrite Hf; [done|]. simpl. by left. }
  assert (forall y, y ∈ concat (map rose_nodes ts) -> h' !! y = h !! y) as Hf'.
  { intros y Hy. apply Hf. simpl. by right. }
  clear -IH H3 Hf'. induction ts as [|t ts IHl]; [done|]. simpl in *.
  inversion IH; subst. destruct H3 as [H3 H4]. split.
  - apply H1; [done|]. intros y Hy. apply Hf'. set_solver.
  - apply IHl; [done..|]. intros y Hy. apply Hf'. set_solver.
Qed.

Lemma tearl_frame h h' v ts : tearl h v ts -> (forall y, y ∈ concat (map rose_nodes ts) -> h' !! y = h !! y) -> tearl h' v ts.
Proof.
  induction ts as [|t ts IH]; [done|]. simpl. intros [H1 H2] Hf. split.
  - eapply tears_frame; [done|]. intros y Hy. apply Hf. set_solver.
  - apply IH; [done|]. intros y Hy. apply Hf. set_solver.
Qed.

Lemma shape_tears h K : rep h K -> wf K -> forall t x, shape K x t -> tears h (fparent h x) (fnext h x) t.
Proof.
  intros Hr Hw. induction t as [v ts IH] using rose_ind2. intros x Hs.
  inversion Hs as [? ? Hk Hts]; subst. rewrite tears_unfold. split.
  - destruct (rep_node _ _ _ _ Hr Hk) as [nd Hv]. exists nd. split; [done|].
    unfold fparent, fnext. rewrite Hv. simpl. split_and!; [done|done|].
    pose proof (rep_first _ _ Hr _ _ Hk) as E. unfold ffirst in E. by rewrite Hv in E.
  - assert (linked h v (map rose_root ts)) as Hl by (by apply (rep_linked _ _ Hr)).
    assert (forall pre suf, pre ++ suf = ts -> tearl h v suf) as H; [|by apply (H [])].
    intros pre suf. revert pre. induction suf as [|t suf IHs]; intros pre E; [done|]. simpl.
    assert (t ∈ ts) as Ht by (rewrite <-E; set_solver).
    split; [|apply (IHs (pre ++ [t])); by rewrite <-app_assoc].
    rewrite Forall_forall in IH, Hts. specialize (Hts _ Ht).
    assert (map rose_root ts !! length pre = Some (rose_root t)) as Hi.
    { rewrite <-E, map_app. simpl. apply list_lookup_middle. by rewrite map_length. }
    destruct (Hl _ _ Hi) as (E1 & E2 & _).
    assert (fnext h (rose_root t) = head (map rose_root suf)) as E2'.
    { rewrite E2, <-E, map_app. rewrite lookup_app_r by (rewrite map_length; lia).
      rewrite map_length. replace (S (length pre) - length pre) with 1 by lia. simpl. by destruct suf. }
    rewrite <-E1, <-E2'. apply IH; [done|done].
Qed.

Section Walk.
Context (s : sys T) (pins L : list nid).
Hypothesis (HL : forall v, v ∈ L -> v ∈ pins \/ exists i k, s_hands s !! i = Some (HNode k v)).

(** A node that goes is kept by nothing. *)
Definition goes h (v : nid) : Prop := v ∉ pins /\ unheld s v /\ weak_node h v.

Lemma goes_frame h h' v : h' !! v = h !! v -> goes h v -> goes h' v.
Proof. intros E (A & B & C). split; [done|]. split; [done|]. unfold weak_node. by rewrite E. Qed.

Lemma tear_close h v p nd fuel :
  owned1 h -> h !! v = Some nd -> n_parent nd = Some p -> n_first nd = None -> (v ∉ L -> goes h v) ->
  ffirst h p = Some v -> p <> v -> n_next nd <> Some v ->
  teardown (S fuel) pins (with_nodes s h) (Some (Close v)) =
  teardown fuel pins (with_nodes s (cut h L v p (n_next nd)))
    (Some (match n_next nd with Some y => Open y | None => Close p end)).
Proof.
  intros Ho Hv Hp Hf Hg Hpv Hne Hnx.
  assert (is_Some (h !! p)) as [np Hnp] by (unfold ffirst in Hpv; destruct (h !! p); [eauto|done]).
  assert (alive h p = true) as Hap by (unfold alive; apply bool_decide_eq_true; eauto).
  assert (fnext h v = n_next nd) as Hfn by (unfold fnext; by rewrite Hv).
  assert (parent_link h v = Some p) as Hpl.
  { unfold parent_link, fparent. rewrite Hv. simpl. rewrite Hp. simpl. by rewrite Hap. }
  set (nxt := match n_next nd with Some y => Open y | None => Close p end).
  assert (dft_next h (Close v) = Some nxt) as Hdn.
  { simpl. unfold next_sibling_link. rewrite Hfn, Hpl. unfold nxt. by destruct (n_next nd). }
  cbn -[release_all dft_next]. rewrite Hdn, Hpl, Hfn.
  assert (ffirst (set_next h v None) p = Some v) as -> by (hs; done).
  rewrite release_noop by (apply referenced_true; left; simpl; set_solver). cbn -[release_all].
  set (h2 := set_first (set_next h v None) p (n_next nd)).
  assert (v <> ev_val nxt) as Hvn. { unfold nxt. destruct (n_next nd); simpl; congruence. }
  unfold cut. fold h2. destruct (decide (v ∈ L)) as [Hin|Hin].
  - rewrite release_noop; [done|]. apply referenced_true. destruct (HL v Hin) as [Hp1|Hh]; [left; set_solver|]. right. left. exact Hh.
  - destruct (Hg Hin) as (Hvp & Hu & (nd0 & m & Hv0 & Hm)). assert (nd0 = nd) as -> by congruence.
    assert (exists nd2, h2 !! v = Some nd2 /\ n_first nd2 = None /\ n_next nd2 = None /\ n_mem nd2 = MWeak m) as (nd2 & E2 & E3 & E4 & E5).
    { unfold h2, set_first, set_next. rewrite lookup_alter_ne, lookup_alter by done. rewrite Hv. simpl. eexists; split_and!; [done|..]; done. }
    erewrite (release_free _ _ v nd2 m); [done|exact E2| |done..].
    apply referenced_false; [set_solver| | |].
    + split; [apply Hu|apply Hu].
    + intros y. simpl. unfold h2. rewrite ffirst_set_first, ffirst_set_next.
      destruct (decide (y = p)) as [->|Hyp]; [rewrite alive_set_next, Hap; done|].
      intros E. destruct Ho as (_ & B & _). apply Hyp. by apply (B _ _ _ E Hpv).
    + intros y. simpl. unfold h2. rewrite fnext_set_first, fnext_set_next.
      destruct (decide (y = v)) as [->|Hyv]; [by destruct (alive h v)|].
      intros E. destruct Ho as (_ & _ & C). by eapply C.
Qed.

(** Result of tearing down the subtrees with nodes [N]. *)
Definition ripped h h' (N : list nid) : Prop :=
  (forall y, y ∈ N -> y ∉ L -> h' !! y = None) /\
  (forall y, y ∈ N -> y ∈ L -> h' !! y = bare <$> h !! y).

Definition tear_ok (t : rose nid) : Prop := forall h p nx fuel,
  tears h (Some p) nx t -> owned1 h -> (forall y, y ∈ rose_nodes t -> y ∉ L -> goes h y) ->
  ffirst h p = Some (rose_root t) -> p ∉ rose_nodes t -> NoDup (rose_nodes t) ->
  (forall y, nx = Some y -> y ∉ rose_nodes t) ->
  exists h', teardown (turns t + fuel) pins (with_nodes s h) (Some (Open (rose_root t))) =
    teardown fuel pins (with_nodes s h') (Some (match nx with Some y => Open y | None => Close p end)) /\
    owned1 h' /\ ripped h h' (rose_nodes t) /\ first_only h h' p nx /\
    (forall y, y ∉ rose_nodes t -> y <> p -> h' !! y = h !! y).

Lemma tear_kids v ts : forall h fuel, Forall tear_ok ts ->
  tearl h v ts -> owned1 h -> (forall y, y ∈ concat (map rose_nodes ts) -> y ∉ L -> goes h y) ->
  ffirst h v = head (map rose_root ts) -> is_Some (h !! v) -> v ∉ concat (map rose_nodes ts) ->
  NoDup (concat (map rose_nodes ts)) ->
  exists h', teardown (length (concat (map dfs_events ts)) + fuel) pins (with_nodes s h)
      (Some (match head (map rose_root ts) with Some y => Open y | None => Close v end)) =
    teardown fuel pins (with_nodes s h') (Some (Close v)) /\
    owned1 h' /\ ripped h h' (concat (map rose_nodes ts)) /\ first_only h h' v None /\
    (forall y, y ∉ concat (map rose_nodes ts) -> y <> v -> h' !! y = h !! y).
Proof.
  induction ts as [|t ts IHl]; intros h fuel HF Htl Ho Hu Hf Hv Hvn Hnd.
    { exists h. split_and!; [done|done|split; set_solver| |done].
      destruct Hv as [nd Hv]. exists nd. split; [done|]. unfold ffirst in Hf. rewrite Hv in Hf. simpl in Hf.
      rewrite Hv. f_equal. destruct nd; simpl in *; congruence. }
    inversion HF as [|? ? Ht HF']; subst. simpl in Htl, Hu, Hf, Hvn, Hnd |- *.
    destruct Htl as [Ht1 Htl]. apply NoDup_app in Hnd as (Hnd1 & Hdis & Hnd2).
    rewrite app_length, <-Nat.add_assoc.
    destruct (Ht h v (head (map rose_root ts)) (length (concat (map dfs_events ts)) + fuel)) as (h1 & E1 & Ho1 & Htn1 & Hfo1 & Hr1); [done|done| |done|set_solver|done| |].
    { intros y Hy. apply Hu. set_solver. }
    { intros y Hy Hy'. apply (Hdis _ Hy'). destruct ts as [|t2 ts]; simplify_eq/=. destruct t2; simpl in *. simplify_eq. set_solver. }
    rewrite E1.
    destruct Hfo1 as (nv & Hnv & Hnv1).
    destruct (IHl h1 fuel) as (h2 & E2 & Ho2 & Htn2 & Hfo2 & Hr2); [done| |done| | | | |done|].
    { eapply tearl_frame; [done|]. intros y Hy. apply Hr1; [intros Hy'; by apply (Hdis _ Hy')|]. intros ->. set_solver. }
    { intros y Hy HyL. apply (goes_frame h h1); [|apply Hu; [set_solver|done]]. apply Hr1; [intros Hy'; by apply (Hdis _ Hy')|]. intros ->. set_solver. }
    { unfold ffirst. by rewrite Hnv1. }
    { eauto. }
    { set_solver. }
    exists h2. split; [exact E2|]. split; [done|]. split_and!.
    - destruct Htn1 as [P1 P2], Htn2 as [Q1 Q2]. split.
      + intros y Hy Hpin. apply elem_of_app in Hy as [Hy|Hy]; [|by apply Q1].
        rewrite Hr2; [by apply P1|by apply Hdis|]. intros ->. set_solver.
      + intros y Hy Hpin. apply elem_of_app in Hy as [Hy|Hy].
        * rewrite Hr2; [by apply P2|by apply Hdis|]. intros ->. set_solver.
        * rewrite (Q2 _ Hy Hpin). f_equal. apply Hr1; [intros Hy'; by apply (Hdis _ Hy')|]. intros ->. set_solver.
    - destruct Hfo2 as (nv2 & A1 & A2). rewrite Hnv1 in A1. simplify_eq. exists nv. split; [done|]. rewrite A2. done.
    - intros y Hy Hyv. rewrite Hr2, Hr1; [done|set_solver|done|set_solver|done]. 
Qed.

Lemma tear_rose t : tear_ok t.
Proof.
  induction t as [v ts IH] using rose_ind2. intros h p nx fuel Ht Ho Hu Hpv Hp Hnd Hnx.
  rewrite tears_unfold in Ht. destruct Ht as [(nd & Hv & Hpar & Hnext & Hfirst) Htl].
  simpl in Hpv, Hp, Hnd, Hnx, Hu |- *. apply NoDup_cons in Hnd as [Hvn Hnd].
  assert (p <> v) as Hpv' by set_solver.
  rewrite app_length. simpl. rewrite <-Nat.add_assoc. simpl.
  assert (ffirst h v = head (map rose_root ts)) as Hfv by (unfold ffirst; by rewrite Hv).
  assert (dft_next h (Open v) = Some (match head (map rose_root ts) with Some y => Open y | None => Close v end)) as Hdn.
  { simpl. unfold first_child_link. rewrite Hfv. by destruct (head (map rose_root ts)). }
  destruct (tear_kids v ts h (S fuel) IH Htl Ho) as (h1 & E1 & Ho1 & Htn1 & Hfo1 & Hr1); [|done|eauto|done|done|].
  { intros y Hy. apply Hu. by right. }
  cbn in Hdn. rewrite Hdn, E1. clear IH E1 Hdn.
  destruct Hfo1 as (nv & Hnv & Hnv1). rewrite Hv in Hnv. symmetry in Hnv. simplify_eq.
  assert (p ∉ concat (map rose_nodes ts)) as Hpc by set_solver.
  assert (h1 !! p = h !! p) as Hp1 by (by apply Hr1).
  erewrite (tear_close h1 v p _ fuel Ho1 Hnv1); [|done|done| | |done|].
  2: { intros HvL. destruct (Hu v ltac:(by left) HvL) as (A & B & (nd0 & m & Hv0 & Hm)). assert (nd0 = nd) as -> by congruence.
       split; [done|]. split; [done|]. eexists _, m. split; [exact Hnv1|]. done. }
  2: { unfold ffirst in *. by rewrite Hp1. }
  2: { simpl. intros E. apply (Hnx v E). by left. }
  simpl. eexists. split; [done|].
  assert (fnext h1 v = n_next nd) as Hfn1 by (unfold fnext; by rewrite Hnv1).
  split_and!.
  - rewrite <-Hfn1. apply owned1_cut; [done| |eauto]. unfold ffirst in *. by rewrite Hp1.
  - destruct Htn1 as [P1 P2]. split.
    + intros y Hy Hpin. apply elem_of_cons in Hy as [->|Hy].
      { unfold cut. rewrite decide_False by done. apply lookup_delete. }
      rewrite cut_other; [by apply P1|by intros ->|by intros ->].
    + intros y Hy Hpin. apply elem_of_cons in Hy as [->|Hy].
      { unfold cut. rewrite decide_True by done. rewrite Hv.
        unfold set_first, set_next. rewrite lookup_alter_ne, lookup_alter, Hnv1 by done. simpl. done. }
      rewrite cut_other; [by apply P2|by intros ->|by intros ->].
  - unfold ffirst in Hpv. destruct (h !! p) as [np|] eqn:Hnp; [|done]. exists np. split; [done|].
    unfold cut. destruct (decide (v ∈ L)).
    + unfold set_first, set_next. rewrite lookup_alter, lookup_alter_ne, Hp1 by done. done.
    + rewrite lookup_delete_ne by done. unfold set_first, set_next. rewrite lookup_alter, lookup_alter_ne, Hp1 by done. done.
  - intros y Hy Hyp. apply not_elem_of_cons in Hy as [Hy1 Hy2]. rewrite cut_other by done. by apply Hr1.
Qed.
End Walk.

(** The root stays. *)
Lemma tear_tree s K r t tr pins tpins (L : list nid) :
  rep (s_nodes s) K -> wf K -> is_top K r -> s_trees s !! t = Some tr -> t_root tr = r ->
  (forall v, v ∈ L -> v ∈ pins \/ exists i k, s_hands s !! i = Some (HNode k v)) ->
  (forall y, below K r y -> y ∉ L -> goes s pins (s_nodes s) y) -> r ∈ L ->
  tree_referenced s tpins t = false ->
  exists h', drop_tree_if_dead pins tpins s t = Ret (mkSys h' (delete t (s_trees s)) (s_hands s) (s_fresh s)) /\
    (forall y, ~ below K r y -> h' !! y = s_nodes s !! y) /\
    (forall y, below K r y -> y ∉ L -> h' !! y = None) /\
    (forall y, below K r y -> y ∈ L -> h' !! y = bare <$> s_nodes s !! y).
Proof.
  intros Hr Hw Ht Htr Hroot HL Hq HrL Href.
  destruct (shape_exists K r Hw) as [ro Hs]; [apply Ht|].
  pose proof (shape_root _ _ _ Hs) as Hrr. destruct ro as [r' ts]. simpl in Hrr. subst r'.
  pose proof (shape_nodup _ _ _ Hw Hs) as Hnd. simpl in Hnd. apply NoDup_cons in Hnd as [Hrn Hnd].
  pose proof (fun y => shape_nodes _ _ _ y Hs) as Hn. simpl in Hn.
  pose proof (nodes_length_le _ _ _ _ Hr Hw Hs) as Hlen. simpl in Hlen.
  pose proof (shape_tears (s_nodes s) K Hr Hw _ _ Hs) as Htds.
  rewrite tears_unfold in Htds. destruct Htds as [(nd & Hv & Hpar & Hnext & Hfirst) Htl].
  destruct (rep_top _ _ Hr _ Ht) as (Tp & Tn & _). rewrite Tp in Hpar. rewrite Tn in Hnext.
  unfold drop_tree_if_dead. rewrite Htr, Href, Hroot.
  set (n := length (concat (map dfs_events ts))).
  assert (exists f, dfs_fuel (s_nodes s) = S (n + S f)) as [f ->].
  { assert (n = 2 * length (concat (map rose_nodes ts))) as En.
    { pose proof (dfs_events_length (Rose r ts)) as E. simpl in E. rewrite app_length in E. simpl in E. unfold n. lia. }
    exists (dfs_fuel (s_nodes s) - n - 2). unfold dfs_fuel. lia. }
  assert (ffirst (s_nodes s) r = head (map rose_root ts)) as Hf by (unfold ffirst; by rewrite Hv).
  destruct (tear_kids s pins L HL r ts (s_nodes s) (S f)) as (h1 & E1 & Ho1 & [Htn1 Htn2] & Hfo1 & Hr1);
    [apply Forall_forall; intros; by apply tear_rose|done|by eapply rep_owned1| |done|eauto|done|done|].
  { intros y Hy. apply Hq, Hn. by right. }
  replace (with_nodes s (s_nodes s)) with s in E1 by (by destruct s).
  assert (teardown (S (n + S f)) pins s (Some (Open r)) = Ret (with_nodes s h1)) as ->.
  { change (teardown (S (n + S f)) pins s (Some (Open r))) with
      (teardown (n + S f) pins s (dft_next (s_nodes s) (Open r))).
    assert (dft_next (s_nodes s) (Open r) = Some (match head (map rose_root ts) with Some y => Open y | None => Close r end)) as ->.
    { simpl. unfold first_child_link. rewrite Hf. by destruct (head (map rose_root ts)). }
    unfold n. rewrite E1. destruct Hfo1 as (np & Hnp & Hnp1). rewrite Hv in Hnp. symmetry in Hnp. simplify_eq.
    cbn -[release_all]. unfold next_sibling_link, parent_link, fnext, fparent. rewrite Hnp1. simpl. rewrite Hnext, Hpar. simpl.
    rewrite release_noop.
    - simpl. by destruct f.
    - apply referenced_true. right; right; right. exists t, tr. done. }
  destruct Hfo1 as (np & Hnp & Hnp1). rewrite Hv in Hnp. symmetry in Hnp. simplify_eq.
  cbn -[release_all].
  rewrite release_noop.
  2:{ apply referenced_true. destruct (HL _ HrL) as [?|?]; [by left|by right; left]. }
  exists h1. split; [done|]. split_and!.
  - intros y Hy. apply Hr1; [|by intros ->; apply Hy; constructor]. intros Hy'. apply Hy, Hn. by right.
  - intros y Hy Hyp. apply Hn in Hy. apply elem_of_cons in Hy as [->|Hy]; [done|by apply Htn1].
  - intros y Hy Hyp. apply Hn in Hy. apply elem_of_cons in Hy as [->|Hy]; [|by apply Htn2].
    rewrite Hv, Hnp1. simpl. unfold bare. by rewrite Hnext.
Qed.
End Tear.
