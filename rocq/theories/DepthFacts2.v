(** * DepthFacts2: tearing a tree down nests no destructors. *)
From Verif Require Import Heap System SysSpec HeapFacts SpecFacts NavFacts NavFacts2 EditFacts EditFacts2 EditFacts3 IterSpec RoseFacts TdFacts TdFacts2 Depth DepthFacts Spec.

Section DepthFacts2.
Context {T : Type} (n : nat).
Implicit Types (h : heap T) (s : sys T).

Section Walk.
Context (s : sys T) (pins : list nid).

Lemma with_nodes_nodes h : s_nodes (with_nodes s h) = h.
Proof. done. Qed.

Lemma upto_close_turn h v p nd m fuel :
  owned1 h -> unheld s v -> h !! v = Some nd -> n_parent nd = Some p -> n_first nd = None -> n_mem nd = MWeak m ->
  ffirst h p = Some v -> p <> v -> n_next nd <> Some v ->
  teardown_upto (S n) (S fuel) pins (with_nodes s h) (Some (Close v)) =
  teardown_upto (S n) fuel pins (with_nodes s (cut h pins v p (n_next nd)))
    (Some (match n_next nd with Some y => Open y | None => Close p end)).
Proof.
  intros Ho Hu Hv Hp Hf Hm Hpv Hne Hnx.
  assert (is_Some (h !! p)) as [np Hnp] by (unfold ffirst in Hpv; destruct (h !! p); [eauto|done]).
  assert (alive h p = true) as Hap by (unfold alive; apply bool_decide_eq_true; eauto).
  assert (fnext h v = n_next nd) as Hfn by (unfold fnext; by rewrite Hv).
  assert (parent_link h v = Some p) as Hpl.
  { unfold parent_link, fparent. rewrite Hv. simpl. rewrite Hp. simpl. by rewrite Hap. }
  set (nxt := match n_next nd with Some y => Open y | None => Close p end).
  assert (dft_next h (Close v) = Some nxt) as Hdn.
  { simpl. unfold next_sibling_link. rewrite Hfn, Hpl. unfold nxt. by destruct (n_next nd). }
  cbn -[Nat.min release_upto dft_next]. rewrite Hdn, Hpl, Hfn.
  assert (ffirst (set_next h v None) p = Some v) as -> by (hs; done).
  rewrite upto_noop by (apply referenced_true; left; simpl; set_solver). cbn -[Nat.min release_upto].
  set (h2 := set_first (set_next h v None) p (n_next nd)).
  assert (v <> ev_val nxt) as Hvn. { unfold nxt. destruct (n_next nd); simpl; congruence. }
  unfold cut. fold h2. destruct (decide (v ∈ pins)) as [Hin|Hin].
  - rewrite upto_noop; [done|]. apply referenced_true. left. set_solver.
  - assert (exists nd2, h2 !! v = Some nd2 /\ n_first nd2 = None /\ n_next nd2 = None /\ n_mem nd2 = MWeak m) as (nd2 & E2 & E3 & E4 & E5).
    { unfold h2, set_first, set_next. rewrite lookup_alter_ne, lookup_alter by done. rewrite Hv. simpl. eexists; split_and!; [done|..]; done. }
    erewrite (upto_free n _ _ v nd2 m); [done|exact E2| |done..].
    apply referenced_false; [set_solver| | |].
    + split; [apply Hu|apply Hu].
    + intros y. simpl. unfold h2. rewrite ffirst_set_first, ffirst_set_next.
      destruct (decide (y = p)) as [->|Hyp]; [rewrite alive_set_next, Hap; done|].
      intros E. destruct Ho as (_ & B & _). apply Hyp. by apply (B _ _ _ E Hpv).
    + intros y. simpl. unfold h2. rewrite fnext_set_first, fnext_set_next.
      destruct (decide (y = v)) as [->|Hyv]; [by destruct (alive h v)|].
      intros E. destruct Ho as (_ & _ & C). by eapply C.
Qed.

(** Result of tearing down the subtrees with nodes [L] below [p]: they are
    gone, or isolated if pinned; the rest is untouched but for [p]'s first child. *)
Definition torn h h' (L : list nid) : Prop :=
  (forall y, y ∈ L -> y ∉ pins -> h' !! y = None) /\
  (forall y, y ∈ L -> y ∈ pins -> exists nd nd', h !! y = Some nd /\ h' !! y = Some nd' /\
     n_first nd' = None /\ n_next nd' = None /\ n_mem nd' = n_mem nd).
Definition first_only h h' (p : nid) (f : option nid) : Prop :=
  exists np, h !! p = Some np /\ h' !! p = Some (mkNode (n_data np) (n_lend np) (n_parent np) f
                                    (n_next np) (n_prev np) (n_nch np) (n_mem np)).

Lemma cut_other h v p nx y : y <> v -> y <> p -> cut h pins v p nx !! y = h !! y.
Proof.
  intros H1 H2. unfold cut, set_first, set_next.
  destruct (decide (v ∈ pins)); rewrite ?lookup_delete_ne, !lookup_alter_ne by done; done.
Qed.

Definition td_ok (t : rose nid) : Prop := forall h p nx fuel,
  tds h (Some p) nx t -> owned1 h -> (forall y, y ∈ rose_nodes t -> unheld s y) ->
  ffirst h p = Some (rose_root t) -> p ∉ rose_nodes t -> NoDup (rose_nodes t) ->
  (forall y, nx = Some y -> y ∉ rose_nodes t) ->
  exists h', teardown_upto (S n) (turns t + fuel) pins (with_nodes s h) (Some (Open (rose_root t))) =
    teardown_upto (S n) fuel pins (with_nodes s h') (Some (match nx with Some y => Open y | None => Close p end)) /\
    owned1 h' /\ torn h h' (rose_nodes t) /\ first_only h h' p nx /\
    (forall y, y ∉ rose_nodes t -> y <> p -> h' !! y = h !! y).

Lemma upto_kids v ts : forall h fuel, Forall td_ok ts ->
  tdl h v ts -> owned1 h -> (forall y, y ∈ concat (map rose_nodes ts) -> unheld s y) ->
  ffirst h v = head (map rose_root ts) -> is_Some (h !! v) -> v ∉ concat (map rose_nodes ts) ->
  NoDup (concat (map rose_nodes ts)) ->
  exists h', teardown_upto (S n) (length (concat (map dfs_events ts)) + fuel) pins (with_nodes s h)
      (Some (match head (map rose_root ts) with Some y => Open y | None => Close v end)) =
    teardown_upto (S n) fuel pins (with_nodes s h') (Some (Close v)) /\
    owned1 h' /\ torn h h' (concat (map rose_nodes ts)) /\ first_only h h' v None /\
    (forall y, y ∉ concat (map rose_nodes ts) -> y <> v -> h' !! y = h !! y).
Proof.
  induction ts as [|t ts IHl]; intros h fuel HF Htl Ho Hu Hf Hv Hvn Hnd.
    { exists h. split_and!; [done|done|split; set_solver| |done].
      destruct Hv as [nd Hv]. exists nd. split; [done|]. unfold ffirst in Hf. rewrite Hv in Hf. simpl in Hf.
      rewrite Hv. f_equal. destruct nd; simpl in *; congruence. }
    inversion HF as [|? ? Ht HF']; subst. simpl in Htl, Hu, Hf, Hvn, Hnd |- *.
    destruct Htl as [Ht1 Htl]. apply NoDup_app in Hnd as (Hnd1 & Hdis & Hnd2).
    rewrite app_length, <-Nat.add_assoc.
    destruct (Ht h v (head (map rose_root ts)) (length (concat (map dfs_events ts)) + fuel)) as (h1 & E1 & Ho1 & Htn1 & Hfo1 & Hr1); [done|done| |done|set_solver|done| |].
    { intros y Hy. apply Hu. set_solver. }
    { intros y Hy Hy'. apply (Hdis _ Hy'). destruct ts as [|t2 ts]; simplify_eq/=. destruct t2; simpl in *. simplify_eq. set_solver. }
    rewrite E1.
    destruct Hfo1 as (nv & Hnv & Hnv1).
    destruct (IHl h1 fuel) as (h2 & E2 & Ho2 & Htn2 & Hfo2 & Hr2); [done| |done| | | | |done|].
    { eapply tdl_frame; [done|]. intros y Hy. apply Hr1; [intros Hy'; by apply (Hdis _ Hy')|]. intros ->. set_solver. }
    { intros y Hy. apply Hu. set_solver. }
    { unfold ffirst. by rewrite Hnv1. }
    { eauto. }
    { set_solver. }
    exists h2. split; [exact E2|]. split; [done|]. split_and!.
    - destruct Htn1 as [P1 P2], Htn2 as [Q1 Q2]. split.
      + intros y Hy Hpin. apply elem_of_app in Hy as [Hy|Hy]; [|by apply Q1].
        rewrite Hr2; [by apply P1|by apply Hdis|]. intros ->. set_solver.
      + intros y Hy Hpin. apply elem_of_app in Hy as [Hy|Hy].
        * destruct (P2 _ Hy Hpin) as (a & b & A1 & A2 & A3). exists a, b. split; [done|]. split; [|done].
          rewrite Hr2; [done|by apply Hdis|]. intros ->. set_solver.
        * destruct (Q2 _ Hy Hpin) as (a & b & A1 & A2 & A3). exists a, b. split; [|done].
          rewrite <-A1. symmetry. apply Hr1; [intros Hy'; by apply (Hdis _ Hy')|]. intros ->. set_solver.
    - destruct Hfo2 as (nv2 & A1 & A2). rewrite Hnv1 in A1. simplify_eq. exists nv. split; [done|]. rewrite A2. done.
    - intros y Hy Hyv. rewrite Hr2, Hr1; [done|set_solver|done|set_solver|done]. 
Qed.

Lemma upto_rose t : td_ok t.
Proof.
  induction t as [v ts IH] using rose_ind2. intros h p nx fuel Ht Ho Hu Hpv Hp Hnd Hnx.
  rewrite tds_unfold in Ht. destruct Ht as [(nd & m & Hv & Hpar & Hnext & Hfirst & Hmem) Htl].
  simpl in Hpv, Hp, Hnd, Hnx, Hu |- *. apply NoDup_cons in Hnd as [Hvn Hnd].
  assert (p <> v) as Hpv' by set_solver.
  rewrite app_length. simpl. rewrite <-Nat.add_assoc. simpl.
  assert (ffirst h v = head (map rose_root ts)) as Hfv by (unfold ffirst; by rewrite Hv).
  assert (dft_next h (Open v) = Some (match head (map rose_root ts) with Some y => Open y | None => Close v end)) as Hdn.
  { simpl. unfold first_child_link. rewrite Hfv. by destruct (head (map rose_root ts)). }
  destruct (upto_kids v ts h (S fuel) IH Htl Ho) as (h1 & E1 & Ho1 & Htn1 & Hfo1 & Hr1); [|done|eauto|done|done|].
  { intros y Hy. apply Hu. by right. }
  cbn in Hdn. rewrite Hdn, E1. clear IH E1 Hdn.
  destruct Hfo1 as (nv & Hnv & Hnv1). rewrite Hv in Hnv. symmetry in Hnv. simplify_eq.
  assert (p ∉ concat (map rose_nodes ts)) as Hpc by set_solver.
  assert (h1 !! p = h !! p) as Hp1 by (by apply Hr1).
  erewrite (upto_close_turn h1 v p _ m fuel Ho1); [|apply Hu; by left|exact Hnv1|done|done|done| |done|].
  2: { unfold ffirst in *. by rewrite Hp1. }
  2: { simpl. intros E. apply (Hnx v E). by left. }
  simpl. eexists. split; [done|].
  assert (fnext h1 v = n_next nd) as Hfn1 by (unfold fnext; by rewrite Hnv1).
  split_and!.
  - rewrite <-Hfn1. apply owned1_cut; [done| |eauto]. unfold ffirst in *. by rewrite Hp1.
  - destruct Htn1 as [P1 P2]. split.
    + intros y Hy Hpin. apply elem_of_cons in Hy as [->|Hy].
      { unfold cut. rewrite decide_False by done. apply lookup_delete. }
      rewrite cut_other; [by apply P1|by intros ->|by intros ->].
    + intros y Hy Hpin. apply elem_of_cons in Hy as [->|Hy].
      { exists nd. eexists. split; [done|]. unfold cut. rewrite decide_True by done.
        unfold set_first, set_next. rewrite lookup_alter_ne, lookup_alter, Hnv1 by done. simpl. done. }
      rewrite cut_other; [by apply P2|by intros ->|by intros ->].
  - unfold ffirst in Hpv. destruct (h !! p) as [np|] eqn:Hnp; [|done]. exists np. split; [done|].
    unfold cut. destruct (decide (v ∈ pins)).
    + unfold set_first, set_next. rewrite lookup_alter, lookup_alter_ne, Hp1 by done. done.
    + rewrite lookup_delete_ne by done. unfold set_first, set_next. rewrite lookup_alter, lookup_alter_ne, Hp1 by done. done.
  - intros y Hy Hyp. apply not_elem_of_cons in Hy as [Hy1 Hy2]. rewrite cut_other by done. by apply Hr1.
Qed.

End Walk.
Lemma upto_tree_ok s K r t tr pins tpins :
  rep (s_nodes s) K -> wf K -> is_top K r -> s_trees s !! t = Some tr -> t_root tr = r ->
  (forall y, below K r y -> weak_node (s_nodes s) y /\ (forall i k, s_hands s !! i <> Some (HNode k y)) /\
     (forall t2 tr2, s_trees s !! t2 = Some tr2 -> t_root tr2 = y -> t2 = t)) ->
  tree_referenced s tpins t = false ->
  exists h', drop_tree_upto (S n) pins tpins s t =
      Ret (mkSys h' (delete t (s_trees s)) (s_hands s) (s_fresh s)) /\
    swept (s_nodes s) h' K r pins.
Proof.
  intros Hr Hw Ht Htr Hroot Hq Href.
  destruct (shape_exists K r Hw) as [ro Hs]; [apply Ht|].
  pose proof (shape_root _ _ _ Hs) as Hrr. destruct ro as [r' ts]. simpl in Hrr. subst r'.
  pose proof (shape_nodup _ _ _ Hw Hs) as Hnd. simpl in Hnd. apply NoDup_cons in Hnd as [Hrn Hnd].
  pose proof (fun y => shape_nodes _ _ _ y Hs) as Hn. simpl in Hn.
  pose proof (nodes_length_le _ _ _ _ Hr Hw Hs) as Hlen. simpl in Hlen.
  assert (tds (s_nodes s) (fparent (s_nodes s) r) (fnext (s_nodes s) r) (Rose r ts)) as Htds.
  { eapply shape_tds; [done..|]. intros y Hy. apply Hq. by apply Hn. }
  rewrite tds_unfold in Htds. destruct Htds as [(nd & m & Hv & Hpar & Hnext & Hfirst & Hmem) Htl].
  destruct (rep_top _ _ Hr _ Ht) as (Tp & Tn & _). rewrite Tp in Hpar. rewrite Tn in Hnext.
  unfold drop_tree_upto. rewrite Htr, Href, Hroot.
  set (nn := length (concat (map dfs_events ts))).
  assert (exists f, dfs_fuel (s_nodes s) = S (nn + S f)) as [f ->].
  { assert (nn = 2 * length (concat (map rose_nodes ts))) as En.
    { pose proof (dfs_events_length (Rose r ts)) as E. simpl in E. rewrite app_length in E. simpl in E. unfold nn. lia. }
    exists (dfs_fuel (s_nodes s) - nn - 2). unfold dfs_fuel. lia. }
  assert (ffirst (s_nodes s) r = head (map rose_root ts)) as Hf by (unfold ffirst; by rewrite Hv).
  destruct (upto_kids s pins r ts (s_nodes s) (S f)) as (h1 & E1 & Ho1 & [Htn1 Htn2] & Hfo1 & Hr1);
    [apply Forall_forall; intros; apply upto_rose|done|by eapply rep_owned1| |done|eauto|done|done|].
  { intros y Hy. destruct (Hq y) as (_ & H1 & H2); [apply Hn; by right|]. split; [done|].
    intros t2 tr2 Ht2 E. assert (t2 = t) as -> by eauto. rewrite Htr in Ht2. simplify_eq. done. }
  replace (with_nodes s (s_nodes s)) with s in E1 by (by destruct s).
  assert (teardown_upto (S n) (S (nn + S f)) pins s (Some (Open r)) = Ret (with_nodes s h1)) as ->.
  { change (teardown_upto (S n) (S (nn + S f)) pins s (Some (Open r))) with
      (teardown_upto (S n) (nn + S f) pins s (dft_next (s_nodes s) (Open r))).
    assert (dft_next (s_nodes s) (Open r) = Some (match head (map rose_root ts) with Some y => Open y | None => Close r end)) as ->.
    { simpl. unfold first_child_link. rewrite Hf. by destruct (head (map rose_root ts)). }
    unfold nn. rewrite E1. destruct Hfo1 as (np & Hnp & Hnp1). rewrite Hv in Hnp. symmetry in Hnp. simplify_eq.
    cbn -[Nat.min release_upto]. unfold next_sibling_link, parent_link, fnext, fparent. rewrite Hnp1. simpl. rewrite Hnext, Hpar. simpl.
    rewrite upto_noop.
    - simpl. by destruct f.
    - apply referenced_true. right; right; right. exists t, tr. done. }
  destruct Hfo1 as (np & Hnp & Hnp1). rewrite Hv in Hnp. symmetry in Hnp. simplify_eq.
  cbn -[Nat.min release_upto].
  set (s2 := with_trees (with_nodes s h1) (delete t (s_trees s))).
  assert (forall y, ~ below K (t_root tr) y -> h1 !! y = s_nodes s !! y) as Hout.
  { intros y Hy. apply Hr1; [|by intros ->; apply Hy; constructor]. intros Hy'. apply Hy, Hn. by right. }
  destruct (decide (t_root tr ∈ pins)) as [Hin|Hin].
  - rewrite upto_noop by (apply referenced_true; by left).
    exists h1. split; [done|]. split_and!; [done| |].
    + intros y Hy Hyp. apply Hn in Hy. apply elem_of_cons in Hy as [->|Hy]; [done|by apply Htn1].
    + intros y Hy Hyp. apply Hn in Hy. apply elem_of_cons in Hy as [->|Hy]; [|by apply Htn2].
      exists nd. eexists. split; [done|]. split; [exact Hnp1|]. done.
  - erewrite (upto_free n s2 _ (t_root tr)); [|exact Hnp1| |done|done|exact Hmem].
    + exists (delete (t_root tr) h1). split; [done|]. split_and!.
      * intros y Hy. rewrite lookup_delete_ne; [by apply Hout|]. intros E. apply Hy. rewrite <-E. constructor.
      * intros y Hy Hyp. destruct (decide (y = t_root tr)) as [->|]; [apply lookup_delete|].
        rewrite lookup_delete_ne by done. apply Hn in Hy. apply elem_of_cons in Hy as [->|Hy]; [done|by apply Htn1].
      * intros y Hy Hyp. assert (y <> t_root tr) by (by intros ->). rewrite lookup_delete_ne by done.
        apply Hn in Hy. apply elem_of_cons in Hy as [->|Hy]; [done|by apply Htn2].
    + assert (forall y nd', h1 !! y = Some nd' -> n_first nd' <> Some (t_root tr) /\ n_next nd' <> Some (t_root tr)) as Hno.
      { intros y nd' Hy. destruct (decide (y = t_root tr)) as [->|Hyr].
        { rewrite Hnp1 in Hy. simplify_eq. simpl. rewrite Hnext. done. }
        destruct (decide (y ∈ concat (map rose_nodes ts))) as [Hi|Hi].
        { destruct (decide (y ∈ pins)) as [Hp|Hp].
          - destruct (Htn2 _ Hi Hp) as (a & b & _ & A2 & A3 & A4 & _). rewrite Hy in A2. simplify_eq. rewrite A3, A4. done.
          - rewrite (Htn1 _ Hi Hp) in Hy. done. }
        rewrite Hr1 in Hy by done. split; intros E.
        - assert (ffirst (s_nodes s) y = Some (t_root tr)) as E' by (unfold ffirst; by rewrite Hy).
          destruct (ffirst_inv _ _ _ _ Hr E') as (ks & Hk & Hi0). eapply (proj2 Ht).
          eapply child_intro; [exact Hk|]. by eapply elem_of_list_lookup_2.
        - assert (fnext (s_nodes s) y = Some (t_root tr)) as E' by (unfold fnext; by rewrite Hy).
          destruct (fnext_inv _ _ _ _ Hr Hw E') as (p & ks & i & Hk & _ & Hi0). eapply (proj2 Ht).
          eapply child_intro; [exact Hk|]. by eapply elem_of_list_lookup_2. }
      apply referenced_false; [done| | |].
      * destruct (Hq (t_root tr)) as (_ & H1 & H2); [constructor|]. split; [done|].
        intros t2 tr2. simpl. rewrite lookup_delete_Some. intros [Hne Ht2] E. apply Hne. symmetry. by eapply H2.
      * intros y. simpl. rewrite field_first. intros (nd' & Hy & E). by destruct (Hno _ _ Hy).
      * intros y. simpl. rewrite field_next. intros (nd' & Hy & E). by destruct (Hno _ _ Hy).
Qed.
End DepthFacts2.
