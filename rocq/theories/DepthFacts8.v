(** * DepthFacts8: giving a whole tree to another one on a bounded stack.

    The same proofs as in TearFacts, GraftFacts and GraftFacts3, for the program with at most [S n] nested destructors. *)
From Verif Require Import Heap Edit System SysSpec CardFacts HeapFacts SpecFacts NavFacts NavFacts2 EditFacts EditFacts2 EditFacts3 EditFacts4 EditFacts5 IterSpec RoseFacts AdjFacts TravFacts TdFacts TdFacts2 SysFacts SysFacts2 SysFacts3 SysFacts4 SysFacts5 SysFacts6 SysFacts7 SysFacts8 SysFacts9 SysFacts10 SysFacts11 SysFacts12 SysFacts13 SysFacts14 SysFacts15 GraftFacts TearFacts GraftFacts3 Depth DepthFacts ApiSpec Spec.

Section Up.
Context {T : Type} (n : nat).
Implicit Types (h : heap T) (s : sys T) (hm : gmap nat handle) (K : forest).

Section Walk.
Context (s : sys T) (pins L : list nid).
Hypothesis (HL : forall v, v ∈ L -> v ∈ pins \/ exists i k, s_hands s !! i = Some (HNode k v)).
Notation goes := (goes s pins).
Notation ripped := (ripped L).

Lemma up_tear_close h v p nd fuel :
  owned1 h -> h !! v = Some nd -> n_parent nd = Some p -> n_first nd = None -> (v ∉ L -> goes h v) ->
  ffirst h p = Some v -> p <> v -> n_next nd <> Some v ->
  teardown_upto (S n) (S fuel) pins (with_nodes s h) (Some (Close v)) =
  teardown_upto (S n) fuel pins (with_nodes s (cut h L v p (n_next nd)))
    (Some (match n_next nd with Some y => Open y | None => Close p end)).
Proof.
  intros Ho Hv Hp Hf Hg Hpv Hne Hnx.
  assert (is_Some (h !! p)) as [np Hnp] by (unfold ffirst in Hpv; destruct (h !! p); [eauto|done]).
  assert (alive h p = true) as Hap by (unfold alive; apply bool_decide_eq_true; eauto).
  assert (fnext h v = n_next nd) as Hfn by (unfold fnext; by rewrite Hv).
  assert (parent_link h v = Some p) as Hpl.
  { unfold parent_link, fparent. rewrite Hv. simpl. rewrite Hp. simpl. by rewrite Hap. }
  set (nxt := match n_next nd with Some y => Open y | None => Close p end).
  assert (dft_next h (Close v) = Some nxt) as Hdn.
  { simpl. unfold next_sibling_link. rewrite Hfn, Hpl. unfold nxt. by destruct (n_next nd). }
  cbn -[release_upto dft_next]. rewrite Hdn, Hpl, Hfn.
  assert (ffirst (set_next h v None) p = Some v) as -> by (hs; done).
  rewrite upto_noop by (apply referenced_true; left; simpl; set_solver). cbn -[release_upto].
  set (h2 := set_first (set_next h v None) p (n_next nd)).
  assert (v <> ev_val nxt) as Hvn. { unfold nxt. destruct (n_next nd); simpl; congruence. }
  unfold cut. fold h2. destruct (decide (v ∈ L)) as [Hin|Hin].
  - rewrite upto_noop; [done|]. apply referenced_true. destruct (HL v Hin) as [Hp1|Hh]; [left; set_solver|]. right. left. exact Hh.
  - destruct (Hg Hin) as (Hvp & Hu & (nd0 & m & Hv0 & Hm)). assert (nd0 = nd) as -> by congruence.
    assert (exists nd2, h2 !! v = Some nd2 /\ n_first nd2 = None /\ n_next nd2 = None /\ n_mem nd2 = MWeak m) as (nd2 & E2 & E3 & E4 & E5).
    { unfold h2, set_first, set_next. rewrite lookup_alter_ne, lookup_alter by done. rewrite Hv. simpl. eexists; split_and!; [done|..]; done. }
    erewrite (upto_free _ _ _ v nd2 m); [done|exact E2| |done..].
    apply referenced_false; [set_solver| | |].
    + split; [apply Hu|apply Hu].
    + intros y. simpl. unfold h2. rewrite ffirst_set_first, ffirst_set_next.
      destruct (decide (y = p)) as [->|Hyp]; [rewrite alive_set_next, Hap; done|].
      intros E. destruct Ho as (_ & B & _). apply Hyp. by apply (B _ _ _ E Hpv).
    + intros y. simpl. unfold h2. rewrite fnext_set_first, fnext_set_next.
      destruct (decide (y = v)) as [->|Hyv]; [by destruct (alive h v)|].
      intros E. destruct Ho as (_ & _ & C). by eapply C.
Qed.

Definition up_tear_ok (t : rose nid) : Prop := forall h p nx fuel,
  tears h (Some p) nx t -> owned1 h -> (forall y, y ∈ rose_nodes t -> y ∉ L -> goes h y) ->
  ffirst h p = Some (rose_root t) -> p ∉ rose_nodes t -> NoDup (rose_nodes t) ->
  (forall y, nx = Some y -> y ∉ rose_nodes t) ->
  exists h', teardown_upto (S n) (turns t + fuel) pins (with_nodes s h) (Some (Open (rose_root t))) =
    teardown_upto (S n) fuel pins (with_nodes s h') (Some (match nx with Some y => Open y | None => Close p end)) /\
    owned1 h' /\ ripped h h' (rose_nodes t) /\ first_only h h' p nx /\
    (forall y, y ∉ rose_nodes t -> y <> p -> h' !! y = h !! y).

Lemma up_tear_kids v ts : forall h fuel, Forall up_tear_ok ts ->
  tearl h v ts -> owned1 h -> (forall y, y ∈ concat (map rose_nodes ts) -> y ∉ L -> goes h y) ->
  ffirst h v = head (map rose_root ts) -> is_Some (h !! v) -> v ∉ concat (map rose_nodes ts) ->
  NoDup (concat (map rose_nodes ts)) ->
  exists h', teardown_upto (S n) (length (concat (map dfs_events ts)) + fuel) pins (with_nodes s h)
      (Some (match head (map rose_root ts) with Some y => Open y | None => Close v end)) =
    teardown_upto (S n) fuel pins (with_nodes s h') (Some (Close v)) /\
    owned1 h' /\ ripped h h' (concat (map rose_nodes ts)) /\ first_only h h' v None /\
    (forall y, y ∉ concat (map rose_nodes ts) -> y <> v -> h' !! y = h !! y).
Proof.
  induction ts as [|t ts IHl]; intros h fuel HF Htl Ho Hu Hf Hv Hvn Hnd.
    { exists h. split_and!; [done|done|split; set_solver| |done].
      destruct Hv as [nd Hv]. exists nd. split; [done|]. unfold ffirst in Hf. rewrite Hv in Hf. simpl in Hf.
      rewrite Hv. f_equal. destruct nd; simpl in *; congruence. }
    inversion HF as [|? ? Ht HF']; subst. simpl in Htl, Hu, Hf, Hvn, Hnd |- *.
    destruct Htl as [Ht1 Htl]. apply NoDup_app in Hnd as (Hnd1 & Hdis & Hnd2).
    rewrite app_length, <-Nat.add_assoc.
    destruct (Ht h v (head (map rose_root ts)) (length (concat (map dfs_events ts)) + fuel)) as (h1 & E1 & Ho1 & Htn1 & Hfo1 & Hr1); [done|done| |done|set_solver|done| |].
    { intros y Hy. apply Hu. set_solver. }
    { intros y Hy Hy'. apply (Hdis _ Hy'). destruct ts as [|t2 ts]; simplify_eq/=. destruct t2; simpl in *. simplify_eq. set_solver. }
    rewrite E1.
    destruct Hfo1 as (nv & Hnv & Hnv1).
    destruct (IHl h1 fuel) as (h2 & E2 & Ho2 & Htn2 & Hfo2 & Hr2); [done| |done| | | | |done|].
    { eapply tearl_frame; [done|]. intros y Hy. apply Hr1; [intros Hy'; by apply (Hdis _ Hy')|]. intros ->. set_solver. }
    { intros y Hy HyL. apply (goes_frame s pins h h1); [|apply Hu; [set_solver|done]]. apply Hr1; [intros Hy'; by apply (Hdis _ Hy')|]. intros ->. set_solver. }
    { unfold ffirst. by rewrite Hnv1. }
    { eauto. }
    { set_solver. }
    exists h2. split; [exact E2|]. split; [done|]. split_and!.
    - destruct Htn1 as [P1 P2], Htn2 as [Q1 Q2]. split.
      + intros y Hy Hpin. apply elem_of_app in Hy as [Hy|Hy]; [|by apply Q1].
        rewrite Hr2; [by apply P1|by apply Hdis|]. intros ->. set_solver.
      + intros y Hy Hpin. apply elem_of_app in Hy as [Hy|Hy].
        * rewrite Hr2; [by apply P2|by apply Hdis|]. intros ->. set_solver.
        * rewrite (Q2 _ Hy Hpin). f_equal. apply Hr1; [intros Hy'; by apply (Hdis _ Hy')|]. intros ->. set_solver.
    - destruct Hfo2 as (nv2 & A1 & A2). rewrite Hnv1 in A1. simplify_eq. exists nv. split; [done|]. rewrite A2. done.
    - intros y Hy Hyv. rewrite Hr2, Hr1; [done|set_solver|done|set_solver|done]. 
Qed.

Lemma up_tear_rose t : up_tear_ok t.
Proof.
  induction t as [v ts IH] using rose_ind2. intros h p nx fuel Ht Ho Hu Hpv Hp Hnd Hnx.
  rewrite tears_unfold in Ht. destruct Ht as [(nd & Hv & Hpar & Hnext & Hfirst) Htl].
  simpl in Hpv, Hp, Hnd, Hnx, Hu |- *. apply NoDup_cons in Hnd as [Hvn Hnd].
  assert (p <> v) as Hpv' by set_solver.
  rewrite app_length. simpl. rewrite <-Nat.add_assoc. simpl.
  assert (ffirst h v = head (map rose_root ts)) as Hfv by (unfold ffirst; by rewrite Hv).
  assert (dft_next h (Open v) = Some (match head (map rose_root ts) with Some y => Open y | None => Close v end)) as Hdn.
  { simpl. unfold first_child_link. rewrite Hfv. by destruct (head (map rose_root ts)). }
  destruct (up_tear_kids v ts h (S fuel) IH Htl Ho) as (h1 & E1 & Ho1 & Htn1 & Hfo1 & Hr1); [|done|eauto|done|done|].
  { intros y Hy. apply Hu. by right. }
  cbn in Hdn. rewrite Hdn, E1. clear IH E1 Hdn.
  destruct Hfo1 as (nv & Hnv & Hnv1). rewrite Hv in Hnv. symmetry in Hnv. simplify_eq.
  assert (p ∉ concat (map rose_nodes ts)) as Hpc by set_solver.
  assert (h1 !! p = h !! p) as Hp1 by (by apply Hr1).
  erewrite (up_tear_close h1 v p _ fuel Ho1 Hnv1); [|done|done| | |done|].
  2: { intros HvL. destruct (Hu v ltac:(by left) HvL) as (A & B & (nd0 & m & Hv0 & Hm)). assert (nd0 = nd) as -> by congruence.
       split; [done|]. split; [done|]. eexists _, m. split; [exact Hnv1|]. done. }
  2: { unfold ffirst in *. by rewrite Hp1. }
  2: { simpl. intros E. apply (Hnx v E). by left. }
  simpl. eexists. split; [done|].
  assert (fnext h1 v = n_next nd) as Hfn1 by (unfold fnext; by rewrite Hnv1).
  split_and!.
  - rewrite <-Hfn1. apply owned1_cut; [done| |eauto]. unfold ffirst in *. by rewrite Hp1.
  - destruct Htn1 as [P1 P2]. split.
    + intros y Hy Hpin. apply elem_of_cons in Hy as [->|Hy].
      { unfold cut. rewrite decide_False by done. apply lookup_delete. }
      rewrite cut_other; [by apply P1|by intros ->|by intros ->].
    + intros y Hy Hpin. apply elem_of_cons in Hy as [->|Hy].
      { unfold cut. rewrite decide_True by done. rewrite Hv.
        unfold set_first, set_next. rewrite lookup_alter_ne, lookup_alter, Hnv1 by done. simpl. done. }
      rewrite cut_other; [by apply P2|by intros ->|by intros ->].
  - unfold ffirst in Hpv. destruct (h !! p) as [np|] eqn:Hnp; [|done]. exists np. split; [done|].
    unfold cut. destruct (decide (v ∈ L)).
    + unfold set_first, set_next. rewrite lookup_alter, lookup_alter_ne, Hp1 by done. done.
    + rewrite lookup_delete_ne by done. unfold set_first, set_next. rewrite lookup_alter, lookup_alter_ne, Hp1 by done. done.
  - intros y Hy Hyp. apply not_elem_of_cons in Hy as [Hy1 Hy2]. rewrite cut_other by done. by apply Hr1.
Qed.
End Walk.

(** The root stays. *)
Lemma up_tear_tree s K r t tr pins tpins (L : list nid) :
  rep (s_nodes s) K -> wf K -> is_top K r -> s_trees s !! t = Some tr -> t_root tr = r ->
  (forall v, v ∈ L -> v ∈ pins \/ exists i k, s_hands s !! i = Some (HNode k v)) ->
  (forall y, below K r y -> y ∉ L -> goes s pins (s_nodes s) y) -> r ∈ L ->
  tree_referenced s tpins t = false ->
  exists h', drop_tree_upto (S n) pins tpins s t = Ret (mkSys h' (delete t (s_trees s)) (s_hands s) (s_fresh s)) /\
    (forall y, ~ below K r y -> h' !! y = s_nodes s !! y) /\
    (forall y, below K r y -> y ∉ L -> h' !! y = None) /\
    (forall y, below K r y -> y ∈ L -> h' !! y = bare <$> s_nodes s !! y).
Proof.
  intros Hr Hw Ht Htr Hroot HL Hq HrL Href.
  destruct (shape_exists K r Hw) as [ro Hs]; [apply Ht|].
  pose proof (shape_root _ _ _ Hs) as Hrr. destruct ro as [r' ts]. simpl in Hrr. subst r'.
  pose proof (shape_nodup _ _ _ Hw Hs) as Hnd. simpl in Hnd. apply NoDup_cons in Hnd as [Hrn Hnd].
  pose proof (fun y => shape_nodes _ _ _ y Hs) as Hn. simpl in Hn.
  pose proof (nodes_length_le _ _ _ _ Hr Hw Hs) as Hlen. simpl in Hlen.
  pose proof (shape_tears (s_nodes s) K Hr Hw _ _ Hs) as Htds.
  rewrite tears_unfold in Htds. destruct Htds as [(nd & Hv & Hpar & Hnext & Hfirst) Htl].
  destruct (rep_top _ _ Hr _ Ht) as (Tp & Tn & _). rewrite Tp in Hpar. rewrite Tn in Hnext.
  unfold drop_tree_upto. rewrite Htr, Href, Hroot.
  set (n0 := length (concat (map dfs_events ts))).
  assert (exists f, dfs_fuel (s_nodes s) = S (n0 + S f)) as [f ->].
  { assert (n0 = 2 * length (concat (map rose_nodes ts))) as En.
    { pose proof (dfs_events_length (Rose r ts)) as E. simpl in E. rewrite app_length in E. simpl in E. unfold n0. lia. }
    exists (dfs_fuel (s_nodes s) - n0 - 2). unfold dfs_fuel. lia. }
  assert (ffirst (s_nodes s) r = head (map rose_root ts)) as Hf by (unfold ffirst; by rewrite Hv).
  destruct (up_tear_kids s pins L HL r ts (s_nodes s) (S f)) as (h1 & E1 & Ho1 & [Htn1 Htn2] & Hfo1 & Hr1);
    [apply Forall_forall; intros; by apply up_tear_rose|done|by eapply rep_owned1| |done|eauto|done|done|].
  { intros y Hy. apply Hq, Hn. by right. }
  replace (with_nodes s (s_nodes s)) with s in E1 by (by destruct s).
  assert (teardown_upto (S n) (S (n0 + S f)) pins s (Some (Open r)) = Ret (with_nodes s h1)) as ->.
  { change (teardown_upto (S n) (S (n0 + S f)) pins s (Some (Open r))) with
      (teardown_upto (S n) (n0 + S f) pins s (dft_next (s_nodes s) (Open r))).
    assert (dft_next (s_nodes s) (Open r) = Some (match head (map rose_root ts) with Some y => Open y | None => Close r end)) as ->.
    { simpl. unfold first_child_link. rewrite Hf. by destruct (head (map rose_root ts)). }
    unfold n0. rewrite E1. destruct Hfo1 as (np & Hnp & Hnp1). rewrite Hv in Hnp. symmetry in Hnp. simplify_eq.
    cbn -[release_upto]. unfold next_sibling_link, parent_link, fnext, fparent. rewrite Hnp1. simpl. rewrite Hnext, Hpar. simpl.
    rewrite upto_noop.
    - simpl. by destruct f.
    - apply referenced_true. right; right; right. exists t, tr. done. }
  destruct Hfo1 as (np & Hnp & Hnp1). rewrite Hv in Hnp. symmetry in Hnp. simplify_eq.
  cbn -[release_upto].
  rewrite upto_noop.
  2:{ apply referenced_true. destruct (HL _ HrL) as [?|?]; [by left|by right; left]. }
  exists h1. split; [done|]. split_and!.
  - intros y Hy. apply Hr1; [|by intros ->; apply Hy; constructor]. intros Hy'. apply Hy, Hn. by right.
  - intros y Hy Hyp. apply Hn in Hy. apply elem_of_cons in Hy as [->|Hy]; [done|by apply Htn1].
  - intros y Hy Hyp. apply Hn in Hy. apply elem_of_cons in Hy as [->|Hy]; [|by apply Htn2].
    rewrite Hv, Hnp1. simpl. unfold bare. by rewrite Hnext.
Qed.

Section Quiet.
Variables (s0 : sys T) (K : forest) (x : nid) (ro : rose nid) (t0 t' : tid).
Hypothesis (Hrep : rep (s_nodes s0) K) (Hwf : wf K) (Htop : is_top K x) (Hsh : shape K x ro) (Hne : t0 <> t').
Hypothesis (Hhand : exists i k, s_hands s0 !! i = Some (HNode k x)).
Notation gm := (gm s0 ro t0 t').
Local Notation gm_rep := (gm_rep s0 K ro t0 t' Hrep).
Local Notation gm_ext := (gm_ext s0 ro t0 t').
Local Notation gm_retree := (gm_retree s0 ro t0 t').
Local Notation g_in := (g_in s0 ro t0 t').
Local Notation g_hinv := (g_hinv s0 ro t0 t').
Local Notation g_dest := (g_dest s0 ro t0 t').
Local Notation g_hands := (g_hands s0 ro t0 t').
Local Notation g_thaw0 := (g_thaw0 s0 ro t0 t').
Local Notation g_thaw1 := (g_thaw1 s0 ro t0 t').

Lemma up_gm_put s D y : gm s D -> y ∈ rose_nodes ro -> y ∉ D -> exists s1, gm s1 (y :: D) /\
  forall pins E, set_tree_core_upto (S n) s pins E y t' =
    match n_memb s y with
    | Some (MStrong _ _ _) => s2 ← drop_tree_upto (S n) pins E s1 t0; Ret (Some s2)
    | _ => Ret (Some s1)
    end.
Proof.
  intros M Hy HyD. pose proof (g_in _ _ M y Hy) as Ht. rewrite decide_False in Ht by done.
  unfold set_tree_core_upto. assert (exists m, n_memb s y = Some m) as [m Hm].
  { unfold tree_of in Ht. destruct (n_memb s y) as [m|]; [by exists m|done]. }
  rewrite Hm. destruct m as [o|t rc lk].
  - destruct (retree_weak s (s_hands s) y o t' (g_hinv _ _ M) Hm) as [Hh R]. eexists. split; [eapply gm_retree; [exact M|exact R|exact Hh|done|done]|done].
  - assert (t = t0) as -> by (unfold tree_of in Ht; rewrite Hm in Ht; congruence).
    destruct (retree_strong s (s_hands s) y t0 t' rc lk (g_hinv _ _ M) Hm Hne (g_dest _ _ M) (g_thaw0 _ _ M) (g_thaw1 _ _ M))
      as (s1 & E1 & Hh & R). eexists. split; [eapply gm_retree; [exact M|exact R|exact Hh|done|done]|]. intros pins E. by rewrite E1.
Qed.

Lemma up_gm_open s D E pins y : gm s D -> y ∈ rose_nodes ro -> y ∉ D ->
  (forall s1, gm s1 (y :: D) -> (exists t rc lk, n_memb s y = Some (MStrong t rc lk)) -> tree_referenced s1 E t0 = true) ->
  exists s', set_tree_core_upto (S n) s pins E y t' = Ret (Some s') /\ gm s' (y :: D).
Proof.
  intros M Hy HyD Href. destruct (up_gm_put s D y M Hy HyD) as (s1 & M1 & Es). exists s1. split; [|exact M1]. rewrite Es.
  destruct (n_memb s y) as [[o|t rc lk]|] eqn:Em; [done| |done].
  unfold drop_tree_upto. destruct (s_trees s1 !! t0); [|done]. rewrite (Href s1 M1); [done|eauto].
Qed.

Lemma up_gm_release s D pins y : gm s D -> y ∈ rose_nodes ro -> release_upto (S n) s pins y = Ret s.
Proof.
  intros M Hy. apply upto_noop, referenced_true. pose proof (gm_rep s D M) as Hr. destruct (decide (y = x)) as [->|Hyx].
  - right. left. rewrite (g_hands _ _ M). exact Hhand.
  - right. right. left. apply (shape_nodes _ _ _ _ Hsh) in Hy. inversion Hy as [|p c Hb Hc]; subst; [done|].
    destruct Hc as (ks & Hks & Hin). apply elem_of_list_lookup in Hin as [i Hi]. destruct i as [|i].
    + exists p. left. rewrite (rep_first _ _ Hr _ _ Hks). by destruct ks.
    + destruct (ks !! i) as [z|] eqn:Ez.
      * exists z. right. destruct (rep_linked _ _ Hr _ _ Hks i z Ez) as (_ & -> & _). done.
      * apply lookup_ge_None in Ez. apply lookup_lt_Some in Hi. lia.
Qed.

(** One turn of the loop that deallocates nothing. *)
Lemma up_gm_turn E pre e b rest s fuel : dfs_events ro = pre ++ e :: b :: rest -> gm s (opens pre) ->
  (forall y s1, e = Open y -> gm s1 (opens (pre ++ [e])) -> (exists t rc lk, n_memb s y = Some (MStrong t rc lk)) -> tree_referenced s1 E t0 = true) ->
  exists s1, set_memberships_upto (S n) (S fuel) s E (Some (e, x)) t' = set_memberships_upto (S n) fuel s1 E (Some (b, x)) t' /\ gm s1 (opens (pre ++ [e])) /\
    (match e with Open _ => True | Close _ => s1 = s end).
Proof.
  intros Hev M Href. simpl. pose proof (gm_rep s _ M) as Hr.
  pose proof (shape_events_nodup _ _ _ Hwf Hsh) as Hnd.
  pose proof (shape_adj _ _ _ _ Hr Hwf Hsh) as Hadj.
  rewrite Hev in Hnd, Hadj. rewrite adj_app in Hadj. destruct Hadj as (_ & Hadj & _). rewrite adj_cons in Hadj. destruct Hadj as [Hadj _].
  destruct (Hadj b eq_refl) as [Hnext _].
  assert (e <> Close x) as Hnx.
  { intros ->. pose proof (last_events ro) as X. rewrite Hev in X. rewrite (shape_root _ _ _ Hsh) in X.
    apply NoDup_app in Hnd as (_ & _ & Hnd). apply NoDup_cons in Hnd as [Hnd _]. apply Hnd.
    rewrite last_app in X. change (last (Close x :: b :: rest)) with (last (b :: rest)) in X.
    destruct (last (b :: rest)) as [z|] eqn:El; [|destruct rest; [done|simpl in El; by rewrite last_cons in El; destruct (last rest)]].
    injection X as ->. by apply elem_of_last in El. }
  rewrite decide_False by done. rewrite dft_next_g, Hnext. simpl.
  assert (ev_val e ∈ rose_nodes ro) as Hve. { apply dfs_events_elem. rewrite Hev. apply elem_of_app. right. by left. }
  assert (exists s1, (match e with Open y => set_tree_core_upto (S n) s [y; ev_val b] E y t' | Close _ => Ret (Some s) end) = Ret (Some s1) /\ gm s1 (opens (pre ++ [e])) /\
    match e with Open _ => True | Close _ => s1 = s end) as (s1 & Es1 & M1 & Hs1).
  { destruct e as [y|y].
    - assert (forall z, z ∈ y :: opens pre <-> z ∈ opens (pre ++ [Open y])) as Hops.
      { intros z. rewrite elem_of_cons, !elem_opens, elem_of_app, elem_of_list_singleton. split; [intros [->|?]; auto|intros [?|[= ->]]; auto]. }
      destruct (up_gm_open s (opens pre) E [y; ev_val b] y M) as (s1 & E1 & M1).
      + exact Hve.
      + rewrite elem_opens. intros Hy. apply NoDup_app in Hnd as (_ & Hnd & _). apply (Hnd _ Hy). by left.
      + intros s1 M1 Hm. apply (Href y s1); [done| |done]. eapply gm_ext; [exact M1|exact Hops].
      + exists s1. split; [done|]. split; [|done]. eapply gm_ext; [exact M1|exact Hops].
    - exists s. split; [done|]. split; [|done]. eapply gm_ext; [exact M|]. intros z. rewrite !elem_opens, elem_of_app, elem_of_list_singleton.
      split; [auto|intros [?|?]; done]. }
  exists s1. split; [|done].
  assert ((match e with Open y => set_tree_core_upto (S n) s (y :: [ev_val b]) E y t' | Close _ => Ret (Some s) end) = Ret (Some s1)) as -> by exact Es1.
  simpl. rewrite (up_gm_release s1 _ [ev_val b] (ev_val e) M1 Hve). done.
Qed.

Lemma up_gm_end E pre e s fuel : dfs_events ro = pre ++ [e] -> gm s (opens pre) ->
  set_memberships_upto (S n) (S fuel) s E (Some (e, x)) t' = Ret (Some s) /\ gm s (rose_nodes ro).
Proof.
  intros Hev M. assert (e = Close x) as ->.
  { pose proof (last_events ro) as X. rewrite Hev in X. rewrite last_snoc in X. rewrite (shape_root _ _ _ Hsh) in X. congruence. }
  simpl. rewrite decide_True by done. simpl.
  assert (release_upto (S n) s [] x = Ret s) as Hrel.
  { apply (up_gm_release s _ [] x M). apply (shape_nodes _ _ _ _ Hsh). constructor. }
  split.
  - rewrite ?Hrel. by destruct fuel.
  - eapply gm_ext; [exact M|]. intros y. rewrite elem_opens. split.
    + intros Hy. assert (Open y ∈ dfs_events ro) as X by (rewrite Hev; apply elem_of_app; by left). by apply dfs_events_elem in X.
    + intros Hy. assert (Open y ∈ dfs_events ro) as X by (by apply dfs_events_elem). rewrite Hev in X.
      apply elem_of_app in X as [X|X]; [done|]. apply elem_of_list_singleton in X. done.
Qed.

(** The whole loop, if something else keeps the tree [t0]. *)
Lemma up_quiet_loop E : (exists i, s_hands s0 !! i = Some (HTree t0)) -> forall rest pre e s fuel, dfs_events ro = pre ++ e :: rest -> gm s (opens pre) -> length rest < fuel ->
  exists s', set_memberships_upto (S n) fuel s E (Some (e, x)) t' = Ret (Some s') /\ gm s' (rose_nodes ro).
Proof.
  intros [i Hi]. induction rest as [|b rest IH]; intros pre e s fuel Hev M Hf; (destruct fuel as [|fuel]; [simpl in Hf; lia|]).
  - exists s. by apply (up_gm_end E pre e).
  - destruct (up_gm_turn E pre e b rest s fuel Hev M) as (s1 & -> & M1 & _).
    { intros y s1 _ M1 _. apply tree_referenced_iff. right. left. exists i. by rewrite (g_hands _ _ M1). }
    eapply (IH (pre ++ [e])); [by rewrite Hev, <-app_assoc|exact M1|simpl in Hf; lia].
Qed.

Lemma up_quiet_subtree tp : gm s0 [] -> (exists i, s_hands s0 !! i = Some (HTree t0)) ->
  exists s', set_subtree_upto (S n) s0 tp x t' = Ret (Some s') /\ gm s' (rose_nodes ro).
Proof.
  intros M Hi. pose proof (head_events ro) as Hh. rewrite (shape_root _ _ _ Hsh) in Hh.
  destruct (dfs_events ro) as [|e rest] eqn:Eev; [done|]. injection Hh as ->.
  unfold set_subtree_upto. eapply (up_quiet_loop (t' :: tp) Hi rest []); [done|exact M|].
  pose proof (dfs_events_length ro) as Hl. rewrite Eev in Hl. simpl in Hl.
  pose proof (nodes_length_le _ _ _ _ Hrep Hwf Hsh). unfold dfs_fuel. lia.
Qed.
End Quiet.


Section Lost.
Variables (s0 : sys T) (K : forest) (x : nid) (ro : rose nid) (t0 t' : tid).
Hypothesis (Hrep : rep (s_nodes s0) K) (Hwf : wf K) (Htop : is_top K x) (Hsh : shape K x ro) (Hne : t0 <> t').
Hypothesis (Hhand : exists i k, s_hands s0 !! i = Some (HNode k x)).
Hypothesis (Hno : forall i, s_hands s0 !! i <> Some (HTree t0)).
Hypothesis (Htr : exists tr, s_trees s0 !! t0 = Some tr /\ t_root tr = x).
Hypothesis (Hall : forall z, is_Some (s_nodes s0 !! z) -> tree_of s0 z = Some t0 -> z ∈ rose_nodes ro).
Hypothesis (Hroots : forall (u : tid) tr, s_trees s0 !! u = Some tr -> u <> t0 -> t_root tr ∉ rose_nodes ro).
Notation gm := (gm s0 ro t0 t').
Notation handed := (handed s0).
Notation handed_list := (handed_list s0 ro).
Notation wrecked := (wrecked s0 ro t0 t').
Notation pending := (pending s0 ro).
Local Notation w_hands := (w_hands s0 ro t0 t').
Local Notation w_fresh := (w_fresh s0 ro t0 t').
Local Notation w_t0 := (w_t0 s0 ro t0 t').
Local Notation w_roots := (w_roots s0 ro t0 t').
Local Notation w_out := (w_out s0 ro t0 t').
Local Notation w_gone := (w_gone s0 ro t0 t').
Local Notation w_kept := (w_kept s0 ro t0 t').
Local Notation w_weak := (w_weak s0 ro t0 t').
Local Notation w_tree := (w_tree s0 ro t0 t').
Local Notation w_ext := (w_ext s0 ro t0 t').
Local Notation w_fields := (w_fields s0 K x ro t0 t' Hrep Hwf Htop Hsh).
Local Notation below_parent := (below_parent s0 K x ro t0 Htop Hsh Hhand Htr).
Local Notation gm_handed := (gm_handed s0 ro t0 t' Hne).
Local Notation gm_weak := (gm_weak s0 ro t0 t' Hne).
Local Notation gm_ref := (gm_ref s0 ro t0 t' Hne Hno Hall).
Local Notation handed_dec := (handed_dec s0).
Local Notation pending_dec := (pending_dec s0 ro).
Local Notation pending_ext := (pending_ext s0 ro).
Local Notation handed_list_ok := (handed_list_ok s0 ro).
Local Notation ev_fresh := (ev_fresh K x ro Hwf Hsh).
Local Notation tear_here := (tear_here s0 K x ro t0 t' Hrep Hwf Htop Hsh Hne Hhand Hno Htr Hall Hroots).
Lemma up_w_release s X pins v : wrecked s X -> handed v -> release_upto (S n) s pins v = Ret s.
Proof. intros W Hv. apply upto_noop, referenced_true. right. left. rewrite (w_hands _ _ W). exact Hv. Qed.

Lemma up_climb m : forall pre rest v s fuel, length rest <= m -> dfs_events ro = pre ++ Close v :: rest -> length rest < fuel ->
  wrecked s [] -> handed v -> set_memberships_upto (S n) fuel s [t'] (Some (Close v, x)) t' = Ret (Some s).
Proof.
  induction m as [|m IH]; intros pre rest v s fuel Hn Hev Hf W Hv; (destruct fuel as [|fuel]; [lia|]);
    (destruct (decide (v = x)) as [->|Hvx]; [simpl; by rewrite decide_True by done|]).
  - destruct (ev_not_last K x ro Hsh _ _ _ Hev) as (? & ? & ->); [congruence|]. simpl in Hn. lia.
  - assert (v ∈ rose_nodes ro) as Hvr. { apply (shape_nodes _ _ _ _ Hsh). exact (ev_in K x ro Hsh _ _ _ Hev). }
    destruct (below_parent v Hvr Hvx) as (p & Hc & Hp).
    destruct (w_fields s [] v W Hvr (or_introl Hv)) as (E1 & _ & E3 & _).
    rewrite (fparent_child _ _ _ _ Hrep Hc) in E3.
    pose proof (up_w_release s [] (ev_pin (Some (Close p))) v W Hv) as R1. pose proof (up_w_release s [] [] v W Hv) as R2.
    cbn [set_memberships_upto]. unfold link_dfs_next. rewrite decide_False by congruence.
    cbn [mbind run_bind dft_next]. unfold next_sibling_link, parent_link. rewrite E1, E3. unfold upgrade.
    destruct (alive (s_nodes s) p) eqn:Ea.
    + cbn [ev_pin ev_val] in R1. cbn [mbind run_bind option_map fst ev_pin ev_val]. rewrite R1. cbn [mbind run_bind].
      pose proof (ev_close_close _ K x ro Hrep Hwf Hsh _ _ _ _ Hev Hc Hvx) as Hin.
      apply elem_of_list_split in Hin as (r1 & r2 & ->). rewrite app_length in Hn, Hf. simpl in Hn, Hf.
      apply (IH (pre ++ Close v :: r1) r2 p); [lia| |lia|exact W|].
      * rewrite Hev. by rewrite <-app_assoc.
      * apply alive_spec in Ea. destruct (handed_dec p) as [|Hd]; [done|].
        rewrite (w_gone _ _ W p Hp Hd ltac:(apply not_elem_of_nil)) in Ea. by destruct Ea.
    + cbn [mbind run_bind option_map fst ev_pin ev_val]. rewrite R2. cbn [mbind run_bind]. by destruct fuel.
Qed.

Lemma up_tear_here s1 D y b : gm s1 D -> ~ pending D -> handed y -> b ∈ rose_nodes ro ->
  drop_tree_upto (S n) [y; b] [t'] s1 t0 = drop_tree_if_dead [y; b] [t'] s1 t0.
Proof.
  intros M Hnp Hy Hb. pose proof (gm_rep _ _ _ _ _ Hrep _ _ M) as R1.
  destruct Htr as (tr & Htr0 & Hroot).
  assert (exists tr1, s_trees s1 !! t0 = Some tr1 /\ t_root tr1 = x) as (tr1 & Htr1 & Hrt1).
  { pose proof (g_root _ _ _ _ _ _ M t0) as E. rewrite Htr0 in E. destruct (s_trees s1 !! t0) as [tr1|]; [|done]. injection E as E. exists tr1. split; [done|congruence]. }
  assert (x ∈ rose_nodes ro) as Hxr by (apply (shape_nodes _ _ _ _ Hsh); constructor).
  destruct (up_tear_tree s1 K x t0 tr1 [y; b] [t'] (b :: handed_list) R1 Hwf Htop Htr1 Hrt1) as (h' & E & F1 & F2 & F3).
  - intros v [->|Hv]%elem_of_cons; [left; by right; left|]. apply handed_list_ok in Hv as [_ Hv]. right. rewrite (g_hands _ _ _ _ _ _ M). exact Hv.
  - intros z Hz HzL. apply (shape_nodes _ _ _ _ Hsh) in Hz.
    assert (z <> b) as Hzb by (intros ->; apply HzL; by left).
    assert (~ handed z) as Hzh. { intros X. apply HzL. right. by apply handed_list_ok. }
    split; [|split].
    + intros [->|[->|F%elem_of_nil]%elem_of_cons]%elem_of_cons; done.
    + split.
      * rewrite (g_hands _ _ _ _ _ _ M). intros i k Hi. apply Hzh. by exists i, k.
      * intros t tr2 Ht Er. pose proof (g_root _ _ _ _ _ _ M t) as Eq. rewrite Ht in Eq. destruct (s_trees s0 !! t) as [tr3|] eqn:E3; [|done].
        injection Eq as Eq. destruct (decide (t = t0)) as [->|Htt].
        -- rewrite Htr0 in E3. injection E3 as <-. apply Hzh. rewrite <-Er, Eq, Hroot. exact Hhand.
        -- apply (Hroots t tr3 E3 Htt). by rewrite <-Eq, Er.
    + destruct (gm_weak s1 D z M Hz Hzh) as [o Hm]. rewrite n_memb_mem in Hm. unfold weak_node. destruct (s_nodes s1 !! z) as [nd|]; [|done].
      injection Hm as Hm. eauto.
  - right. by apply handed_list_ok.
  - destruct (tree_referenced s1 [t'] t0) eqn:Er; [|done]. exfalso. by apply Hnp, (gm_ref s1 D M).
  - eapply agrees_ret; [apply upto_drop_tree|exact E].
Qed.

Lemma up_drop_held s c p fuel : wrecked s [c] -> c ∈ rose_nodes ro -> child_of K p c -> handed p -> ~ handed c ->
  exists s', set_memberships_upto (S n) (S (S fuel)) s [t'] (Some (Open c, x)) t' = set_memberships_upto (S n) fuel s' [t'] (Some (Close p, x)) t' /\ wrecked s' [].
Proof.
  intros W Hc Hpc Hp Hnc.
  assert (p ∈ rose_nodes ro /\ c <> x) as [Hpr Hcx].
  { split; [|intros ->; by apply (proj2 Htop p)]. apply (shape_nodes _ _ _ _ Hsh) in Hc. inversion Hc as [|q z Hb Hq]; subst; [exfalso; by apply (proj2 Htop p)|].
    rewrite <-(wf_uniq _ Hwf _ _ _ Hq Hpc). by apply (shape_nodes _ _ _ _ Hsh). }
  assert (p <> c) as Hpc' by (intros ->; by eapply child_irrefl).
  assert (c ∈ [c]) as Hcc by (by left).
  destruct (w_fields s [c] c W Hc (or_intror Hcc)) as (E1 & E2 & E3 & [nd Hnd]). rewrite (fparent_child _ _ _ _ Hrep Hpc) in E3.
  destruct (w_fields s [c] p W Hpr (or_introl Hp)) as (_ & _ & _ & Hap).
  destruct (w_weak _ _ W c Hc Hnc Hcc) as [o Hm].
  set (s3 := put_mem s c (MWeak (Some t'))).
  assert (forall z, z <> c -> s_nodes s3 !! z = s_nodes s !! z) as N3 by (intros z Hz; unfold s3; rewrite put_mem_nodes; by rewrite decide_False by done).
  assert (exists nd3, s_nodes s3 !! c = Some nd3 /\ n_first nd3 = None /\ n_next nd3 = None /\ n_parent nd3 = Some p /\ n_mem nd3 = MWeak (Some t')) as (nd3 & Hc3 & D1 & D2 & D3 & D4).
  { unfold s3. rewrite put_mem_nodes, decide_True, Hnd by done. eexists. split; [reflexivity|]. unfold fnext, ffirst, fparent in *. rewrite Hnd in *. simpl in *. done. }
  assert (release_upto (S n) s3 [c] c = Ret s3) as Rel1 by (apply upto_noop, referenced_true; left; by left).
  assert (referenced s3 [p] c = false) as Href.
  { apply referenced_false.
    - intros F%elem_of_list_singleton. congruence.
    - split.
      + intros i k Hi. apply Hnc. exists i, k. rewrite <-(w_hands _ _ W). exact Hi.
      + intros u tr Hu Er. change (s_trees s !! u = Some tr) in Hu. destruct (decide (u = t0)) as [->|Hut]; [rewrite (w_t0 _ _ W) in Hu; done|].
        pose proof (w_roots _ _ W u Hut) as Eq. rewrite Hu in Eq. destruct (s_trees s0 !! u) as [tr0|] eqn:E0; [|done]. injection Eq as Eq.
        apply (Hroots u tr0 E0 Hut). by rewrite <-Eq, Er.
    - intros z Hz. destruct (decide (z ∈ rose_nodes ro)) as [Hzr|Hzr].
      + destruct (decide (z = c)) as [->|Hzc]; [unfold ffirst in Hz; rewrite Hc3 in Hz; simpl in Hz; congruence|].
        destruct (handed_dec z) as [Hzh|Hzh].
        * destruct (w_fields s [c] z W Hzr (or_introl Hzh)) as (_ & X & _). unfold ffirst in *. rewrite N3 in Hz by done. congruence.
        * unfold ffirst in Hz. rewrite N3 in Hz by done. rewrite (w_gone _ _ W z Hzr Hzh) in Hz; [done|]. by intros F%elem_of_list_singleton.
      + assert (ffirst (s_nodes s0) z = Some c) as Hz0. { unfold ffirst in *. rewrite N3 in Hz by (by intros ->). by rewrite (w_out _ _ W z Hzr) in Hz. }
        assert (child_of K z c) as Hzc.
        { assert (is_Some (K !! z)) as [ks Hk]. { apply (rep_dom _ _ Hrep). unfold ffirst in Hz0. destruct (s_nodes s0 !! z); [eauto|done]. }
          rewrite (rep_first _ _ Hrep _ _ Hk) in Hz0. exists ks. split; [done|]. destruct ks; [done|]. injection Hz0 as ->. by left. }
        apply Hzr. by rewrite (wf_uniq _ Hwf _ _ _ Hzc Hpc).
    - intros z Hz. destruct (decide (z ∈ rose_nodes ro)) as [Hzr|Hzr].
      + destruct (decide (z = c)) as [->|Hzc]; [unfold fnext in Hz; rewrite Hc3 in Hz; simpl in Hz; congruence|].
        destruct (handed_dec z) as [Hzh|Hzh].
        * destruct (w_fields s [c] z W Hzr (or_introl Hzh)) as (X & _). unfold fnext in *. rewrite N3 in Hz by done. congruence.
        * unfold fnext in Hz. rewrite N3 in Hz by done. rewrite (w_gone _ _ W z Hzr Hzh) in Hz; [done|]. by intros F%elem_of_list_singleton.
      + assert (fnext (s_nodes s0) z = Some c) as Hz0. { unfold fnext in *. rewrite N3 in Hz by (by intros ->). by rewrite (w_out _ _ W z Hzr) in Hz. }
        destruct (fnext_inv _ _ _ _ Hrep Hwf Hz0) as (q & ks & i & Hk & Hi1 & Hi2).
        assert (q = p) as -> by (apply (wf_uniq _ Hwf q p c); [exists ks; split; [done|by eapply elem_of_list_lookup_2]|done]).
        apply Hzr. apply (shape_nodes _ _ _ _ Hsh). econstructor; [by apply (shape_nodes _ _ _ _ Hsh)|]. exists ks. split; [done|]. by eapply elem_of_list_lookup_2. }
  set (s4 := with_nodes s3 (delete c (s_nodes s3))).
  assert (release_upto (S n) s3 [p] c = Ret s4) as Rel2. { eapply upto_free; [exact Hc3|exact Href|done|done|exact D4]. }
  exists s4. split.
  - cbn [set_memberships_upto]. unfold link_dfs_next. rewrite decide_False by done. cbn [mbind run_bind dft_next]. unfold first_child_link. rewrite E2.
    cbn [option_map fst ev_pin ev_val]. unfold set_tree_core_upto. rewrite Hm. cbn [mbind run_bind]. fold s3. rewrite Rel1. cbn [mbind run_bind].
    rewrite decide_False by congruence. cbn [mbind run_bind dft_next]. unfold next_sibling_link, parent_link.
    replace (fnext (s_nodes s3) c) with (None (A := nid)) by (unfold fnext; by rewrite Hc3).
    replace (fparent (s_nodes s3) c) with (Some p) by (unfold fparent; by rewrite Hc3). unfold upgrade.
    assert (alive (s_nodes s3) p = true) as -> by (apply alive_spec; by rewrite N3).
    cbn [mbind run_bind option_map fst ev_pin ev_val]. rewrite Rel2. reflexivity.
  - assert (forall z, s_nodes s4 !! z = if decide (z = c) then None else s_nodes s !! z) as N4.
    { intros z. unfold s4. simpl. destruct (decide (z = c)) as [->|Hz]; [by rewrite lookup_delete|]. rewrite lookup_delete_ne by done. by apply N3. }
    split.
    + apply W.
    + apply W.
    + apply W.
    + apply W.
    + intros z Hz. rewrite N4, decide_False by (by intros ->). by apply W.
    + intros z Hz Hh _. rewrite N4. destruct (decide (z = c)) as [|Hzc]; [done|]. apply (w_gone _ _ W z Hz Hh). by intros F%elem_of_list_singleton.
    + intros z Hz [Hh|F]; [|by apply elem_of_nil in F]. rewrite N4, decide_False by (by intros ->). apply (w_kept _ _ W z Hz). by left.
    + intros z _ _ F. by apply elem_of_nil in F.
    + intros z Hz Hh. rewrite <-(w_tree _ _ W z Hz Hh). unfold tree_of. rewrite !n_memb_mem, N4, decide_False; [done|]. by intros ->.
Qed.

Lemma up_lost_loop : forall rest pre e s fuel, dfs_events ro = pre ++ e :: rest -> gm s (opens pre) -> pending (opens pre) -> length rest < fuel ->
  exists s', set_memberships_upto (S n) fuel s [t'] (Some (e, x)) t' = Ret (Some s') /\ wrecked s' [].
Proof.
  induction rest as [|b rest IH]; intros pre e s fuel Hev M Hp Hf; (destruct fuel as [|fuel]; [simpl in Hf; lia|]).
  - exfalso. destruct Hp as (y & Hy & _ & Hn). apply Hn. rewrite elem_opens.
    assert (Open y ∈ dfs_events ro) as X by (by apply dfs_events_elem). rewrite Hev in X. apply elem_of_app in X as [X|X]; [done|].
    apply elem_of_list_singleton in X. destruct (decide (e = Close x)) as [->|He]; [done|]. destruct (ev_not_last K x ro Hsh _ _ _ Hev He) as (? & ? & ?). done.
  - assert (b :: rest = [] \/ length rest < fuel) as [?|Hf'] by (right; simpl in Hf; lia); [done|].
    assert (dfs_events ro = (pre ++ [e]) ++ b :: rest) as Hev' by (by rewrite Hev, <-app_assoc).
    destruct e as [y|y].
    + assert (y ∈ rose_nodes ro) as Hy. { apply (shape_nodes _ _ _ _ Hsh). exact (ev_in K x ro Hsh _ _ _ Hev). }
      pose proof (ev_fresh _ _ _ Hev) as HyD.
      destruct (pending_dec (y :: opens pre)) as [Hp'|Hp'].
      * destruct (up_gm_turn s0 K x ro t0 t' Hrep Hwf Htop Hsh Hne Hhand [t'] pre (Open y) b rest s fuel Hev M) as (s1 & -> & M1 & _).
        { intros y' s1 [= <-] M1 _. apply (gm_ref s1 _ M1). eapply pending_ext; [apply opens_snoc|exact Hp']. }
        apply (IH (pre ++ [Open y])); [exact Hev'|exact M1| |exact Hf']. eapply pending_ext; [apply opens_snoc|exact Hp'].
      * assert (handed y) as Hyh.
        { destruct Hp as (z & Hz & Hzh & HzD). destruct (decide (z = y)) as [->|Hzy]; [done|]. exfalso. apply Hp'. exists z. split; [done|]. split; [done|].
          by intros [?|?]%elem_of_cons. }
        destruct (up_gm_put s0 ro t0 t' Hne s (opens pre) y M Hy HyD) as (s1 & M1 & Es).
        assert (below K x (ev_val b)) as Hbb by exact (ev_in K x ro Hsh _ _ _ Hev').
        destruct (tear_here s1 _ y (ev_val b) M1 Hp' Hyh (proj2 (shape_nodes _ _ _ _ Hsh) Hbb)) as (s2 & E2 & W). pose proof (up_tear_here s1 _ y (ev_val b) M1 Hp' Hyh (proj2 (shape_nodes _ _ _ _ Hsh) Hbb)) as E2u.
        pose proof (gm_rep _ _ _ _ _ Hrep _ _ M) as R.
        pose proof (ev_step (s_nodes s) K x ro R Hwf Hsh _ _ _ _ Hev) as Hnx.
        pose proof (ev_step (s_nodes s0) K x ro Hrep Hwf Hsh _ _ _ _ Hev) as Hnx0.
        destruct (proj1 (gm_handed s _ y M Hy) Hyh) as (u & rc & lk & Hmy).
        assert (set_memberships_upto (S n) (S fuel) s [t'] (Some (Open y, x)) t' = set_memberships_upto (S n) fuel s2 [t'] (Some (b, x)) t') as ->.
        { cbn [set_memberships_upto]. unfold link_dfs_next. rewrite decide_False by done. cbn [mbind run_bind]. rewrite Hnx. cbn [option_map fst ev_pin ev_val].
          rewrite Es, Hmy, E2u, E2. cbn [mbind run_bind]. rewrite (up_w_release s2 _ [ev_val b] y W Hyh). reflexivity. }
        destruct b as [c|c].
        -- assert (child_of K y c) as Hc.
           { simpl in Hnx0. unfold first_child_link in Hnx0. destruct (ffirst (s_nodes s0) y) as [c'|] eqn:Ef; [|discriminate Hnx0]. injection Hnx0 as ->.
             assert (is_Some (K !! y)) as [ks Hk]. { apply (rep_dom _ _ Hrep). unfold ffirst in Ef. destruct (s_nodes s0 !! y); [eauto|done]. }
             rewrite (rep_first _ _ Hrep _ _ Hk) in Ef. exists ks. split; [done|]. destruct ks; [done|]. injection Ef as ->. by left. }
           assert (c ∈ rose_nodes ro) as Hcr by (by apply (shape_nodes _ _ _ _ Hsh)).
           assert (~ handed c) as Hnc.
           { intros Hch. apply Hp'. exists c. split; [done|]. split; [done|]. rewrite (opens_snoc pre y c). exact (ev_fresh _ _ _ Hev'). }
           pose proof (ev_open_close _ K x ro Hrep Hwf Hsh _ _ _ Hev') as Hcc. apply elem_of_list_split in Hcc as (r1 & r2 & Er).
           assert (dfs_events ro = ((pre ++ [Open y]) ++ Open c :: r1) ++ Close c :: r2) as Hev2 by (rewrite Hev', Er; by rewrite <-!app_assoc).
           assert (c <> x) as Hcx by (intros ->; by apply (proj2 Htop y)).
           pose proof (ev_close_close _ K x ro Hrep Hwf Hsh _ _ _ _ Hev2 Hc Hcx) as Hyy. apply elem_of_list_split in Hyy as (r3 & r4 & Er2).
           assert (dfs_events ro = (((pre ++ [Open y]) ++ Open c :: r1) ++ Close c :: r3) ++ Close y :: r4) as Hev3 by (rewrite Hev2, Er2; by rewrite <-!app_assoc).
           subst rest r2. rewrite !app_length in Hf'. simpl in Hf'. rewrite app_length in Hf'. simpl in Hf'.
           destruct fuel as [|[|fuel]]; [lia|lia|].
           destruct (up_drop_held s2 c y fuel W Hcr Hc Hyh Hnc) as (s4 & -> & W4). exists s4. split; [|exact W4].
           eapply (up_climb (length r4)); [done|exact Hev3|lia|exact W4|exact Hyh].
        -- assert (c = y) as ->. { simpl in Hnx0. destruct (first_child_link (s_nodes s0) y); congruence. }
           assert (wrecked s2 []) as W0.
           { eapply w_ext; [exact W|]. intros z Hz. split; [|intros [?|F]; [by left|by apply elem_of_nil in F]]. intros [?|F]; [by left|].
             apply elem_of_list_singleton in F as ->. left. exact Hyh. }
           exists s2. split; [|exact W0]. eapply (up_climb (length rest)); [done|exact Hev'|exact Hf'|exact W0|exact Hyh].
    + destruct (up_gm_turn s0 K x ro t0 t' Hrep Hwf Htop Hsh Hne Hhand [t'] pre (Close y) b rest s fuel Hev M) as (s1 & -> & M1 & _); [by intros ? ? [=]|].
      apply (IH (pre ++ [Close y])); [exact Hev'|exact M1| |exact Hf']. eapply pending_ext; [apply opens_close|exact Hp].
Qed.

Lemma up_lost_subtree : gm s0 [] -> exists s', set_subtree_upto (S n) s0 [] x t' = Ret (Some s') /\ wrecked s' [].
Proof.
  intros M. pose proof (head_events ro) as Hh. rewrite (shape_root _ _ _ Hsh) in Hh.
  destruct (dfs_events ro) as [|e rest] eqn:Eev; [done|]. injection Hh as ->.
  unfold set_subtree_upto. apply (up_lost_loop rest []); [exact Eev|exact M| |].
  - exists x. split; [apply (shape_nodes _ _ _ _ Hsh); constructor|]. split; [exact Hhand|apply not_elem_of_nil].
  - pose proof (dfs_events_length ro) as Hl. rewrite Eev in Hl. simpl in Hl.
    pose proof (nodes_length_le _ _ _ _ Hrep Hwf Hsh). unfold dfs_fuel. lia.
Qed.
End Lost.
End Up.
