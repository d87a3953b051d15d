(** * MoveFacts: the exact effect of moves that go wrong. *)
From Verif Require Import Heap Edit System SysSpec CardFacts HeapFacts SpecFacts NavFacts NavFacts2 EditFacts EditFacts2 EditFacts3 EditFacts4 EditFacts5 IterSpec RoseFacts AdjFacts TravFacts TdFacts TdFacts2 SysFacts SysFacts2 SysFacts3 SysFacts4 SysFacts5 SysFacts6 SysFacts7 SysFacts8 SysFacts9 SysFacts10 SysFacts11 SysFacts12 SysFacts13 SysFacts14 SysFacts15 ApiSpec ApiFacts ApiFacts2 ApiFacts3 ApiFacts4 ApiFacts5 ApiFacts6 MisledSpec Misled Misled2 Misled3 Misled4 Misled5 Misled6 Misled7 Misled8 MoveSpec Spec.

Section MoveFacts.
Context {T : Type}.
Implicit Types (h : heap T) (s g : sys T) (K : forest).

Lemma alter_look {A} (u : A -> A) (x z : nid) (h : gmap nid A) : alter u x h !! z = (fun nd => if decide (z = x) then u nd else nd) <$> h !! z.
Proof.
  destruct (decide (z = x)) as [->|Hn]; [rewrite lookup_alter|rewrite lookup_alter_ne by done]; by destruct (h !! _).
Qed.

Lemma unlink_cases h K p x : rep h K -> wf K -> child_of K p x ->
  exists K1 h1 h', unlinked K x K1 /\ new_by_unlink h x = Ret (h1, true) /\ rep h' K1 /\ same_meta h h' /\
    ((~ last_not_first K x /\ h1 = h') \/
     exists f m, K !! p = Some (f :: m ++ [x]) /\ K1 = <[p := f :: m]> K /\ h1 = set_prev h' f (Some x)).
Proof.
  intros Hr W (ks & Hp & Hin). destruct (lnf_dec K p ks x W Hp Hin) as [(f & m & -> & Hl)|Ho].
  - destruct (unlink_cut h K p f m x Hr W Hp) as (h1 & E & C).
    destruct (cut_rep h K p f m x h1 Hr W Hp C) as (h' & Hr' & M & ->).
    exists (<[p := f :: m]> K), (set_prev h' f (Some x)), h'. split; [exact (last_unlinked K p f m x W Hp)|].
    split; [exact E|]. split; [exact Hr'|]. split; [exact M|]. right. by exists f, m.
  - pose proof (not_lnf K p ks x W Hp Hin Ho) as Hl.
    destruct (child_unlinked K p x (ex_intro _ ks (conj Hp Hin))) as [K1 Hu].
    destruct (unlink_any h K x K1 Hr W Hu Hl) as (h' & E & Hr' & _ & _ & M).
    exists K1, h', h'. split; [exact Hu|]. split; [exact E|]. split; [exact Hr'|]. split; [exact M|]. by left.
Qed.

Lemma lnf_list K p f m x : wf K -> K !! p = Some (f :: m ++ [x]) -> last_not_first K x.
Proof.
  intros W Hp. exists p, (f :: m ++ [x]). split; [exact Hp|]. split; [by rewrite app_comm_cons, last_snoc|].
  intros [= ->]. pose proof (wf_nodup _ W _ _ Hp) as Hnd. apply NoDup_cons in Hnd as [Hnd _]. apply Hnd. set_solver.
Qed.

(** The two cases of [unlink_cases], as a statement about states. *)
Lemma cut_off_intro K p x g s' : wf K -> child_of K p x ->
  ((~ last_not_first K x /\ s' = g) \/ exists f m, K !! p = Some (f :: m ++ [x]) /\ s' = sp f (Some x) g) -> cut_off K x g s'.
Proof.
  intros W Hc Ho. split.
  - intros Hn. destruct Ho as [[_ E]|(f & m & Hp & _)]; [exact E|]. exfalso. apply Hn. exact (lnf_list K p f m x W Hp).
  - intros q f m Hq. destruct Ho as [[Hn _]|(f0 & m0 & Hp & ->)].
    + exfalso. apply Hn. exact (lnf_list K q f m x W Hq).
    + assert (q = p) as ->. { eapply (wf_uniq K W q p x); [|exact Hc]. exists (f :: m ++ [x]). split; [exact Hq|set_solver]. }
      rewrite Hp in Hq. injection Hq as -> Hq. apply sp_misled.
Qed.

Lemma parent_link_rep h K y : rep h K -> is_top K y -> parent_link h y = None.
Proof. intros Hr Ht. unfold parent_link. by rewrite (proj1 (rep_top _ _ Hr y Ht)). Qed.

Lemma no_place_err h K ad y n b : rep h K -> is_top K y -> (ad = APreviousSibling \/ ad = ANextSibling) ->
  insert_orphan h n b (dest_of ad y) = Ret (h, HErr SiblingsWithoutParent).
Proof. intros Hr Ht [->| ->]; simpl; by rewrite (parent_link_rep h K y Hr Ht). Qed.
Lemma no_place_err_sp h K ad y n b f v : rep h K -> is_top K y -> (ad = APreviousSibling \/ ad = ANextSibling) ->
  insert_orphan (set_prev h f v) n b (dest_of ad y) = Ret (set_prev h f v, HErr SiblingsWithoutParent).
Proof. intros Hr Ht [->| ->]; simpl; by rewrite sp_parent_link, (parent_link_rep h K y Hr Ht). Qed.

Lemma top_unlinked K x K1 y : wf K -> unlinked K x K1 -> y = x \/ is_top K y -> is_top K1 y.
Proof.
  intros W Hu [->|Ht]; [exact (proj2 (unlinked_wf K x K1 W Hu))|].
  destruct (unlinked_child K x K1 W Hu) as (Hch & Hdom & _). destruct Ht as [Ha Hn]. split; [by apply Hdom|].
  intros q Hq. apply Hch in Hq as [Hq _]. by apply (Hn q).
Qed.

Lemma relink_reshapes s h' K1 : same_meta (s_nodes s) h' -> rep h' K1 -> wf K1 -> reshapes s (with_nodes s h') K1.
Proof.
  intros M R W. split; [split; [exact R|exact W]|reflexivity| | |reflexivity].
  - intros y. by apply relink_payload.
  - intros y. by apply relink_tree_of.
Qed.

(** A failing move inside a tree. *)
Lemma move_same_fails s K a k x ad j y p : reach s -> stores s K -> receiver s a k x -> s_hands s !! j = Some (HNode Hot y) ->
  child_of K p x -> tree_of s x = tree_of s y -> no_place K x ad y ->
  exists K1 g s', step s (OpMove a ad j) = Ret (s', OutErr SiblingsWithoutParent) /\ unlinked K x K1 /\ reshapes s g K1 /\ cut_off K x g s'.
Proof.
  intros Hr Hst Hrc Hj Hp He [Had Hy]. pose proof (reach_stores_inv s K Hr Hst) as H. pose proof (inv_wf s K H) as W.
  destruct (receiver_facts s K a k x H Hrc) as (i & t & Hi & Et & Ht & Hth & Ha & Hk & El).
  destruct (handle_tree s K j Hot y H Hj) as (t' & tr' & Et' & Ht' & _ & _ & El'). assert (t' = t) as -> by congruence.
  pose proof (s_rep _ _ (i_s _ _ H)) as R.
  destruct (unlink_cases (s_nodes s) K p x R W Hp) as (K1 & h1 & h' & Hu & E & R' & M & Ho).
  pose proof (unlinked_wf K x K1 W Hu) as [W1 T1]. pose proof (top_unlinked K x K1 y W Hu Hy) as Ty.
  assert (move_subtree s x ad y = Ret (with_nodes s h1, HErr SiblingsWithoutParent)) as Em.
  { unfold move_subtree. rewrite El, El'. cbn [mbind run_bind]. rewrite decide_True by done. unfold move_inside_same_tree.
    rewrite (is_root_child _ _ _ _ R Hp), E. cbn [mbind run_bind].
    destruct Ho as [[_ ->]|(f & m & _ & _ & ->)].
    - by rewrite (no_place_err h' K1 ad y x true R' Ty Had).
    - by rewrite (no_place_err_sp h' K1 ad y x true f (Some x) R' Ty Had). }
  exists K1, (with_nodes s h'), (with_nodes s h1).
  split; [exact (move_step_eq s K a k x ad j y _ H Hrc Hj Em)|]. split; [exact Hu|].
  split; [by apply relink_reshapes|]. apply (cut_off_intro K p x _ _ W Hp).
  destruct Ho as [[Hl ->]|(f & m & Hpl & _ & ->)]; [by left|right; by exists f, m].
Qed.

(** A failing move to another tree. *)
Lemma move_other_fails s K a k x ad j y p : reach s -> stores s K -> receiver s a k x -> s_hands s !! j = Some (HNode Hot y) ->
  child_of K p x -> tree_of s x <> tree_of s y -> no_place K x ad y ->
  exists K1 K2 t t' g s', step s (OpMove a ad j) = Ret (s', OutErr SiblingsWithoutParent) /\ tree_of s x = Some t /\ tree_of s y = Some t' /\
    unlinked K x K1 /\ carries s K1 x t t' g K2 /\ stores g K2 /\ is_top K2 x /\
    (forall u, is_Some (s_trees g !! u) -> t_root <$> s_trees g !! u = t_root <$> s_trees s !! u) /\ cut_off K x g s'.
Proof.
  intros Hr Hst Hrc Hj Hp Hne [Had Hy]. pose proof (reach_stores_inv s K Hr Hst) as H. pose proof (inv_wf s K H) as W.
  destruct (receiver_facts s K a k x H Hrc) as (i & t & Hi & Et & Ht & Hth & Ha & Hk & El).
  destruct (handle_tree s K j Hot y H Hj) as (t' & tr' & Et' & Ht' & _ & _ & El').
  assert (thawed s (s_hands s) t') as Hth'.
  { apply thawed_holders. exact (handle_excl s K j Hot y t' H Hj ltac:(done) Et'). }
  assert (t <> t') as Htt by congruence.
  pose proof (s_rep _ _ (i_s _ _ H)) as R.
  destruct (unlink_cases (s_nodes s) K p x R W Hp) as (K1 & h1 & h' & Hu & E & R' & M & Ho).
  pose proof (unlinked_wf K x K1 W Hu) as [W1 T1]. pose proof (top_unlinked K x K1 y W Hu Hy) as Ty1.
  destruct (move_carry s K i k x t j Hot y t' K1 h' H Hi Et Hth Hj Et' Hth' Htt Hu R' M) as (ro & s2 & K2 & Hro & E2 & B & M2 & C & S0).
  pose proof (m_rep _ _ _ _ _ _ _ _ _ _ M2) as R2. pose proof (m_wf _ _ _ _ _ _ _ _ _ _ M2) as W2.
  pose proof (m_top _ _ _ _ _ _ _ _ _ _ M2) as T2.
  assert (is_top K2 y) as Ty.
  { destruct (ca_fate _ _ _ _ _ _ _ C) as [[_ ->]|(_ & _ & L0 & HL0 & ->)]; [exact Ty1|].
    destruct Ty1 as [A B1]. split.
    - rewrite prune_lookup, decide_False; [exact A|]. intros Hin. apply HL0 in Hin as (_ & _ & F). congruence.
    - intros q Hq. apply prune_child in Hq as [_ Hq]. by apply (B1 q). }
  assert (carries s K1 x t t' s2 K2) as C'.
  { split; [exact (ca_hands _ _ _ _ _ _ _  C)|exact (ca_in _ _ _ _ _ _ _  C)|exact (ca_out _ _ _ _ _ _ _  C)|exact (ca_payload _ _ _ _ _ _ _  C)|exact (ca_trees _ _ _ _ _ _ _  C)|exact (ca_dest _ _ _ _ _ _ _  C)|].
    destruct (ca_fate _ _ _ _ _ _ _ C) as [[A ->]|(A & A2 & L0 & HL0 & ->)].
    - left. split; [|split; [exact A|reflexivity]]. apply (m_held _ _ _ _ _ _ _ _ _ _ M2); [exact A|].
      intros F%elem_of_list_singleton. congruence.
    - right. split; [exact A2|]. split; [exact A|]. intros z. rewrite prune_lookup. split.
      + intros Hz. rewrite decide_False; [done|]. intros Hin. apply HL0 in Hin as (_ & A3 & A4). by destruct Hz.
      + intros Hz. destruct (decide (z ∈ L0)) as [|Hnz]; [done|]. destruct (K1 !! z) eqn:Ez; [|done]. exfalso. apply Hnz.
        apply HL0. split; [eauto|]. split; [intros Hb; apply Hz; by left|]. destruct (decide (tree_of s z = Some t)) as [e|Hn1]; [exact e|].
        exfalso. apply Hz. by right. }
  assert (stores s2 K2) as St2 by (exact (conj R2 W2)).
  assert (forall u, is_Some (s_trees s2 !! u) -> t_root <$> s_trees s2 !! u = t_root <$> s_trees s !! u) as Hrt.
  { intros u Hu2. destruct (m_kept _ _ _ _ _ _ _ _ _ _ M2) as [(_ & _ & F)|(tr0 & L0 & _ & _ & _ & _ & _ & F1 & F2)]; [exact (F u)|].
    apply F2. intros ->. rewrite F1 in Hu2. by destruct Hu2. }
  destruct Ho as [[Hl ->]|(f & m & Hpl & HK1 & ->)].
  - exists K1, K2, t, t', s2, s2. split.
    { eapply (move_step_eq s K a k x ad j y (s2, HErr SiblingsWithoutParent) H Hrc Hj). unfold move_subtree. rewrite El, El'. cbn [mbind run_bind].
      rewrite decide_False by done. unfold move_to_another_tree. rewrite E. cbn [mbind run_bind]. rewrite E2. cbn [mbind run_bind].
      rewrite (no_place_err (s_nodes s2) K2 ad y x true R2 Ty Had). cbn [mbind run_bind]. by destruct s2. }
    split; [exact Et|]. split; [exact Et'|]. split; [exact Hu|]. split; [exact C'|]. split; [exact St2|]. split; [exact T2|]. split; [exact Hrt|].
    apply (cut_off_intro K p x _ _ W Hp). by left.
  - exists K1, K2, t, t', s2, (sp f (Some x) s2). split.
    { eapply (move_step_eq s K a k x ad j y (sp f (Some x) s2, HErr SiblingsWithoutParent) H Hrc Hj). unfold move_subtree. rewrite El, El'. cbn [mbind run_bind].
      rewrite decide_False by done. unfold move_to_another_tree. rewrite E. cbn [mbind run_bind].
      change (with_nodes s (set_prev h' f (Some x))) with (sp f (Some x) (with_nodes s h')).
      unfold set_subtree_tree, dfs_fuel in *. change (s_nodes (sp f (Some x) (with_nodes s h'))) with (set_prev h' f (Some x)). rewrite sp_size.
      rewrite sp_memberships. change (s_nodes (with_nodes s h')) with h' in E2. rewrite E2. unfold rosp. cbn [mbind run_bind option_map].
      change (s_nodes (sp f (Some x) s2)) with (set_prev (s_nodes s2) f (Some x)).
      rewrite (no_place_err_sp (s_nodes s2) K2 ad y x true f (Some x) R2 Ty Had). done. }
    split; [exact Et|]. split; [exact Et'|]. split; [exact Hu|]. split; [exact C'|]. split; [exact St2|]. split; [exact T2|]. split; [exact Hrt|].
    apply (cut_off_intro K p x _ _ W Hp). right. by exists f, m.
Qed.

(** A move below the moved node itself. *)
Lemma move_below s K a k x ad j y p : reach s -> stores s K -> receiver s a k x -> s_hands s !! j = Some (HNode Hot y) ->
  child_of K p x -> below K x y -> ~ no_place K x ad y ->
  exists K' g s' q, step s (OpMove a ad j) = Ret (s', OutUnit) /\ moved K x (dest_of ad y) K' /\ relinks s g K' /\ cut_off K x g s' /\ child_of K' q x /\ below K' x q.
Proof.
  intros Hr Hst Hrc Hj Hp Hb Hpl. pose proof (reach_stores_inv s K Hr Hst) as H. pose proof (inv_wf s K H) as W.
  destruct (receiver_facts s K a k x H Hrc) as (i & t & Hi & Et & Ht & Hth & Ha & Hk & El).
  destruct (handle_tree s K j Hot y H Hj) as (t' & tr' & Et' & Ht' & _ & _ & El').
  assert (t' = t) as ->.
  { assert (tree_of s y = tree_of s x) as F by (apply (below_tree s K noX x y); [apply sinv_pinv; apply H|exact Hb]). congruence. }
  pose proof (s_rep _ _ (i_s _ _ H)) as R.
  destruct (unlink_cases (s_nodes s) K p x R W Hp) as (K1 & h1 & h' & Hu & E & R' & M & Ho).
  pose proof (unlinked_wf K x K1 W Hu) as [W1 T1].
  destruct (unlinked_child K x K1 W Hu) as (Hch & Hdom & _).
  assert (forall z, below K x z -> below K1 x z) as Hb1.
  { intros z Hz. induction Hz as [|q c Hz IH Hc]; [constructor|]. econstructor; [exact IH|]. apply Hch. split; [exact Hc|].
    intros ->. exact (no_cycle K q x W Hc Hz). }
  assert (adoptable K1 ad y) as Had.
  { destruct ad; simpl; try done; (destruct (decide (y = x)) as [->|Hn]; [exfalso; apply Hpl; split; [auto|by left]|]);
    (inversion Hb as [e|q c Hq Hc e]; [by subst|]); exists q; apply Hch; done. }
  assert (is_Some (K1 !! y)) as HyK1. { apply Hdom. apply (inv_alive s K y H). by eapply handle_alive. }
  destruct (adoptable_attached K1 ad y x HyK1 Had) as [K' Hatt].
  destruct (attached_child K1 x _ K' W1 Hatt) as (q & Hq & HqK & Hch' & Hdom').
  destruct (attached_perm _ _ _ _ W1 Hatt) as (pd & ks & ks' & Hpd & Hks & HK' & _).
  assert (pd = q) as -> by (eapply dest_parent_det; [exact W1|exact Hpd|exact Hq]).
  destruct (insert_orphan_rep h' K1 x (dest_of ad y) K' q true R' W1 T1 Hatt Hq (or_introl eq_refl)) as (h3 & E3 & R3 & M3).
  assert (below K1 x q) as Hbq.
  { destruct ad; simpl in Hq; subst; try (by apply Hb1); apply Hch in Hq as [Hq Hn];
    (inversion Hb as [e|q1 c Hq1 Hc e]; [by subst|]); assert (q1 = q) as -> by exact (wf_uniq K W q1 q y Hc Hq); by apply Hb1. }
  assert (moved K x (dest_of ad y) K') as Hm by (by exists K1).
  assert (exists h2, move_inside_same_tree (s_nodes s) x (dest_of ad y) = Ret (h2, HOk tt) /\ ((~ last_not_first K x /\ h2 = h3) \/ exists f m, K !! p = Some (f :: m ++ [x]) /\ h2 = set_prev h3 f (Some x))) as (h2 & Em & Ho2).
  { unfold move_inside_same_tree. rewrite (is_root_child _ _ _ _ R Hp), E. cbn [mbind run_bind]. destruct Ho as [[Hl ->]|(f & m & Hpp & HK1 & ->)].
    - exists h3. split; [exact E3|by left].
    - exists (set_prev h3 f (Some x)). split; [|right; by exists f, m].
      rewrite (misled_insert h' K1 x (dest_of ad y) K' q ks ks' f (Some x) R' W1 T1 Hatt Hq Hks).
      + by rewrite E3.
      + rewrite HK'. by rewrite lookup_insert.
      + intros <-. apply (first_outside K p x m x W Hpp). constructor.
      + left. intros Hin. apply (first_outside K p f m x W Hpp). eapply below_unlinked; [exact W|exact Hu|].
        econstructor; [exact Hbq|]. by exists ks. }
  assert (move_subtree s x ad y = Ret (with_nodes s h2, HOk tt)) as Es.
  { unfold move_subtree. rewrite El, El'. cbn [mbind run_bind]. rewrite decide_True by done. by rewrite Em. }
  exists K', (with_nodes s h3), (with_nodes s h2), q.
  split; [exact (move_step_eq s K a k x ad j y _ H Hrc Hj Es)|]. split; [exact Hm|].
  assert (same_meta (s_nodes s) h3) as M4 by (by eapply same_meta_trans).
  split. { split; [exact R3|reflexivity| | |reflexivity].
    - intros z. by apply relink_payload.
    - intros z. by apply relink_tree_of. }
  split. { apply (cut_off_intro K p x _ _ W Hp). destruct Ho2 as [[Hl ->]|(f & m & Hpp & ->)]; [by left|right; by exists f, m]. }
  split; [apply Hch'; auto|]. assert (forall u v, child_of K1 u v -> child_of K' u v) as Hm1 by (intros u v Huv; apply Hch'; by left).
  clear -Hbq Hm1. induction Hbq as [|q1 c Hq1 IH Hc]; [constructor|]. econstructor; [exact IH|]. by apply Hm1.
Qed.

Lemma last_place_look h p f x z : p <> x -> p <> f -> x <> f ->
  num_children_add (set_parent (connect_adjacent_siblings (set_prev (set_prev h f (Some x)) f (Some x)) x x) x (Some p)) p 1 !! z =
  (fun nd => mkNode (n_data nd) (n_lend nd) (if decide (z = x) then Some p else n_parent nd) (n_first nd)
     (if decide (z = x) then Some x else n_next nd) (if decide (z = f \/ z = x) then Some x else n_prev nd)
     (if decide (z = p) then S (n_nch nd) else n_nch nd) (n_mem nd)) <$> h !! z.
Proof.
  intros N1 N2 N3. unfold num_children_add, connect_adjacent_siblings.
  assert (fnch (set_parent (set_next (set_prev (set_prev (set_prev h f (Some x)) f (Some x)) x (Some x)) x (Some x)) x (Some p)) p = fnch h p) as Hn.
  { unfold fnch, set_parent, set_next, set_prev. by repeat (rewrite lookup_alter_ne by congruence). }
  rewrite Hn. unfold set_nch, set_parent, set_next, set_prev. rewrite !alter_look. unfold fnch.
  destruct (decide (z = p)) as [->|Hzp].
  - destruct (h !! p) as [[]|] eqn:Ep; simpl; [|done]. rewrite !(decide_False (P := p = x)), !(decide_False (P := p = f)) by congruence.
    rewrite (decide_False (P := p = f \/ p = x)) by naive_solver. simpl. do 2 f_equal. lia.
  - destruct (h !! z) as [[]|]; cbn [fmap option_fmap option_map]; [|done]. destruct (decide (z = x)) as [->|Hzx].
    + rewrite (decide_True (P := x = f \/ x = x)) by (by right). rewrite !(decide_False (P := x = f)) by done. done.
    + destruct (decide (z = f)) as [->|Hzf].
      * rewrite (decide_True (P := f = f \/ f = x)) by (by left). done.
      * rewrite (decide_False (P := z = f \/ z = x)) by naive_solver. done.
Qed.

(** The last child moved to the last place below its own parent. *)
Lemma move_last_place s K a k x ad j y p f m : reach s -> stores s K -> receiver s a k x -> s_hands s !! j = Some (HNode Hot y) ->
  K !! p = Some (f :: m ++ [x]) -> (ad = ALastChild /\ y = p) \/ (ad = ANextSibling /\ last (f :: m) = Some y) ->
  exists g s', step s (OpMove a ad j) = Ret (s', OutUnit) /\ reshapes s g (<[p := f :: m]> K) /\ dangles g p f x s'.
Proof.
  intros Hr Hst Hrc Hj Hp Hd. pose proof (reach_stores_inv s K Hr Hst) as H. pose proof (inv_wf s K H) as W.
  destruct (receiver_facts s K a k x H Hrc) as (i & t & Hi & Et & Ht & Hth & Ha & Hk & El).
  destruct (handle_tree s K j Hot y H Hj) as (t' & tr' & Et' & Ht' & _ & _ & El').
  assert (child_of K p x) as Hpx. { exists (f :: m ++ [x]). split; [exact Hp|]. set_solver. }
  assert (forall c, c ∈ f :: m -> child_of K p c) as Hpc.
  { intros c Hc. exists (f :: m ++ [x]). split; [exact Hp|]. rewrite app_comm_cons. apply elem_of_app. by left. }
  assert (y = p \/ child_of K p y) as Hy.
  { destruct Hd as [[_ ->]|[_ Hl]]; [by left|right]. apply Hpc. by apply elem_of_last. }
  assert (t' = t) as ->.
  { pose proof (s_child _ _ (i_s _ _ H) p x Hpx) as F. destruct Hy as [->|Hy]; [congruence|]. pose proof (s_child _ _ (i_s _ _ H) p y Hy). congruence. }
  pose proof (s_rep _ _ (i_s _ _ H)) as R.
  destruct (unlink_cut (s_nodes s) K p f m x R W Hp) as (h1 & E & C).
  destruct (cut_rep (s_nodes s) K p f m x h1 R W Hp C) as (h' & R' & M & ->).
  pose proof (last_unlinked K p f m x W Hp) as Hu. pose proof (unlinked_wf K x _ W Hu) as [W1 T1].
  assert (x ∉ f :: m) as Hx by exact (last_not_in K p f m x W Hp).
  assert (x <> f) as Hxf by set_solver.
  assert (p <> x) as Hpx'. { intros ->. exact (no_cycle K x x W Hpx (below_refl K x)). }
  assert (p <> f) as Hpf. { intros ->. apply (no_cycle K f f W (Hpc f ltac:(left)) (below_refl K f)). }
  set (K1 := <[p := f :: m]> K) in *. assert (K1 !! p = Some (f :: m)) as Hp1 by (unfold K1; by rewrite lookup_insert).
  assert (alive h' x = true) as Hax. { eapply rep_alive; [exact R'|]. apply T1. }
  assert (alive h' f = true) as Haf. { eapply rep_child_alive; [exact R'|exact W1|]. exists (f :: m). split; [exact Hp1|left]. }
  assert (ffirst h' p = Some f) as Hf by exact (rep_first _ _ R' _ _ Hp1).
  set (h2 := num_children_add (set_parent (connect_adjacent_siblings (set_prev (set_prev h' f (Some x)) f (Some x)) x x) x (Some p)) p 1).
  assert (insert_as_last_child_of (set_prev h' f (Some x)) x true p = Ret (h2, HOk tt)) as Ei.
  { unfold insert_as_last_child_of, loop_check. cbn [mbind run_bind].
    unfold first_last_child_link, first_child_link. rewrite sp_first, Hf. cbn [mbind run_bind].
    assert (prev_sibling_cyclic_link (set_prev h' f (Some x)) f = Ret x) as ->.
    { unfold prev_sibling_cyclic_link. rewrite sp_upgrade, fprev_set_prev, decide_True, Haf by done. unfold upgrade. by rewrite Hax. }
    done. }
  assert (insert_orphan (set_prev h' f (Some x)) x true (dest_of ad y) = Ret (h2, HOk tt)) as Eo.
  { destruct Hd as [[-> ->]|[-> Hl]]; cbn [dest_of insert_orphan]; [exact Ei|].
    assert (child_of K1 p y) as Hy1. { exists (f :: m). split; [exact Hp1|]. by apply elem_of_last. }
    rewrite sp_parent_link, (parent_link_child _ _ _ _ R' Hy1). unfold next_sibling_link. rewrite sp_next.
    destruct (proj1 (last_Some (f :: m) y) Hl) as [l1 El1]. rewrite El1 in Hp1.
    rewrite (fnext_split h' K1 p l1 y [] R' Hp1). exact Ei. }
  assert (move_subtree s x ad y = Ret (with_nodes s h2, HOk tt)) as Es.
  { unfold move_subtree. rewrite El, El'. cbn [mbind run_bind]. rewrite decide_True by done. unfold move_inside_same_tree.
    rewrite (is_root_child _ _ _ _ R Hpx), E. cbn [mbind run_bind]. by rewrite Eo. }
  exists (with_nodes s h'), (with_nodes s h2). split; [exact (move_step_eq s K a k x ad j y _ H Hrc Hj Es)|].
  split; [by apply relink_reshapes|].
  assert (forall z, h2 !! z = (fun nd => mkNode (n_data nd) (n_lend nd) (if decide (z = x) then Some p else n_parent nd) (n_first nd)
     (if decide (z = x) then Some x else n_next nd) (if decide (z = f \/ z = x) then Some x else n_prev nd)
     (if decide (z = p) then S (n_nch nd) else n_nch nd) (n_mem nd)) <$> h' !! z) as Hz.
  { intros z. apply last_place_look; congruence. }
  split; [reflexivity|reflexivity|reflexivity| | | |]; cbn [s_nodes with_nodes].
  - intros z N1 N2 N3. rewrite Hz. destruct (h' !! z) as [[]|]; simpl; [|done]. repeat (rewrite decide_False by naive_solver). done.
  - rewrite Hz. destruct (h' !! p) as [[]|]; simpl; [|done].
    rewrite !(decide_False (P := p = x)) by done. rewrite (decide_False (P := p = f \/ p = x)) by naive_solver. by rewrite decide_True.
  - rewrite Hz. destruct (h' !! f) as [[]|]; simpl; [|done].
    rewrite !(decide_False (P := f = x)) by done. rewrite (decide_True (P := f = f \/ f = x)) by naive_solver. by rewrite decide_False.
  - rewrite Hz. destruct (h' !! x) as [[]|]; simpl; [|done].
    rewrite !(decide_True (P := x = x)) by done. rewrite (decide_True (P := x = f \/ x = x)) by naive_solver. by rewrite decide_False.
Qed.
(** When the moved last child is last again, the destination was the last place. *)
Lemma last_place_dest K x ad y K' p f m ks' : wf K -> K !! p = Some (f :: m ++ [x]) -> moved K x (dest_of ad y) K' -> K' !! p = Some ks' -> last ks' = Some x ->
  (ad = ALastChild /\ y = p) \/ (ad = ANextSibling /\ last (f :: m) = Some y).
Proof.
  intros W Hp (K1 & Hu & At) Hks' Hl. pose proof (last_unlinked K p f m x W Hp) as Hu0. pose proof (last_not_in K p f m x W Hp) as Hx.
  assert (K1 = <[p := f :: m]> K) as ->.
  { destruct Hu as (q & ks & Hq & Hin & ->). destruct Hu0 as (q1 & ks1 & Hq1 & Hin1 & ->).
    assert (q1 = q) as -> by (eapply wf_uniq; [exact W|by exists ks1|by exists ks]). congruence. }
  pose proof (unlinked_wf K x _ W Hu) as [W1 T1].
  assert (forall q l, (<[p := f :: m]> K) !! q = Some l -> <[q := l]> (<[p := f :: m]> K) !! p = Some (f :: m)) as Hsame.
  { intros q l Hq. destruct (decide (q = p)) as [->|]; [|by rewrite lookup_insert_ne, lookup_insert by done]. rewrite lookup_insert in Hq |- *. by injection Hq as ->. }
  assert (forall q l l', (<[p := f :: m]> K) !! q = Some l -> K' = <[q := l']> (<[p := f :: m]> K) -> q = p /\ l = f :: m /\ ks' = l') as Hq.
  { intros q l l' Hq ->. destruct (decide (q = p)) as [->|Hn].
    - rewrite lookup_insert in Hq, Hks'. split; [done|]. split; congruence.
    - exfalso. rewrite lookup_insert_ne, lookup_insert in Hks' by done. injection Hks' as <-. apply Hx. by apply elem_of_last. }
  inversion At as [q l Hl1 E1 E2|q l Hl1 E1 E2|y1 q l Hl1 Hin E1 E2|y1 q l Hl1 Hin E1 E2].
  - destruct (Hq q l (x :: l) Hl1) as (-> & -> & ->); [done|]. exfalso. apply Hx. apply elem_of_last. rewrite <-Hl. done.
  - destruct (Hq q l (l ++ [x]) Hl1) as (-> & -> & ->); [done|]. left. destruct ad; try discriminate E1. by injection E1 as ->.
  - destruct (Hq q l _ Hl1 (eq_sym E2)) as (-> & -> & ->). exfalso. apply Hx. apply elem_of_last.
    apply elem_of_list_split in Hin as (l1 & l2 & Es). rewrite Es in *.
    assert (y1 ∉ l1) as Hy. { pose proof (wf_nodup _ W1 _ _ Hl1) as Hnd. apply NoDup_app in Hnd. naive_solver ls. }
    rewrite ins_before_split in Hl by done. rewrite last_app_cons in Hl. rewrite last_cons_cons in Hl. by rewrite last_app_cons.
  - destruct (Hq q l _ Hl1 (eq_sym E2)) as (-> & -> & ->). destruct ad; try discriminate E1. injection E1 as ->. right. split; [done|].
    apply elem_of_list_split in Hin as (l1 & l2 & Es). rewrite Es in *.
    assert (y ∉ l1) as Hy. { pose proof (wf_nodup _ W1 _ _ Hl1) as Hnd. apply NoDup_app in Hnd. naive_solver ls. }
    rewrite ins_after_split in Hl by done. destruct l2 as [|b l2]; [by rewrite last_snoc|].
    exfalso. apply Hx. apply elem_of_last. rewrite last_app_cons in Hl. rewrite !last_cons_cons in Hl. by rewrite last_app_cons, last_cons_cons.
Qed.

(** Every move of a node that is not a root returns; it is refused exactly when there is no
    place. *)
Lemma move_outcome s K a k x ad j y p : reach s -> stores s K -> receiver s a k x -> s_hands s !! j = Some (HNode Hot y) -> child_of K p x ->
  exists s' r, step s (OpMove a ad j) = Ret (s', r) /\
    ((no_place K x ad y /\ r = OutErr SiblingsWithoutParent) \/ (~ no_place K x ad y /\ r = OutUnit)).
Proof.
  intros Hr Hst Hrc Hj Hp. pose proof (reach_stores_inv s K Hr Hst) as H. pose proof (inv_wf s K H) as W.
  pose proof (proj1 (inv_alive s K y H) (handle_alive s K j Hot y H Hj)) as HKy.
  assert (child_of K p x) as Hp' by exact Hp. destruct Hp' as (ks & Hks & Hin).
  pose proof (proj1 (inv_alive s K x H) ltac:(destruct (receiver_facts s K a k x H Hrc) as (? & ? & ? & ? & ? & ? & ? & ?); done)) as HKx.
  assert (no_place K x ad y \/ ~ no_place K x ad y) as [Hn|Hn].
  { assert ((ad = APreviousSibling \/ ad = ANextSibling) \/ ~ (ad = APreviousSibling \/ ad = ANextSibling)) as [Ha|Ha] by (destruct ad; naive_solver); [|right; by intros [? _]].
    destruct (decide (y = x)) as [->|Hy]; [left; split; [exact Ha|by left]|].
    destruct (SpecFacts.top_or_child K y HKy) as [Ht|[q Hq]]; [left; split; [exact Ha|by right]|]. right. intros [_ [?|[_ Ht]]]; [done|]. by apply (Ht q). }
  - destruct (decide (tree_of s x = tree_of s y)) as [He|He].
    + destruct (move_same_fails s K a k x ad j y p Hr Hst Hrc Hj Hp He Hn) as (K1 & g & s' & E & _). exists s', (OutErr SiblingsWithoutParent). split; [exact E|by left].
    + destruct (move_other_fails s K a k x ad j y p Hr Hst Hrc Hj Hp He Hn) as (K1 & K2 & t & t' & g & s' & E & _). exists s', (OutErr SiblingsWithoutParent). split; [exact E|by left].
  - assert (exists s', step s (OpMove a ad j) = Ret (s', OutUnit)) as [s' E]; [|exists s', OutUnit; split; [exact E|by right]].
    destruct (below_dec K x y W HKx) as [Hb|Hb].
    { destruct (move_below s K a k x ad j y p Hr Hst Hrc Hj Hp Hb Hn) as (K' & g & s' & q & E & _). by exists s'. }
    assert (has_place K ad y) as Hpl.
    { destruct ad; try done; (destruct (SpecFacts.top_or_child K y HKy) as [Ht|Hq]; [|exact Hq]); exfalso; apply Hn; (split; [auto|by right]). }
    destruct (lnf_dec K p ks x W Hks Hin) as [(f & m & -> & Hl)|Ho].
    + destruct (decide (tree_of s x = tree_of s y)) as [He|He].
      * destruct (move_same_exact s K a k x ad j y p f m Hr Hst Hrc Hj Hks He Hb Hpl) as (K' & ks' & Hm & Hks' & _ & F).
        destruct (decide (last ks' = Some x)) as [El|El].
        -- destruct (move_last_place s K a k x ad j y p f m Hr Hst Hrc Hj Hks (last_place_dest K x ad y K' p f m ks' W Hks Hm Hks' El)) as (g & s' & E & _). by exists s'.
        -- destruct (F El) as (s' & g & f' & E & _). by exists s'.
      * destruct (move_other_exact s K a k x ad j y p f m Hr Hst Hrc Hj Hks He Hpl) as (s' & g & t & t' & K2 & K3 & E & _). by exists s'.
    + pose proof (not_lnf K p ks x W Hks Hin Ho) as Hl.
      destruct (move_shape_api s K a k x ad j y Hr Hst Hrc Hj (ex_intro _ p Hp) (fun F => match Hl F with end) Hb Hpl) as (s' & t & t' & E & _). by exists s'.
Qed.

End MoveFacts.
