(** * Misled7: navigation in a state with the wrong link. *)
From Verif Require Import Heap Edit Traverse System SysSpec CardFacts HeapFacts SpecFacts NavFacts NavFacts2 EditFacts EditFacts2 EditFacts3 EditFacts4 EditFacts5 IterSpec RoseFacts AdjFacts TravFacts TdFacts TdFacts2 SysFacts SysFacts2 SysFacts3 SysFacts4 SysFacts5 SysFacts6 SysFacts7 SysFacts8 SysFacts9 SysFacts10 SysFacts11 SysFacts12 SysFacts13 SysFacts14 SysFacts15 Misled Misled2 Misled3 Misled4 Misled5 ApiSpec MisledSpec ApiFacts ApiFacts2 ApiFacts3 ApiFacts6 Misled6 Spec.

Section Misled7.
Context {T : Type}.
Implicit Types (h : heap T) (s g : sys T) (K : forest).

Lemma sp_incr_ref f v s x : incr_ref (sp f v s) x = option_map (sp f v) (incr_ref s x).
Proof.
  unfold incr_ref. rewrite sp_mem. unfold tree_alive. change (s_trees (sp f v s)) with (s_trees s).
  destruct (n_memb s x) as [[[t|]|t rc lk]|]; try done; [|by rewrite sp_put_mem].
  destruct (bool_decide _); [by rewrite sp_put_mem|done].
Qed.
Lemma sp_lock_tree f v s k t : lock_tree (sp f v s) k t = option_map (sp f v) (lock_tree s k t).
Proof.
  unfold lock_tree. change (s_trees (sp f v s)) with (s_trees s). destruct (s_trees s !! t) as [tr|]; [|done].
  destruct k; [done|destruct (_ <? _)%Z; done|destruct (_ <? _)%Z; done].
Qed.
Lemma sp_acquire f v s k x : acquire (sp f v s) k x = (r ← acquire s k x; Ret (option_map (sp f v) r)).
Proof.
  unfold acquire. destruct k; [done|..]; rewrite sp_mem; (destruct (n_memb s x) as [[[t|]|t rc lk]|]; try done);
    change (s_trees (sp f v s)) with (s_trees s); (destruct (s_trees s !! t) as [tr|]; [|done]); cbn zeta;
    (destruct (_ <=? _)%Z; [|done]); (destruct lk as [|lk]; [|cbn [mbind run_bind option_map]; by rewrite sp_put_mem]);
    rewrite sp_lock_tree; match goal with |- context [lock_tree s ?k t] => destruct (lock_tree s k t) end; cbn [mbind run_bind option_map]; by rewrite ?sp_put_mem.
Qed.
Lemma sp_new_node_hand f v s k x s' i : new_node_hand s k x = Ret (s', i) -> new_node_hand (sp f v s) k x = Ret (sp f v s', i).
Proof.
  unfold new_node_hand. rewrite sp_incr_ref. destruct (incr_ref s x) as [s1|]; cbn [option_map]; [|done].
  unfold acquire_expect. rewrite sp_acquire. destruct (acquire s1 k x) as [[s2|]| |]; cbn [mbind run_bind option_map]; [|done..].
  intros [= <- <-]. done.
Qed.
Lemma sp_tree_core f v s x : tree_core (sp f v s) x = tree_core s x.
Proof. unfold tree_core. rewrite sp_mem. done. Qed.

Lemma nav_target_sp g K f x v y : rep (s_nodes g) K -> wf K -> is_Some (K !! y) -> is_Some (K !! x) ->
  (forall q ks, K !! q = Some ks -> f ∈ ks -> head ks = Some f) -> ~ asks K f x v y ->
  nav_target (sp f (Some x) g) v y = nav_target g v y.
Proof.
  intros R W [ky Hy] Hx Hf Hq.
  assert (forall q ks, K !! q = Some ks -> head ks <> Some f -> last_child_link (set_prev (s_nodes g) f (Some x)) q = last_child_link (s_nodes g) q) as Hlast.
  { intros q ks Hk Hh. unfold last_child_link, first_child_link. rewrite sp_first, (rep_first _ _ R q ks Hk).
    destruct (head ks) as [c|] eqn:E; [|done]. rewrite sp_cyclic; [done|]. congruence. }
  assert (is_Some (s_nodes g !! x)) as Hxa by (by apply (rep_dom _ _ R)).
  unfold nav_target. change (s_nodes (sp f (Some x) g)) with (set_prev (s_nodes g) f (Some x)). destruct v.
  - rewrite sp_tree_core. done.
  - by rewrite sp_parent_link.
  - destruct (decide (y = f)) as [->|Hn]; [|by apply sp_prev_sibling].
    assert (prev_sibling_link (s_nodes g) f = Ret None) as ->.
    { destruct (top_or_child K f W) as [Ht|(q & ks & Hk & Hin)]; [eauto| |].
      - by apply (prev_sibling_top _ K).
      - pose proof (Hf q ks Hk Hin) as Hh. destruct ks as [|c l]; [done|]. simpl in Hh. injection Hh as ->.
        exact (prev_sibling_split (s_nodes g) K q [] f l R W Hk). }
    unfold prev_sibling_link, prev_sibling_cyclic_link. rewrite sp_upgrade. unfold fprev. rewrite sp_look.
    assert (is_Some (s_nodes g !! f)) as [nd Hnd] by (apply (rep_dom _ _ R); eauto). rewrite Hnd. simpl.
    rewrite decide_True by done. simpl. unfold upgrade, alive. destruct Hxa as [ndx Hndx]. rewrite Hndx. simpl. rewrite sp_next.
    destruct (top_or_child K x W Hx) as [Ht|(q & ks & Hk & Hin)].
    + by rewrite (fnext_top _ K x R Ht).
    + apply elem_of_list_lookup in Hin as [i Hi]. destruct (rep_linked _ _ R q ks Hk i x Hi) as (_ & -> & _).
      destruct (ks !! S i) eqn:E; [|done]. exfalso. apply Hq. split; [done|]. exists q, ks, i. eauto.
  - unfold next_sibling_link. by rewrite sp_next.
  - unfold first_sibling, first_child_link. rewrite sp_parent_link. destruct (parent_link _ y); [|done]. by rewrite sp_first.
  - unfold last_sibling. rewrite sp_parent_link. destruct (parent_link (s_nodes g) y) as [q|] eqn:E; [|done].
    apply (parent_iff (s_nodes g) K y q R W) in E; [|eauto]. destruct E as (ks & Hk & Hin).
    rewrite (Hlast q ks Hk); [done|]. intros Hh. apply Hq. exists q, ks. done.
  - unfold first_child_link. by rewrite sp_first.
  - apply (Hlast y ky Hy). intros Hh. apply Hq. exists ky. done.
Qed.

Lemma nav_target_asked g K f x v y : rep (s_nodes g) K -> wf K -> is_Some (K !! y) -> is_Some (K !! x) -> asks K f x v y -> nav_target (sp f (Some x) g) v y = Ret (Some x).
Proof.
  intros R W Hy Hx Hq. assert (is_Some (s_nodes g !! x)) as [ndx Hndx] by (by apply (rep_dom _ _ R)).
  assert (is_Some (K !! f) -> prev_sibling_cyclic_link (set_prev (s_nodes g) f (Some x)) f = Ret x) as Hc.
  { intros Hf. unfold prev_sibling_cyclic_link. rewrite sp_upgrade. unfold fprev. rewrite sp_look.
    assert (is_Some (s_nodes g !! f)) as [nd Hnd] by (by apply (rep_dom _ _ R)). rewrite Hnd. simpl.
    rewrite decide_True by done. simpl. unfold upgrade, alive. by rewrite Hndx. }
  assert (forall q ks, K !! q = Some ks -> head ks = Some f -> last_child_link (set_prev (s_nodes g) f (Some x)) q = Ret (Some x)) as Hlast.
  { intros q ks Hk Hh. unfold last_child_link, first_child_link. rewrite sp_first, (rep_first _ _ R q ks Hk), Hh.
    rewrite Hc; [done|]. apply (wf_dom _ W q f). exists ks. split; [done|]. by apply head_Some_elem_of. }
  unfold nav_target. change (s_nodes (sp f (Some x) g)) with (set_prev (s_nodes g) f (Some x)). destruct v; try done.
  - destruct Hq as (-> & q & ks & i & Hk & Hi & Hn). unfold prev_sibling_link. rewrite (Hc Hy). cbn [mbind run_bind]. rewrite sp_next.
    destruct (rep_linked _ _ R q ks Hk i x Hi) as (_ & -> & _). destruct Hn as [? ->]. done.
  - destruct Hq as (q & ks & Hk & Hh & Hin). unfold last_sibling. rewrite sp_parent_link.
    assert (parent_link (s_nodes g) y = Some q) as ->. { apply (parent_link_child _ K); [done|]. by exists ks. }
    by rewrite (Hlast q ks Hk Hh).
  - destruct Hq as (ks & Hk & Hh). by apply (Hlast y ks).
Qed.

(** The lock needed for another handle of kind [k] on [x]. *)
Lemma misled_nav g K f x : inv g K -> is_Some (K !! x) -> (forall q ks, K !! q = Some ks -> f ∈ ks -> head ks = Some f) ->
  (forall v i k y, s_hands g !! i = Some (HNode k y) -> asks K f x v y -> exists t, tree_of g x = Some t /\ (k = Plain \/ holders g (s_hands g) (opp k) t 0)) ->
  misled_answers g K f x (sp f (Some x) g).
Proof.
  intros I Hx Hf Hlk v i k y Hi. change (s_hands (sp f (Some x) g)) with (s_hands g) in Hi.
  pose proof (handle_alive g K i k y I Hi) as Hya. pose proof (proj1 (inv_alive g K y I) Hya) as HKy.
  pose proof (s_rep _ _ (i_s _ _ I)) as R. pose proof (inv_wf g K I) as W. split.
  - intros Hq. destruct (Hlk v i k y Hi Hq) as (t & Et & Hk). pose proof (proj2 (inv_alive g K x I) Hx) as Hxa.
    destruct (new_node_hand_ok g K k x t I Hxa Et Hk) as (s2 & E & A).
    exists (sp f (Some x) s2), s2, (s_fresh g). split.
    { unfold step. change (s_hands (sp f (Some x) g)) with (s_hands g). rewrite Hi, (nav_target_asked g K f x v y R W HKy Hx Hq).
      cbn [mbind run_bind]. rewrite (sp_new_node_hand _ _ _ _ _ _ _ E). done. }
    split; [|apply sp_misled]. by apply (gained_gives g s2 K).
  - intros Hq. destruct (nav_ok g K v y I Hya) as (o & E & Hs & Hz). exists o. split; [done|].
    unfold step. change (s_hands (sp f (Some x) g)) with (s_hands g). rewrite Hi, (nav_target_sp g K f x v y R W HKy Hx Hf Hq), E. cbn [mbind run_bind].
    destruct o as [z|]; [|done]. destruct (Hz z eq_refl) as [Hza Hzt]. destruct (alive_tree _ _ _ I Hya) as (t & Ht & _).
    destruct (new_node_hand_ok g K k z t I Hza) as (s2 & E2 & A).
    + congruence.
    + destruct (decide (k = Plain)); [by left|right]. by eapply handle_excl.
    + exists (sp f (Some x) s2), s2, (s_fresh g). rewrite (sp_new_node_hand _ _ _ _ _ _ _ E2).
      split; [done|]. split; [by apply (gained_gives g s2 K)|apply sp_misled].
Qed.

Lemma thawed_0 s hm t : thawed s hm t -> holders s hm Frozen t 0.
Proof. intros [A B]. exists 0, 0. split; [by apply card_none|]. split; [by apply card_none|done]. Qed.

Lemma carries_thawed s K1 x t t' g K2 K3 : carries s K1 x t t' g K2 -> inv g K3 ->
  (forall z, below K1 x z -> tree_of s z = Some t) -> thawed s (s_hands s) t -> thawed s (s_hands s) t' ->
  thawed g (s_hands g) t /\ thawed g (s_hands g) t'.
Proof.
  intros C I Hb [A1 A2] [B1 B2]. pose proof (cy_hands _ _ _ _ _ _ _ C) as Eh.
  assert (forall u z, node_holder g (s_hands g) Frozen u z -> u = t \/ u = t' -> False) as Hn.
  { intros u z (Hk & Ht & i & Hi) Hu. assert (s_hands s !! i = Some (HNode Frozen z)) as Hi' by (by rewrite <- Eh).
    pose proof (handle_alive g K3 i Frozen z I Hi) as Hza.
    destruct (tree_of s z) as [w|] eqn:Ew.
    - assert (w <> t /\ w <> t') as [Hw Hw'].
      { split; intros ->; [apply (A2 z)|apply (B2 z)]; (split; [done|]; split; [done|eauto]). }
      assert (~ below K1 x z) as Hnb. { intros Hz. pose proof (Hb z Hz). congruence. }
      rewrite (cy_out _ _ _ _ _ _ _ C z Hnb Hza), Ew in Ht. destruct Hu; congruence.
    - assert (~ below K1 x z) as Hnb. { intros Hz. pose proof (Hb z Hz). congruence. }
      rewrite (cy_out _ _ _ _ _ _ _ C z Hnb Hza), Ew in Ht. congruence. }
  split; (split; [|intros z Hz; by eapply Hn; eauto]); intros i [Hk Hi]; rewrite Eh in Hi; [apply (A1 i)|apply (B1 i)]; done.
Qed.

(** Who asks is in the tree of [f]. *)
Lemma asks_tree g K f x v y : inv g K -> is_Some (K !! y) -> asks K f x v y -> tree_of g y = tree_of g f.
Proof.
  intros I Hy Hq. pose proof (s_child _ _ (i_s _ _ I)) as Hc. destruct v; simpl in Hq; try (exfalso; exact Hq).
  - by destruct Hq as [-> _].
  - destruct Hq as (q & ks & Hk & Hh & Hin). assert (tree_of g y = tree_of g q) as -> by (apply Hc; by exists ks).
    symmetry. apply Hc. exists ks. split; [done|]. by apply head_Some_elem_of.
  - destruct Hq as (ks & Hk & Hh). symmetry. apply Hc. exists ks. split; [done|]. by apply head_Some_elem_of.
Qed.

Lemma misled_locks g K f x t t' : inv g K -> tree_of g x = Some t' -> (is_Some (K !! f) -> tree_of g f = Some t) ->
  thawed g (s_hands g) t -> thawed g (s_hands g) t' ->
  forall v i k y, s_hands g !! i = Some (HNode k y) -> asks K f x v y -> exists t, tree_of g x = Some t /\ (k = Plain \/ holders g (s_hands g) (opp k) t 0).
Proof.
  intros I Et Hf [A1 A2] B v i k y Hi Hq. exists t'. split; [exact Et|]. destruct k; [by left|right; by apply thawed_0|exfalso].
  pose proof (handle_alive g K i Frozen y I Hi) as Hya. pose proof (proj1 (inv_alive g K y I) Hya) as HKy.
  assert (is_Some (K !! f)) as Hfk.
  { pose proof (inv_wf g K I) as W. destruct v; simpl in Hq; try (exfalso; exact Hq).
    - destruct Hq as [-> _]. exact HKy.
    - destruct Hq as (q & ks & Hk & Hh & Hin). apply (wf_dom _ W q f). exists ks. split; [done|]. by apply head_Some_elem_of.
    - destruct Hq as (ks & Hk & Hh). apply (wf_dom _ W y f). exists ks. split; [done|]. by apply head_Some_elem_of. }
  apply (A2 y). split; [done|]. split; [|eauto]. rewrite (asks_tree g K f x v y I HKy Hq). exact (Hf Hfk).
Qed.

(** [f] stays a first child, or goes away. *)
Lemma first_first K p f m : wf K -> K !! p = Some (f :: m) -> forall q ks, K !! q = Some ks -> f ∈ ks -> head ks = Some f.
Proof.
  intros W Hp q ks Hk Hin. assert (q = p) as ->. { apply (wf_uniq _ W q p f); [by exists ks|exists (f :: m); split; [done|apply elem_of_cons; by left]]. }
  assert (ks = f :: m) as -> by congruence. done.
Qed.

Lemma carries_sub s K1 x t t' g K2 q ks : carries s K1 x t t' g K2 -> (forall y, below K1 x y \/ ~ below K1 x y) -> K2 !! q = Some ks -> K1 !! q = Some ks.
Proof.
  intros C Hd Hq. destruct (cy_rest _ _ _ _ _ _ _ C) as [(_ & _ & <-)|(_ & _ & Ho)]; [done|].
  destruct (Ho q) as [A B]. destruct (Hd q) as [Hb|Hb]; [rewrite <- Hq; symmetry; apply A; by left|].
  destruct (decide (tree_of s q = Some t)) as [e|ne].
  - rewrite B in Hq; [discriminate Hq|]. intros [?|?]; done.
  - rewrite <- Hq. symmetry. apply A. by right.
Qed.

Lemma splits_answers s K x p f m t t' g K2 : inv s K -> K !! p = Some (f :: m ++ [x]) -> tree_of s x = Some t -> is_Some (K !! x) -> thawed s (s_hands s) t ->
  inv g K2 -> splits s (<[p := f :: m]> K) x t t' g K2 -> misled_answers g K2 f x (sp f (Some x) g).
Proof.
  intros H Hp Et Hx Hth I S'. pose proof (inv_wf s K H) as W. pose proof (last_unlinked K p f m x W Hp) as Hu.
  pose proof (sp_carries _ _ _ _ _ _ _ S') as C. pose proof (unlinked_wf K x _ W Hu) as [W1 Htop1].
  assert (is_Some (K2 !! x)) as Hx2.
  { rewrite (carries_below s _ x t t' g K2 x W1 C); [apply Htop1|constructor]. }
  assert (is_Some (s_nodes g !! x)) as Hxa by (by apply (inv_alive g K2 x I)).
  assert (tree_of g x = Some t') as Et' by (apply (cy_in _ _ _ _ _ _ _ C); constructor).
  assert (forall z, below (<[p := f :: m]> K) x z -> tree_of s z = Some t) as Hin.
  { intros z Hz. rewrite <- Et. apply (below_tree s K noX x z); [apply sinv_pinv; apply H|]. by apply (unlinked_below K x _ z W Hu). }
  assert (thawed s (s_hands s) t') as Hth'.
  { split.
    - intros i [_ Hi]. apply (sp_unknown _ _ _ _ _ _ _ S' i _ Hi). done.
    - intros z (_ & Hz & i & Hi). destruct (handle_tree s K i Frozen z H Hi) as (t1 & tr1 & E1 & E2 & _).
      pose proof (sp_new _ _ _ _ _ _ _ S'). congruence. }
  destruct (carries_thawed s _ x t t' g K2 K2 C I Hin Hth Hth') as [G1 G2].
  assert (forall y, below (<[p := f :: m]> K) x y \/ ~ below (<[p := f :: m]> K) x y) as Hd.
  { intros y. apply below_dec; [exact W1|apply Htop1]. }
  apply misled_nav; [exact I|exact Hx2| |].
  - intros q ks Hq Hfin. apply (first_first (<[p := f :: m]> K) p f m W1 ltac:(by rewrite lookup_insert) q ks); [|exact Hfin].
    by eapply carries_sub.
  - eapply misled_locks; [exact I|exact Et'| |exact G1|exact G2].
    intros Hf2. rewrite (cy_out _ _ _ _ _ _ _ C f).
    + by eapply sibling_tree.
    + intros Hb. eapply first_outside; [exact W|exact Hp|]. by apply (unlinked_below K x _ f W Hu).
    + by apply (inv_alive g K2 f I).
Qed.

Lemma other_answers s K x p f m t t' g K2 ad y K3 j : inv s K -> K !! p = Some (f :: m ++ [x]) -> tree_of s x = Some t -> is_Some (K !! x) -> thawed s (s_hands s) t ->
  s_hands s !! j = Some (HNode Hot y) -> tree_of s y = Some t' -> t <> t' -> inv g K3 -> carries s (<[p := f :: m]> K) x t t' g K2 ->
  wf K2 -> attached K2 x (dest_of ad y) K3 -> misled_answers g K3 f x (sp f (Some x) g).
Proof.
  intros H Hp Et Hx Hth Hj Ety Hne I C W2 At. pose proof (inv_wf s K H) as W. pose proof (last_unlinked K p f m x W Hp) as Hu.
  pose proof (unlinked_wf K x _ W Hu) as [W1 Htop1]. pose proof (inv_wf g K3 I) as W3.
  assert (tree_of g x = Some t') as Et' by (apply (cy_in _ _ _ _ _ _ _ C); constructor).
  assert (is_Some (K3 !! x)) as Hx3. { assert (is_Some (K2 !! x)) as [l Hl]. { rewrite (carries_below s _ x t t' g K2 x W1 C); [apply Htop1|constructor]. }
    destruct (attached_perm _ _ _ _ W2 At) as (pd & ks & ks' & _ & _ & -> & _). destruct (decide (pd = x)) as [->|]; [rewrite lookup_insert; eauto|rewrite lookup_insert_ne by done; eauto]. }
  assert (forall z, below (<[p := f :: m]> K) x z -> tree_of s z = Some t) as Hin.
  { intros z Hz. rewrite <- Et. apply (below_tree s K noX x z); [apply sinv_pinv; apply H|]. by apply (unlinked_below K x _ z W Hu). }
  assert (thawed s (s_hands s) t') as Hth'.
  { apply thawed_holders. exact (handle_excl s K j Hot y t' H Hj ltac:(done) Ety). }
  destruct (carries_thawed s _ x t t' g K2 K3 C I Hin Hth Hth') as [G1 G2].
  assert (forall y, below (<[p := f :: m]> K) x y \/ ~ below (<[p := f :: m]> K) x y) as Hd.
  { intros z. apply below_dec; [exact W1|apply Htop1]. }
  assert (is_Some (K3 !! f) -> tree_of g f = Some t) as Hft.
  { intros Hf2. rewrite (cy_out _ _ _ _ _ _ _ C f).
    - by eapply sibling_tree.
    - intros Hb. eapply first_outside; [exact W|exact Hp|]. by apply (unlinked_below K x _ f W Hu).
    - by apply (inv_alive g K3 f I). }
  apply misled_nav; [exact I|exact Hx3| |].
  - intros q ks Hq Hfin.
    assert (tree_of g q = Some t) as Eq.
    { rewrite <- Hft; [|apply (wf_dom _ W3 q f); by exists ks]. symmetry. apply (s_child _ _ (i_s _ _ I)). by exists ks. }
    apply (first_first (<[p := f :: m]> K) p f m W1 ltac:(by rewrite lookup_insert) q ks); [|exact Hfin].
    eapply carries_sub; [exact C|exact Hd|].
    destruct (attached_perm _ _ _ _ W2 At) as (pd & l & l' & Hpd & Hl & E3 & Hperm). rewrite E3 in Hq.
    destruct (decide (pd = q)) as [->|Hn]; [|by rewrite lookup_insert_ne in Hq].
    exfalso. apply Hne. assert (child_of K3 q x) as Hqx.
    { rewrite E3. exists l'. split; [by rewrite lookup_insert|]. rewrite Hperm. apply elem_of_cons. by left. }
    pose proof (s_child _ _ (i_s _ _ I) q x Hqx). congruence.
  - eapply misled_locks; [exact I|exact Et'|exact Hft|exact G1|exact G2].
Qed.

Lemma same_answers s K x p f' ks' g K' i k : inv s K -> inv g K' -> reshapes s g K' -> K' !! p = Some ks' -> head ks' = Some f' ->
  s_hands s !! i = Some (HNode k x) -> (forall t, tree_of s x = Some t -> thawed s (s_hands s) t) -> child_of K p x ->
  (tree_of s p = tree_of s x) -> misled_answers g K' f' x (sp f' (Some x) g).
Proof.
  intros H I R Hp Hf Hi Hth Hpx Epx. pose proof (inv_wf g K' I) as W'.
  assert (child_of K' p f') as Hpf. { exists ks'. split; [done|]. by apply head_Some_elem_of. }
  destruct (handle_tree s K i k x H Hi) as (t & tr & Et & _). specialize (Hth t Et).
  assert (thawed g (s_hands g) t) as G.
  { destruct Hth as [A1 A2]. rewrite (re_hands _ _ _ R). split; [exact A1|]. intros z (B1 & B2 & B3). apply (A2 z). split; [done|]. split; [|done].
    by rewrite <- (re_tree _ _ _ R). }
  assert (is_Some (s_nodes g !! x)) as Hxa. { eapply handle_alive; [exact I|]. rewrite (re_hands _ _ _ R). exact Hi. }
  assert (tree_of g x = Some t) as Egx by (by rewrite (re_tree _ _ _ R)).
  apply misled_nav; [exact I|by apply (inv_alive g K' x I)| |].
  - destruct ks' as [|c l]; [done|]. simpl in Hf. injection Hf as ->. by apply (first_first K' p f' l).
  - eapply misled_locks; [exact I|exact Egx| |exact G|exact G]. intros _.
    rewrite (s_child _ _ (i_s _ _ I) p f' Hpf), (re_tree _ _ _ R). congruence.
Qed.
End Misled7.
