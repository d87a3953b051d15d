(** * SysFacts9: interrupting creations, new trees, moves inside a tree, data. *)
From Verif Require Import Heap Edit System SysSpec CardFacts HeapFacts SpecFacts NavFacts NavFacts2 EditFacts EditFacts2 EditFacts3 IterSpec RoseFacts TdFacts TdFacts2 SysFacts SysFacts2 SysFacts3 SysFacts4 SysFacts5 SysFacts6 SysFacts7 SysFacts8 Spec.

Section SysFacts9.
Context {T : Type}.
Implicit Types (h : heap T) (s : sys T) (hm : gmap nat handle) (K : forest).

Lemma new_child_iff K (n : nid) : K !! n = None -> forall p c, child_of (<[n := []]> K) p c <-> child_of K p c.
Proof.
  intros HKn p c. rewrite child_of_insert. split.
  - intros [[-> Hc]|[_ Hc]]; [by apply elem_of_nil in Hc|done].
  - intros Hc. right. split; [|done]. intros ->. destruct Hc as (? & ? & _). congruence.
Qed.
Lemma new_top K (n : nid) : wf K -> K !! n = None -> is_top (<[n := []]> K) n.
Proof.
  intros Hw HKn. split; [rewrite lookup_insert; eauto|]. intros q Hq. apply new_child_iff in Hq; [|done]. destruct (wf_dom _ Hw _ _ Hq). congruence.
Qed.
Lemma new_top_old K (n x : nid) : K !! n = None -> is_top K x -> is_top (<[n := []]> K) x.
Proof.
  intros HKn [A B]. split; [apply is_Some_insert; auto|]. intros q Hq. apply new_child_iff in Hq; [|done]. by apply (B q).
Qed.

(** ** Interrupting creations *)
Lemma interrupt_child_step s K k j x t d ks : inv s K -> is_Some (s_nodes s !! x) -> tree_of s x = Some t ->
  (k = Plain \/ s_hands s !! j = Some (HNode k x)) -> K !! x = Some ks ->
  exists s' n i, create_interrupting_child s k x d = Ret (s', i) /\ K !! n = None /\
    created s s' (<[x := [n]]> (<[n := ks]> K)) t n d k i.
Proof.
  intros H Hx Ht Hk Hks. pose proof (i_s _ _ H) as Hs. pose proof (s_wf _ _ Hs) as Hw.
  destruct (alive_tree s K x H Hx) as (t0 & Ht0 & Hta). assert (t0 = t) as -> by congruence.
  unfold create_interrupting_child. rewrite (tree_core_ok s K x t H Ht Hx). simpl.
  destruct (new_orphan_ok s K d t H Hta) as (s1 & -> & O). simpl.
  set (n := s_fresh s : nid) in *. set (K1 := <[n := []]> K) in *.
  assert (K !! n = None) as HKn by apply O.
  assert (x <> n) as Hxn by (intros ->; congruence).
  assert (n <> x) as Hnx by done.
  assert (K1 !! x = Some ks) as HxK1 by (unfold K1; by rewrite lookup_insert_ne).
  assert (K1 !! n = Some []) as HnK1 by (unfold K1; by rewrite lookup_insert).
  pose proof (new_child_iff K n HKn) as HcK. fold K1 in HcK.
  pose proof (new_top K n Hw HKn) as Htop. fold K1 in Htop.
  destruct (interrupt_child_ok (s_nodes s1) K1 x ks n (p_rep _ _ _ (o_pinv _ _ _ _ _ _ O)) (p_wf _ _ _ (o_pinv _ _ _ _ _ _ O)) HxK1 Htop HnK1 Hnx)
    as (h' & -> & Hr' & M). simpl.
  pose proof (interrupt_child_wf K1 x ks n (p_wf _ _ _ (o_pinv _ _ _ _ _ _ O)) HxK1 Htop HnK1 Hnx) as Hw'.
  assert (<[x := [n]]> (<[n := ks]> K1) = <[x := [n]]> (<[n := ks]> K)) as EK by (unfold K1; by rewrite insert_insert).
  rewrite EK in Hr', Hw'. set (K' := <[x := [n]]> (<[n := ks]> K)) in *.
  assert (forall p c, child_of K' p c <-> (p = x /\ c = n) \/ (p = n /\ child_of K x c) \/ (p <> x /\ child_of K p c)) as Hch.
  { intros p c. unfold K'. rewrite !child_of_insert. rewrite elem_of_list_singleton. split.
    - intros [[-> ->]|[Hp [[-> Hc]|[Hp2 Hc]]]]; [by left|right; left|right; right; done]. split; [done|by exists ks].
    - intros [[-> ->]|[[-> Hc]|[Hp Hc]]]; [by left|right; split; [done|left]|right; split; [done|right]].
      + split; [done|]. destruct Hc as (l & Hl & Hc). congruence.
      + split; [|done]. intros ->. destruct Hc as (? & ? & _). congruence. }
  assert (sinv (with_nodes s1 h') K') as Hs2.
  { apply sinv_pinv. eapply pinv_relink; [exact (o_pinv _ _ _ _ _ _ O)|done|done|done|..].
    - intros p c Hc. apply Hch in Hc as [[-> ->]|[[-> Hc]|[Hp Hc]]].
      + rewrite (o_tree_n _ _ _ _ _ _ O), (o_tree _ _ _ _ _ _ O) by done. done.
      + rewrite (o_tree_n _ _ _ _ _ _ O), (o_tree _ _ _ _ _ _ O).
        * rewrite <-Ht. by apply (s_child _ _ Hs).
        * intros ->. destruct (wf_dom _ Hw _ _ Hc). congruence.
      + rewrite !(o_tree _ _ _ _ _ _ O).
        * by apply (s_child _ _ Hs).
        * intros ->. destruct Hc as (? & ? & _). congruence.
        * intros ->. destruct (wf_dom _ Hw _ _ Hc). congruence.
    - intros y [Hy1 Hy2]. right. assert (y <> n) as Hyn. { intros ->. apply (Hy2 x). apply Hch. by left. }
      split; [|by intros E1]. split.
      + unfold K', K1 in *. rewrite !is_Some_insert in *. destruct Hy1 as [->|[->|]]; [|done|auto]. right. rewrite Hks. eauto.
      + intros q Hq. apply HcK in Hq. destruct (decide (q = x)) as [->|].
        * apply (Hy2 n). apply Hch. right. by left.
        * apply (Hy2 q). apply Hch. right. by right.
    - intros u tr Hu. rewrite (o_trees _ _ _ _ _ _ O) in Hu. destruct (s_root _ _ Hs _ _ Hu) as [[A1 A2] _]. split.
      + unfold K'. rewrite !is_Some_insert. auto.
      + intros q Hq. apply Hch in Hq as [[-> E1]|[[-> Hc]|[Hp Hc]]].
        * rewrite E1 in A1. destruct A1. congruence.
        * by apply (A2 x).
        * by apply (A2 q). }
  pose proof (orphan_inv _ _ _ _ _ _ _ _ O Hs2 M) as H2.
  destruct (created_finish s s1 (with_nodes s1 h') K K' n t d k x j O H H2 eq_refl) as (s' & E & C); try done.
  { intros y. by apply relink_payload. } { intros y. by apply relink_tree_of. }
  change (S (s_fresh s)) with (S n). rewrite E. simpl. exists s', n, (S n). done.
Qed.

Lemma subst_child_elem x n ks c : NoDup ks -> x ∈ ks -> (c ∈ subst_child x n ks <-> c = n \/ (c ∈ ks /\ c <> x)).
Proof.
  intros Hnd Hx. unfold subst_child. induction ks as [|y l IH]; [by apply elem_of_nil in Hx|]. simpl.
  apply NoDup_cons in Hnd as [Hy Hnd]. destruct (decide (y = x)) as [->|Hne].
  - simpl. rewrite !elem_of_cons. split; [intros [->|Hc]; [by left|right]|intros [->|[[->|Hc] Hcx]]; auto; done].
    split; [by right|]. by intros ->.
  - apply elem_of_cons in Hx as [->|Hx]; [done|]. rewrite !elem_of_cons, (IH Hnd Hx). split.
    + intros [->|[->|[Hc1 Hc2]]]; auto.
    + intros [->|[[->|Hc1] Hc2]]; auto.
Qed.

(** [x] has a parent [p]: the new node takes its place. *)
Lemma interrupt_parent_child_step s K k j x t d p ks : inv s K -> is_Some (s_nodes s !! x) -> tree_of s x = Some t ->
  (k = Plain \/ s_hands s !! j = Some (HNode k x)) -> K !! p = Some ks -> x ∈ ks ->
  exists s' n i, create_interrupting_parent s k x d = Ret (s', i) /\ K !! n = None /\
    created s s' (<[n := [x]]> (<[p := subst_child x n ks]> K)) t n d k i.
Proof.
  intros H Hx Ht Hk Hks Hxks. pose proof (i_s _ _ H) as Hs. pose proof (s_wf _ _ Hs) as Hw.
  destruct (alive_tree s K x H Hx) as (t0 & Ht0 & Hta). assert (t0 = t) as -> by congruence.
  unfold create_interrupting_parent. rewrite (tree_core_ok s K x t H Ht Hx). simpl.
  destruct (new_orphan_ok s K d t H Hta) as (s1 & -> & O). simpl.
  set (n := s_fresh s : nid) in *. set (K1 := <[n := []]> K) in *.
  assert (K !! n = None) as HKn by apply O.
  assert (child_of K p x) as Hpx by (by exists ks).
  assert (p <> n) as Hpn by (intros ->; congruence).
  assert (x <> n) as Hxn by (intros ->; destruct (wf_dom _ Hw _ _ Hpx); congruence).
  assert (K1 !! p = Some ks) as HpK1 by (unfold K1; by rewrite lookup_insert_ne).
  assert (K1 !! n = Some []) as HnK1 by (unfold K1; by rewrite lookup_insert).
  pose proof (new_child_iff K n HKn) as HcK. fold K1 in HcK.
  pose proof (new_top K n Hw HKn) as Htop. fold K1 in Htop.
  destruct (interrupt_parent_child_ok (s_nodes s1) K1 p ks x n (p_rep _ _ _ (o_pinv _ _ _ _ _ _ O)) (p_wf _ _ _ (o_pinv _ _ _ _ _ _ O)) HpK1 Hxks Htop HnK1)
    as (h' & -> & Hr' & Hw' & M). simpl.
  assert (<[n := [x]]> (<[p := subst_child x n ks]> K1) = <[n := [x]]> (<[p := subst_child x n ks]> K)) as EK.
  { unfold K1. rewrite (insert_commute _ p n) by done. by rewrite insert_insert. }
  rewrite EK in Hr', Hw'. set (K' := <[n := [x]]> (<[p := subst_child x n ks]> K)) in *.
  assert (forall q c, child_of K' q c <-> (q = n /\ c = x) \/ (q = p /\ c = n) \/ (child_of K q c /\ c <> x)) as Hch.
  { intros q c. unfold K'. rewrite !child_of_insert. rewrite elem_of_list_singleton.
    rewrite (subst_child_elem x n ks c (wf_nodup _ Hw _ _ Hks) Hxks). split.
    - intros [[-> ->]|[Hq [[-> [->|[Hc1 Hc2]]]|[Hq2 Hc]]]]; [by left|by right; left|right; right|right; right].
      + split; [by exists ks|done].
      + split; [done|]. intros ->. apply Hq2. by apply (wf_uniq _ Hw q p x).
    - intros [[-> ->]|[[-> ->]|[Hc Hcx]]]; [by left|right; split; [done|left; auto]|].
      assert (q <> n) as Hqn by (intros ->; destruct Hc as (? & ? & _); congruence). right. split; [done|].
      destruct (decide (q = p)) as [->|]; [left|right; done]. split; [done|]. right. split; [|done].
      destruct Hc as (l & Hl & Hc). congruence. }
  assert (sinv (with_nodes s1 h') K') as Hs2.
  { apply sinv_pinv. eapply pinv_relink; [exact (o_pinv _ _ _ _ _ _ O)|done|done|done|..].
    - intros q c Hc. apply Hch in Hc as [[-> ->]|[[-> ->]|[Hc Hcx]]].
      + rewrite (o_tree_n _ _ _ _ _ _ O), (o_tree _ _ _ _ _ _ O) by done. done.
      + rewrite (o_tree_n _ _ _ _ _ _ O), (o_tree _ _ _ _ _ _ O) by done. rewrite <-Ht. by apply (s_child _ _ Hs).
      + rewrite !(o_tree _ _ _ _ _ _ O).
        * by apply (s_child _ _ Hs).
        * intros ->. destruct Hc as (? & ? & _). congruence.
        * intros ->. destruct (wf_dom _ Hw _ _ Hc). congruence.
    - intros y [Hy1 Hy2]. right. assert (y <> n) as Hyn. { intros ->. apply (Hy2 p). apply Hch. right. by left. }
      split; [|by intros E1]. split.
      + unfold K', K1 in *. rewrite !is_Some_insert in *. destruct Hy1 as [->|[->|]]; [done| |auto]. right. rewrite Hks. eauto.
      + intros q Hq. apply HcK in Hq. destruct (decide (y = x)) as [->|].
        * apply (Hy2 n). apply Hch. by left.
        * apply (Hy2 q). apply Hch. right. by right.
    - intros u tr Hu. rewrite (o_trees _ _ _ _ _ _ O) in Hu. destruct (s_root _ _ Hs _ _ Hu) as [[A1 A2] _]. split.
      + unfold K'. rewrite !is_Some_insert. auto.
      + intros q Hq. apply Hch in Hq as [[-> E1]|[[-> E1]|[Hc Hcx]]].
        * apply (A2 p). by rewrite E1.
        * rewrite E1 in A1. destruct A1. congruence.
        * by apply (A2 q). }
  pose proof (orphan_inv _ _ _ _ _ _ _ _ O Hs2 M) as H2.
  destruct (created_finish s s1 (with_nodes s1 h') K K' n t d k x j O H H2 eq_refl) as (s' & E & C); try done.
  { intros y. by apply relink_payload. } { intros y. by apply relink_tree_of. }
  change (S (s_fresh s)) with (S n). rewrite E. simpl. exists s', n, (S n). done.
Qed.

(** [x] is a root: the new node becomes the root of the tree. *)
Lemma put_root_lookup s t x u : s_trees (put_root s t x) !! u = if decide (u = t) then (fun tr => mkTree x (t_cnt tr)) <$> s_trees s !! u else s_trees s !! u.
Proof.
  unfold put_root. simpl. destruct (decide (u = t)) as [->|]; [by rewrite lookup_alter|by rewrite lookup_alter_ne].
Qed.
Lemma hinv_put_root s hm t x : hinv s hm -> hinv (put_root s t x) hm.
Proof.
  intros [A B C D E].
  assert (forall u, is_Some (s_trees (put_root s t x) !! u) <-> is_Some (s_trees s !! u)) as X.
  { intros u. rewrite put_root_lookup. case_decide; [|done]. by rewrite fmap_is_Some. }
  split.
  - exact A.
  - intros y u rc lk Hy. destruct (B _ _ _ _ Hy) as (B1 & B2). split; [by apply X|exact B2].
  - exact C.
  - intros i u Hi. apply X. by eapply D.
  - intros u tr. rewrite put_root_lookup. case_decide.
    + destruct (s_trees s !! u) as [tr0|] eqn:Eu; simpl; [|done]. intros [= <-]. simpl. exact (E u tr0 Eu).
    + intros Hu. exact (E u tr Hu).
Qed.

Lemma interrupt_parent_root_step s K k j x t d : inv s K -> is_Some (s_nodes s !! x) -> tree_of s x = Some t ->
  (k = Plain \/ s_hands s !! j = Some (HNode k x)) -> is_top K x ->
  exists s' n i, create_interrupting_parent s k x d = Ret (s', i) /\ K !! n = None /\
    created s s' (<[n := [x]]> K) t n d k i.
Proof.
  intros H Hx Ht Hk Hxt. pose proof (i_s _ _ H) as Hs. pose proof (s_wf _ _ Hs) as Hw.
  destruct (alive_tree s K x H Hx) as (t0 & Ht0 & Hta). assert (t0 = t) as -> by congruence.
  unfold create_interrupting_parent. rewrite (tree_core_ok s K x t H Ht Hx). simpl.
  destruct (new_orphan_ok s K d t H Hta) as (s1 & -> & O). simpl.
  set (n := s_fresh s : nid) in *. set (K1 := <[n := []]> K) in *.
  assert (K !! n = None) as HKn by apply O.
  assert (x <> n) as Hxn. { intros ->. destruct Hxt as [[? ?] _]. congruence. }
  assert (n <> x) as Hnx by done.
  assert (K1 !! n = Some []) as HnK1 by (unfold K1; by rewrite lookup_insert).
  pose proof (new_child_iff K n HKn) as HcK. fold K1 in HcK.
  pose proof (new_top K n Hw HKn) as Htop. fold K1 in Htop.
  pose proof (new_top_old K n x HKn Hxt) as Htopx. fold K1 in Htopx.
  destruct (interrupt_parent_root_ok (s_nodes s1) K1 x n (p_rep _ _ _ (o_pinv _ _ _ _ _ _ O)) (p_wf _ _ _ (o_pinv _ _ _ _ _ _ O)) Htopx Htop HnK1 Hnx)
    as (h' & -> & Hr' & Hw' & M). simpl.
  assert (<[n := [x]]> K1 = <[n := [x]]> K) as EK by (unfold K1; by rewrite insert_insert).
  rewrite EK in Hr', Hw'. set (K' := <[n := [x]]> K) in *.
  set (s2 := put_root (with_nodes s1 h') t n).
  assert (forall q c, child_of K' q c <-> (q = n /\ c = x) \/ child_of K q c) as Hch.
  { intros q c. unfold K'. rewrite !child_of_insert. rewrite elem_of_list_singleton. split.
    - intros [?|[Hq Hc]]; auto.
    - intros [?|Hc]; auto. right. split; [|done]. intros ->. destruct Hc as (? & ? & _). congruence. }
  assert (forall y, tree_of s2 y = tree_of s1 y) as Et2. { intros y. change (tree_of s2 y) with (tree_of (with_nodes s1 h') y). by apply relink_tree_of. }
  destruct (s_top _ _ Hs x Hxt) as (t0 & tr0 & A1 & A2 & A3). assert (t0 = t) as -> by congruence.
  assert (s_trees s2 !! t = Some (mkTree n (t_cnt tr0))) as Hst.
  { unfold s2. rewrite put_root_lookup, decide_True by done. simpl. by rewrite (o_trees _ _ _ _ _ _ O), A2. }
  assert (forall u, u <> t -> s_trees s2 !! u = s_trees s !! u) as Hso.
  { intros u Hu. unfold s2. rewrite put_root_lookup, decide_False by done. simpl. by rewrite (o_trees _ _ _ _ _ _ O). }
  assert (forall y, is_top K' y <-> y = n \/ (is_top K y /\ y <> x)) as Htops.
  { intros y. split.
    - intros [Hy1 Hy2]. destruct (decide (y = n)) as [->|Hyn]; [by left|right]. split; [split|].
      + unfold K' in Hy1. by rewrite lookup_insert_ne in Hy1.
      + intros q Hq. apply (Hy2 q). apply Hch. by right.
      + intros ->. apply (Hy2 n). apply Hch. by left.
    - intros [->|[[B1 B2] Hyx]]; (split; [unfold K'; apply is_Some_insert; auto|]); intros q Hq; apply Hch in Hq as [[_ E]|Hq]; try done.
      + destruct (wf_dom _ Hw _ _ Hq). congruence.
      + by apply (B2 q). }
  assert (sinv s2 K') as Hs2.
  { split; [done|done|..].
    - intros q c Hc. rewrite !Et2. apply Hch in Hc as [[-> ->]|Hc].
      + rewrite (o_tree_n _ _ _ _ _ _ O), (o_tree _ _ _ _ _ _ O) by done. done.
      + rewrite !(o_tree _ _ _ _ _ _ O).
        * by apply (s_child _ _ Hs).
        * intros ->. destruct Hc as (? & ? & _). congruence.
        * intros ->. destruct (wf_dom _ Hw _ _ Hc). congruence.
    - intros y Hy. apply Htops in Hy as [->|[Hy Hyx]].
      + exists t. eexists. rewrite Et2, (o_tree_n _ _ _ _ _ _ O). split; [done|]. split; [exact Hst|done].
      + destruct (s_top _ _ Hs y Hy) as (u & tr & B1 & B2 & B3). exists u, tr. rewrite Et2.
        assert (y <> n). { intros ->. destruct Hy as [[? ?] _]. congruence. }
        rewrite (o_tree _ _ _ _ _ _ O) by done. split; [done|]. split; [|done]. rewrite Hso; [done|]. intros ->.
        assert (tr = tr0) as -> by congruence. congruence.
    - intros u tr Hu. destruct (decide (u = t)) as [->|Hne].
      + rewrite Hst in Hu. injection Hu as <-. simpl. rewrite Et2, (o_tree_n _ _ _ _ _ _ O). split; [apply Htops; by left|done].
      + rewrite Hso in Hu by done. destruct (s_root _ _ Hs _ _ Hu) as [B1 B2]. rewrite Et2.
        assert (t_root tr <> n) as Hrn. { intros E. rewrite E in B1. destruct B1 as [[? ?] _]. congruence. }
        rewrite (o_tree _ _ _ _ _ _ O) by done. split; [|done]. apply Htops. right. split; [done|]. intros E. congruence. }
  assert (forall u, is_Some (s_trees s2 !! u) <-> is_Some (s_trees s1 !! u)) as Hdt.
  { intros u. rewrite (o_trees _ _ _ _ _ _ O). destruct (decide (u = t)) as [->|]; [rewrite Hst, A2; split; eauto|by rewrite Hso]. }
  assert (inv s2 K') as H2.
  { split.
    - exact Hs2.
    - apply hinv_put_root. apply hinv_relink; [apply O|done].
    - intros u Hu. apply Hdt in Hu. change (tree_held (with_nodes s1 h') (s_hands s1) u). rewrite held_relink by done. by apply (o_held _ _ _ _ _ _ O).
    - destruct (finv_relink s1 h' (o_finv _ _ _ _ _ _ O) M) as [B1 B2 B3 B4]. split; [exact B1| |exact B3|exact B4].
      intros u Hu. apply B2. by apply Hdt. }
  destruct (created_finish s s1 s2 K K' n t d k x j O H H2 eq_refl) as (s' & E & C); try done.
  { intros y. change (payload (with_nodes s1 h') y = payload s1 y). by apply relink_payload. }
  change (S (s_fresh s)) with (S n). fold s2. rewrite E. simpl. exists s', n, (S n). done.
Qed.

End SysFacts9.
