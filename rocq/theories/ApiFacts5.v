(** * ApiFacts5: locks, memberships. *)
From Verif Require Import Heap Edit System SysSpec CardFacts HeapFacts SpecFacts NavFacts NavFacts2 EditFacts EditFacts2 EditFacts3 EditFacts4 EditFacts5 IterSpec RoseFacts AdjFacts TravFacts TdFacts TdFacts2 SysFacts SysFacts2 SysFacts3 SysFacts4 SysFacts5 SysFacts6 SysFacts7 SysFacts8 SysFacts9 SysFacts10 SysFacts11 SysFacts12 SysFacts13 SysFacts14 SysFacts15 ApiSpec ApiFacts ApiFacts2 ApiFacts3 ApiFacts4 Spec.

Section ApiFacts5.
Context {T : Type}.
Implicit Types (h : heap T) (s : sys T) (hm : gmap nat handle).

Lemma lock_exclusive s K t : inv s K -> is_Some (s_trees s !! t) -> some_lock s Hot t -> some_lock s Frozen t -> False.
Proof.
  intros I [tr Ht] H1 H2. destruct (h_lock _ _ (i_h _ _ I) t tr Ht) as (g & p & Hg & Hp & _ & Hz).
  assert (0 < g) as G. { destruct H1 as [[i Hi]|[x Hx]]; [by eapply holders_pos_token|by eapply holders_pos_node]. }
  assert (0 < p) as P. { destruct H2 as [[i Hi]|[x Hx]]; [by eapply holders_pos_token|by eapply holders_pos_node]. }
  lia.
Qed.

Lemma lockable_iff s K k t : inv s K -> is_Some (s_trees s !! t) -> has_lock k -> (lockable s k t <-> ~ some_lock s (opposite k) t).
Proof.
  intros I [tr Ht] Hk. destruct (h_lock _ _ (i_h _ _ I) t tr Ht) as (g & p & Hg & Hp & _ & Hz).
  assert (exists n, holders s (s_hands s) (opposite k) t n) as [n Hn]. { destruct k; simpl; eauto. by destruct Hk. }
  unfold lockable. split.
  - intros H0 [[i Hi]|[x Hx]].
    + by apply (proj1 (holders_0 _ _ _ _ H0) i).
    + by apply (proj2 (holders_0 _ _ _ _ H0) x).
  - intros Hno. destruct n as [|n]; [exact Hn|]. exfalso. apply Hno. destruct (holders_S _ _ _ _ _ Hn) as [?|?]; [by left|by right].
Qed.
Lemma locked_out_iff s k t : (locked_out s k t -> some_lock s (opposite k) t).
Proof. intros [n Hn]. destruct (holders_S _ _ _ _ _ Hn) as [?|?]; [by left|by right]. Qed.

Lemma lock_api s k i t : reach s -> s_hands s !! i = Some (HTree t) -> has_lock k ->
  (~ some_lock s (opposite k) t /\ exists s' j, step s (OpLock k i) = Ret (s', OutHandle j) /\ gives s s' j (token k t)) \/
  (some_lock s (opposite k) t /\ step s (OpLock k i) = Ret (s, OutLockErr)).
Proof.
  intros H Hi Hk. destruct (reach_stores s H) as [K Hst]. pose proof (reach_stores_inv s K H Hst) as I.
  destruct (reach_effect s K (OpLock k i) H Hst) as (s' & r & E & _ & Ef).
  { exact Logic.I. } { split; [exact Hk|eauto]. } { intros []. }
  destruct Ef as [Ef|[[]|[]]]. simpl in Ef. destruct Ef as (t' & Hi' & _ & C). assert (t' = t) as -> by congruence.
  pose proof (h_tree _ _ (i_h _ _ I) _ _ Hi) as Ht.
  destruct C as [(Hl & j & -> & G)|(Hl & -> & ->)].
  - left. split; [by apply (lockable_iff s K k t I Ht Hk)|]. exists s', j. split; [exact E|exact G].
  - right. split; [by apply locked_out_iff|exact E].
Qed.

Lemma bundle_api s k i x t : reach s -> s_hands s !! i = Some (HNode Plain x) -> tree_of s x = Some t -> has_lock k ->
  (~ some_lock s (opposite k) t /\ exists s' j, step s (OpBundle k i) = Ret (s', OutHandle j) /\ exchanges s s' i j (HNode k x)) \/
  (some_lock s (opposite k) t /\ exists s' K, stores s K /\ step s (OpBundle k i) = Ret (s', OutLockErr) /\ drops s K i t s').
Proof.
  intros H Hi Et Hk. destruct (reach_stores s H) as [K Hst]. pose proof (reach_stores_inv s K H Hst) as I.
  destruct (reach_effect s K (OpBundle k i) H Hst) as (s' & r & E & _ & Ef).
  { exact Logic.I. } { split; [exact Hk|eauto]. } { intros []. }
  destruct Ef as [Ef|[[]|[]]]. simpl in Ef. destruct Ef as (x' & t' & Hi' & _ & Et' & C). assert (x' = x) as -> by congruence.
  assert (t' = t) as -> by congruence.
  destruct (alive_tree s K x I) as (t1 & Et1 & Ht); [by eapply handle_alive|]. assert (t1 = t) as -> by congruence.
  destruct C as [(Hl & j & -> & G)|(Hl & -> & D)].
  - left. split; [by apply (lockable_iff s K k t I Ht Hk)|]. exists s', j. split; [exact E|exact G].
  - right. split; [by apply locked_out_iff|]. exists s', K. done.
Qed.

(** ** Locks follow the nodes of a subtree *)
Lemma card_cut (P : nat -> Prop) (L : list nat) n : card P n ->
  exists m q, card (fun y => P y /\ y ∈ L) m /\ card (fun y => P y /\ y ∉ L) q /\ n = m + q.
Proof.
  intros (l & Nl & Hl & <-). exists (length (filter (fun y => y ∈ L) l)), (length (filter (fun y => y ∉ L) l)). split_and!.
  - exists (filter (fun y => y ∈ L) l). split; [by apply NoDup_filter|]. split; [|done]. intros y. rewrite elem_of_list_filter, Hl. tauto.
  - exists (filter (fun y => y ∉ L) l). split; [by apply NoDup_filter|]. split; [|done]. intros y. rewrite elem_of_list_filter, Hl. tauto.
  - clear. induction l as [|y l IH]; [done|]. rewrite !filter_cons. destruct (decide (y ∈ L)) as [Hy|Hy].
    + rewrite decide_False by tauto. simpl. lia.
    + rewrite decide_True by done. simpl. lia.
Qed.
Lemma card_join (P Q R : nat -> Prop) m q : card Q m -> card R q -> (forall y, P y <-> Q y \/ R y) -> (forall y, Q y -> R y -> False) -> card P (m + q).
Proof.
  intros (l & Nl & Hl & <-) (l2 & Nl2 & Hl2 & <-) HP Hd. exists (l ++ l2). split.
  - apply NoDup_app. split_and!; [done| |done]. intros y Hy Hy2. apply Hl in Hy. apply Hl2 in Hy2. by eapply Hd.
  - split; [intros y; by rewrite elem_of_app, Hl, Hl2, HP|by rewrite app_length].
Qed.

(** The number of locks a tree has, by the invariant. *)
Lemma cnt_thawed s K t tr : inv s K -> s_trees s !! t = Some tr -> thawed s (s_hands s) t ->
  exists a b, card (token_holder (s_hands s) Hot t) a /\ card (node_holder s (s_hands s) Hot t) b /\ t_cnt tr = Z.of_nat (a + b).
Proof.
  intros I Ht Hth. destruct (h_lock _ _ (i_h _ _ I) t tr Ht) as (g & p & (a & b & Ha & Hb & ->) & Hp & E & _).
  exists a, b. split; [exact Ha|]. split; [exact Hb|]. pose proof (thawed_zero _ _ _ _ Hth Hp). lia.
Qed.

Definition hot_below s (K1 : forest) x (y : nid) : Prop := below K1 x y /\ exists i, s_hands s !! i = Some (HNode Hot y).

Lemma carries_counts s K K1 x t t' s' K2 K' : inv s K -> inv s' K' -> carries s K1 x t t' s' K2 -> t <> t' ->
  wf K1 -> is_Some (K1 !! x) -> (forall z, below K1 x z -> tree_of s z = Some t) ->
  thawed s (s_hands s) t -> thawed s (s_hands s) t' ->
  is_Some (s_trees s !! t) ->
  (s_trees s !! t' = None -> (forall i, ~ token_holder (s_hands s) Hot t' i) /\ forall y, tree_of s y <> Some t') ->
  exists m, card (hot_below s K1 x) m /\
    (forall tr tr', s_trees s !! t = Some tr -> s_trees s' !! t = Some tr' -> t_cnt tr' = (t_cnt tr - Z.of_nat m)%Z) /\
    (forall tr', s_trees s' !! t' = Some tr' ->
       t_cnt tr' = (match s_trees s !! t' with Some tr => t_cnt tr | None => 0 end + Z.of_nat m)%Z).
Proof.
  intros I I' C Hne W1 Hx1 Hbel Hth Hth' [tr0 Ht0] Hfresh.
  destruct (below_list K1 x W1 Hx1) as (L & _ & HL).
  assert (s_hands s' = s_hands s) as Eh by apply C.
  assert (forall k i y, s_hands s !! i = Some (HNode k y) -> is_Some (s_nodes s' !! y)) as Hal.
  { intros k i y Hi. apply (h_node _ _ (i_h _ _ I') i k). by rewrite Eh. }
  assert (forall y, ~ below K1 x y -> is_Some (s_nodes s' !! y) -> tree_of s' y = tree_of s y) as Hout by apply C.
  assert (forall y, below K1 x y -> tree_of s' y = Some t') as Hin by apply C.
  assert (forall k y, node_holder s' (s_hands s') k t y <-> node_holder s (s_hands s) k t y /\ y ∉ L) as Hnt.
  { intros k y. rewrite HL. unfold node_holder. rewrite Eh. split.
    - intros (Hk & Ey & i & Hi). assert (~ below K1 x y) as Hb. { intros Hb. apply Hin in Hb. congruence. }
      rewrite (Hout y Hb (Hal _ _ _ Hi)) in Ey. split; [|exact Hb]. split; [exact Hk|]. split; [exact Ey|]. eauto.
    - intros [(Hk & Ey & i & Hi) Hb]. split; [exact Hk|]. split; [|eauto]. by rewrite (Hout y Hb (Hal _ _ _ Hi)). }
  assert (forall k y, node_holder s' (s_hands s') k t' y <-> node_holder s (s_hands s) k t' y \/ (node_holder s (s_hands s) k t y /\ y ∈ L)) as Hnt'.
  { intros k y. rewrite HL. unfold node_holder. rewrite Eh. split.
    - intros (Hk & Ey & i & Hi). destruct (decide (y ∈ L)) as [Hb|Hb]; rewrite HL in Hb.
      + right. split; [|exact Hb]. split; [exact Hk|]. split; [by apply Hbel|eauto].
      + left. rewrite (Hout y Hb (Hal _ _ _ Hi)) in Ey. eauto.
    - intros [(Hk & Ey & i & Hi)|[(Hk & Ey & i & Hi) Hb]].
      + split; [exact Hk|]. split; [|eauto]. rewrite (Hout y); [exact Ey| |by eapply Hal]. intros Hb. apply Hbel in Hb. congruence.
      + split; [exact Hk|]. split; [by apply Hin|eauto]. }
  assert (thawed s' (s_hands s') t) as Th1.
  { destruct Hth as [A B]. split; [by rewrite Eh|]. intros y Hy. apply Hnt in Hy as [Hy _]. by apply (B y). }
  assert (thawed s' (s_hands s') t') as Th2.
  { destruct Hth' as [A B]. split; [by rewrite Eh|]. intros y Hy. apply Hnt' in Hy as [Hy|[Hy _]]; [by apply (B y)|by apply (proj2 Hth y)]. }
  destruct (cnt_thawed s K t tr0 I Ht0 Hth) as (a & b & Ha & Hb & E0).
  destruct (card_cut _ L _ Hb) as (m & q & Hm & Hq & ->).
  exists m. split; [|split].
  - eapply card_ext; [exact Hm|]. intros y. pose proof (HL y) as HLy. unfold hot_below, node_holder. split.
    + intros [(_ & _ & Hi) Hb2]. split; [exact (proj1 HLy Hb2)|exact Hi].
    + intros [Hb2 Hi]. split; [|exact (proj2 HLy Hb2)]. split; [done|]. split; [by apply Hbel|exact Hi].
  - intros tr tr' Htr Htr'. assert (tr = tr0) as -> by congruence.
    destruct (cnt_thawed s' K' t tr' I' Htr' Th1) as (a' & b' & Ha' & Hb' & E'). rewrite Eh in Ha'.
    pose proof (card_unique _ _ _ Ha Ha') as <-.
    assert (b' = q) as ->. { eapply card_unique; [exact Hb'|]. eapply card_ext; [exact Hq|]. intros y. symmetry. apply Hnt. }
    rewrite E0, E'. lia.
  - intros tr' Htr'. destruct (cnt_thawed s' K' t' tr' I' Htr' Th2) as (a' & b' & Ha' & Hb' & E'). rewrite Eh in Ha'.
    destruct (s_trees s !! t') as [tr1|] eqn:Ht1.
    + destruct (cnt_thawed s K t' tr1 I Ht1 Hth') as (a1 & b1 & Ha1 & Hb1 & E1).
      pose proof (card_unique _ _ _ Ha1 Ha') as <-.
      assert (b' = b1 + m) as ->.
      { eapply card_unique; [exact Hb'|]. eapply card_join; [exact Hb1|exact Hm|apply Hnt'|].
        intros y (_ & Ey & _) [(_ & Ey2 & _) _]. congruence. }
      rewrite E1, E'. lia.
    + destruct (Hfresh eq_refl) as [F1 F2]. pose proof (card_unique _ _ _ Ha' (card_none _ F1)) as ->.
      assert (b' = m) as ->.
      { eapply card_unique; [exact Hb'|]. eapply card_ext; [exact Hm|]. intros y. rewrite Hnt'. split; [tauto|].
        intros [(_ & Ey & _)|?]; [|done]. by apply F2 in Ey. }
      rewrite E'. lia.
Qed.
End ApiFacts5.
