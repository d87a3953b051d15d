(** * ApiFacts7: membership, liveness, frozen trees. *)
From Verif Require Import Heap Edit System SysSpec CardFacts HeapFacts SpecFacts NavFacts NavFacts2 EditFacts EditFacts2 EditFacts3 EditFacts4 EditFacts5 IterSpec RoseFacts AdjFacts TravFacts TdFacts TdFacts2 SysFacts SysFacts2 SysFacts3 SysFacts4 SysFacts5 SysFacts6 SysFacts7 SysFacts8 SysFacts9 SysFacts10 SysFacts11 SysFacts12 SysFacts13 SysFacts14 SysFacts15 ApiSpec ApiFacts ApiFacts2 ApiFacts3 ApiFacts4 ApiFacts5 ApiFacts6 Spec.

Section ApiFacts7.
Context {T : Type}.
Implicit Types (h : heap T) (s : sys T) (hm : gmap nat handle) (K : forest) (x y : nid) (t : tid).

(** ** Membership agrees with structure *)
Lemma same_tree_iff s K x y : reach s -> stores s K -> is_Some (K !! x) -> is_Some (K !! y) ->
  (tree_of s x = tree_of s y <-> exists r, is_top K r /\ below K r x /\ below K r y).
Proof.
  intros H Hst Hx Hy. pose proof (i_s _ _ (reach_stores_inv s K H Hst)) as I.
  apply (stores_alive s K) in Hx; [|done]. apply (stores_alive s K) in Hy; [|done].
  destruct (sinv_tree s K x I Hx) as (t & tr & A & B & C). destruct (sinv_tree s K y I Hy) as (t' & tr' & A' & B' & C').
  split.
  - intros E. rewrite A, A' in E. assert (t' = t) as -> by congruence. assert (tr' = tr) as -> by congruence.
    exists (t_root tr). split; [exact (proj1 (s_root _ _ I _ _ B))|done].
  - intros (r & Hr & Hbx & Hby).
    rewrite (below_tree s K noX r x) by (try apply sinv_pinv; done). rewrite (below_tree s K noX r y) by (try apply sinv_pinv; done). done.
Qed.

Lemma handle_tree s K i k x : reach s -> stores s K -> s_hands s !! i = Some (HNode k x) ->
  exists t rc lk, n_memb s x = Some (MStrong t rc lk) /\ tree_of s x = Some t /\ is_Some (s_trees s !! t) /\ is_Some (K !! x).
Proof.
  intros H Hst Hi. pose proof (reach_stores_inv s K H Hst) as I.
  destruct (hinv_handle_strong _ _ _ _ _ (i_h _ _ I) Hi) as (t & rc & lk & A & B & _ & _ & C).
  exists t, (S rc), lk. split_and!; [done|done|done|]. apply (stores_alive s K x Hst). exact (h_node _ _ (i_h _ _ I) _ _ _ Hi).
Qed.

Lemma queries_ok s K i k x j k' y t0 : reach s -> stores s K -> s_hands s !! i = Some (HNode k x) -> s_hands s !! j = Some (HNode k' y) ->
  belongs_to s x t0 = Ret (bool_decide (tree_of s x = Some t0)) /\
  valid_for_node s t0 x = Ret (bool_decide (tree_of s x = Some t0)) /\
  belongs_to_same_tree s i x j y = Ret (bool_decide (tree_of s x = tree_of s y)).
Proof.
  intros H Hst Hi Hj. destruct (handle_tree s K i k x H Hst Hi) as (t & rc & lk & A & B & C & _).
  destruct (handle_tree s K j k' y H Hst Hj) as (t' & rc' & lk' & A' & B' & C' & _).
  unfold belongs_to, valid_for_node, belongs_to_same_tree, link_tree_core, tree_core. rewrite A, A', B, B'. simpl.
  assert (forall u v : tid, bool_decide (Some u = Some v) = bool_decide (u = v)) as Hb.
  { intros u v. apply bool_decide_ext. split; congruence. }
  rewrite !Hb. split; [done|]. split; [done|]. destruct (decide (i = j)) as [->|]; [|done].
  rewrite Hi in Hj. assert (y = x) as -> by congruence. assert (t' = t) as -> by congruence. by rewrite bool_decide_eq_true_2.
Qed.

Lemma tree_root_api s K i k x : reach s -> stores s K -> s_hands s !! i = Some (HNode k x) ->
  exists s1 j1 s2 j2 r, step s (OpTree i) = Ret (s1, OutHandle j1) /\ step s1 (OpRoot j1) = Ret (s2, OutHandle j2) /\
    s_hands s2 !! j2 = Some (HNode Plain r) /\ is_top K r /\ below K r x.
Proof.
  intros H Hst Hi.
  destruct (reach_effect s K (OpTree i) H Hst ltac:(exact Logic.I)) as (s1 & r1 & E1 & R1 & Ef1); [by exists k, x|exact (fun F => F)|].
  destruct Ef1 as [(k1 & x1 & t & j1 & Hi1 & Et & -> & (V1 & _ & Hh1))|[[]|[]]].
  assert (x1 = x) as -> by congruence.
  assert (s_hands s1 !! j1 = Some (HTree t)) as Hj1 by (rewrite Hh1; apply lookup_insert).
  assert (stores s1 K) as Hst1 by (by apply V1).
  destruct (reach_effect s1 K (OpRoot j1) R1 Hst1 ltac:(exact Logic.I)) as (s2 & r2 & E2 & R2 & Ef2); [by exists t|exact (fun F => F)|].
  destruct Ef2 as [(t2 & r & j2 & Hj & Htop & Er & -> & (V2 & _ & Hh2))|[[]|[]]].
  assert (t2 = t) as -> by congruence.
  exists s1, j1, s2, j2, r. split; [exact E1|]. split; [exact E2|]. split; [rewrite Hh2; apply lookup_insert|]. split; [exact Htop|].
  rewrite (sv_tree _ _ V1) in Er.
  destruct (handle_tree s K i k x H Hst Hi) as (_ & _ & _ & _ & _ & _ & HKx).
  destruct (proj1 (same_tree_iff s K r x H Hst (proj1 Htop) HKx)) as (r' & Ht' & Hb1 & Hb2); [congruence|].
  assert (r' = r) as ->; [|done].
  apply below_parent_inv in Hb1 as [?|(p & Hp & _)]; [done|]. exfalso. by apply (proj2 Htop p).
Qed.

(** ** Liveness *)
Lemma data_alive s K o s' r K' : reach s -> stores s K -> step s o = Ret (s', r) -> writes_data o -> stores s' K' ->
  K' = K /\ (forall y, tree_of s' y = tree_of s y) /\ s_hands s' = s_hands s.
Proof.
  intros H Hst E Hw Hst'. destruct (reach_safe_step s K o s' r H Hst) as [_ [[_ ->]|[_ Ef]]]; [by destruct o|exact E|..].
  { split; [by apply (stores_unique s)|done]. }
  destruct o; simpl in Hw; try done; destruct Ef as [[]|[Ef|[]]]; simpl in Ef.
  - destruct Ef as (k & x & d1 & l & _ & _ & [(_ & -> & _)|(_ & _ & Hh & _ & Hk & Ht & _)]).
    + split; [by apply (stores_unique s)|done].
    + split; [apply (stores_unique s'); [done|by apply Hk]|done].
  - destruct Ef as (k & x & d1 & l & _ & _ & [(_ & -> & _)|(l' & _ & _ & Hh & _ & Hk & Ht & _)]).
    + split; [by apply (stores_unique s)|done].
    + split; [apply (stores_unique s'); [done|by apply Hk]|done].
Qed.

Lemma kept_alive s K o s' r y t : reach s -> stores s K -> safe s K o -> step s o = Ret (s', r) ->
  tree_of s y = Some t -> tree_held s' (s_hands s') t -> is_Some (s_nodes s' !! y).
Proof.
  intros H Hst Hs E Et Hh. assert (reach s') as H' by (by eapply reach_step). destruct (reach_stores s' H') as [K' Hst'].
  assert (writes_data o \/ ~ writes_data o) as [Hw|Hw] by (destruct o; simpl; tauto).
  - destruct (data_alive s K o s' r K' H Hst E Hw Hst') as (-> & Ht & _). apply (tree_alive_node s' y t). by rewrite Ht.
  - destruct (s_nodes s' !! y) eqn:En; [by eexists|]. exfalso.
    pose proof (step_evolves s K o s' r K' H Hst Hs E Hst' Hw y) as Ev.
    destruct (ev_freed _ _ _ _ _ _ Ev (tree_alive_node s y t Et) En) as (t1 & Et1 & Hn & _).
    assert (t1 = t) as -> by congruence. done.
Qed.

Lemma no_garbage s K : reach s -> stores s K ->
  (forall y, is_Some (s_nodes s !! y) -> exists t, tree_of s y = Some t /\ is_Some (s_trees s !! t)) /\
  (forall t, is_Some (s_trees s !! t) -> tree_held s (s_hands s) t).
Proof.
  intros H Hst. pose proof (reach_stores_inv s K H Hst) as I. split.
  - intros y Hy. destruct (sinv_tree s K y (i_s _ _ I) Hy) as (t & tr & A & B & _). exists t. eauto.
  - apply I.
Qed.

Lemma drop_api s K i hd t : reach s -> stores s K -> s_hands s !! i = Some hd ->
  (hd = HTree t \/ exists k x, hd = HNode k x /\ tree_of s x = Some t) ->
  exists s', step s (OpDrop i) = Ret (s', OutUnit) /\ drops s K i t s'.
Proof.
  intros H Hst Hi Hd.
  destruct (reach_effect s K (OpDrop i) H Hst ltac:(exact Logic.I)) as (s1 & r1 & E1 & R1 & Ef1); [by exists hd|exact (fun F => F)|].
  destruct Ef1 as [(hd' & Hi' & -> & C)|[[]|[]]]. assert (hd' = hd) as -> by congruence. exists s1. split; [exact E1|].
  destruct Hd as [->|(k & x & -> & Et)]; [exact C|]. destruct C as (t' & Et' & D). assert (t' = t) as -> by congruence. exact D.
Qed.

(** ** Frozen trees *)
Lemma touched_thawed s K o t : reach s -> stores s K -> touches s o t -> ~ some_lock s Frozen t.
Proof.
  intros H Hst Ht. pose proof (reach_stores_inv s K H Hst) as I.
  assert (forall a k x, receiver s a k x -> tree_of s x = Some t -> ~ some_lock s Frozen t) as Hrc.
  { intros a k x Hr Et Hl. destruct (receiver_facts s K a k x I Hr) as (i & t1 & _ & Et1 & _ & [Th1 Th2] & _).
    assert (t1 = t) as -> by congruence. destruct Hl as [[i0 Hi]|[z Hz]]; [by eapply Th1|by eapply Th2]. }
  assert (forall j y, s_hands s !! j = Some (HNode Hot y) -> tree_of s y = Some t -> ~ some_lock s Frozen t) as Hhot.
  { intros j y Hj Ey Hl. apply (lock_exclusive s K t I); [|right; exists y; split; [done|]; split; [done|by exists j]|exact Hl].
    destruct (handle_tree s K j Hot y H Hst Hj) as (t1 & _ & _ & _ & E1 & A & _). assert (t1 = t) as -> by congruence. done. }
  destruct o; simpl in Ht; try done; try (destruct Ht as (k & x & Hr & Et); by eapply Hrc).
  destruct Ht as [(k & x & Hr & Et)|(y & Hj & Ey)]; [by eapply Hrc|by eapply Hhot].
Qed.

Lemma frozen_immutable s K o s' r K' t : reach s -> stores s K -> safe s K o -> step s o = Ret (s', r) -> stores s' K' ->
  some_lock s Frozen t -> is_Some (s_trees s !! t) ->
  (forall y, tree_of s y = Some t -> is_Some (s_nodes s' !! y) -> K' !! y = K !! y /\ tree_of s' y = Some t) /\
  (forall y, tree_of s' y = Some t -> tree_of s y = Some t).
Proof.
  intros H Hst Hs E Hst' Hf Ht.
  assert (writes_data o \/ ~ writes_data o) as [Hw|Hw] by (destruct o; simpl; tauto).
  - destruct (data_alive s K o s' r K' H Hst E Hw Hst') as (-> & Htr & _). split.
    + intros y Ey _. rewrite Htr. done. + intros y Ey. by rewrite <- Htr.
  - assert (~ touches s o t) as Hnt. { intros Hto. by apply (touched_thawed s K o t H Hst Hto). }
    split.
    + intros y Ey Hy. exact (ev_kids _ _ _ _ _ _ (step_evolves s K o s' r K' H Hst Hs E Hst' Hw y) t Ey Hnt Hy).
    + intros y Ey. exact (ev_came _ _ _ _ _ _ (step_evolves s K o s' r K' H Hst Hs E Hst' Hw y) t Ey Ht Hnt).
Qed.

Lemma footprint s K o s' r K' t : reach s -> stores s K -> safe s K o -> step s o = Ret (s', r) -> stores s' K' ->
  is_Some (s_trees s !! t) -> ~ touches s o t ->
  (forall y, tree_of s y = Some t -> is_Some (s_nodes s' !! y) -> K' !! y = K !! y /\ tree_of s' y = Some t) /\
  (forall y, tree_of s' y = Some t -> tree_of s y = Some t).
Proof.
  intros H Hst Hs E Hst' Ht Hnt.
  assert (writes_data o \/ ~ writes_data o) as [Hw|Hw] by (destruct o; simpl; tauto).
  - destruct (data_alive s K o s' r K' H Hst E Hw Hst') as (-> & Htr & _). split.
    + intros y Ey _. rewrite Htr. done. + intros y Ey. by rewrite <- Htr.
  - split.
    + intros y Ey Hy. exact (ev_kids _ _ _ _ _ _ (step_evolves s K o s' r K' H Hst Hs E Hst' Hw y) t Ey Hnt Hy).
    + intros y Ey. exact (ev_came _ _ _ _ _ _ (step_evolves s K o s' r K' H Hst Hs E Hst' Hw y) t Ey Ht Hnt).
Qed.

(** ** Handle operations; data *)
Lemma handle_frame s K o s' r K' y : reach s -> stores s K -> handle_op o -> step s o = Ret (s', r) -> stores s' K' ->
  is_Some (s_nodes s' !! y) -> K' !! y = K !! y /\ tree_of s' y = tree_of s y /\ payload s' y = payload s y.
Proof.
  intros H Hst Ho E Hst' Hy. assert (safe s K o) as Hs by (by destruct o). assert (~ writes_data o) as Hw by (destruct o; simpl in *; tauto).
  assert (forall t, ~ touches s o t) as Hnt by (intros t; destruct o; simpl in *; tauto).
  pose proof (step_evolves s K o s' r K' H Hst Hs E Hst' Hw y) as Ev.
  assert (reach s') as H' by (by eapply reach_step).
  destruct (proj1 (no_garbage s' K' H' Hst') y Hy) as (t & Et & Htr').
  assert (is_Some (s_nodes s !! y)) as Hy0.
  { destruct (reach_safe_step s K o s' r H Hst Hs E) as [_ [[_ ->]|[_ Ef]]]; [done|].
    assert (same_view s s' -> is_Some (s_nodes s !! y)) as Hv. { intros V. by apply (same_view_alive s s' y V). }
    assert (forall i u, drops s K i u s' -> is_Some (s_nodes s !! y)) as Hdr.
    { intros i u (_ & [[_ V]|(_ & _ & A & B & _)]); [by apply Hv|].
      destruct (decide (tree_of s y = Some u)) as [e|e]; [rewrite (A y e) in Hy; by destruct Hy|]. by rewrite <- (B y e). }
    destruct o; simpl in Ho; try done; destruct Ef as [Ef|[[]|[]]]; simpl in Ef.
    - destruct Ef as (hd & j & _ & _ & (V & _)). by apply Hv.
    - destruct Ef as (hd & _ & _ & G). destruct hd; [destruct G as (u & _ & D); by eapply Hdr|by eapply Hdr|..]; destruct G as [V _]; by apply Hv.
    - destruct Ef as (k & x & [z|] & _ & _ & G); [destruct G as (j & _ & V & _); by apply Hv|]. destruct G as [_ ->]. done.
    - destruct Ef as (k & x & u & j & _ & _ & _ & V & _). by apply Hv.
    - destruct Ef as (u & z & j & _ & _ & _ & _ & V & _). by apply Hv.
    - destruct Ef as (u & _ & _ & [(_ & j & _ & V & _)|(_ & _ & ->)]); [by apply Hv|done].
    - destruct Ef as (x & u & _ & _ & _ & [(_ & j & _ & V & _)|(_ & _ & D)]); [by apply Hv|by eapply Hdr].
    - destruct Ef as (k & x & u & m & _ & _ & _ & _ & _ & V & _). by apply Hv.
    - destruct Ef as (k & x & j & _ & _ & _ & V & _). by apply Hv.
    - destruct Ef as (k & x & u & j & _ & _ & _ & _ & V & _). by apply Hv.
    - destruct Ef as (j & _ & [(x & _ & V & _)|(u & _ & V & _)]); by apply Hv.
    - destruct Ef as [(x & _ & [(_ & j & _ & V & _)|(_ & _ & ->)])|(u & _ & [(_ & j & _ & V & _)|(_ & _ & ->)])]; try done; by apply Hv. }
  destruct (proj1 (no_garbage s K H Hst) y Hy0) as (u & Eu & Htr).
  destruct (ev_kids _ _ _ _ _ _ Ev u Eu (Hnt u) Hy) as [A B]. split; [exact A|]. split; [by rewrite B|].
  exact (ev_payload _ _ _ _ _ _ Ev Hy0 Hy).
Qed.

Lemma data_frame s K o s' r y : reach s -> stores s K -> safe s K o -> step s o = Ret (s', r) -> ~ writes_data o ->
  is_Some (s_nodes s !! y) -> is_Some (s_nodes s' !! y) -> payload s' y = payload s y.
Proof.
  intros H Hst Hs E Hw Hy Hy'. assert (reach s') as H' by (by eapply reach_step). destruct (reach_stores s' H') as [K' Hst'].
  exact (ev_payload _ _ _ _ _ _ (step_evolves s K o s' r K' H Hst Hs E Hst' Hw y) Hy Hy').
Qed.

(** ** Failing edits *)
Lemma failed_edit s K o s' e : reach s -> stores s K -> safe s K o -> step s o = Ret (s', OutErr e) ->
  s_nodes s' = s_nodes s /\ s_trees s' = s_trees s /\ s_hands s' = s_hands s.
Proof.
  intros H Hst Hs E. destruct (reach_safe_step s K o s' _ H Hst Hs E) as [_ [[? _]|[_ Ef]]]; [done|].
  destruct o; destruct Ef as [Ef|[Ef|Ef]]; simpl in Ef; try done.
  all: repeat match type of Ef with
    | exists _, _ => destruct Ef as [? Ef]
    | _ /\ _ => destruct Ef as [? Ef]
    | _ \/ _ => destruct Ef as [Ef|Ef]
    | match ?hd with _ => _ end => destruct hd
    end; subst; try done.
  all: repeat match goal with H : _ /\ _ |- _ => destruct H | H : exists _, _ |- _ => destruct H | H : _ \/ _ |- _ => destruct H end; subst; try done.
  all: repeat match type of Ef with
    | context [if ?b then _ else _] => destruct b
    | _ /\ _ => destruct Ef as [? Ef] end; subst; try done.
Qed.

(** ** Lock bookkeeping *)
Lemma lock_count s K t tr : reach s -> stores s K -> s_trees s !! t = Some tr ->
  exists g p, holders s (s_hands s) Hot t g /\ holders s (s_hands s) Frozen t p /\
    t_cnt tr = (Z.of_nat g - Z.of_nat p)%Z /\ (g = 0 \/ p = 0).
Proof. intros H Hst Ht. exact (h_lock _ _ (i_h _ _ (reach_stores_inv s K H Hst)) t tr Ht). Qed.

(** ** Weak references *)
Lemma weak_node_api s K i x : reach s -> stores s K -> s_hands s !! i = Some (HNodeWeak x) ->
  ((exists t, tree_of s x = Some t /\ tree_held s (s_hands s) t) ->
     exists s' j, step s (OpUpgrade i) = Ret (s', OutHandle j) /\ gives s s' j (HNode Plain x)) /\
  (~ (exists t, tree_of s x = Some t /\ tree_held s (s_hands s) t) -> step s (OpUpgrade i) = Ret (s, OutNone)).
Proof.
  intros H Hst Hi. pose proof (reach_stores_inv s K H Hst) as I.
  assert (is_Some (K !! x) <-> exists t, tree_of s x = Some t /\ tree_held s (s_hands s) t) as Hiff.
  { rewrite <- (stores_alive s K x Hst). split.
    - intros Hx. destruct (proj1 (no_garbage s K H Hst) x Hx) as (t & A & B). exists t. split; [done|]. by apply I.
    - intros (t & A & _). by eapply tree_alive_node. }
  destruct (reach_effect s K (OpUpgrade i) H Hst ltac:(exact Logic.I)) as (s1 & r1 & E1 & R1 & Ef1); [left; by exists x|exact (fun F => F)|].
  destruct Ef1 as [[(x' & Hi' & C)|(t & Hi' & _)]|[[]|[]]]; [|congruence]. assert (x' = x) as -> by congruence.
  destruct C as [(A & j & -> & G)|(A & -> & ->)].
  - split; [by exists s1, j|]. intros Hn. exfalso. by apply Hn, Hiff.
  - split; [|done]. intros Hn. apply Hiff in Hn. rewrite A in Hn. by destruct Hn.
Qed.
Lemma weak_tree_api s i t : reach s -> s_hands s !! i = Some (HTreeWeak t) ->
  (tree_held s (s_hands s) t -> exists s' j, step s (OpUpgrade i) = Ret (s', OutHandle j) /\ gives s s' j (HTree t)) /\
  (~ tree_held s (s_hands s) t -> step s (OpUpgrade i) = Ret (s, OutNone)).
Proof.
  intros H Hi. destruct (reach_stores s H) as [K Hst].
  destruct (reach_effect s K (OpUpgrade i) H Hst ltac:(exact Logic.I)) as (s1 & r1 & E1 & R1 & Ef1); [right; by exists t|exact (fun F => F)|].
  destruct Ef1 as [[(x' & Hi' & C)|(t' & Hi' & C)]|[[]|[]]]; [congruence|]. assert (t' = t) as -> by congruence.
  destruct C as [(A & j & -> & G)|(A & -> & ->)].
  - split; [by exists s1, j|done].
  - split; [done|done].
Qed.
Lemma downgrade_api s i x : reach s -> s_hands s !! i = Some (HNode Plain x) ->
  exists s' j, step s (OpDowngrade i) = Ret (s', OutHandle j) /\ gives s s' j (HNodeWeak x).
Proof.
  intros H Hi. destruct (reach_stores s H) as [K Hst].
  destruct (reach_effect s K (OpDowngrade i) H Hst ltac:(exact Logic.I)) as (s1 & r1 & E1 & R1 & Ef1); [left; by exists x|exact (fun F => F)|].
  destruct Ef1 as [(j & -> & [(x' & Hi' & G)|(t' & Hi' & _)])|[[]|[]]]; [|congruence]. assert (x' = x) as -> by congruence.
  by exists s1, j.
Qed.
End ApiFacts7.

Section More.
Context {T : Type}.
Implicit Types (s : sys T) (K : forest).
Lemma nav_api s K v i k x :
  reach s -> stores s K -> s_hands s !! i = Some (HNode k x) ->
  exists o, nav_spec K v x o /\
    match o with
    | None => step s (OpNav v i) = Ret (s, OutNone)
    | Some y => exists s' j, step s (OpNav v i) = Ret (s', OutHandle j) /\ gives s s' j (HNode k y)
    end.
Proof.
  intros H Hst Hi.
  destruct (reach_effect s K (OpNav v i) H Hst ltac:(exact Logic.I)) as (s1 & r1 & E1 & R1 & Ef1); [by exists k, x|exact (fun F => F)|].
  destruct Ef1 as [(k1 & x1 & o & Hi1 & Hn & C)|[[]|[]]]. assert (x1 = x) as -> by congruence. assert (k1 = k) as -> by congruence.
  exists o. split; [exact Hn|]. destruct o as [y|].
  - destruct C as (j & -> & G). by exists s1, j.
  - destruct C as [-> ->]. exact E1.
Qed.
Lemma reach_anc s K x : reach s -> stores s K -> is_Some (K !! x) -> exists l, anc K x l /\ NoDup (x :: l).
Proof.
  intros H Hst Hx. destruct (anc_exists K x (proj2 Hst) Hx) as [l Hl]. exists l. split; [exact Hl|].
  assert (forall x l, anc K x l -> forall z, z ∈ l -> exists p, child_of K p x /\ below K z p) as Hb.
  { clear. intros x l. induction 1 as [|x p l Hc Ha IH]; intros z Hz; [by apply elem_of_nil in Hz|].
    apply elem_of_cons in Hz as [->|Hz]; [exists p; split; [done|constructor]|].
    destruct (IH z Hz) as (q & Hq & Hb). exists p. split; [done|]. by econstructor. }
  assert (forall x l, anc K x l -> NoDup (x :: l)) as Hn; [|by apply Hn].
  clear x l Hx Hl. intros x l Ha. induction Ha as [x Ht|x p l Hc Ha IH]; [apply NoDup_singleton|].
  constructor; [|exact IH]. intros Hin. destruct (Hb x (p :: l)) with (z := x) as (q & Hq & Hbq); [by econstructor|exact Hin|].
  exact (no_cycle K q x (proj2 Hst) Hq Hbq).
Qed.
Lemma failed_edit' s s' K o e : reach s -> stores s K -> safe s K o -> step s o = Ret (s', OutErr e) ->
  s_nodes s' = s_nodes s /\ s_trees s' = s_trees s /\ s_hands s' = s_hands s.
Proof. apply failed_edit. Qed.
End More.

Section More2.
Context {T : Type}.
Implicit Types (s : sys T) (K : forest).
Lemma drop_any s i hd : reach s -> s_hands s !! i = Some hd ->
  exists s', step s (OpDrop i) = Ret (s', OutUnit) /\ reach s' /\ s_hands s' = delete i (s_hands s).
Proof.
  intros H Hi. destruct (reach_stores s H) as [K Hst].
  destruct (reach_effect s K (OpDrop i) H Hst ltac:(exact Logic.I)) as (s1 & r1 & E1 & R1 & Ef1); [by exists hd|exact (fun F => F)|].
  destruct Ef1 as [(hd' & Hi' & -> & C)|[[]|[]]]. exists s1. split; [exact E1|]. split; [exact R1|].
  destruct hd'; [destruct C as (t & _ & C & _); exact C|exact (proj1 C)|exact (proj2 C)|exact (proj2 C)|exact (proj2 C)|exact (proj2 C)].
Qed.
End More2.
