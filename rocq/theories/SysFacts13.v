(** * SysFacts13: detaching, replacing, moving to another tree. *)
From Verif Require Import Heap Edit System SysSpec CardFacts HeapFacts SpecFacts NavFacts NavFacts2 EditFacts EditFacts2 EditFacts3 EditFacts4 EditFacts5 IterSpec RoseFacts AdjFacts TravFacts TdFacts TdFacts2 SysFacts SysFacts2 SysFacts3 SysFacts4 SysFacts5 SysFacts6 SysFacts7 SysFacts8 SysFacts9 SysFacts10 SysFacts11 SysFacts12 Spec.

Section SysFacts13.
Context {T : Type}.
Implicit Types (h : heap T) (s : sys T) (hm : gmap nat handle) (K : forest).

(** ** What holds after the loop *)
Section After.
Context (s0 : sys T) (K0 : forest) (x : nid) (ro : rose nid) (t0 t' : tid) (B : before_loop s0 K0 x t0 t') (Hw0 : wf K0) (Hx0 : is_top K0 x) (Hsh : shape K0 x ro).
Notation mid := (mid s0 K0 x ro t0 t').

Lemma b_below r y : below K0 r y -> tree_of s0 y = tree_of s0 r.
Proof. intros Hb. induction Hb as [|p c Hb IH Hc]; [done|]. by rewrite (b_child _ _ _ _ _ B _ _ Hc). Qed.

Lemma root_tr s u : t_root <$> s_trees s !! u = t_root <$> s_trees s0 !! u -> forall tr, s_trees s !! u = Some tr -> exists tr0, s_trees s0 !! u = Some tr0 /\ t_root tr0 = t_root tr.
Proof. intros E tr Htr. rewrite Htr in E. destruct (s_trees s0 !! u) as [q|]; [|done]. exists q. split; [done|]. by injection E. Qed.
Lemma root_tr0 s u : t_root <$> s_trees s !! u = t_root <$> s_trees s0 !! u -> forall tr, s_trees s0 !! u = Some tr -> exists tr0, s_trees s !! u = Some tr0 /\ t_root tr0 = t_root tr.
Proof. intros E tr Htr. rewrite Htr in E. destruct (s_trees s !! u) as [q|]; [|done]. exists q. split; [done|]. by injection E. Qed.

Lemma mid_child s K D E p c : mid s K D E -> child_of K p c -> child_of K0 p c.
Proof.
  intros M Hc. destruct (m_kept _ _ _ _ _ _ _ _ _ _ M) as [(-> & _)|(tr0 & L0 & _ & _ & -> & _)]; [done|]. by apply prune_child in Hc as [_ ?].
Qed.

Lemma mid_pinv s K E : mid s K (rose_nodes ro) E -> pinv s K (eq x).
Proof.
  intros M. pose proof (m_rep _ _ _ _ _ _ _ _ _ _ M) as Hr. pose proof (m_wf _ _ _ _ _ _ _ _ _ _ M) as Hw.
  assert (forall y, y ∈ rose_nodes ro <-> below K x y) as HL. { intros y. apply (shape_nodes _ _ _ _ (m_shape _ _ _ _ _ _ _ _ _ _ M)). }
  assert (forall y, y ∈ rose_nodes ro -> tree_of s y = Some t') as Hin.
  { intros y Hy. rewrite (m_in _ _ _ _ _ _ _ _ _ _ M y Hy). by rewrite decide_True. }
  assert (forall y, y ∉ rose_nodes ro -> is_Some (K !! y) -> tree_of s y = tree_of s0 y) as Hout.
  { intros y Hy Hk. apply (m_out _ _ _ _ _ _ _ _ _ _ M); [done|]. by apply (rep_dom _ _ Hr). }
  assert (forall y, is_top K y -> y <> x -> y ∉ rose_nodes ro) as Htopout.
  { intros y Hy Hne Hy2. apply HL in Hy2. apply Hne. symmetry. by eapply below_top. }
  split.
  - done.
  - done.
  - intros p c Hc. destruct (decide (p ∈ rose_nodes ro)) as [Hp|Hp].
    + assert (c ∈ rose_nodes ro) as Hcl. { apply HL. econstructor; [by apply HL|done]. } by rewrite !Hin.
    + assert (c ∉ rose_nodes ro) as Hcl.
      { intros Hcl. apply HL in Hcl. inversion Hcl as [|q c' Hb Hc']; subst.
        - by apply (proj2 (m_top _ _ _ _ _ _ _ _ _ _ M) p).
        - apply Hp, HL. by rewrite (wf_uniq _ Hw _ _ _ Hc Hc'). }
      rewrite !Hout; [|done| |done|].
      * apply (b_child _ _ _ _ _ B). by eapply mid_child.
      * destruct Hc as (? & ? & _). eauto.
      * by eapply wf_dom.
  - intros y Hy. destruct (decide (x = y)) as [|Hne]; [by left|right].
    assert (y <> x) as Hne' by done. pose proof (Htopout y Hy Hne') as Hyl.
    rewrite (Hout y Hyl (proj1 Hy)).
    destruct (m_kept _ _ _ _ _ _ _ _ _ _ M) as [(-> & _ & A3)|(tr0 & L0 & A1 & A2 & -> & A4 & A5 & A6 & A7)].
    + destruct (b_top _ _ _ _ _ B y Hy) as [|(u & tr & C1 & C2 & C3)]; [done|].
      destruct (root_tr0 s u (A3 u) _ C2) as (q & Q1 & Q2). exists u, q. split; [done|]. split; [done|]. congruence.
    + assert (is_top K0 (t_root tr0) /\ t_root tr0 <> x /\ tree_of s0 (t_root tr0) = Some t0) as (Hr0 & Hr1 & Hr2).
      { destruct (b_root _ _ _ _ _ B _ _ A1) as [[? _]|(? & ? & ?)]; [by destruct (b_ne _ _ _ _ _ B)|done]. }
      apply (prune_top K0 L0 (t_root tr0) y Hw0 Hr0 A2) in Hy as [Hy1 Hy2].
      destruct (b_top _ _ _ _ _ B y Hy2) as [|(u & tr & C1 & C2 & C3)]; [done|].
      assert (u <> t0) as Hu. { intros ->. assert (tr = tr0) as -> by congruence. apply Hy1, A2. rewrite C3. constructor. }
      destruct (root_tr0 s u (A7 u Hu) _ C2) as (q & Q1 & Q2). exists u, q. split; [done|]. split; [done|]. congruence.
  - intros u tr Hu.
    assert (exists tr0, s_trees s0 !! u = Some tr0 /\ t_root tr0 = t_root tr /\ (u = t0 -> K = K0)) as (tr0 & Htr0 & Er & Hut).
    { destruct (m_kept _ _ _ _ _ _ _ _ _ _ M) as [(A1 & _ & A3)|(q & L0 & A1 & A2 & A3 & A4 & A5 & A6 & A7)].
      - destruct (root_tr s u (A3 u) _ Hu) as (q & Q1 & Q2). exists q. done.
      - assert (u <> t0) as Hne by (intros ->; congruence). destruct (root_tr s u (A7 u Hne) _ Hu) as (q1 & Q1 & Q2). exists q1. done. }
    rewrite <-Er. destruct (b_root _ _ _ _ _ B _ _ Htr0) as [[-> Ex]|(C1 & C2 & C3)].
    + rewrite Ex. split; [apply M|]. apply Hin. apply HL. constructor.
    + assert (is_top K (t_root tr0)) as Htk.
      { destruct (m_kept _ _ _ _ _ _ _ _ _ _ M) as [(-> & _)|(q & L0 & A1 & A2 & -> & A4 & A5 & A6 & A7)]; [done|].
        assert (is_top K0 (t_root q) /\ tree_of s0 (t_root q) = Some t0) as (Hr0 & Hr2).
        { destruct (b_root _ _ _ _ _ B _ _ A1) as [[? _]|(? & ? & ?)]; [by destruct (b_ne _ _ _ _ _ B)|done]. }
        apply (prune_top K0 L0 (t_root q) _ Hw0 Hr0 A2). split; [|done]. intros Hin2. apply A2 in Hin2.
        apply b_below in Hin2. assert (u <> t0) by (intros ->; congruence). congruence. }
      split; [done|]. rewrite Hout; [done|by apply Htopout|apply Htk].
Qed.

Lemma mid_alive s K D E y : mid s K D E -> is_Some (s_nodes s !! y) -> is_Some (s_nodes s0 !! y) /\ links <$> s_nodes s !! y = links <$> s_nodes s0 !! y.
Proof.
  intros M Hy. assert (links <$> s_nodes s !! y = links <$> s_nodes s0 !! y) as E1.
  { destruct (m_kept _ _ _ _ _ _ _ _ _ _ M) as [(_ & A2 & _)|(q & L0 & A1 & A2 & -> & A4 & A5 & A6 & A7)]; [apply A2|].
    apply A4. intros Hin. rewrite A5 in Hy by done. by destruct Hy. }
  split; [|done]. destruct Hy as [nd Hnd]. rewrite Hnd in E1. destruct (s_nodes s0 !! y); [eauto|done].
Qed.
Lemma mid_payload s K D E y : mid s K D E -> is_Some (s_nodes s !! y) -> payload s y = payload s0 y.
Proof.
  intros M Hy. destruct (mid_alive _ _ _ _ _ M Hy) as [_ E1]. unfold payload.
  destruct (s_nodes s !! y), (s_nodes s0 !! y); simpl in *; try done. unfold links in E1. injection E1 as ? ? ? ? ? ? ?. congruence.
Qed.
Lemma mid_trees s K D E u : mid s K D E -> u <> t0 -> (is_Some (s_trees s !! u) <-> is_Some (s_trees s0 !! u)).
Proof.
  intros M Hu. apply root_trees_alive. destruct (m_kept _ _ _ _ _ _ _ _ _ _ M) as [(_ & _ & A3)|(q & L0 & A1 & A2 & _ & A4 & A5 & A6 & A7)]; [apply A3|by apply A7].
Qed.
Lemma mid_tree0 s K D E : mid s K D E -> is_Some (s_trees s !! t0) -> is_Some (s_trees s0 !! t0).
Proof.
  intros M Hu. destruct (m_kept _ _ _ _ _ _ _ _ _ _ M) as [(_ & _ & A3)|(q & L0 & A1 & _)]; [|rewrite A1; eauto].
  by apply (root_trees_alive s0 s).
Qed.

Lemma mid_finv s K D E : mid s K D E -> finv s0 -> t' < s_fresh s0 -> t0 < s_fresh s0 -> finv s.
Proof.
  intros M [F1 F2 F3 F4] Ht' Ht0. split; rewrite (m_fresh _ _ _ _ _ _ _ _ _ _ M).
  - intros y Hy. apply F1. by apply (mid_alive _ _ _ _ y M Hy).
  - intros u Hu. destruct (decide (u = t0)) as [->|Hne]; [done|]. apply F2. by apply (mid_trees _ _ _ _ u M Hne).
  - rewrite (m_hands _ _ _ _ _ _ _ _ _ _ M). exact F3.
  - intros y u Hy. assert (is_Some (s_nodes s !! y)) as Hya. { unfold tree_of, n_memb in Hy. destruct (s_nodes s !! y); [eauto|done]. }
    destruct (decide (y ∈ rose_nodes ro)) as [Hin|Hout].
    + rewrite (m_in _ _ _ _ _ _ _ _ _ _ M y Hin) in Hy. case_decide; congruence.
    + rewrite (m_out _ _ _ _ _ _ _ _ _ _ M y Hout Hya) in Hy. by eapply F4.
Qed.

(** The fate of the old tree. *)
Definition old_tree_fate s K : Prop :=
  (is_Some (s_trees s !! t0) /\ K = K0) \/
  (s_trees s !! t0 = None /\ ~ tree_held s (s_hands s) t0 /\
    exists L0, (forall y, y ∈ L0 <-> is_Some (K0 !! y) /\ ~ below K0 x y /\ tree_of s0 y = Some t0) /\ K = prune K0 L0).

Lemma mid_fate s K D E : mid s K D E -> rep (s_nodes s0) K0 -> is_Some (s_trees s0 !! t0) -> old_tree_fate s K.
Proof.
  intros M Hr0 Halive. destruct (m_kept _ _ _ _ _ _ _ _ _ _ M) as [(A1 & _ & A3)|(tr0 & L0 & A1 & A2 & A3 & A4 & A5 & A6 & A7)].
  - left. split; [|done]. by apply (root_trees_alive s0 s).
  - right. split; [done|]. split.
    + intros [(i & Hi)|(i & k & z & Hi & Hz)].
      * pose proof (h_tree _ _ (m_hinv _ _ _ _ _ _ _ _ _ _ M) _ _ Hi) as [? ?]. congruence.
      * destruct (hinv_handle_strong _ _ _ _ _ (m_hinv _ _ _ _ _ _ _ _ _ _ M) Hi) as (u & rc & lk & _ & [? ?] & _ & _ & E1). congruence.
    + assert (is_top K0 (t_root tr0) /\ t_root tr0 <> x /\ tree_of s0 (t_root tr0) = Some t0) as (C1 & C2 & C3).
      { destruct (b_root _ _ _ _ _ B _ _ A1) as [[? _]|(? & ? & ?)]; [by destruct (b_ne _ _ _ _ _ B)|done]. }
      exists L0. split; [|done]. intros y. rewrite A2. split.
      * intros Hb. split; [eapply below_dom; [done|apply C1|done]|]. split.
        -- intros Hb2. destruct (below_common K0 _ _ _ Hw0 Hb Hb2) as [Hc|Hc]; apply C2; [|symmetry]; by eapply below_top.
        -- by rewrite (b_below _ _ Hb).
      * intros (Hy & Hnb & Hyt). destruct (top_exists K0 y Hw0 Hy) as (r & Hr & Hb).
        destruct (b_top _ _ _ _ _ B r Hr) as [->|(u & tr & D1 & D2 & D3)]; [done|].
        rewrite <-(b_below _ _ Hb) in D1. assert (u = t0) as -> by congruence. assert (tr = tr0) as -> by congruence. by rewrite D3.
Qed.
End After.

End SysFacts13.
