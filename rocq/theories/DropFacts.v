(** * DropFacts: dropping handles in any order. *)
From Verif Require Import Heap Edit System SysSpec SpecFacts SysFacts3 SysFacts5 ApiSpec ApiFacts ApiFacts2 ApiFacts3 ApiFacts7 DropSpec Spec.

Section DropFacts.
Context {T : Type}.
Implicit Types (s : sys T) (K : forest) (t : tid).

Lemma tree_of_alive s y t : tree_of s y = Some t -> is_Some (s_nodes s !! y).
Proof. unfold tree_of, n_memb. destruct (s_nodes s !! y); [eauto|done]. Qed.
Lemma tree_of_none s y : s_nodes s !! y = None -> tree_of s y = None.
Proof. unfold tree_of, n_memb. by intros ->. Qed.

(** One drop, whatever the handle. *)
Lemma drop_one s K i : reach s -> stores s K -> is_Some (s_hands s !! i) ->
  exists s', step s (OpDrop i) = Ret (s', OutUnit) /\ reach s' /\ s_hands s' = delete i (s_hands s) /\
    (same_view s s' \/
     exists t, ~ tree_held s (s_hands s') t /\ (exists K', only (fun y => tree_of s y <> Some t) K K' /\ stores s' K') /\
       (forall y, tree_of s y = Some t -> s_nodes s' !! y = None) /\
       (forall y, tree_of s y <> Some t -> s_nodes s' !! y = s_nodes s !! y) /\
       s_trees s' !! t = None /\ (forall u, u <> t -> s_trees s' !! u = s_trees s !! u)).
Proof.
  intros Hr Hst Hi. destruct (reach_effect s K (OpDrop i) Hr Hst ltac:(exact Logic.I) Hi (fun F => F)) as (s' & r & E & Hr' & Ef).
  destruct Ef as [(hd & Hi' & -> & C)|[[]|[]]]. exists s'. split; [exact E|]. split; [exact Hr'|].
  assert (D : forall t, drops s K i t s' -> s_hands s' = delete i (s_hands s) /\ (same_view s s' \/
     exists t, ~ tree_held s (s_hands s') t /\ (exists K', only (fun y => tree_of s y <> Some t) K K' /\ stores s' K') /\
       (forall y, tree_of s y = Some t -> s_nodes s' !! y = None) /\
       (forall y, tree_of s y <> Some t -> s_nodes s' !! y = s_nodes s !! y) /\
       s_trees s' !! t = None /\ (forall u, u <> t -> s_trees s' !! u = s_trees s !! u))).
  { intros t [Hh [[_ Hv]|Hf]]; (split; [exact Hh|]); [left; exact Hv|right; exists t; exact Hf]. }
  destruct hd; try (destruct C as [Hv Hh]; split; [exact Hh|left; exact Hv]).
  - destruct C as (t & _ & C). exact (D t C).
  - exact (D _ C).
Qed.

Lemma drop_list l : forall s K, reach s -> stores s K -> NoDup l -> (forall i, i ∈ l -> is_Some (s_hands s !! i)) ->
  exists s', steps s (map OpDrop l) = Ret (s', map (fun _ => OutUnit) l) /\ reach s' /\ released s K l s'.
Proof.
  induction l as [|i l IH]; intros s K Hr Hst Hnd Hl.
  - exists s. split; [done|]. split; [exact Hr|]. pose proof (reach_stores_inv _ _ Hr Hst) as I. split.
    + done.
    + exists K. split; [exact Hst|]. intros y. split; [done|]. intros Hn. apply eq_None_not_Some. intros Hy. apply Hn.
      apply (rep_dom _ _ (proj1 Hst)) in Hy. destruct (sinv_tree _ _ _ (i_s _ _ I) Hy) as (t & tr & Et & Es & _). exists t. split; [exact Et|]. apply (i_held _ _ I). eauto.
    + intros y t Et _. split; [done|exact Et].
    + done.
    + intros t Hn. assert (s_trees s !! t = None) as Ht. { apply eq_None_not_Some. intros Ht. by apply Hn, (i_held _ _ I). }
      split; [exact Ht|]. intros y Ey. exfalso. destruct (sinv_tree _ _ _ (i_s _ _ I) (tree_of_alive _ _ _ Ey)) as (t1 & tr & E1 & E2 & _). congruence.
  - apply NoDup_cons in Hnd as [Hil Hnd].
    destruct (drop_one s K i Hr Hst) as (s1 & E1 & Hr1 & Hh1 & C). { apply Hl. apply elem_of_list_here. }
    assert (exists K1, stores s1 K1) as [K1 Hst1] by (by apply reach_stores).
    destruct (IH s1 K1 Hr1 Hst1 Hnd) as (s' & E' & Hr' & R).
    { intros j Hj. rewrite Hh1, lookup_delete_ne by (intros ->; done). apply Hl. by apply elem_of_list_further. }
    exists s'. split. { cbn [map steps]. rewrite E1. cbn [mbind run_bind]. rewrite E'. reflexivity. } split; [exact Hr'|].
    assert (Hhands : forall j, s_hands s' !! j = if decide (j ∈ i :: l) then None else s_hands s !! j).
    { intros j. rewrite (rl_hands _ _ _ _ R), Hh1. destruct (decide (j = i)) as [->|Hj].
      - rewrite (decide_True (P := i ∈ i :: l)) by apply elem_of_list_here. destruct (decide (i ∈ l)); [done|apply lookup_delete].
      - rewrite lookup_delete_ne by done. destruct (decide (j ∈ l)) as [Hjl|Hjl]; [rewrite decide_True by (by apply elem_of_list_further); done|].
        rewrite decide_False; [done|]. intros F. apply elem_of_cons in F as [F|F]; done. }
    assert (Hsub : forall j hd, s_hands s' !! j = Some hd -> s_hands s1 !! j = Some hd).
    { intros j hd. rewrite (rl_hands _ _ _ _ R). by destruct (decide (j ∈ l)). }
    destruct C as [V|(t0 & Hn0 & (K1' & Ho & Hst1') & Hgone & Hsame & Ht0 & Htr)].
    + assert (K1 = K) as -> by (apply (stores_unique s1); [exact Hst1|exact (sv_stores _ _ V K Hst)]).
      assert (Hheld : forall h t, tree_held s1 h t <-> tree_held s h t).
      { intros h t. split; (intros [H|(j & k & x & H1 & H2)]; [by left|right]; exists j, k, x; split; [exact H1|]); [by rewrite <- (sv_tree _ _ V)|by rewrite (sv_tree _ _ V)]. }
      split.
      * exact Hhands.
      * destruct (rl_links _ _ _ _ R) as (K' & Hst' & Ho). exists K'. split; [exact Hst'|]. intros y. destruct (Ho y) as [H1 H2]. split.
        -- intros (t & Et & Ht). apply H1. exists t. split; [by rewrite (sv_tree _ _ V)|by apply Hheld].
        -- intros Hn. apply H2. intros (t & Et & Ht). apply Hn. exists t. split; [by rewrite <- (sv_tree _ _ V)|by apply Hheld].
      * intros y t Et Ht. destruct (rl_kept _ _ _ _ R y t) as [H1 H2]; [by rewrite (sv_tree _ _ V)|by apply Hheld|].
        split; [by rewrite H1, (sv_payload _ _ V)|exact H2].
      * intros t Ht. rewrite (rl_roots _ _ _ _ R t); [|by apply Hheld]. exact (sv_trees _ _ V t).
      * intros t Hn. destruct (rl_freed _ _ _ _ R t) as [H1 H2]; [by rewrite Hheld|]. split; [exact H1|]. intros y Ey. apply H2. by rewrite (sv_tree _ _ V).
    + assert (K1' = K1) as -> by (by apply (stores_unique s1)).
      assert (Htre : forall y t, tree_of s1 y = Some t <-> tree_of s y = Some t /\ t <> t0).
      { intros y t. destruct (decide (tree_of s y = Some t0)) as [Ey|Ey].
        - rewrite (tree_of_none _ _ (Hgone y Ey)), Ey. split; [done|]. intros [[= ->] F]. done.
        - assert (tree_of s1 y = tree_of s y) as -> by (unfold tree_of, n_memb; by rewrite (Hsame y Ey)).
          split; [intros Et; split; [exact Et|]; intros ->; done|by intros [? _]]. }
      assert (Hno : ~ tree_held s (s_hands s') t0).
      { intros H. apply Hn0. destruct H as [[j H]|(j & k & x & H1 & H2)]; [left; exists j; by apply Hsub|right; exists j, k, x; split; [by apply Hsub|exact H2]]. }
      assert (Hheld : forall t, tree_held s1 (s_hands s') t <-> tree_held s (s_hands s') t).
      { intros t. split.
        - intros [H|(j & k & x & H1 & H2)]; [by left|right]. exists j, k, x. split; [exact H1|]. by apply Htre in H2 as [H2 _].
        - intros H. assert (t <> t0) as Hne by (intros ->; done). destruct H as [H|(j & k & x & H1 & H2)]; [by left|right]. exists j, k, x. split; [exact H1|]. by apply Htre. }
      split.
      * exact Hhands.
      * destruct (rl_links _ _ _ _ R) as (K' & Hst' & Ho'). exists K'. split; [exact Hst'|]. intros y. destruct (Ho' y) as [H1 H2]. destruct (Ho y) as [H3 H4]. split.
        -- intros (t & Et & Ht). assert (t <> t0) as Hne by (intros ->; done). rewrite H1; [apply H3; congruence|]. exists t. split; [by apply Htre|by apply Hheld].
        -- intros Hn. apply H2. intros (t & Et & Ht). apply Hn. apply Htre in Et as [Et _]. exists t. split; [exact Et|by apply Hheld].
      * intros y t Et Ht. assert (t <> t0) as Hne by (intros ->; done). destruct (rl_kept _ _ _ _ R y t) as [H1 H2]; [by apply Htre|by apply Hheld|].
        split; [|exact H2]. rewrite H1. unfold payload. rewrite Hsame; [done|congruence].
      * intros t Ht. assert (t <> t0) as Hne by (intros ->; done). rewrite (rl_roots _ _ _ _ R t); [|by apply Hheld]. by rewrite (Htr t Hne).
      * intros t Hn. destruct (rl_freed _ _ _ _ R t) as [H1 H2]; [by rewrite Hheld|]. split; [exact H1|]. intros y Ey.
        destruct (decide (t = t0)) as [->|Hne]; [|apply H2; by apply Htre].
        (* freed by the first drop, and not made again *)
        destruct (rl_links _ _ _ _ R) as (K' & Hst' & Ho'). apply eq_None_not_Some. intros F. apply (rep_dom _ _ (proj1 Hst')) in F.
        destruct (Ho' y) as [_ H4]. rewrite H4 in F; [by destruct F|]. intros (t & Et & _). apply Htre in Et as [Et Hx]. congruence.
Qed.

(** What is left is determined by the set of handles dropped. *)
Lemma released_unique s K l l' s1 s2 : (forall i, i ∈ l <-> i ∈ l') -> reach s1 -> reach s2 -> released s K l s1 -> released s K l' s2 ->
  s_hands s1 = s_hands s2 /\ same_view s1 s2.
Proof.
  intros Hll Hr1 Hr2 R1 R2.
  assert (Hh : s_hands s1 = s_hands s2).
  { apply map_eq. intros j. rewrite (rl_hands _ _ _ _ R1), (rl_hands _ _ _ _ R2). destruct (decide (j ∈ l)) as [H|H], (decide (j ∈ l')) as [H'|H']; try done; exfalso; [by apply H', Hll|by apply H, Hll]. }
  split; [exact Hh|]. destruct (rl_links _ _ _ _ R1) as (K1 & Hst1 & Ho1). destruct (rl_links _ _ _ _ R2) as (K2 & Hst2 & Ho2).
  assert (EK : K1 = K2).
  { apply map_eq. intros y. apply dec_stable. intros F.
    assert (~ ~ ((exists t, tree_of s y = Some t /\ tree_held s (s_hands s1) t) \/ ~ (exists t, tree_of s y = Some t /\ tree_held s (s_hands s1) t))) as Hem by tauto.
    apply Hem. intros [H|H]; apply F.
    - rewrite (proj1 (Ho1 y) H). symmetry. apply (proj1 (Ho2 y)). by rewrite <- Hh.
    - rewrite (proj2 (Ho1 y) H). symmetry. apply (proj2 (Ho2 y)). by rewrite <- Hh. }
  subst K2. assert (Hal : forall y, is_Some (s_nodes s1 !! y) <-> is_Some (s_nodes s2 !! y)).
  { intros y. by rewrite (rep_dom _ _ (proj1 Hst1)), (rep_dom _ _ (proj1 Hst2)). }
  assert (Hcase : forall y, ~ ~ ((exists t, tree_of s y = Some t /\ tree_held s (s_hands s1) t) \/ (s_nodes s1 !! y = None /\ s_nodes s2 !! y = None))).
  { intros y F. apply F. right.
    assert (K1 !! y = None) as Hk by (apply (proj2 (Ho1 y)); intros H; apply F; by left).
    split; apply eq_None_not_Some; intros H; [apply (rep_dom _ _ (proj1 Hst1)) in H|apply (rep_dom _ _ (proj1 Hst2)) in H]; rewrite Hk in H; by destruct H. }
  split.
  - intros K' H'. assert (K' = K1) as -> by (by apply (stores_unique s1)). exact Hst2.
  - intros y. apply dec_stable. intros F. apply (Hcase y). intros [(t & Et & Ht)|[H1 H2]]; apply F.
    + rewrite (proj2 (rl_kept _ _ _ _ R1 y t Et Ht)). rewrite Hh in Ht. exact (proj2 (rl_kept _ _ _ _ R2 y t Et Ht)).
    + by rewrite (tree_of_none _ _ H1), (tree_of_none _ _ H2).
  - intros y. destruct (s_nodes s1 !! y) as [nd1|] eqn:E1.
    + destruct (Ho1 y) as [_ Hn]. (* alive, so its tree is held *)
      pose proof (reach_stores_inv _ _ Hr1 Hst1) as I1. destruct (sinv_tree _ _ _ (i_s _ _ I1) (mk_is_Some _ _ E1)) as (t & tr & Et & Es & _).
      assert (tree_of s y = Some t /\ tree_held s (s_hands s1) t) as [Et0 Ht].
      { assert (tree_of s y = Some t) as Et0.
        { apply dec_stable. intros F. apply (Hcase y). intros [(t' & Et' & Ht')|[H1 _]]; [|congruence].
          apply F. pose proof (proj2 (rl_kept _ _ _ _ R1 y t' Et' Ht')). congruence. }
        split; [exact Et0|]. destruct (i_held _ _ I1 t (mk_is_Some _ _ Es)) as [H|(j & k & x & H1 & H2)]; [by left|right]. exists j, k, x. split; [exact H1|].
        apply dec_stable. intros F. apply (Hcase x). intros [(t' & Et' & Ht')|[H3 _]].
        - apply F. pose proof (proj2 (rl_kept _ _ _ _ R1 x t' Et' Ht')). congruence.
        - rewrite (tree_of_none _ _ H3) in H2. done. }
      rewrite (proj1 (rl_kept _ _ _ _ R1 y t Et0 Ht)). rewrite Hh in Ht. exact (proj1 (rl_kept _ _ _ _ R2 y t Et0 Ht)).
    + assert (s_nodes s2 !! y = None) as E2. { apply eq_None_not_Some. intros H. apply Hal in H as [? H]. congruence. }
      unfold payload. by rewrite E1, E2.
  - intros t. apply dec_stable. intros F. assert (~ ~ (tree_held s (s_hands s1) t \/ ~ tree_held s (s_hands s1) t)) as Hem by tauto.
    apply Hem. intros [H|H]; apply F.
    + rewrite (rl_roots _ _ _ _ R1 t H). rewrite Hh in H. exact (rl_roots _ _ _ _ R2 t H).
    + rewrite (proj1 (rl_freed _ _ _ _ R1 t H)). rewrite Hh in H. by rewrite (proj1 (rl_freed _ _ _ _ R2 t H)).
Qed.

End DropFacts.
