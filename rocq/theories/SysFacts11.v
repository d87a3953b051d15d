(** * SysFacts11: giving a node to another tree. *)
From Verif Require Import Heap Edit System SysSpec CardFacts HeapFacts SpecFacts NavFacts NavFacts2 EditFacts EditFacts2 EditFacts3 IterSpec RoseFacts TdFacts TdFacts2 SysFacts SysFacts2 SysFacts3 SysFacts4 SysFacts5 SysFacts6 SysFacts7 SysFacts8 SysFacts9 SysFacts10 Spec.

Section SysFacts11.
Context {T : Type}.
Implicit Types (h : heap T) (s : sys T) (hm : gmap nat handle) (K : forest).

(** No prohibition holder on the tree [t]. *)
Definition thawed s hm (t : tid) : Prop :=
  (forall i, ~ token_holder hm Frozen t i) /\ (forall x, ~ node_holder s hm Frozen t x).

Lemma thawed_holders s hm t : holders s hm Frozen t 0 -> thawed s hm t.
Proof. apply holders_0. Qed.
Lemma thawed_zero s hm t n : thawed s hm t -> holders s hm Frozen t n -> n = 0.
Proof.
  intros [A B] H. destruct n; [done|]. destruct (holders_S _ _ _ _ _ H) as [[i Hi]|[x Hx]]; [by apply A in Hi|by apply B in Hx].
Qed.

(** Everything but the tree of [y] and lock counts is the same. *)
Record retreed s s' (y : nid) (t' : tid) : Prop := {
  rt_mem : memonly (s_nodes s) (s_nodes s');
  rt_root : forall t : tid, t_root <$> s_trees s' !! t = t_root <$> s_trees s !! t;
  rt_y : tree_of s' y = Some t';
  rt_other : forall z, z <> y -> n_memb s' z = n_memb s z;
  rt_hands : s_hands s' = s_hands s;
  rt_fresh : s_fresh s' = s_fresh s;
}.

Lemma rt_tree s s' y t' z : retreed s s' y t' -> z <> y -> tree_of s' z = tree_of s z.
Proof. intros R Hz. unfold tree_of. by rewrite (rt_other _ _ _ _ R). Qed.

Lemma retree_weak s hm y o (t' : tid) : hinv s hm -> n_memb s y = Some (MWeak o) ->
  hinv (put_mem s y (MWeak (Some t'))) hm /\ retreed s (put_mem s y (MWeak (Some t'))) y t'.
Proof.
  intros H Hy. assert (is_Some (s_nodes s !! y)) as Hya by (by eapply n_memb_alive).
  assert (forall z, n_memb (put_mem s y (MWeak (Some t'))) z = if decide (z = y) then Some (MWeak (Some t')) else n_memb s z) as Hm by (intros; by apply n_memb_put).
  destruct (h_weak _ _ H _ _ Hy) as [_ Hnh].
  assert (forall z, z <> y -> tree_of (put_mem s y (MWeak (Some t'))) z = tree_of s z) as Ht.
  { intros z Hz. unfold tree_of. by rewrite Hm, decide_False. }
  split.
  - destruct H as [A B C D E]. split.
    + intros x o1. rewrite Hm. case_decide; [intros [= <-]; subst; split; [eauto|done]|apply A].
    + intros x t rc lk. rewrite Hm. case_decide; [done|apply B].
    + intros i k x Hi. simpl. unfold set_mem. apply C in Hi.
      destruct (decide (x = y)) as [->|]; [rewrite lookup_alter, fmap_is_Some; done|by rewrite lookup_alter_ne].
    + exact D.
    + intros t tr Htr. eapply lock_ok_ext; [exact (E t tr Htr)|done|]. intros k x. unfold node_holder.
      split; intros (C1 & C2 & i & C3); (assert (x <> y) by (intros ->; apply (Hnh i); by exists k)); rewrite Ht in * by done; eauto.
  - split; try done.
    + apply memonly_set_mem.
    + unfold tree_of. by rewrite Hm, decide_True.
    + intros z Hz. by rewrite Hm, decide_False.
Qed.

Lemma retree_strong s hm y (t t' : tid) rc lk : hinv s hm -> n_memb s y = Some (MStrong t rc lk) -> t <> t' -> is_Some (s_trees s !! t') ->
  thawed s hm t -> thawed s hm t' ->
  exists s1, (if Nat.eqb lk 0 then Some s else transfer_lock s t t') = Some s1 /\
    hinv (put_mem s1 y (MStrong t' rc lk)) hm /\ retreed s (put_mem s1 y (MStrong t' rc lk)) y t'.
Proof.
  intros H Hy Hne Ht' F0 F1. assert (is_Some (s_nodes s !! y)) as Hya by (by eapply n_memb_alive).
  destruct (h_strong _ _ H _ _ _ _ Hy) as ([tr Htr] & Hrc & Hc1 & Hc2). destruct Ht' as [tr' Htr'].
  destruct (h_lock _ _ H t tr Htr) as (g & p & Hg & Hp & Ecnt & _).
  destruct (h_lock _ _ H t' tr' Htr') as (g' & p' & Hg' & Hp' & Ecnt' & _).
  assert (p = 0) as -> by (exact (thawed_zero _ _ _ _ F0 Hp)). assert (p' = 0) as -> by (exact (thawed_zero _ _ _ _ F1 Hp')).
  assert (tree_of s y = Some t) as Hyt by (unfold tree_of; by rewrite Hy).
  (* the kinds of the locks on y *)
  assert (forall k, k <> Plain -> node_holder s hm k t y -> k = Hot) as Hkind.
  { intros k Hk Hn. destruct k; [done|done|]. by apply F0 in Hn. }
  destruct lk as [|lk].
  - (* no lock on y *)
    exists s. split; [done|]. set (s' := put_mem s y (MStrong t' rc 0)).
    assert (forall z, n_memb s' z = if decide (z = y) then Some (MStrong t' rc 0) else n_memb s z) as Hm by (intros; by apply n_memb_put).
    assert (forall z, z <> y -> tree_of s' z = tree_of s z) as Hto. { intros z Hz. unfold tree_of. by rewrite Hm, decide_False. }
    assert (forall k i, k <> Plain -> hm !! i <> Some (HNode k y)) as Hnl.
    { intros k i Hk Hi. destruct Hc2 as (l & _ & Hl & E0). destruct l; [|done]. assert (i ∈ @nil nat) as X by (apply Hl; exists k; done). by apply elem_of_nil in X. }
    split.
    + destruct H as [A B C D E]. split.
      * intros x o1. rewrite Hm. case_decide; [done|apply A].
      * intros x u rc1 lk1. rewrite Hm. case_decide; [|apply B]. intros [= <- <- <-]. subst. eauto.
      * intros i k x Hi. simpl. unfold set_mem. apply C in Hi.
        destruct (decide (x = y)) as [->|]; [rewrite lookup_alter, fmap_is_Some; done|by rewrite lookup_alter_ne].
      * exact D.
      * intros u tru Hu. eapply lock_ok_ext; [exact (E u tru Hu)|done|]. intros k x. unfold node_holder.
        split; intros (C1 & C2 & i & C3); (assert (x <> y) by (intros ->; by apply (Hnl k i))); rewrite Hto in * by done; eauto.
    + split; try done.
      * apply memonly_set_mem.
      * unfold tree_of. by rewrite Hm, decide_True.
      * intros z Hz. by rewrite Hm, decide_False.
  - (* the lock of y moves along *)
    assert (node_holder s hm Hot t y) as Hold.
    { destruct (card_S _ _ Hc2) as (i & k & Hk & Hi). assert (node_holder s hm k t y) as X by (split; [done|split; [done|eauto]]).
      by rewrite (Hkind k Hk X) in X. }
    pose proof (holders_pos_node _ _ _ _ _ _ Hg Hold) as Hgpos. destruct g as [|g]; [lia|].
    simpl. unfold transfer_lock. rewrite Htr. destruct (t_cnt tr) as [|pz|pz] eqn:Ez; [lia| |lia].
    unfold lock_tree. rewrite Htr'. destruct (t_cnt tr' <? 0)%Z eqn:El; [apply Z.ltb_lt in El; lia|]. simpl.
    rewrite lookup_alter_ne by done. rewrite Htr. eexists. split; [done|].
    set (s1 := put_cnt (put_cnt s t' (t_cnt tr' + 1)) t (t_cnt tr - 1)).
    set (s' := put_mem s1 y (MStrong t' rc (S lk))).
    assert (forall z, n_memb s' z = if decide (z = y) then Some (MStrong t' rc (S lk)) else n_memb s z) as Hm.
    { intros z. unfold s'. by rewrite n_memb_put. }
    assert (forall z, z <> y -> tree_of s' z = tree_of s z) as Hto. { intros z Hz. unfold tree_of. by rewrite Hm, decide_False. }
    assert (tree_of s' y = Some t') as Hty. { unfold tree_of. by rewrite Hm, decide_True. }
    assert (forall u, s_trees s' !! u = if decide (u = t) then Some (mkTree (t_root tr) (t_cnt tr - 1)) else if decide (u = t') then Some (mkTree (t_root tr') (t_cnt tr' + 1)) else s_trees s !! u) as Htrs.
    { intros u. change (s_trees s') with (s_trees s1). unfold s1. rewrite tree_cnt_put.
      rewrite !tree_cnt_put. destruct (decide (u = t)) as [->|].
      - rewrite decide_False by done. by rewrite Htr.
      - destruct (decide (u = t')) as [->|]; [by rewrite Htr'|done]. }
    assert (forall u, is_Some (s_trees s' !! u) <-> is_Some (s_trees s !! u)) as Hal.
    { intros u. rewrite Htrs. repeat case_decide; subst; rewrite ?Htr, ?Htr'; split; eauto. }
    assert (forall k u z, u <> t -> u <> t' -> (node_holder s' hm k u z <-> node_holder s hm k u z)) as Hnh.
    { intros k u z Hu1 Hu2. unfold node_holder. destruct (decide (z = y)) as [->|]; [|by rewrite Hto].
      rewrite Hty, Hyt. split; intros (? & ? & _); congruence. }
    assert (forall k z, node_holder s' hm k t z <-> z <> y /\ node_holder s hm k t z) as Hnh0.
    { intros k z. unfold node_holder. destruct (decide (z = y)) as [->|Hz].
      - rewrite Hty. split; [intros (? & ? & _); congruence|by intros [? _]].
      - rewrite Hto by done. split; [done|]. by intros [_ ?]. }
    assert (forall k z, k <> Plain -> (node_holder s' hm k t' z <-> (z = y /\ k = Hot) \/ node_holder s hm k t' z)) as Hnh1.
    { intros k z Hk. destruct (decide (z = y)) as [->|Hz].
      - split.
        + intros (_ & _ & i & Hi). left. split; [done|]. apply Hkind; [done|]. split; [done|]. split; [done|eauto].
        + intros [[_ ->]|(_ & ? & _)]; [|congruence]. destruct Hold as (_ & _ & i & Hi). split; [done|]. split; [done|eauto].
      - unfold node_holder. rewrite Hto by done. split; [auto|]. by intros [[? _]|?]. }
    split.
    + destruct H as [A B C D E]. split.
      * intros x o1. rewrite Hm. case_decide; [done|apply A].
      * intros x u rc1 lk1. rewrite Hm. rewrite Hal. case_decide; [|apply B]. intros [= <- <- <-]. subst. rewrite Htr'. eauto.
      * intros i k x Hi. simpl. unfold set_mem. apply C in Hi.
        destruct (decide (x = y)) as [->|]; [rewrite lookup_alter, fmap_is_Some; done|by rewrite lookup_alter_ne].
      * intros i u Hi. apply Hal. by eapply D.
      * intros u tru Hu. rewrite Htrs in Hu. destruct (decide (u = t)) as [->|Hu0]; [|destruct (decide (u = t')) as [->|Hu1]].
        -- injection Hu as <-. simpl.
           destruct (holders_remove_node s s' hm hm Hot t (S g) y Hg Hold) as (m & Em & Hg2); [done|apply Hnh0|].
           exists m, 0. split; [done|]. split.
           { eapply holders_ext; [exact Hp|done|]. intros z. rewrite Hnh0. split; [|by intros [_ ?]]. intros Hz. by apply F0 in Hz. }
           split; [lia|by right].
        -- injection Hu as <-. simpl. exists (S g'), 0. split; [|split; [|split; [lia|by right]]].
           { eapply (holders_add_node s s' hm hm Hot t' g' y Hg'); [|done|].
             - intros (_ & ? & _). congruence.
             - intros z. rewrite Hnh1 by done. naive_solver. }
           { eapply holders_ext; [exact Hp'|done|]. intros z. rewrite Hnh1 by done. naive_solver. }
        -- eapply lock_ok_ext; [exact (E u tru Hu)|done|]. intros k x. symmetry. by apply Hnh.
    + split; try done.
      * apply memonly_set_mem.
      * intros u. rewrite Htrs. repeat case_decide; subst; rewrite ?Htr, ?Htr'; done.
      * intros z Hz. by rewrite Hm, decide_False.
Qed.

Lemma retree_thawed s s' hm y t t' u : retreed s s' y t' -> tree_of s y = Some t -> thawed s hm t -> thawed s hm u -> thawed s' hm u.
Proof.
  intros R Hy [A0 B0] [A B]. split; [exact A|]. intros z (C1 & C2 & C3). destruct (decide (z = y)) as [->|Hz].
  - apply (B0 y). split; [done|]. done.
  - apply (B z). rewrite (rt_tree _ _ _ _ _ R Hz) in C2. done.
Qed.

End SysFacts11.
