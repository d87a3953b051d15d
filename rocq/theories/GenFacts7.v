(** * GenFacts7: remaining consequences for unrestricted histories. *)
From Verif Require Import Heap Edit Traverse System SysSpec CardFacts HeapFacts SysFacts SysFacts2 SysFacts3 SysFacts4 SysFacts6 SysFacts7 SysFacts11 ApiSpec ApiFacts ApiFacts3 ApiFacts5 Demo GenSpec GenFacts GenFacts2 GenFacts3 GenFacts4 GenFacts5 GenFacts6 Spec.

Section GenFacts7.
Context {T : Type}.
Implicit Types (h : heap T) (s : sys T) (hm : gmap nat handle) (o : op T).

Lemma steps_any_from : forall (os : list (op T)) s s' rs, any s -> steps s os = Ret (s', rs) -> any s'.
Proof.
  induction os as [|o os IH]; intros s s' rs H; cbn [steps]; [by intros [= <- _]|]. cbv beta iota zeta delta [mbind run_bind].
  destruct (step s o) as [[s1 r]| |] eqn:E1; try discriminate. destruct (steps s1 os) as [[s2 rs2]| |] eqn:E2; try discriminate. intros [= <- _].
  eapply IH; [|exact E2]. by eapply any_step.
Qed.
Lemma steps_any : forall (os : list (op T)) s rs, steps init os = Ret (s, rs) -> any s.
Proof. intros os s rs. apply steps_any_from. apply any_init. Qed.

Lemma any_balance s t tr : ok s -> s_trees s !! t = Some tr ->
  exists g p, holders s (s_hands s) Hot t g /\ holders s (s_hands s) Frozen t p /\
    t_cnt tr = (Z.of_nat g - Z.of_nat p)%Z /\ (g = 0 \/ p = 0).
Proof. intros H. apply (h_lock _ _ (g_h _ _ H)). Qed.
Lemma any_drop s i hd : ok s -> s_hands s !! i = Some hd ->
  step s (OpDrop i) <> Panic /\
  forall s' r, step s (OpDrop i) = Ret (s', r) -> r = OutUnit /\ s_hands s' = delete i (s_hands s).
Proof.
  intros H Hi. split; [by apply any_calm|]. intros s' r E. destruct (step_fine _ _ _ _ H E) as (_ & _ & Ha).
  assert (r = OutUnit) as ->; [|done]. cbn [step] in E. rewrite Hi in E. cbv beta iota zeta delta [mbind run_bind] in E.
  destruct hd; repeat match type of E with match ?m with _ => _ end = _ => destruct m; try discriminate end; by injection E as _ <-.
Qed.
Lemma any_drop_token s i k t : ok s -> s_hands s !! i = Some (token k t) -> has_lock k ->
  exists s', step s (OpDrop i) = Ret (s', OutUnit) /\ unmoved s s' /\ s_hands s' = delete i (s_hands s) /\
    forall tr, s_trees s !! t = Some tr ->
      t_cnt <$> s_trees s' !! t = Some (t_cnt tr - match k with Frozen => -1 | _ => 1 end)%Z.
Proof.
  intros H Hi Hk. assert (step s (OpDrop i) = (s1 ← drop_token s k t i; Ret (s1, OutUnit))) as ->.
  { cbn [step]. rewrite Hi. destruct k; [by destruct Hk|done|done]. }
  unfold drop_token, tree_alive. case_bool_decide as Ha.
  - destruct (unlock_tree_ok s (s_hands s) i k t (g_h _ _ H) Hi Hk Ha) as (s1 & E1 & _ & F). rewrite E1. cbn [mbind run_bind]. eexists. split; [reflexivity|].
    split; [exact (framed_unmoved s s1 _ _ F)|]. split; [simpl; by rewrite (fr_hands _ _ F)|]. intros tr Htr. simpl.
    unfold unlock_tree in E1. rewrite Htr in E1. destruct k; [by destruct Hk| |].
    + destruct (t_cnt tr <=? 0)%Z; [discriminate|]. injection E1 as <-. simpl. by rewrite lookup_alter, Htr.
    + destruct (0 <=? t_cnt tr)%Z; [discriminate|]. injection E1 as <-. simpl. rewrite lookup_alter, Htr. simpl. by f_equal; try lia.
  - cbn [mbind run_bind]. eexists. split; [reflexivity|]. split; [exact (framed_unmoved s s _ _ (framed_refl s))|]. split; [done|].
    intros tr Htr. exfalso. apply Ha. eauto.
Qed.
Lemma any_no_authority s t a k x : ok s -> some_lock s Frozen t -> is_Some (s_trees s !! t) -> receiver s a k x -> tree_of s x <> Some t.
Proof.
  intros H Hf Ht Hr E. apply (any_exclusive s t H Ht). split; [|done]. destruct a as [i|i g].
  - destruct Hr as [-> Hi]. right. exists x. split; [done|]. split; [done|eauto].
  - destruct Hr as (-> & Hi & u & Hu & Hg). left. exists g. split; [done|]. rewrite Hu in E. injection E as ->. exact Hg.
Qed.
Lemma any_trees s t : ok s -> (is_Some (s_trees s !! t) <-> tree_held s (s_hands s) t).
Proof.
  intros H. split.
  - intros Ha. by destruct (g_k _ _ H t Ha) as [A|[]].
  - intros [[j Hj]|(j & k & x & Hj & Hx)]; [by eapply (h_tree _ _ (g_h _ _ H))|].
    destruct (hinv_handle_strong _ _ _ _ _ (g_h _ _ H) Hj) as (u & _ & _ & _ & A & _ & _ & B). congruence.
Qed.
Lemma any_queries s i k x j k' y t0 : ok s -> s_hands s !! i = Some (HNode k x) -> s_hands s !! j = Some (HNode k' y) ->
  belongs_to s x t0 = Ret (bool_decide (tree_of s x = Some t0)) /\
  valid_for_node s t0 x = Ret (bool_decide (tree_of s x = Some t0)) /\
  belongs_to_same_tree s i x j y = Ret (bool_decide (tree_of s x = tree_of s y)).
Proof.
  intros H Hi Hj. destruct (hinv_handle_strong _ _ _ _ _ (g_h _ _ H) Hi) as (t & rc & lk & Hm & _ & _ & _ & Ht).
  destruct (hinv_handle_strong _ _ _ _ _ (g_h _ _ H) Hj) as (t' & rc' & lk' & Hm' & _ & _ & _ & Ht').
  unfold belongs_to, valid_for_node, belongs_to_same_tree, link_tree_core, tree_core. rewrite Hm, Hm', Ht, Ht'. cbn [mbind run_bind].
  split; [by rewrite (bool_decide_ext _ _ (inj_iff Some t t0))|]. split; [by rewrite (bool_decide_ext _ _ (inj_iff Some t t0))|].
  rewrite (bool_decide_ext _ _ (inj_iff Some t t')). case_decide as E; [|done]. subst j. assert (t = t') as <- by congruence. by rewrite bool_decide_true.
Qed.
End GenFacts7.
Lemma ran_any (os : list (op nat)) : match steps init os with Ret _ => true | _ => false end = true -> any (ran os).
Proof. intros H. apply steps_any with (os := os) (rs := outs os). by apply ran_ok. Qed.
