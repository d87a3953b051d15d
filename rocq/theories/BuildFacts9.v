(** * BuildFacts9: cloning a subtree into itself can go on for ever. *)
From Verif Require Import SerialSpec NavFacts SpecFacts RoseFacts EqFacts SerFacts BracketFacts ApiFacts ApiFacts2 ApiFacts3 ApiFacts6 ApiFacts7 ApiFacts8 BuildFacts BuildFacts2 BuildFacts3 BuildFacts4 BuildFacts5 BuildFacts6 BuildFacts7 BuildFacts8 Spec.

(** ** The builder keeps to the reachable states *)
Section Keep.
Context {T : Type}.
Local Notation grew := (@BuildFacts.grew T [] (Lent 0)).
Local Notation phase := (@BuildFacts3.phase T [] (Lent 0)).
Implicit Types (s : sys T) (b : builder) (es : list (event T)).

Definition plain_op (o : op T) : Prop := match o with OpDetach _ | OpReplace _ | OpMove _ _ _ => False | _ => True end.
Lemma reach_plain s o s' r : reach s -> plain_op o -> step s o = Ret (s', r) -> reach s'.
Proof.
  intros R Ho E. destruct (reach_stores s R) as [K Hst]. eapply reach_step; [exact R|exact Hst| |exact E].
  destruct o; try exact Logic.I; destruct Ho.
Qed.
Lemma reach_call s o s' i : reach s -> plain_op o -> call_hand s o = Ret (s', i) -> reach s'.
Proof.
  intros R Ho E. unfold call_hand in E. destruct (step s o) as [[s1 r]| |] eqn:E1; [|discriminate E..].
  cbn [mbind run_bind] in E. destruct r; try discriminate E. injection E as <- <-. eapply reach_plain; [exact R|exact Ho|exact E1].
Qed.
Lemma reach_drop_opt s i s' : reach s -> drop_opt s i = Ret s' -> reach s'.
Proof.
  intros R E. destruct i as [i|]; cbn [drop_opt] in E; [|by injection E as <-].
  destruct (step s (OpDrop i)) as [[s1 r]| |] eqn:E1; [|discriminate E..]. cbn [mbind run_bind] in E. injection E as <-.
  eapply reach_plain; [exact R| |exact E1]. exact Logic.I.
Qed.
Lemma reach_with_root s i s' b : reach s -> b_with_root s i = Ret (s', b) -> reach s'.
Proof.
  intros R E. unfold b_with_root in E. destruct (call_hand s (OpPlain i)) as [[s1 p]| |] eqn:E1; [|discriminate E..].
  cbn [mbind run_bind] in E. injection E as <- <-. eapply reach_call; [exact R| |exact E1]. exact Logic.I.
Qed.
Ltac go R := repeat match goal with
  | E : context [mbind _ (call_hand ?s ?o)] |- _ => let E1 := fresh "Ec" in let R1 := fresh "R" in
      destruct (call_hand s o) as [[? ?]| |] eqn:E1; [|discriminate E..]; cbn [mbind run_bind] in E;
      assert (reach s -> reach _) as R1 by (intros R1; eapply reach_call; [exact R1| |exact E1]; exact Logic.I)
  | E : context [mbind _ (drop_opt ?s ?o)] |- _ => let E1 := fresh "Ec" in let R1 := fresh "R" in
      destruct (drop_opt s o) as [?| |] eqn:E1; [|discriminate E..]; cbn [mbind run_bind] in E;
      assert (reach s -> reach _) as R1 by (intros R1; eapply reach_drop_opt; [exact R1|exact E1])
  end.
Lemma reach_open s b d s' b' o : reach s -> b_open s b d = Ret (s', b', o) -> reach s'.
Proof.
  intros R E. unfold b_open in E. destruct (b_root b); [destruct (b_cur b)|].
  - go R. injection E as <- _ _. auto.
  - injection E as <- _ _. exact R.
  - go R. injection E as <- _ _. auto.
Qed.
Lemma reach_close_up : forall k s r c s' c' ok, reach s -> close_up k s r c = Ret (s', c', ok) -> reach s'.
Proof.
  induction k as [|k IH]; intros s r c s' c' ok R E; cbn [close_up] in E; [by injection E as <- _ _|].
  destruct r as [r|]; [|discriminate E]. destruct (hand_ptr_eq s c r) as [[]| |]; [|..]; cbn [mbind run_bind] in E; try discriminate E.
  - injection E as <- _ _. exact R.
  - destruct (step s (OpNav NParent c)) as [[s1 x]| |] eqn:E1; [|discriminate E..]. cbn [mbind run_bind] in E.
    assert (reach s1) as R1 by (eapply reach_plain; [exact R| |exact E1]; exact Logic.I).
    destruct x; try discriminate E; [|injection E as <- _ _; exact R1].
    go R. eapply IH; [|exact E]. auto.
Qed.
Lemma reach_close s b n s' b' o : reach s -> b_close s b n = Ret (s', b', o) -> reach s'.
Proof.
  intros R E. unfold b_close in E. destruct n as [|k]; [by injection E as <- _ _|].
  destruct (b_cur b) as [c|]; [|by injection E as <- _ _].
  destruct (close_up k s (b_root b) c) as [[[s1 c1] ok]| |] eqn:E1; [|discriminate E..]. cbn [mbind run_bind] in E.
  assert (reach s1) as R1 by (eapply reach_close_up; [exact R|exact E1]).
  destruct ok; [|injection E as <- _ _; exact R1].
  destruct (step s1 (OpNav NParent c1)) as [[s2 x]| |] eqn:E2; [|discriminate E..]. cbn [mbind run_bind] in E.
  assert (reach s2) as R2 by (eapply reach_plain; [exact R1| |exact E2]; exact Logic.I).
  go R. destruct x; try discriminate E; injection E as <- _ _; auto.
Qed.
Lemma reach_push_all s b es s' b' o : reach s -> b_push_all s b es = Ret (s', b', o) -> reach s'.
Proof.
  revert s b. induction es as [|e es IH]; intros s b R E; [by injection E as <- _ _|].
  cbn [b_push_all] in E. destruct (b_push s b e) as [[[s1 b1] r]| |] eqn:E1; [|discriminate E..]. cbn [mbind run_bind] in E.
  assert (reach s1) as R1 by (destruct e; [eapply reach_open|eapply reach_close]; [exact R|exact E1|exact R|exact E1]).
  destruct r; [injection E as <- _ _; exact R1|]. eapply IH; [exact R1|exact E].
Qed.
End Keep.

Section Build9.
Context {T : Type}.
Local Notation grew := (@BuildFacts.grew T [] (Lent 0)).
Local Notation phase := (@BuildFacts3.phase T [] (Lent 0)).
Implicit Types (s : sys T) (K : forest) (td : rose T) (hm : gmap nat handle) (b : builder) (es : list (event T)).

Lemma open_next h K (q cur x : nid) l : rep (T := T) h K -> wf K -> K !! q = Some (cur :: l) -> dfs_next h (Some (Open q, x)) = Ret (Some (Open q), Some (Open cur, x)).
Proof.
  intros Hr Hw Hq. destruct (rep_dom h K Hr q) as [_ Hd]. destruct Hd as [nd Hn]; [eauto|].
  unfold dfs_next. rewrite decide_False by done. unfold dft_next, first_child_link.
  rewrite (rep_first h K Hr q _ Hq). done.
Qed.

Lemma fold_diverges hm s0 K0 r p x : forall fuel s K t0 td k cur q c d ll, grew hm s0 K0 r s K t0 td -> held s hm p c r cur -> rpath k t0 cur ->
  K !! q = Some [cur] -> K !! cur = Some [] -> payload s q = Some (d, Lent ll) ->
  fold_events fuel s (mkBuilder (Some p) (Some c)) (Some (Open q, x)) = NoFuel.
Proof.
  induction fuel as [|f IH]; intros s K t0 td k cur q c d ll G Hh Hr Hq Hcur Hp; [done|].
  destruct (g_stores _ _ _ _ _ _ _ _ G) as [Hrep Hw]. cbn [fold_events]. unfold ser_next.
  rewrite (open_next (s_nodes s) K q cur x [] Hrep Hw Hq). cbn [mbind run_bind].
  unfold payload in Hp. destruct (s_nodes s !! q) as [nd|] eqn:En; [|done]. simpl in Hp. injection Hp as Hd Hm. assert (n_mut nd = false) as Hm' by (unfold n_mut; by rewrite Hm).
  rewrite (try_borrow_cases _ _ _ En), Hm'. cbn [mbind run_bind option_map].
  destruct (open_ok _ _ _ _ _ _ _ _ k cur p c (n_data nd) G Hh Hr) as (s1 & K1 & t1 & td1 & n & c1 & E1 & G1 & Hh1 & Hg & Hgd & HK1 & Hn).
  cbn [b_push]. rewrite E1. cbn [mbind run_bind]. specialize (HK1 [] Hcur). simpl in HK1. subst K1.
  assert (n <> cur) as Hnc by congruence.
  assert (cur ∈ rose_nodes t1) as Hc1 by (apply (grown_nodes n k t0 t1 Hg); right; by eapply rpath_node).
  apply elem_of_list_lookup in Hc1 as [ix Hix].
  destruct (Forall2_lookup_l _ _ _ _ _ (rose_rel_nodes _ _ _ (g_data0 _ _ _ _ _ _ _ _ G1)) Hix) as (d1 & _ & Hp1).
  eapply (IH s1 _ t1 td1 (S k) n cur c1 d1 0 G1 Hh1); [by eapply grown_rpath|by rewrite lookup_insert|rewrite lookup_insert_ne by done; apply lookup_insert|exact Hp1].
Qed.

Theorem clone_insert_diverges s K x c j : reach s -> stores s K -> K !! x = Some [c] -> K !! c = Some [] ->
  s_hands s !! j = Some (HNode Hot c) -> ~ borrowed (s_nodes s) x -> ~ borrowed (s_nodes s) c ->
  forall fuel, clone_insert_subtree fuel s x ALastChild j = NoFuel.
Proof.
  intros R Hst Hx Hc Hj Hbx Hbc fuel.
  assert (exists d ll, payload s x = Some (d, Lent ll)) as (d & lx & Hpx).
  { destruct (proj2 (alive_known s K x Hst)) as [nd En]; [eauto|]. destruct (n_lend nd) as [n|] eqn:Em; [exists (n_data nd), n; unfold payload; rewrite En; simpl; by rewrite Em|]. exfalso. apply Hbx. exists nd. split; [done|]. unfold n_mut. by rewrite Em. }
  assert (exists d ll, payload s c = Some (d, Lent ll)) as (dc & lc & Hpc).
  { destruct (proj2 (alive_known s K c Hst)) as [nd En]; [eauto|]. destruct (n_lend nd) as [n|] eqn:Em; [exists (n_data nd), n; unfold payload; rewrite En; simpl; by rewrite Em|]. exfalso. apply Hbc. exists nd. split; [done|]. unfold n_mut. by rewrite Em. }
  unfold clone_insert_subtree.
  pose proof Hpx as Hpx'. unfold payload in Hpx'. destruct (s_nodes s !! x) as [nd|] eqn:En; [|done]. simpl in Hpx'. injection Hpx' as Hd Hm. assert (n_mut nd = false) as Hm' by (unfold n_mut; by rewrite Hm).
  rewrite (try_borrow_cases _ _ _ En), Hm'. cbn [mbind run_bind].
  destruct (plant_ok s K ALastChild j c (n_data nd) R Hst Hj ltac:(exact Logic.I)) as (s1 & m & s2 & b & n & p & K1 & E1 & E2 & Hst1 & -> & P & Hh & Hp1 & G).
  rewrite E1. cbn [mbind run_bind].
  pose proof (pl_new _ _ _ _ _ _ _ P) as Hn.
  assert (x <> c) as Hxc by congruence. assert (n <> x) as Hnx by congruence. assert (n <> c) as Hnc by congruence.
  pose proof (pl_att _ _ _ _ _ _ _ P) as Hat. simpl in Hat.
  assert (K1 = <[c := [n]]> (<[n := []]> K)) as HK1.
  { inversion Hat as [|? ks Hks|? ? ?|? ? ?]; subst. rewrite lookup_insert_ne in Hks by done. rewrite Hc in Hks. injection Hks as <-. done. }
  assert (K1 !! x = Some [c]) as H1x by (rewrite HK1, !lookup_insert_ne by done; exact Hx).
  destruct Hst1 as [Hrep1 Hw1].
  unfold ser_next. unfold dfs_start. cbn [option_map].
  rewrite (open_next _ _ x c x [] Hrep1 Hw1 H1x). cbn [mbind run_bind].
  pose proof (Hp1 x (not_eq_sym Hnx)) as Hq1. rewrite Hpx in Hq1. unfold payload in Hq1. destruct (s_nodes s1 !! x) as [nd1|] eqn:En1; [|done].
  rewrite (try_borrow_cases _ _ _ En1). cbn [mbind run_bind]. rewrite E2. cbn [mbind run_bind].
  destruct (pl_old _ _ _ _ _ _ _ P c (not_eq_sym Hnc)) as [Hp2 _]. rewrite Hpc in Hp2.
  rewrite (fold_diverges _ _ _ _ p x fuel s2 K1 (Rose n []) _ 0 n c m dc lc G Hh); [done|constructor|by rewrite HK1, lookup_insert| |exact Hp2].
  rewrite HK1, lookup_insert_ne by done. apply lookup_insert.
Qed.
End Build9.
