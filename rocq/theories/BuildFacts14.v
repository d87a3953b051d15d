(** * BuildFacts14: a copy that grows behind its own reader never ends. *)
From Verif Require Import SerialSpec NavFacts SpecFacts RoseFacts AdjFacts IterFacts TravFacts TravFacts4 TdFacts2 EqFacts SerFacts BracketFacts ApiFacts ApiFacts2 ApiFacts3 ApiFacts6 ApiFacts7 ApiFacts8 BuildFacts BuildFacts2 BuildFacts3 BuildFacts4 BuildFacts5 BuildFacts6 BuildFacts7 BuildFacts13 Spec.

(** A list that repeats its own beginning, one period late: every window of a
    period's length contains an [Open]. *)
Lemma window_open (D A1 : list (dft nid)) n : map is_open A1 = take (length A1) (map is_open (D ++ Open n :: A1)) ->
  forall a, a <= length A1 -> exists i e, a <= i < a + S (length D) /\ (D ++ Open n :: A1) !! i = Some e /\ is_open e = true.
Proof.
  intros Hp. induction a as [|a IH]; intros Ha.
  - exists (length D), (Open n). split; [lia|]. split; [|done]. rewrite lookup_app_r by lia. by rewrite Nat.sub_diag.
  - destruct (IH ltac:(lia)) as (i & e & Hi & E & Ho). destruct (decide (i = a)) as [->|]; [|exists i, e; split; [lia|done]].
    destruct (lookup_lt_is_Some_2 A1 a ltac:(lia)) as [e' E'].
    exists (a + S (length D)), e'. split; [lia|].
    assert ((D ++ Open n :: A1) !! (a + S (length D)) = Some e') as E2.
    { rewrite lookup_app_r by lia. replace (a + S (length D) - length D) with (S a) by lia. done. }
    split; [done|]. assert (map is_open A1 !! a = map is_open (D ++ Open n :: A1) !! a) as H by (rewrite Hp at 1; apply lookup_take; lia).
    rewrite !list_lookup_fmap, E, E' in H. simpl in H. congruence.
Qed.

Lemma closes_then_open (l : list (dft nid)) : forall i e, l !! i = Some e -> is_open e = true -> exists cs y r, l = cs ++ Open y :: r /\ all_close cs /\ length cs <= i.
Proof.
  induction l as [|[a|a] l IH]; intros i e E Ho; [done| |].
  - exists [], a, l. split; [done|]. split; [constructor|simpl; lia].
  - destruct i as [|i]; [injection E as <-; done|]. destruct (IH i e E Ho) as (cs & y & r & -> & Hc & Hl).
    exists (Close a :: cs), y, r. split; [done|]. split; [constructor; eauto|simpl; lia].
Qed.

Lemma pat_closes (cs ds : list (dft nid)) : all_close cs -> all_close ds -> length cs = length ds -> map is_open cs = map is_open ds.
Proof. intros H. revert ds. induction H as [|e cs [a ->] H IH]; intros [|f ds] Hd Hl; try done. inversion Hd as [|? ? [b ->] Hd']; subst. simpl. f_equal. apply IH; [done|]. simpl in Hl. lia. Qed.

Lemma pat_next (A1 L ds cs r : list (dft nid)) : map is_open A1 = take (length A1) (map is_open L) -> L = take (length A1) L ++ cs ++ r ->
  length ds = length cs -> map is_open ds = map is_open cs -> map is_open A1 ++ map is_open ds = take (length A1 + length ds) (map is_open L).
Proof.
  intros Hp EL Hl Hd.
  assert (length A1 <= length L) as Hle by (apply (f_equal length) in Hp; rewrite take_length, !map_length in Hp; lia).
  rewrite <-(take_drop (length A1) L) at 1. rewrite map_app, take_app_ge by (rewrite map_length, take_length; lia).
  rewrite map_length, take_length. replace (length A1 + length ds - length A1 `min` length L) with (length ds) by lia.
  assert (drop (length A1) L = cs ++ r) as -> by (rewrite EL at 1; apply drop_app_alt; rewrite take_length; lia).
  rewrite map_app, take_app_alt by (rewrite map_length; lia). rewrite Hp, Hd. f_equal. exact (eq_sym (fmap_take is_open (length A1) L)).
Qed.

Section Loop.
Context {T : Type}.
Local Notation grew := (@BuildFacts.grew T [] (Lent 0)).
Implicit Types (s : sys T) (K : forest) (td : rose T) (hm : gmap nat handle) (b : builder).

Lemma readable_ev s a d l : payload s a = Some (d, Lent l) -> forall o, reads (s_nodes s) (EOpen a) o -> o = Some (EOpen d).
Proof.
  unfold payload. intros Hp o Ho. destruct (s_nodes s !! a) as [nd|] eqn:E; [|done]. simpl in Hp. injection Hp as H1 H2.
  destruct o as [[d'|]|]; simpl in Ho; [|done|].
  - destruct Ho as [(nd' & E' & Hd') _]. congruence.
  - destruct Ho as (nd' & E' & Hm). exfalso. assert (nd' = nd) as -> by congruence. unfold n_mut in Hm. by rewrite H2 in Hm.
Qed.

Lemma never hm s0 (K0 : forest) (n x : nid) p t1 D Q : wf K0 -> shape K0 x t1 -> K0 !! n = Some [] -> dfs_events t1 = (Open x :: D) ++ Open n :: Close n :: Q -> D <> [] ->
  (forall y, Open y ∈ D -> exists d l, payload s0 y = Some (d, Lent l)) ->
  forall fuel s K t0 td k cur c A1 cs, grew hm s0 K0 n s K t0 td -> held s hm p c n cur -> rpath k t0 cur ->
    dfs_events t0 = Open n :: A1 ++ cs -> length cs = S k -> all_close cs -> map is_open A1 = take (length A1) (map is_open (D ++ Open n :: A1)) ->
    fold_events fuel s (mkBuilder (Some p) (Some c)) (at_ x (drop (length A1) (D ++ Open n :: A1))) = NoFuel.
Proof.
  intros Hw0 Hs1 Hn He HDne HD. induction fuel as [|f IH]; intros s K t0 td k cur c A1 cs G Hh Hr H0 Hlc Hcs Hp; [done|].
  pose proof (g_stores _ _ _ _ _ _ _ _ G) as [Hrep Hw].
  destruct (plant_ok2 K0 K x t1 n t0 (Open x :: D) Q Hw0 Hs1 Hn He (g_shape0 _ _ _ _ _ _ _ _ G)) as (t & Hs & Ht); [intros z Hz Hzn; by apply (g_old _ _ _ _ _ _ _ _ G)|].
  set (L := D ++ Open n :: A1) in *.
  assert (dfs_events t = Open x :: L ++ cs ++ Q) as Ht'.
  { rewrite Ht, H0. unfold L. by simplify_list_eq. } clear Ht.
  assert (length A1 + S (length D) = length L) as HlL by (unfold L; rewrite app_length; simpl; lia).
  assert (0 < length D) as HD0 by (destruct D; [done|simpl; lia]).
  assert (forall y, Open y ∈ L -> exists d l, payload s y = Some (d, Lent l)) as HL.
  { intros y Hy. unfold L in Hy. apply elem_of_app in Hy as [Hy|Hy].
    - destruct (HD y Hy) as (d & l & Hd). exists d, l. rewrite (g_payload _ _ _ _ _ _ _ _ G); [done|].
      apply (shape_events_dom K0 x t1 (Open y) Hw0 Hs1). rewrite He. apply elem_of_app. left. by right.
    - assert (y ∈ rose_nodes t0) as Hyt.
      { apply dfs_open_node. rewrite H0. apply elem_of_cons in Hy as [->|Hy]; [left|]. right. apply elem_of_app. by left. }
      apply elem_of_list_lookup in Hyt as [ix Hix].
      destruct (Forall2_lookup_l _ _ _ _ _ (rose_rel_nodes _ _ _ (g_data0 _ _ _ _ _ _ _ _ G)) Hix) as (d1 & _ & Hp1). eauto. }
  destruct (window_open D A1 n Hp (length A1) ltac:(lia)) as (i & e & Hi & Ei & Hoi).
  destruct (closes_then_open (drop (length A1) L) (i - length A1) e) as (cs' & y & r & El & Hc' & Hl').
  { rewrite lookup_drop. by replace (length A1 + (i - length A1)) with i by lia. } { done. }
  assert (L = take (length A1) L ++ cs' ++ Open y :: r) as EL by (rewrite <-El; symmetry; apply take_drop).
  assert (Open y ∈ L) as HyL by (rewrite EL; apply elem_of_app; right; apply elem_of_app; right; left).
  cbn [fold_events]. destruct cs' as [|e1 cs1].
  - (* an Open *)
    rewrite El. cbn [app]. cbn [app] in El, EL.
    assert (dfs_events t = (Open x :: take (length A1) L) ++ Open y :: r ++ cs ++ Q) as Ht2.
    { rewrite Ht'. rewrite EL at 1. by rewrite <-!app_comm_cons, <-!app_assoc. }
    destruct (ser_open (s_nodes s) K x t _ y _ Hrep Hw Hs Ht2) as (o & Ho & Es).
    destruct (HL y HyL) as (d & ll & Hd). rewrite (readable_ev s y d ll Hd o Ho) in Es.
    rewrite <-(at_app x (Open y :: r) (cs ++ Q)) by done. rewrite <-app_comm_cons, Es. cbn [mbind run_bind b_push].
    destruct (open_ok _ _ _ _ _ _ _ _ k cur p c d G Hh Hr) as (s' & K' & t0' & td' & m & c' & E1 & G1 & Hh1 & Hg & Hgd & HK1 & Hm).
    rewrite E1. cbn [mbind run_bind].
    destruct (grown_events m k t0 t0' Hg) as (L2 & cs2 & Eg & Hl2 & Hc2 & Eg').
    assert (L2 = Open n :: A1 /\ cs2 = cs) as [-> ->].
    { rewrite H0, app_comm_cons in Eg. symmetry in Eg. apply app_inj_2 in Eg; [done|lia]. }
    assert (at_ x (r ++ cs ++ Q) = at_ x (drop (length (A1 ++ [Open m])) (D ++ Open n :: A1 ++ [Open m]))) as Eat.
    { assert (r = drop (S (length A1)) L) as ->.
      { replace (S (length A1)) with (length A1 + 1) by lia. rewrite <-drop_drop, El. done. }
      rewrite at_app.
      - rewrite app_length. simpl. replace (length A1 + 1) with (S (length A1)) by lia.
        replace (D ++ Open n :: A1 ++ [Open m]) with (L ++ [Open m]) by (unfold L; by rewrite <-app_assoc, <-app_comm_cons).
        symmetry. apply at_drop_app. lia.
      - intros E. apply (f_equal length) in E. rewrite drop_length in E. cbn [length] in E. lia. }
    rewrite Eat. apply (IH s' K' t0' td' (S k) m c' (A1 ++ [Open m]) (Close m :: cs) G1 Hh1).
    + by eapply grown_rpath.
    + rewrite Eg'. by rewrite <-!app_comm_cons, <-app_assoc.
    + simpl. lia.
    + constructor; [eauto|done].
    + replace (D ++ Open n :: A1 ++ [Open m]) with (L ++ [Open m]) by (unfold L; by rewrite <-app_assoc, <-app_comm_cons).
      rewrite app_length. cbn [length]. rewrite !map_app, take_app_le by (rewrite map_length; lia).
      apply (pat_next A1 L [Open m] [Open y] r Hp EL); done.
  - (* Closes *)
    set (cs' := e1 :: cs1) in *. rewrite El.
    assert (length A1 + length cs' < length L) as HcL.
    { pose proof (f_equal length El) as HE. rewrite drop_length, app_length in HE. cbn [length] in HE. lia. }
    assert (dfs_events t = (Open x :: take (length A1) L) ++ cs' ++ Open y :: r ++ cs ++ Q) as Ht2.
    { rewrite Ht'. rewrite EL at 1. rewrite <-!app_comm_cons, <-!app_assoc. done. }
    pose proof (ser_close (s_nodes s) K x t _ cs' _ Hrep Hw Hs Ht2 Hc' ltac:(done) ltac:(exact Logic.I)) as Es.
    rewrite <-(at_app x (cs' ++ Open y :: r) (cs ++ Q)) by done.
    rewrite <-app_assoc, <-app_comm_cons, Es. cbn [mbind run_bind b_push].
    change (length cs') with (S (length cs1)).
    (* depth *)
    assert (length cs1 < k) as Hjk.
    { destruct (events_prefix t ((Open x :: take (length A1) L) ++ cs') (Open y :: r ++ cs ++ Q)) as [_ Hd]; [by rewrite <-app_assoc|].
      specialize (Hd ltac:(done) ltac:(done)). rewrite opens_app, closes_app in Hd. cbn [opens closes app] in Hd.
      destruct (all_close_count _ Hc') as [C1 C2]. rewrite C1, C2 in Hd. unfold cs' in Hd. cbn [length] in Hd.
      destruct (same_count A1 (take (length A1) L)) as [C3 C4]; [rewrite Hp at 1; exact (eq_sym (fmap_take is_open (length A1) L))|].
      pose proof (events_balance t0) as Hb. rewrite H0 in Hb. cbn [opens closes] in Hb. rewrite opens_app, closes_app in Hb.
      destruct (all_close_count _ Hcs) as [C5 C6]. rewrite C5, C6 in Hb. lia. }
    destruct (close_ok hm s0 K0 n p s K t0 td k cur c (length cs1) G Hh Hr) as [H1 _].
    destruct (H1 Hjk) as (s' & c' & cur' & E1 & G1 & Hh1 & Hr1). rewrite E1. cbn [mbind run_bind].
    set (ds := take (S (length cs1)) cs).
    assert (all_close ds) as Hds by (apply Forall_take; exact Hcs).
    assert (length ds = length cs') as Hlds by (unfold ds; rewrite take_length; unfold cs'; cbn [length]; lia).
    assert (L ++ ds = D ++ Open n :: A1 ++ ds) as ELd by (unfold L; by rewrite <-app_assoc, <-app_comm_cons).
    assert (at_ x (Open y :: r ++ cs ++ Q) = at_ x (drop (length (A1 ++ ds)) (D ++ Open n :: A1 ++ ds))) as Eat.
    { rewrite <-ELd, app_length, Hlds, at_drop_app.
      - rewrite <-drop_drop, El, drop_app_alt by done. done.
      - lia. }
    rewrite Eat. apply (IH s' K t0 td (k - S (length cs1)) cur' c' (A1 ++ ds) (drop (S (length cs1)) cs) G1 Hh1 Hr1).
    + rewrite H0. unfold ds. by rewrite <-app_assoc, take_drop.
    + rewrite drop_length. lia.
    + apply Forall_drop. exact Hcs.
    + rewrite <-ELd. rewrite app_length, !map_app, take_app_le.
      2:{ rewrite map_length. lia. }
      apply (pat_next A1 L ds cs' (Open y :: r) Hp EL); [done|]. by apply pat_closes.
Qed.
End Loop.
