(** * BuildFacts4: starting, finishing and abandoning the builder. *)
From Verif Require Import SerialSpec NavFacts SpecFacts RoseFacts EqFacts BracketFacts ApiFacts ApiFacts2 ApiFacts3 ApiFacts6 ApiFacts7 ApiFacts8 BuildFacts BuildFacts2 BuildFacts3 Spec.

Section Build4_general.
Context {T : Type} {ts0 : list (rose nid)} {b0 : lending}.
Local Notation grew := (@BuildFacts.grew T ts0 b0).
Local Notation phase := (@BuildFacts3.phase T ts0 b0).
Implicit Types (s : sys T) (K : forest) (td : rose T) (hm : gmap nat handle) (b : builder) (es : list (event T)).

Lemma expand_cons (e : event T) es : expand (e :: es) = step_brackets e ++ expand es.
Proof. done. Qed.

Lemma push_all_strong hm s0 K0 r p : wf K0 -> is_Some (K0 !! r) -> forall es pre s b, phase hm s0 K0 r p pre s b ->
  (is_top K0 r \/ exists td post, (pre ++ expand es) ++ post = brackets td) ->
  exists s' b' o, b_push_all s b es = Ret (s', b', o) /\
    match o with
    | None => phase hm s0 K0 r p (pre ++ expand es) s' b'
    | Some x => x = RootClosed /\ (exists pre', phase hm s0 K0 r p pre' s' b') /\
        exists td post, post <> [] /\ pre ++ expand es = brackets td ++ post /\ exists K t0, grew hm s0 K0 r s' K t0 td
    end.
Proof.
  intros Hw Hk. induction es as [|e es IH]; intros pre s b Hph Hok.
  - exists s, b, None. split; [done|]. simpl. by rewrite app_nil_r.
  - rewrite expand_cons in *. destruct (push_ok hm s0 K0 r p pre s b e Hw Hk Hph) as (s1 & b1 & o & E & Ho).
    { destruct Hok as [?|(td & post & Hok)]; [by left|right]. exists td, (expand es ++ post). by rewrite <-Hok, <-!app_assoc. }
    cbn [b_push_all]. rewrite E. cbn [mbind run_bind]. destruct o as [x|].
    + destruct Ho as (-> & Hex & td & post & Hne & Heq & G). eexists _, _, (Some RootClosed). split; [done|]. split; [done|]. split; [done|].
      exists td, (post ++ expand es). split; [by destruct post|]. split; [by rewrite app_assoc, Heq, <-app_assoc|exact G].
    + destruct (IH _ _ _ Ho) as (s2 & b2 & o2 & E2 & Ho2); [by rewrite <-app_assoc|].
      exists s2, b2, o2. split; [exact E2|]. by rewrite <-app_assoc in Ho2.
Qed.

Lemma push_all_ok hm s0 K0 r p : wf K0 -> is_Some (K0 !! r) -> forall es pre s b, phase hm s0 K0 r p pre s b ->
  (is_top K0 r \/ exists td post, (pre ++ expand es) ++ post = brackets td) ->
  exists s' b' o, b_push_all s b es = Ret (s', b', o) /\
    match o with
    | None => phase hm s0 K0 r p (pre ++ expand es) s' b'
    | Some x => x = RootClosed /\ (exists pre', phase hm s0 K0 r p pre' s' b') /\
        exists td post, post <> [] /\ pre ++ expand es = brackets td ++ post
    end.
Proof.
  intros Hw Hk es pre s b Hph Hok. destruct (push_all_strong hm s0 K0 r p Hw Hk es pre s b Hph Hok) as (s' & b' & o & E & Ho).
  exists s', b', o. split; [exact E|]. destruct o as [x|]; [|exact Ho].
  destruct Ho as (-> & Hex & td & post & Hne & Heq & _). split; [done|]. split; [exact Hex|]. by exists td, post.
Qed.

Lemma phase_prefix hm s0 K0 r p pre s b : phase hm s0 K0 r p pre s b -> exists k td, pre ++ replicate k None = brackets td.
Proof. intros [s' K t0 td k cur c pre' G Hh Hr E|s' K t0 td pre' G Hh Hp Htop ->|s' K t0 td c q pre' G Hh Hq ->]; [by exists (S k), td|exists 0, td; apply app_nil_r..]. Qed.

Lemma parent_tree s K q r : reach s -> stores s K -> child_of K q r -> tree_of s q = tree_of s r.
Proof.
  intros H Hst Hc. pose proof (reach_stores_inv s K H Hst) as Hi. symmetry. by apply (s_child _ _ (i_s _ _ Hi)).
Qed.

(** [finish]. *)
Lemma finish_ok hm s0 K0 r p pre s b : wf K0 -> phase hm s0 K0 r p pre s b ->
  exists s' K' t0 td k, b_finish s b = Ret (s', inl p) /\ grew hm s0 K0 r s' K' t0 td /\ hm !! p = None /\
    s_hands s' = <[p := HNode Plain r]> hm /\ pre ++ replicate k None = brackets td.
Proof.
  intros Hk [s' K t0 td k cur c pre' G Hh Hr E|s' K t0 td pre' G Hh Hp Htop ->|s' K t0 td c q pre' G Hh Hq ->].
  - destruct (drop_held s' K c p Hot Plain cur r (g_reach _ _ _ _ _ _ _ _ G) (g_stores _ _ _ _ _ _ _ _ G) (held_c _ _ _ _ _ _ Hh) (held_p _ _ _ _ _ _ Hh)) as (s2 & E2 & R2 & V2 & Hh2).
    { by destruct Hh as (_ & _ & _ & ?). }
    { apply (grew_tree _ _ _ _ _ _ _ _ cur G). by eapply rpath_node. }
    exists s2, K, t0, td, (S k). unfold b_finish. cbn [b_cur b_root drop_opt]. rewrite E2. split; [done|].
    split; [by eapply grew_view|]. destruct Hh as (Hh & H1 & H2 & H3). split; [done|]. split; [|done].
    rewrite Hh2, Hh. apply delete_insert. by rewrite lookup_insert_ne.
  - exists s', K, t0, td, 0. split; [done|]. split; [done|]. split; [done|]. split; [done|]. apply app_nil_r.
  - destruct (drop_held s' K c p Hot Plain q r (g_reach _ _ _ _ _ _ _ _ G) (g_stores _ _ _ _ _ _ _ _ G) (held_c _ _ _ _ _ _ Hh) (held_p _ _ _ _ _ _ Hh)) as (s2 & E2 & R2 & V2 & Hh2).
    { by destruct Hh as (_ & _ & _ & ?). }
    { eapply parent_tree; [exact (g_reach _ _ _ _ _ _ _ _ G)|exact (g_stores _ _ _ _ _ _ _ _ G)|]. by eapply grew_child. }
    exists s2, K, t0, td, 0. unfold b_finish. cbn [b_cur b_root drop_opt]. rewrite E2. split; [done|].
    split; [by eapply grew_view|]. destruct Hh as (Hh & H1 & H2 & H3). split; [done|]. split; [|apply app_nil_r].
    rewrite Hh2, Hh. apply delete_insert. by rewrite lookup_insert_ne.
Qed.

End Build4_general.

Section Build4.
Context {T : Type}.
Local Notation grew := (@BuildFacts.grew T [] (Lent 0)).
Local Notation phase := (@BuildFacts3.phase T [] (Lent 0)).
Implicit Types (s : sys T) (K : forest) (td : rose T) (hm : gmap nat handle) (b : builder) (es : list (event T)).

Lemma g_shape0 hm s0 K0 r s K t0 td : grew hm s0 K0 r s K t0 td -> shape K r t0.
Proof. intros G. pose proof (g_shape _ _ _ _ _ _ _ _ G) as H. by rewrite full_nil in H. Qed.
Lemma g_data0 hm s0 K0 r s K t0 td : grew hm s0 K0 r s K t0 td -> rose_rel (fun x d => payload s x = Some (d, Lent 0)) t0 td.
Proof.
  intros G. eapply rose_rel_mono; [|exact (g_data _ _ _ _ _ _ _ _ G)]. intros x d. simpl. by case_decide.
Qed.

(** A state in which a new tree [t] with the single node [n] was started. *)
Record started s K s1 (n : nid) (t : tid) : Prop := {
  st_reach : reach s;
  st_stores : stores s K;
  st_new : K !! n = None;
  st_unk : unknown s n;
  st_tnew : s_trees s !! t = None;
  st_tunk : unknown s t;
  st_tree : tree_of s1 n = Some t;
  st_old : forall y, y <> n -> payload s1 y = payload s y /\ tree_of s1 y = tree_of s y;
  st_trees : forall u, is_Some (s_trees s1 !! u) <-> u = t \/ is_Some (s_trees s !! u);
}.

Lemma card_zero (P : nat -> Prop) n : card P (S n) -> exists x, P x.
Proof. intros ([|a l] & _ & H & E); [done|]. exists a. apply H. set_solver. Qed.

Lemma view_trans s1 s2 s3 : same_view s1 s2 -> same_view s2 s3 -> same_view s1 s3.
Proof.
  intros V1 V2. constructor.
  - intros K1 H1. by apply V2, V1.
  - intros x. by rewrite (sv_tree _ _ V2), (sv_tree _ _ V1).
  - intros x. by rewrite (sv_payload _ _ V2), (sv_payload _ _ V1).
  - intros u. by rewrite (sv_trees _ _ V2), (sv_trees _ _ V1).
Qed.
Lemma view_alive s1 s2 u : same_view s1 s2 -> is_Some (s_trees s2 !! u) <-> is_Some (s_trees s1 !! u).
Proof. intros V. pose proof (sv_trees _ _ V u) as H. destruct (s_trees s1 !! u), (s_trees s2 !! u); simpl in H; try done; rewrite !is_Some_alt; done. Qed.

Lemma alive_known s K y : stores s K -> is_Some (s_nodes s !! y) <-> is_Some (K !! y).
Proof. intros [Hr _]. apply (rep_dom _ _ Hr). Qed.

Lemma start_ok s K d : reach s -> stores s K ->
  exists s1 p c n t, b_open s b_new d = Ret (s1, mkBuilder (Some p) (Some c), None) /\
    started s K s1 n t /\ held s1 (s_hands s) p c n n /\
    grew (s_hands s) s1 (<[n := []]> K) n s1 (<[n := []]> K) (Rose n []) (Rose d []).
Proof.
  intros H Hst.
  destruct (reach_effect s K (OpNewTree d) H Hst ltac:(exact Logic.I)) as (s1 & r1 & E1 & R1 & Ef1); [exact Logic.I|exact (fun F => F)|].
  destruct Ef1 as [[]|[[]|(n & t & i & -> & Ht & Hun & Hut & Hn & Hi & Hh1 & Hst1 & Hp1 & Ht1 & Ho1 & Hts)]].
  assert (K !! n = None) as HKn.
  { destruct (K !! n) eqn:E; [|done]. destruct (proj2 (alive_known s K n Hst)) as [? ?]; [eauto|congruence]. }
  assert (s_hands s1 !! i = Some (HNode Plain n)) as Hi1 by (rewrite Hh1; apply lookup_insert).
  destruct (reach_effect s1 _ (OpBundle Hot i) R1 Hst1 ltac:(exact Logic.I)) as (s2 & r2 & E2 & R2 & Ef2); [split; [done|by exists n]|exact (fun F => F)|].
  destruct Ef2 as [(x & t' & Hix & _ & Et' & Hcase)|[[]|[]]].
  assert (x = n /\ t' = t) as [-> ->] by (split; congruence).
  destruct Hcase as [(_ & j & -> & (V2 & Hj & Hh2))|([m Hlo] & _)].
  2:{ exfalso. destruct Hlo as (a & b & Ha & Hb & Hab).
      destruct (no_garbage s K H Hst) as [Hg1 Hg2].
      destruct a as [|a].
      - destruct b as [|b]; [done|]. apply card_zero in Hb as (x & _ & Hx & i' & Hi'). simpl in Hi'. rewrite Hh1 in Hi'.
        destruct (decide (i' = i)) as [->|Hne]; [rewrite lookup_insert in Hi'; done|]. rewrite lookup_insert_ne in Hi' by done.
        destruct (handle_tree s K i' Frozen x H Hst Hi') as (u & _ & _ & _ & Eu & [? Hu] & HKx).
        assert (x <> n) as Hxn by (intros ->; rewrite HKn in HKx; by destruct HKx).
        rewrite (proj2 (Ho1 x Hxn)) in Hx. congruence.
      - apply card_zero in Ha as (x & _ & Hx). simpl in Hx. rewrite Hh1 in Hx.
        destruct (decide (x = i)) as [->|Hne]; [rewrite lookup_insert in Hx; done|]. rewrite lookup_insert_ne in Hx by done.
        by apply (Hut x _ Hx). }
  pose proof (sv_stores _ _ V2 _ Hst1) as Hst2.
  assert (s_hands s2 !! j = Some (HNode Hot n)) as Hj2 by (rewrite Hh2; apply lookup_insert).
  destruct (reach_effect s2 _ (OpPlain j) R2 Hst2 ltac:(exact Logic.I)) as (s3 & r3 & E3 & R3 & Ef3); [exists Hot, n; split; [done|exact Hj2]|exact (fun F => F)|].
  destruct Ef3 as [(k & x & p & Hjx & _ & -> & (V3 & Hp & Hh3))|[[]|[]]].
  assert (x = n) as -> by congruence.
  pose proof (view_trans _ _ _ V2 V3) as V.
  exists s3, p, j, n, t. split.
  { unfold b_open, call_hand. cbn [b_root b_new b_cur]. rewrite E1. cbn [mbind run_bind]. rewrite E2. cbn [mbind run_bind].
    rewrite E3. done. }
  assert (started s K s3 n t) as Hst3.
  { constructor.
    - exact H. - exact Hst. - exact HKn. - exact Hun. - exact Ht. - exact Hut.
    - rewrite (sv_tree _ _ V). exact Ht1.
    - intros y Hy. rewrite (sv_tree _ _ V), (sv_payload _ _ V). by apply Ho1.
    - intros u. rewrite (view_alive _ _ u V). apply Hts. }
  assert (s_hands s !! j = None /\ j <> i /\ s_hands s2 = <[j := HNode Hot n]> (s_hands s)) as (Hjs & Hji & Hh2').
  { assert (j <> i) as Hji by (intros ->; congruence).
    rewrite Hh1 in Hj. rewrite lookup_insert_ne in Hj by done. split; [done|]. split; [done|]. rewrite Hh2, Hh1. f_equal. by apply delete_insert. }
  assert (p <> j) as Hpj by (intros ->; congruence).
  assert (s_hands s !! p = None) as Hps by (rewrite Hh2' in Hp; by rewrite lookup_insert_ne in Hp).
  split; [exact Hst3|]. split.
  { split; [|done]. rewrite Hh3, Hh2'. by apply insert_commute. }
  assert (shape (<[n := []]> K) n (Rose n [])) as Hsh by (constructor; [by rewrite lookup_insert|constructor]).
  constructor.
  - exact R3.
  - by apply V.
  - exact Hsh.
  - constructor; [|constructor]. rewrite (sv_payload _ _ V). case_decide; exact Hp1.
  - rewrite lookup_insert. eauto.
  - done.
  - intros y Hy. left. simpl in Hy. set_solver.
  - by left.
  - done.
  - done.
  - intros y Hy. left. simpl in Hy. set_solver.
  - done.
Qed.

(** ** The result *)
Lemma grew_builds s K s1 n t s' K' t0 td p : started s K s1 n t -> grew (s_hands s) s1 (<[n := []]> K) n s' K' t0 td ->
  s_hands s !! p = None -> s_hands s' = <[p := HNode Plain n]> (s_hands s) -> builds s s' p td.
Proof.
  intros St G Hp Hh. pose proof (g_shape0 _ _ _ _ _ _ _ _ G) as Hs.
  assert (forall y, is_Some (K !! y) -> y <> n /\ <[n := []]> K !! y = K !! y) as Hold.
  { intros y Hy. assert (y <> n) by (intros ->; rewrite (st_new _ _ _ _ _ St) in Hy; by destruct Hy). split; [done|]. by rewrite lookup_insert_ne. }
  assert (forall y, y ∈ rose_nodes t0 -> K !! y = None) as Hnew.
  { intros y Hy. destruct (g_new _ _ _ _ _ _ _ _ G y Hy) as [->|E]; [by apply St|].
    destruct (decide (y = n)) as [->|]; [by apply St|]. by rewrite lookup_insert_ne in E. }
  assert (wf K) as Hw by apply (st_stores _ _ _ _ _ St).
  assert (is_top (<[n := []]> K) n) as Htop.
  { split; [rewrite lookup_insert; eauto|]. intros q (ks & Hk & Hin). destruct (decide (q = n)) as [->|Hne].
    - rewrite lookup_insert in Hk. injection Hk as <-. set_solver.
    - rewrite lookup_insert_ne in Hk by done. destruct (wf_dom K Hw q n) as [? E]; [by exists ks|]. rewrite (st_new _ _ _ _ _ St) in E. done. }
  constructor; [exact (g_reach _ _ _ _ _ _ _ _ G)|].
  exists n, t, t0, K, K'. split; [exact (st_stores _ _ _ _ _ St)|]. split; [exact (g_stores _ _ _ _ _ _ _ _ G)|].
  split; [done|]. split; [done|]. split; [by eapply grew_top|]. split; [exact Hs|]. split; [exact (g_data0 _ _ _ _ _ _ _ _ G)|].
  split; [|split; [exact (st_tnew _ _ _ _ _ St)|split; [exact (st_tunk _ _ _ _ _ St)|split; [|split]]]].
  - intros y Hy. split; [by apply Hnew|]. split.
    + destruct (g_unk _ _ _ _ _ _ _ _ G y Hy) as [->|E]; [exact (st_unk _ _ _ _ _ St)|exact E].
    + rewrite (grew_tree _ _ _ _ _ _ _ _ y G Hy). rewrite (g_tree _ _ _ _ _ _ _ _ G n); [exact (st_tree _ _ _ _ _ St)|].
      rewrite lookup_insert. eauto.
  - intros y. split.
    + intros Hy. destruct (g_all _ _ _ _ _ _ _ _ G y Hy) as [H|H]; [|by right].
      destruct (decide (y = n)) as [->|Hne]; [right|left; by rewrite lookup_insert_ne in H].
      apply (shape_nodes K' n t0 n Hs). constructor.
    + intros [H|H]; [|by eapply grew_node]. eapply grew_alive; [exact G|]. by rewrite (proj2 (Hold y H)).
  - intros y Hy. destruct (Hold y Hy) as [Hne E].
    assert (is_Some (<[n := []]> K !! y)) as Hy0 by (by rewrite E).
    split; [|split].
    + rewrite <-E. by apply (g_old _ _ _ _ _ _ _ _ G).
    + rewrite (g_payload _ _ _ _ _ _ _ _ G y Hy0). by apply (st_old _ _ _ _ _ St).
    + rewrite (g_tree _ _ _ _ _ _ _ _ G y Hy0). by apply (st_old _ _ _ _ _ St).
  - intros u. rewrite (g_trees _ _ _ _ _ _ _ _ G u). apply (st_trees _ _ _ _ _ St).
Qed.

(** ** Abandoning a new tree *)
Lemma view_intro s K s' : reach s -> reach s' -> stores s K -> stores s' K -> (forall y, tree_of s' y = tree_of s y) ->
  (forall y, payload s' y = payload s y) -> (forall u, is_Some (s_trees s' !! u) <-> is_Some (s_trees s !! u)) -> same_view s s'.
Proof.
  intros R R' Hst Hst' Ht Hp Hts. constructor; [|done|done|].
  - intros K1 H1. by rewrite (stores_unique s K1 K H1 Hst).
  - intros u. pose proof (reach_stores_inv s K R Hst) as I1. pose proof (reach_stores_inv s' K R' Hst') as I2.
    specialize (Hts u). destruct (s_trees s' !! u) as [tr'|] eqn:E', (s_trees s !! u) as [tr|] eqn:E; simpl.
    + f_equal. destruct (s_root _ _ (i_s _ _ I1) u tr E) as [H1 H2]. destruct (s_root _ _ (i_s _ _ I2) u tr' E') as [H3 H4].
      rewrite Ht in H4. destruct (proj1 (same_tree_iff s K (t_root tr') (t_root tr) R Hst (proj1 H3) (proj1 H1))) as (q & Hq & Hb1 & Hb2); [congruence|].
      assert (forall z, is_top K z -> below K q z -> z = q) as Hz.
      { intros z Hz Hb. apply below_parent_inv in Hb as [?|(p & Hpz & _)]; [done|]. exfalso. by apply (proj2 Hz p). }
      by rewrite (Hz _ H1), (Hz _ H3).
    + destruct (proj1 Hts) as [? ?]; [eauto|done].
    + destruct (proj2 Hts) as [? ?]; [eauto|done].
    + done.
Qed.

Lemma abandon_ok s K s1 n t s2 K' t0 td i k x s3 : started s K s1 n t -> grew (s_hands s) s1 (<[n := []]> K) n s2 K' t0 td ->
  s_hands s !! i = None -> s_hands s2 = <[i := HNode k x]> (s_hands s) -> tree_of s2 x = Some t ->
  step s2 (OpDrop i) = Ret (s3, OutUnit) -> unaffected s s3.
Proof.
  intros St G Hi Hh Hx E. pose proof (g_reach _ _ _ _ _ _ _ _ G) as R2. pose proof (g_stores _ _ _ _ _ _ _ _ G) as Hst2.
  assert (reach s3) as R3 by (eapply reach_step; [exact R2|exact Hst2| |exact E]; exact Logic.I).
  destruct (drop_api s2 K' i (HNode k x) t R2 Hst2) as (s3' & E' & Hh3 & Hd).
  { rewrite Hh. apply lookup_insert. } { right. by exists k, x. }
  rewrite E in E'. injection E' as <-.
  assert (s_hands s3 = s_hands s) as Hh3'. { rewrite Hh3, Hh. by apply delete_insert. }
  pose proof (grew_builds s K s1 n t s2 K' t0 td) as HB.
  assert (forall y, is_Some (K !! y) -> tree_of s2 y = tree_of s y /\ K' !! y = K !! y /\ payload s2 y = payload s y /\ tree_of s y <> Some t) as Hold.
  { intros y Hy. assert (y <> n) as Hne by (intros ->; rewrite (st_new _ _ _ _ _ St) in Hy; by destruct Hy).
    assert (is_Some (<[n := []]> K !! y)) as Hy0 by (by rewrite lookup_insert_ne).
    split; [rewrite (g_tree _ _ _ _ _ _ _ _ G y Hy0); by apply (st_old _ _ _ _ _ St)|].
    split; [rewrite (g_old _ _ _ _ _ _ _ _ G y Hy0 Hne); by rewrite lookup_insert_ne|].
    split; [rewrite (g_payload _ _ _ _ _ _ _ _ G y Hy0); by apply (st_old _ _ _ _ _ St)|].
    intros Ht. destruct (no_garbage s K (st_reach _ _ _ _ _ St) (st_stores _ _ _ _ _ St)) as [Hg _].
    destruct (Hg y) as (u & Hu & [? Hu2]); [by apply (alive_known s K y (st_stores _ _ _ _ _ St))|]. assert (u = t) as -> by congruence.
    rewrite (st_tnew _ _ _ _ _ St) in Hu2. done. }
  assert (forall y, y ∈ rose_nodes t0 -> tree_of s2 y = Some t) as Hin.
  { intros y Hy. rewrite (grew_tree _ _ _ _ _ _ _ _ y G Hy). rewrite (g_tree _ _ _ _ _ _ _ _ G n); [exact (st_tree _ _ _ _ _ St)|].
    rewrite lookup_insert. eauto. }
  assert (n ∈ rose_nodes t0) as Hn0.
  { apply (shape_nodes K' n t0 n (g_shape0 _ _ _ _ _ _ _ _ G)). constructor. }
  assert (forall y, is_Some (K' !! y) -> tree_of s2 y <> Some t -> is_Some (K !! y)) as Hout.
  { intros y Hy Hyt. destruct (g_all _ _ _ _ _ _ _ _ G y Hy) as [H|H]; [|by apply Hin in H].
    destruct (decide (y = n)) as [->|Hne]; [by apply Hin in Hn0|]. by rewrite lookup_insert_ne in H. }
  assert (forall y, K !! y = None -> payload s y = None /\ tree_of s y = None) as Hnone.
  { intros y Hy. assert (s_nodes s !! y = None) as Hn.
    { destruct (s_nodes s !! y) eqn:Ey; [|done]. destruct (proj1 (alive_known s K y (st_stores _ _ _ _ _ St))) as [? ?]; [eauto|congruence]. }
    unfold payload, tree_of, n_memb. by rewrite Hn. }
  destruct Hd as [[Hheld _]|(Hnot & (K3 & Hon & Hst3) & Hgone & Hkeep & Ht3 & Hts3)].
  { exfalso. destruct Hheld as [[j Hj]|(j & k' & y & Hj & Hy)]; rewrite Hh3' in Hj.
    - by apply (st_tunk _ _ _ _ _ St j _ Hj).
    - destruct (handle_tree s K j k' y (st_reach _ _ _ _ _ St) (st_stores _ _ _ _ _ St) Hj) as (u & _ & _ & _ & _ & _ & HKy).
      destruct (Hold y HKy) as (H1 & _ & _ & H2). congruence. }
  assert (K3 = K) as ->.
  { apply map_eq. intros y. destruct (Hon y) as [H1 H2]. destruct (K !! y) as [ks|] eqn:Ey.
    - destruct (Hold y ltac:(eauto)) as (Ht & Hk & _ & Hne). rewrite H1; [congruence|]. congruence.
    - destruct (decide (tree_of s2 y = Some t)) as [Ht|Ht]; [by apply H2; intros F|].
      rewrite (H1 Ht). destruct (K' !! y) eqn:Ey'; [|done]. destruct (Hout y) as [? ?]; [eauto|done|congruence]. }
  split; [exact R3|]. split; [|exact Hh3'].
  apply (view_intro s K s3 (st_reach _ _ _ _ _ St) R3 (st_stores _ _ _ _ _ St) Hst3).
  - intros y. destruct (K !! y) as [ks|] eqn:Ey.
    + destruct (Hold y ltac:(eauto)) as (Ht & _ & _ & Hne). rewrite <-Ht. unfold tree_of, n_memb. rewrite Hkeep; [done|congruence].
    + rewrite (proj2 (Hnone y Ey)). unfold tree_of, n_memb.
      destruct (s_nodes s3 !! y) eqn:E3; [|done]. destruct (proj1 (alive_known s3 K y Hst3)) as [? ?]; [eauto|congruence].
  - intros y. destruct (K !! y) as [ks|] eqn:Ey.
    + destruct (Hold y ltac:(eauto)) as (Ht & _ & Hp & Hne). rewrite <-Hp. unfold payload. rewrite Hkeep; [done|congruence].
    + rewrite (proj1 (Hnone y Ey)). unfold payload.
      destruct (s_nodes s3 !! y) eqn:E3; [|done]. destruct (proj1 (alive_known s3 K y Hst3)) as [? ?]; [eauto|congruence].
  - intros u. destruct (decide (u = t)) as [->|Hne].
    + rewrite Ht3, (st_tnew _ _ _ _ _ St). done.
    + rewrite (Hts3 u Hne), (g_trees _ _ _ _ _ _ _ _ G u), (st_trees _ _ _ _ _ St). split; [intros [?|?]; [done|done]|by right].
Qed.

Lemma drop_new_ok s K s1 n t p pre s2 b : started s K s1 n t -> phase (s_hands s) s1 (<[n := []]> K) n p pre s2 b -> is_top (<[n := []]> K) n ->
  exists s3, b_drop s2 b = Ret s3 /\ unaffected s s3.
Proof.
  intros St Hph Htop.
  assert (forall s2 K' t0 td x, grew (s_hands s) s1 (<[n := []]> K) n s2 K' t0 td -> x ∈ rose_nodes t0 -> tree_of s2 x = Some t) as Hin.
  { intros s2' K' t0 td x G Hx. rewrite (grew_tree _ _ _ _ _ _ _ _ x G Hx). rewrite (g_tree _ _ _ _ _ _ _ _ G n); [exact (st_tree _ _ _ _ _ St)|].
    rewrite lookup_insert. eauto. }
  assert (forall K' t0 td s2, grew (s_hands s) s1 (<[n := []]> K) n s2 K' t0 td -> n ∈ rose_nodes t0) as Hn0.
  { intros K' t0 td s2' G. apply (shape_nodes K' n t0 n (g_shape0 _ _ _ _ _ _ _ _ G)). constructor. }
  destruct Hph as [s2 K' t0 td k cur c pre' G Hh Hr E|s2 K' t0 td pre' G Hh Hp _ ->|s2 K' t0 td c q pre' G Hh Hq ->].
  - pose proof (rpath_node _ _ _ Hr) as Hcur.
    destruct (drop_held s2 K' p c Plain Hot n cur (g_reach _ _ _ _ _ _ _ _ G) (g_stores _ _ _ _ _ _ _ _ G) (held_p _ _ _ _ _ _ Hh) (held_c _ _ _ _ _ _ Hh)) as (s3 & E3 & R3 & V3 & Hh3).
    { destruct Hh as (_ & _ & _ & ?). done. } { symmetry. by apply (grew_tree _ _ _ _ _ _ _ _ cur G). }
    pose proof (grew_view _ _ _ _ _ _ _ _ s3 G V3 R3) as G3. destruct Hh as (Hh & H1 & H2 & H3).
    assert (s_hands s3 = <[c := HNode Hot cur]> (s_hands s)) as Hh3'.
    { rewrite Hh3, Hh. rewrite delete_insert_ne by done. f_equal. by apply delete_insert. }
    destruct (drop_any s3 c (HNode Hot cur) R3) as (s4 & E4 & R4 & Hh4); [rewrite Hh3'; apply lookup_insert|].
    exists s4. unfold b_drop. cbn [b_root b_cur drop_opt]. rewrite E3. cbn [mbind run_bind]. rewrite E4. split; [done|].
    eapply abandon_ok; [exact St|exact G3|exact H2|exact Hh3'|by eapply Hin|exact E4].
  - destruct (drop_any s2 p (HNode Plain n) (g_reach _ _ _ _ _ _ _ _ G)) as (s4 & E4 & R4 & Hh4); [rewrite Hh; apply lookup_insert|].
    exists s4. unfold b_drop. cbn [b_root b_cur drop_opt]. rewrite E4. split; [done|].
    eapply abandon_ok; [exact St|exact G|exact Hp|exact Hh|eapply Hin; [exact G|by eapply Hn0]|exact E4].
  - exfalso. by apply (proj2 Htop q).
Qed.
End Build4.
