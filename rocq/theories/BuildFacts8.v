(** * BuildFacts8: comparison, round trip, other result types at the API. *)
From Verif Require Import SerialSpec NavFacts SpecFacts RoseFacts CardFacts EqFacts SerFacts BracketFacts ApiFacts ApiFacts2 ApiFacts3 ApiFacts6 ApiFacts7 ApiFacts8 BuildFacts BuildFacts2 BuildFacts3 BuildFacts4 BuildFacts5 BuildFacts6 Spec.

Section Build8.
Context {T : Type}.
Local Notation grew := (@BuildFacts.grew T [] (Lent 0)).
Local Notation phase := (@BuildFacts3.phase T [] (Lent 0)).
Implicit Types (s : sys T) (K : forest) (td : rose T) (hm : gmap nat handle) (b : builder) (es : list (event T)).

(** ** Comparison *)
Lemma try_eq_answer (eqb : T -> T -> bool) (h : heap T) K x y t1 t2 : rep h K -> wf K -> shape K x t1 -> shape K y t2 ->
  exists r, try_eq eqb h x y = Ret r /\ (x = y -> r = Some true) /\ (x <> y -> eq_answer eqb h h t1 t2 r).
Proof.
  intros Hr Hw S1 S2. unfold try_eq. destruct (decide (x = y)) as [->|Hne].
  - exists (Some true). done.
  - destruct (try_eq_apart_answer eqb h h K K x y t1 t2 Hr Hw Hr Hw S1 S2) as (r & E & Hres). by exists r.
Qed.
Lemma node_try_eq_ok (eqb : T -> T -> bool) s K i j k k' x y t1 t2 : stores s K -> s_hands s !! i = Some (HNode k x) -> s_hands s !! j = Some (HNode k' y) ->
  shape K x t1 -> shape K y t2 ->
  exists r, node_try_eq eqb s i j = Ret r /\ (x = y -> r = Some true) /\ (x <> y -> eq_answer eqb (s_nodes s) (s_nodes s) t1 t2 r).
Proof. intros [Hr Hw] Hi Hj S1 S2. unfold node_try_eq. rewrite Hi, Hj. by eapply try_eq_answer. Qed.
Lemma tree_try_eq_ok (eqb : T -> T -> bool) s K i j t u x y t1 t2 : reach s -> stores s K -> s_hands s !! i = Some (HTree t) -> s_hands s !! j = Some (HTree u) ->
  is_top K x -> tree_of s x = Some t -> is_top K y -> tree_of s y = Some u -> shape K x t1 -> shape K y t2 ->
  exists r, tree_try_eq eqb s i j = Ret r /\ (t = u -> r = Some true) /\ (t <> u -> eq_answer eqb (s_nodes s) (s_nodes s) t1 t2 r).
Proof.
  intros R Hst Hi Hj Tx Ex Ty Ey S1 S2. pose proof (reach_stores_inv s K R Hst) as Hinv.
  assert (forall z v, is_top K z -> tree_of s z = Some v -> exists tr, s_trees s !! v = Some tr /\ t_root tr = z) as Hroot.
  { intros z v Hz Hv. destruct (s_top _ _ (i_s _ _ Hinv) z Hz) as (v' & tr & H1 & H2 & H3). exists tr. split; [congruence|done]. }
  destruct (Hroot x t Tx Ex) as (tr & Htr & Hx). destruct (Hroot y u Ty Ey) as (ur & Hur & Hy).
  unfold tree_try_eq. rewrite Hi, Hj, Htr, Hur, Hx, Hy.
  destruct (try_eq_answer eqb (s_nodes s) K x y t1 t2 (proj1 Hst) (proj2 Hst) S1 S2) as (r & E & H1 & H2).
  exists r. split; [exact E|]. split.
  - intros ->. apply H1. congruence.
  - intros Hne. apply H2. congruence.
Qed.

(** ** Round trip *)
Lemma rose_rel_sym_comp {A B C} (R : A -> B -> Prop) (Q : C -> B -> Prop) : forall t u v, rose_rel R t u -> rose_rel Q v u ->
  rose_rel (fun a c => exists b : B, R a b /\ Q c b) t v.
Proof.
  induction t as [a ts IH] using rose_ind2. intros u v H1 H2. inversion H1 as [? b ? us Hab Hf]; subst. inversion H2 as [c ? vs ? Hcb Hf2]; subst.
  constructor; [by exists b|]. clear H1 H2 Hab Hcb. revert vs Hf2. induction Hf as [|t u ts us Htu Hf IHf]; intros vs Hf2.
  - inversion Hf2; subst. constructor.
  - inversion Hf2 as [|v ? vs' ? Hv Hf2']; subst. apply Forall_cons in IH as [IH1 IH2]. constructor; [by eapply IH1|by apply IHf].
Qed.

Lemma payload_borrowed s y d m : payload s y = Some (d, m) -> data_is (s_nodes s) y d /\ (borrowed (s_nodes s) y <-> m = LentMut).
Proof.
  unfold payload. intros E. destruct (s_nodes s !! y) as [nd|] eqn:En; [|done]. simpl in E. injection E as <- <-. split; [by exists nd|].
  split.
  - intros (nd' & E1 & E2). assert (nd' = nd) as -> by congruence. unfold n_mut in E2. by destruct (n_lend nd).
  - intros E. exists nd. split; [exact En|]. unfold n_mut. by rewrite E.
Qed.
Lemma data_payload s y d : data_is (s_nodes s) y d -> exists m, payload s y = Some (d, m).
Proof. intros (nd & E & <-). exists (n_lend nd). unfold payload. by rewrite E. Qed.

(** A copy compares equal to its source. *)
Lemma copy_equal (eqb : T -> T -> bool) s K s' i td x t hd : (forall d, eqb d d = true) -> stores s K -> shape K x t -> data_tree (s_nodes s) t td ->
  (forall y, y ∈ rose_nodes t -> ~ borrowed (s_nodes s) y) -> builds_as hd s s' i td ->
  exists n u, s_hands s' !! i = Some (hd n u) /\ tree_of s' n = Some u /\ n <> x /\ try_eq eqb (s_nodes s') x n = Ret (Some true) /\ try_eq eqb (s_nodes s') n x = Ret (Some true).
Proof.
  intros Hrefl Hst Hs Htd Hnb [R' (n & u & t0 & K0 & K' & Hst0 & Hst' & Hi & Hh & Htop & Hs' & Hd' & Hnew & Htn & Htu & Hall & Hold & Htrees)].
  assert (K0 = K) as -> by (by eapply stores_unique).
  assert (forall y, y ∈ rose_nodes t -> is_Some (K !! y)) as HinK.
  { intros y Hy. apply (shape_nodes K x t y Hs) in Hy. eapply below_dom; [apply Hst| |exact Hy]. inversion Hs; subst. eauto. }
  assert (n ∈ rose_nodes t0) as Hn0 by (apply (shape_nodes K' n t0 n Hs'); constructor).
  assert (x ∈ rose_nodes t) as Hx0 by (apply (shape_nodes K x t x Hs); constructor).
  assert (n <> x) as Hne. { intros ->. destruct (HinK x Hx0) as [ks Hks]. destruct (Hnew x Hn0) as [E _]. congruence. }
  assert (shape K' x t) as Hsx.
  { eapply shape_agree; [exact Hs|]. intros y Hy. by apply Hold, HinK. }
  assert (data_tree (s_nodes s') t td) as Htd'.
  { eapply rose_rel_mono_in; [exact Htd|]. intros a d Ha Hd. apply data_payload in Hd as [m Hd].
    rewrite <-(proj1 (proj2 (Hold a (HinK a Ha)))) in Hd. by apply payload_borrowed in Hd as [? _]. }
  assert (forall y, y ∈ rose_nodes t -> ~ borrowed (s_nodes s') y) as Hnb1.
  { intros y Hy Hb. apply (Hnb y Hy). destruct (proj2 (alive_known s K y Hst) (HinK y Hy)) as [nd Hnd].
    pose proof (Hold y (HinK y Hy)) as (_ & Hp & _). unfold payload at 2 in Hp. rewrite Hnd in Hp. simpl in Hp.
    apply payload_borrowed in Hp as [_ Hp]. apply Hp in Hb. exists nd. split; [done|]. unfold n_mut. by rewrite Hb. }
  assert (forall y, y ∈ rose_nodes t0 -> ~ borrowed (s_nodes s') y) as Hnb2.
  { pose proof (rose_rel_nodes _ _ _ Hd') as Hf. intros y Hy. apply elem_of_list_lookup in Hy as [m Hm]. destruct (Forall2_lookup_l _ _ _ _ _ Hf Hm) as (d & _ & Hp). apply payload_borrowed in Hp as [_ Hp].
    intros Hb. apply Hp in Hb. done. }
  assert (data_tree (s_nodes s') t0 td) as Htd0.
  { eapply rose_rel_mono; [|exact Hd']. intros a d Hp. by apply payload_borrowed in Hp as [? _]. }
  assert (equal_data eqb (s_nodes s') (s_nodes s') t t0 /\ equal_data eqb (s_nodes s') (s_nodes s') t0 t) as [Heq1 Heq2].
  { split.
    - eapply rose_rel_mono; [|exact (rose_rel_sym_comp _ _ _ _ _ Htd' Htd0)]. intros a c (d & H1 & H2). exists d, d. auto.
    - eapply rose_rel_mono; [|exact (rose_rel_sym_comp _ _ _ _ _ Htd0 Htd')]. intros a c (d & H1 & H2). exists d, d. auto. }
  exists n, u. split; [rewrite Hh; apply lookup_insert|]. split; [by apply Hnew|]. split; [done|]. destruct Hst' as [Hr' Hw']. split.
  - destruct (try_eq_answer eqb (s_nodes s') K' x n t t0 Hr' Hw' Hsx Hs') as (r & E & _ & Ha). rewrite E. f_equal.
    specialize (Ha (not_eq_sym Hne)). destruct r as [[|]|]; simpl in Ha; [done|by destruct (Ha Heq1)|]. by destruct Ha.
  - destruct (try_eq_answer eqb (s_nodes s') K' n x t0 t Hr' Hw' Hs' Hsx) as (r & E & _ & Ha). rewrite E. f_equal.
    specialize (Ha Hne). destruct r as [[|]|]; simpl in Ha; [done|by destruct (Ha Heq2)|]. by destruct Ha.
Qed.

Theorem roundtrip s K x t : reach s -> stores s K -> shape K x t -> (forall y, y ∈ rose_nodes t -> ~ borrowed (s_nodes s) y) ->
  exists es td, enumerates (ser_next (s_nodes s)) (dfs_start (Some x)) (map Some es) /\ data_tree (s_nodes s) t td /\
    expand es = brackets td /\ compact es /\
    exists s' i, build s es = Ret (s', inl i) /\ builds s s' i td.
Proof.
  intros R Hst Hs Hnb. destruct (ser_enum (s_nodes s) K x t (proj1 Hst) (proj2 Hst) Hs) as (items & He & Hit).
  destruct (items_split items) as (es & rest & Hes).
  destruct (raw_exists (s_nodes s) (group (dfs_events t))) as [es0 Hraw].
  { intros a Ha. pose proof (group_opens _ _ Ha a eq_refl) as Ho. apply dfs_open_node in Ho.
    apply (alive_known s K a Hst). apply (shape_nodes K x t a Hs) in Ho. eapply below_dom; [apply Hst| |exact Ho]. inversion Hs; subst. eauto. }
  pose proof (expand_raw _ _ _ Hraw) as Hx. rewrite expand_group, <-brackets_events, <-(app_nil_r (brackets t)) in Hx.
  apply brackets_rel in Hx as (td & l' & Hx & Htd & Hl'). apply Forall2_nil_inv_l in Hl' as ->. rewrite app_nil_r in Hx.
  destruct rest.
  { exfalso. destruct Hes as [tl Hes]. destruct (reads_raw _ _ es es0 items Hraw _ Hes Hit) as (es' & -> & _ & Hb).
    destruct (Hb tl eq_refl) as (a & Ha & Hba). apply (Hnb a); [|done]. apply dfs_open_node. by eapply group_opens. }
  destruct (reads_raw _ _ es es0 items Hraw [] ltac:(by rewrite app_nil_r) Hit) as (es' & -> & Hnil & _).
  rewrite (Hnil eq_refl), app_nil_r in Hx, Hraw. subst items.
  exists es, td. split; [done|]. split; [done|]. split; [done|]. split.
  { destruct (group_compact (dfs_events t)) as [C1 C2]. split.
    - intros i E. destruct (Forall2_lookup_r _ _ _ _ _ Hraw E) as ([a|n] & E1 & Hr); [done|]. simpl in Hr. subst n. by apply (C1 i).
    - intros i n m E1 E2. destruct (Forall2_lookup_r _ _ _ _ _ Hraw E1) as ([a|n'] & E1' & Hr); [done|].
      destruct (Forall2_lookup_r _ _ _ _ _ Hraw E2) as ([a|m'] & E2' & Hr2); [done|]. by apply (C2 i n' m'). }
  destruct (build_ok s es R) as (s' & r & E & Hr). destruct (events_exclusive es) as [Hex1 Hex2].
  assert (denotes es 0 td) as Hden by (unfold denotes; by rewrite app_nil_r).
  destruct (Hex1 0 td Hden) as (Hu & Hn1 & Hn2 & Hn3).
  destruct r as [i|[| |]].
  - destruct Hr as (k & td' & Hd' & Hb). destruct (Hu k td' Hd') as [_ ->]. by exists s', i.
  - exfalso. destruct Hr as [_ [?|[l ?]]]; [done|by apply (Hn2 l)].
  - destruct Hr as (_ & td' & post & Hne & Ep). by apply Hn3 in Ep.
  - done.
Qed.

(** ** Other result types *)
Lemma builds_exchange hd hd' s s1 s2 i j td : builds_as hd s s1 i td -> reach s2 -> same_view s1 s2 ->
  (forall n u K', stores s1 K' -> tree_of s1 n = Some u -> is_top K' n -> s_hands s1 !! i = Some (hd n u) -> s_hands s2 = <[j := hd' n u]> (delete i (s_hands s1)) /\ s_hands s !! j = None) ->
  builds_as hd' s s2 j td.
Proof.
  intros [R1 (n & u & t0 & K & K' & Hst & Hst1 & Hi & Hh & Htop & Hs & Hd & Hnew & Htn & Htu & Hall & Hold & Htrees)] R2 V Hx.
  assert (n ∈ rose_nodes t0) as Hn0 by (apply (shape_nodes K' n t0 n Hs); constructor).
  destruct (Hx n u K' Hst1) as [Hh2 Hj]; [by apply Hnew|done|rewrite Hh; apply lookup_insert|].
  constructor; [done|]. exists n, u, t0, K, K'. split; [done|]. split; [by apply V|]. split; [done|].
  split. { rewrite Hh2, Hh. f_equal. by apply delete_insert. }
  split; [done|]. split; [done|]. split. { eapply rose_rel_mono; [|exact Hd]. intros a d E. by rewrite (sv_payload _ _ V). }
  split. { intros y Hy. rewrite (sv_tree _ _ V). by apply Hnew. }
  split; [done|]. split; [done|]. split; [done|]. split.
  { intros y Hy. rewrite (sv_tree _ _ V), (sv_payload _ _ V). by apply Hold. }
  intros w. rewrite (view_alive _ _ w V). apply Htrees.
Qed.

Lemma build_locked_ok s k es : reach s -> k <> Plain -> exists s' r, build_locked s k es = Ret (s', r) /\
  match r with
  | inl i => exists c td, denotes es c td /\ builds_as (fun n _ => HNode k n) s s' i td
  | inr RootNotOpened => unaffected s s' /\ (expand es = [] \/ exists l, expand es = None :: l)
  | inr RootClosed => unaffected s s' /\ exists td post, post <> [] /\ expand es = brackets td ++ post
  | inr BorrowData => False
  end.
Proof.
  intros R Hk. destruct (build_ok s es R) as (s1 & r & E & Hr). unfold build_locked. rewrite E. cbn [mbind run_bind].
  destruct r as [i|e]; [|by exists s1, (inr e)].
  destruct Hr as (c & td & Hden & B). pose proof B as [R1 (n & u & t0 & K & K' & Hst & Hst1 & Hi & Hh & Htop & Hs & Hd & Hnew & Htn & Htu & Hall & Hold & Htrees)].
  assert (n ∈ rose_nodes t0) as Hn0 by (apply (shape_nodes K' n t0 n Hs); constructor).
  assert (s_hands s1 !! i = Some (HNode Plain n)) as Hi1 by (rewrite Hh; apply lookup_insert).
  destruct (reach_effect s1 K' (OpBundle k i) R1 Hst1 ltac:(exact Logic.I)) as (s2 & r2 & E2 & R2 & Ef2); [split; [done|by exists n]|exact (fun F => F)|].
  destruct Ef2 as [(x & t' & Hix & _ & Et' & Hcase)|[[]|[]]].
  assert (x = n) as -> by congruence.
  assert (t' = u) as -> by (destruct (Hnew n Hn0) as (_ & _ & Hu); congruence).
  destruct Hcase as [(_ & j & -> & (V2 & Hj & Hh2))|([m Hlo] & _)].
  - unfold call_hand. rewrite E2. cbn [mbind run_bind]. exists s2, (inl j). split; [done|]. exists c, td. split; [done|].
    eapply builds_exchange; [exact B|exact R2|exact V2|]. intros n' u' K2 _ _ _ Hn'. rewrite Hi1 in Hn'. injection Hn' as <-. split; [done|].
    rewrite Hh in Hj. by apply lookup_insert_None in Hj as [? _].
  - exfalso. destruct Hlo as (a & b & Ha & Hb & Hab). destruct (opposite k) eqn:Eo; [by destruct k|..].
    all: destruct a as [|a]; [destruct b as [|b]; [done|]; apply card_S in Hb as (x & _ & Hx & i' & Hi')|apply card_S in Ha as (x & _ & Hx)].
    all: rewrite Hh in *.
    1,3: (destruct (decide (i' = i)) as [->|Hne]; [rewrite lookup_insert in Hi'; done|]; rewrite lookup_insert_ne in Hi' by done;
        destruct (handle_tree s K i' _ x R Hst Hi') as (w & _ & _ & _ & Ew & [? Hw] & HKx);
        destruct (Hold x HKx) as (_ & _ & Hox); congruence).
    all: (destruct (decide (x = i)) as [->|Hne]; [rewrite lookup_insert in Hx; done|]; rewrite lookup_insert_ne in Hx by done; by apply (Htu x _ Hx)).
Qed.

Lemma builds_to_tree s s1 i td : builds s s1 i td -> exists s2 s3 j,
  call_hand s1 (OpTree i) = Ret (s2, j) /\ drop_opt s2 (Some i) = Ret s3 /\ builds_as (fun _ u => HTree u) s s3 j td.
Proof.
  intros B. pose proof B as [R1 (n & u & t0 & K & K' & Hst & Hst1 & Hi & Hh & Htop & Hs & Hd & Hnew & Htn & Htu & Hall & Hold & Htrees)].
  assert (n ∈ rose_nodes t0) as Hn0 by (apply (shape_nodes K' n t0 n Hs); constructor).
  assert (s_hands s1 !! i = Some (HNode Plain n)) as Hi1 by (rewrite Hh; apply lookup_insert).
  destruct (reach_effect s1 K' (OpTree i) R1 Hst1 ltac:(exact Logic.I)) as (s2 & r2 & E2 & R2 & Ef2); [by exists Plain, n|exact (fun F => F)|].
  destruct Ef2 as [(k & x & t' & j & Hix & Et' & -> & (V2 & Hj & Hh2))|[[]|[]]].
  assert (x = n) as -> by congruence.
  assert (t' = u) as -> by (destruct (Hnew n Hn0) as (_ & _ & Hu); congruence).
  pose proof (sv_stores _ _ V2 K' Hst1) as Hst2.
  assert (j <> i) as Hji by (intros ->; congruence).
  destruct (drop_api s2 K' i (HNode Plain n) u R2 Hst2) as (s3 & E3 & Hh3 & [[_ V3]|[Hnot _]]).
  { rewrite Hh2. by rewrite lookup_insert_ne. } { right. exists Plain, n. by rewrite (sv_tree _ _ V2). }
  2:{ exfalso. apply Hnot. left. exists j. rewrite Hh3, Hh2. rewrite lookup_delete_ne by done. apply lookup_insert. }
  assert (reach s3) as R3 by (eapply reach_step; [exact R2|exact Hst2| |exact E3]; exact Logic.I).
  exists s2, s3, j. unfold call_hand, drop_opt. rewrite E2. split; [done|]. rewrite E3. split; [done|].
  eapply builds_exchange; [exact B|exact R3|by eapply view_trans|]. intros n' u' K2 _ Hu' _ Hn'. rewrite Hi1 in Hn'. injection Hn' as <-. split.
  - rewrite Hh3, Hh2. rewrite delete_insert_ne by done. assert (u' = u) as -> by congruence. done.
  - rewrite Hh in Hj. by apply lookup_insert_None in Hj as [? _].
Qed.

Lemma build_tree_ok s es : reach s -> exists s' r, build_tree s es = Ret (s', r) /\
  match r with
  | inl i => exists c td, denotes es c td /\ builds_as (fun _ u => HTree u) s s' i td
  | inr RootNotOpened => unaffected s s' /\ (expand es = [] \/ exists l, expand es = None :: l)
  | inr RootClosed => unaffected s s' /\ exists td post, post <> [] /\ expand es = brackets td ++ post
  | inr BorrowData => False
  end.
Proof.
  intros R. destruct (build_ok s es R) as (s1 & r & E & Hr). unfold build_tree. rewrite E. cbn [mbind run_bind].
  destruct r as [i|e]; [|by exists s1, (inr e)].
  destruct Hr as (c & td & Hden & B). destruct (builds_to_tree s s1 i td B) as (s2 & s3 & j & E2 & E3 & B3).
  rewrite E2. cbn [mbind run_bind]. rewrite E3. exists s3, (inl j). split; [done|]. by exists c, td.
Qed.

Theorem clone_tree_ok s K x t : reach s -> stores s K -> shape K x t -> exists s' o, clone_tree s x = Ret (s', o) /\
  match o with
  | Some i => (forall y, y ∈ rose_nodes t -> ~ borrowed (s_nodes s) y) /\
      exists td, data_tree (s_nodes s) t td /\ builds_as (fun _ u => HTree u) s s' i td
  | None => (exists y, y ∈ rose_nodes t /\ borrowed (s_nodes s) y) /\ unaffected s s'
  end.
Proof.
  intros R Hst Hs. destruct (clone_ok s K x t R Hst Hs) as (s1 & o & E & Ho). unfold clone_tree. rewrite E. cbn [mbind run_bind].
  destruct o as [i|]; [|by exists s1, None]. destruct Ho as (Hnb & td & Htd & B).
  destruct (builds_to_tree s s1 i td B) as (s2 & s3 & j & E2 & E3 & B3).
  rewrite E2. cbn [mbind run_bind]. rewrite E3. exists s3, (Some j). split; [done|]. split; [done|]. by exists td.
Qed.

(** ** The state of a builder *)
Theorem builder_state s es s' b' : reach s -> b_push_all s b_new es = Ret (s', b', None) ->
  (b_is_root_available b' = true <-> expand es <> []) /\
  (b_is_root_closed b' = true <-> exists td, expand es = brackets td).
Proof.
  intros R E. destruct (reach_stores s R) as [K Hst]. destruct (push_new s K es R Hst) as (s1 & b1 & o & E1 & H).
  rewrite E in E1. injection E1 as <- <- <-. destruct H as [(-> & -> & [[_ He]|[? _]])|(s1 & n & t & p & St & H)]; [|done|].
  - rewrite He. split; (split; [done|]); [done|]. intros [[] ?]. done.
  - destruct (started_top _ _ _ _ _ St) as [Htop Hw].
    inversion H as [s3' K' t0 td k cur c pre0 G3 Hh3 Hr3 Hb3|s3' K' t0 td pre0 G3 Hh3 Hp3 _ Hb3|s3' K' t0 td c q' pre0 G3 Hh3 Hq3 Hb3]; subst.
    + split; simpl.
      * split; [|done]. intros _ He. rewrite He in Hb3. destruct td; done.
      * split; [done|]. intros [td' Hd']. exfalso. rewrite Hd', <-(app_nil_r (brackets td)) in Hb3. apply brackets_parse in Hb3 as [_ Hb3]. done.
    + split; simpl; (split; [|done]); intros _; [|by exists td]. rewrite Hb3. by destruct td.
    + by destruct (proj2 Htop q').
Qed.
End Build8.
