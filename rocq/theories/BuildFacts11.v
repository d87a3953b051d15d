(** * BuildFacts11: the macros. *)
From Verif Require Import Serial2Spec NavFacts SpecFacts RoseFacts EqFacts BracketFacts ApiFacts ApiFacts2 ApiFacts3 ApiFacts6 ApiFacts7 ApiFacts8 BuildFacts BuildFacts2 BuildFacts3 BuildFacts4 BuildFacts8 Spec.

(** The roses [us] appended to the children of the node at depth [k] of the last path. *)
Inductive adds_at {A} (us : list (rose A)) : nat -> rose A -> rose A -> Prop :=
| adds_at_0 x ts : adds_at us 0 (Rose x ts) (Rose x (ts ++ us))
| adds_at_S k x ts t t' : adds_at us k t t' -> adds_at us (S k) (Rose x (ts ++ [t])) (Rose x (ts ++ [t'])).

Lemma grown_adds {A} (n : A) k t t' : grown n k t t' -> adds_at [Rose n []] k t t'.
Proof. induction 1; by constructor. Qed.
Lemma adds_at_S_inv {A} us k x ts (t : rose A) t2 : adds_at us (S k) (Rose x (ts ++ [t])) t2 ->
  exists t', t2 = Rose x (ts ++ [t']) /\ adds_at us k t t'.
Proof.
  intros H. inversion H as [|k' x' ts' u u' Hu]; subst. apply app_inj_tail in H2 as [-> ->]. eauto.
Qed.
Lemma adds_at_app {A} us vs k (t t1 t2 : rose A) : adds_at us k t t1 -> adds_at vs k t1 t2 -> adds_at (us ++ vs) k t t2.
Proof.
  intros H. revert t2. induction H as [x ts|k x ts t t' H IH]; intros t2 H2.
  - inversion H2; subst. rewrite <-app_assoc. constructor.
  - apply adds_at_S_inv in H2 as (t3 & -> & H2). constructor. by apply IH.
Qed.
Lemma adds_at_nil {A} k (t : rose A) x : rpath k t x -> adds_at [] k t t.
Proof.
  induction 1 as [x ts|k x ts t c H IH]; [|by constructor].
  pose proof (adds_at_0 [] x ts) as H. by rewrite app_nil_r in H.
Qed.
Lemma grown_adds_at {A} (n : A) us k t t1 t2 : grown n k t t1 -> adds_at us (S k) t1 t2 -> adds_at [Rose n us] k t t2.
Proof.
  intros H. revert t2. induction H as [x ts|k x ts t t' H IH]; intros t2 H2; apply adds_at_S_inv in H2 as (t3 & -> & H2).
  - inversion H2; subst. constructor.
  - constructor. by apply IH.
Qed.

Section Build11.
Context {T : Type}.
Local Notation grew := (@BuildFacts.grew T [] (Lent 0)).
Local Notation phase := (@BuildFacts3.phase T [] (Lent 0)).
Implicit Types (s : sys T) (K : forest) (td : rose T) (hm : gmap nat handle).

Fixpoint item_rect' (P : item T -> Prop) (HL : forall d, P (ILeaf d)) (HN : forall d l, Forall P l -> P (INode d l)) (it : item T) : P it :=
  match it with
  | ILeaf d => HL d
  | INode d l => HN d l ((fix go l : Forall P l := match l with [] => Forall_nil_2 P | x :: l' => Forall_cons_2 P x l' (item_rect' P HL HN x) (go l') end) l)
  end.

(** What running a piece of the macro on the handle [c] does. *)
Definition piece (f : sys T -> nat -> run (sys T)) (us : list (rose T)) : Prop :=
  forall hm s0 K0 r s K t0 td k cur c, grew hm s0 K0 r s K t0 td -> rpath k t0 cur -> s_hands s !! c = Some (HNode Hot cur) ->
    (forall j hd, hm !! j = Some hd -> s_hands s !! j = Some hd) ->
    exists s' K' t0' td', f s c = Ret s' /\ grew hm s0 K0 r s' K' t0' td' /\ s_hands s' = s_hands s /\ adds_at us k td td' /\
      (forall j y, j <= k -> rpath j t0 y -> rpath j t0' y).

Lemma create_piece hm s0 K0 r s K t0 td k cur c d : grew hm s0 K0 r s K t0 td -> rpath k t0 cur -> s_hands s !! c = Some (HNode Hot cur) ->
  (forall j hd, hm !! j = Some hd -> s_hands s !! j = Some hd) ->
  exists s1 K1 t1 td1 i n, call_hand s (OpCreate (ByHot c) d ALastChild) = Ret (s1, i) /\ grew hm s0 K0 r s1 K1 t1 td1 /\
    s_hands s !! i = None /\ s_hands s1 = <[i := HNode Hot n]> (s_hands s) /\ grown n k t0 t1 /\ grown d k td td1.
Proof.
  intros G Hr Hc Hold. pose proof (g_reach _ _ _ _ _ _ _ _ G) as R. pose proof (g_stores _ _ _ _ _ _ _ _ G) as Hst.
  pose proof (rpath_node _ _ _ Hr) as Hin. destruct (grew_node _ _ _ _ _ _ _ _ cur G Hin) as [ks Hk].
  destruct (create_child_ok s K (ByHot c) Hot cur ks d R Hst (conj eq_refl Hc) Hk) as [_ (s1 & n & i & t & E & Et & A)].
  assert (reach s1) as R1 by (eapply reach_step; [exact R|exact Hst| |exact E]; exact Logic.I).
  destruct (grew_create _ _ _ _ _ _ _ _ k cur ks t n d Hot i s1 G Hr Hk Hold A R1) as (t0' & td' & G1 & Hg & Hgd).
  exists s1, (<[cur := ks ++ [n]]> (<[n := []]> K)), t0', td', i, n. unfold call_hand. rewrite E. split; [done|].
  split; [exact G1|]. split; [exact (ad_fresh _ _ _ _ _ _ _ _ A)|]. split; [exact (ad_hands _ _ _ _ _ _ _ _ A)|]. done.
Qed.

Lemma drop_piece hm s0 K0 r s s1 K1 t1 td1 k cur c i n : grew hm s0 K0 r s1 K1 t1 td1 -> rpath k t1 cur -> rpath (S k) t1 n ->
  s_hands s !! c = Some (HNode Hot cur) -> s_hands s !! i = None -> s_hands s1 = <[i := HNode Hot n]> (s_hands s) ->
  exists s2, drop_opt s1 (Some i) = Ret s2 /\ grew hm s0 K0 r s2 K1 t1 td1 /\ s_hands s2 = s_hands s.
Proof.
  intros G Hr Hn Hc Hi Hh. pose proof (g_reach _ _ _ _ _ _ _ _ G) as R. pose proof (g_stores _ _ _ _ _ _ _ _ G) as Hst.
  assert (i <> c) as Hic by congruence.
  destruct (drop_held s1 K1 i c Hot Hot n cur R Hst) as (s2 & E2 & R2 & V2 & Hh2).
  { rewrite Hh. apply lookup_insert. } { rewrite Hh. by rewrite lookup_insert_ne. } { done. }
  { rewrite (grew_tree _ _ _ _ _ _ _ _ cur G), (grew_tree _ _ _ _ _ _ _ _ n G); [done|..]; by eapply rpath_node. }
  exists s2. unfold drop_opt. rewrite E2. split; [done|]. split; [by eapply grew_view|]. rewrite Hh2, Hh. by apply delete_insert.
Qed.

Lemma items_piece (l : list (item T)) : Forall (fun it => piece (fun s c => macro_item s c it) [written it]) l ->
  piece (fun s c => macro_items s c l) (map written l).
Proof.
  induction 1 as [|it l Hit Hl IH]; intros hm s0 K0 r s K t0 td k cur c G Hr Hc Hold; simpl.
  - exists s, K, t0, td. split; [done|]. split; [done|]. split; [done|]. split; [|done].
    destruct (rpath_rel _ k t0 td cur (g_data0 _ _ _ _ _ _ _ _ G) Hr) as [d Hd]. by eapply adds_at_nil.
  - destruct (Hit hm s0 K0 r s K t0 td k cur c G Hr Hc Hold) as (s1 & K1 & t1 & td1 & E1 & G1 & Hh1 & A1 & P1).
    destruct (IH hm s0 K0 r s1 K1 t1 td1 k cur c G1) as (s2 & K2 & t2 & td2 & E2 & G2 & Hh2 & A2 & P2).
    { by apply P1. } { by rewrite Hh1. } { by rewrite Hh1. }
    exists s2, K2, t2, td2. rewrite E1. cbn [mbind run_bind]. rewrite E2. split; [done|]. split; [done|].
    split; [congruence|]. split; [|auto]. by apply (adds_at_app [written it] (map written l) k td td1 td2).
Qed.

Lemma inner_items c : forall l s, (fix go s l := match l with [] => Ret s | it :: l' => s' ← macro_item s c it; go s' l' end) s l = macro_items s c l.
Proof. induction l as [|it l IH]; intros s; [done|]. simpl. destruct (macro_item s c it) as [s'| |]; [|done|done]. cbn [mbind run_bind]. apply IH. Qed.

Lemma item_piece (it : item T) : piece (fun s c => macro_item s c it) [written it].
Proof.
  induction it as [d|d l IH] using item_rect'; intros hm s0 K0 r s K t0 td k cur c G Hr Hc Hold;
    destruct (create_piece hm s0 K0 r s K t0 td k cur c d G Hr Hc Hold) as (s1 & K1 & t1 & td1 & i & n & E1 & G1 & Hi & Hh1 & Hg & Hgd).
  - destruct (drop_piece hm s0 K0 r s s1 K1 t1 td1 k cur c i n G1) as (s2 & E2 & G2 & Hh2); [by eapply grown_rpath_old|by eapply grown_rpath|done|done|done|].
    exists s2, K1, t1, td1. cbn [macro_item]. rewrite E1. cbn [mbind run_bind]. split; [exact E2|]. split; [done|]. split; [done|].
    split; [by apply grown_adds|]. intros j y Hj Hy. by eapply grown_rpath_old.
  - destruct (items_piece l IH hm s0 K0 r s1 K1 t1 td1 (S k) n i G1) as (s2 & K2 & t2 & td2 & E2 & G2 & Hh2 & A2 & P2).
    { by eapply grown_rpath. } { rewrite Hh1. apply lookup_insert. }
    { intros j hd Hj. rewrite Hh1. rewrite lookup_insert_ne; [by apply Hold|]. intros ->. apply Hold in Hj. congruence. }
    destruct (drop_piece hm s0 K0 r s s2 K2 t2 td2 k cur c i n G2) as (s3 & E3 & G3 & Hh3).
    { apply P2; [lia|]. by eapply grown_rpath_old. } { apply P2; [lia|]. by eapply grown_rpath. } { done. } { done. } { congruence. }
    exists s3, K2, t2, td2. cbn [macro_item]. rewrite E1. cbn [mbind run_bind]. rewrite inner_items. cbn beta in E2. rewrite E2. cbn [mbind run_bind].
    split; [exact E3|]. split; [done|]. split; [done|]. split; [by eapply grown_adds_at|].
    intros j y Hj Hy. apply P2; [lia|]. by eapply grown_rpath_old.
Qed.

Lemma macro_items_piece (l : list (item T)) : piece (fun s c => macro_items s c l) (map written l).
Proof. apply items_piece, Forall_forall. intros it _. apply item_piece. Qed.

(** The new tree of the macro: [b_open] does the same and adds a plain handle. *)
Lemma macro_start s K d : reach s -> stores s K ->
  exists s1 i s2 c n t, call_hand s (OpNewTree d) = Ret (s1, i) /\ call_hand s1 (OpBundle Hot i) = Ret (s2, c) /\
    started s K s1 n t /\ grew (s_hands s) s1 (<[n := []]> K) n s1 (<[n := []]> K) (Rose n []) (Rose d []) /\
    s_hands s !! i = None /\ s_hands s1 = <[i := HNode Plain n]> (s_hands s) /\
    started s K s2 n t /\ grew (s_hands s) s2 (<[n := []]> K) n s2 (<[n := []]> K) (Rose n []) (Rose d []) /\
    s_hands s !! c = None /\ s_hands s2 = <[c := HNode Hot n]> (s_hands s).
Proof.
  intros H Hst.
  destruct (reach_effect s K (OpNewTree d) H Hst ltac:(exact Logic.I)) as (s1 & r1 & E1 & R1 & Ef1); [exact Logic.I|exact (fun F => F)|].
  destruct Ef1 as [[]|[[]|(n & t & i & -> & Ht & Hun & Hut & Hn & Hi & Hh1 & Hst1 & Hp1 & Ht1 & Ho1 & Hts)]].
  assert (K !! n = None) as HKn.
  { destruct (K !! n) eqn:E; [|done]. destruct (proj2 (alive_known s K n Hst)) as [? ?]; [eauto|congruence]. }
  assert (s_hands s1 !! i = Some (HNode Plain n)) as Hi1 by (rewrite Hh1; apply lookup_insert).
  assert (started s K s1 n t) as Hst0.
  { constructor.
    - exact H. - exact Hst. - exact HKn. - exact Hun. - exact Ht. - exact Hut.
    - exact Ht1.
    - intros y Hy. by apply Ho1.
    - intros u. apply Hts. }
  assert (shape (<[n := []]> K) n (Rose n [])) as Hsh by (constructor; [by rewrite lookup_insert|constructor]).
  assert (grew (s_hands s) s1 (<[n := []]> K) n s1 (<[n := []]> K) (Rose n []) (Rose d [])) as G1.
  { constructor.
    - exact R1.
    - exact Hst1.
    - exact Hsh.
    - constructor; [|constructor]. case_decide; exact Hp1.
    - rewrite lookup_insert. eauto.
    - done.
    - intros y Hy. left. simpl in Hy. set_solver.
    - by left.
    - done.
    - done.
    - intros y Hy. left. simpl in Hy. set_solver.
    - done. }
  destruct (reach_effect s1 _ (OpBundle Hot i) R1 Hst1 ltac:(exact Logic.I)) as (s2 & r2 & E2 & R2 & Ef2); [split; [done|by exists n]|exact (fun F => F)|].
  destruct Ef2 as [(x & t' & Hix & _ & Et' & Hcase)|[[]|[]]].
  assert (x = n /\ t' = t) as [-> ->] by (split; congruence).
  destruct Hcase as [(_ & j & -> & (V2 & Hj & Hh2))|([m Hlo] & _)].
  2:{ exfalso. destruct Hlo as (a & b & Ha & Hb & Hab).
      destruct (no_garbage s K H Hst) as [Hg1 Hg2].
      destruct a as [|a].
      - destruct b as [|b]; [done|]. apply card_zero in Hb as (x & _ & Hx & i' & Hi'). simpl in Hi'. rewrite Hh1 in Hi'.
        destruct (decide (i' = i)) as [->|Hne]; [rewrite lookup_insert in Hi'; done|]. rewrite lookup_insert_ne in Hi' by done.
        destruct (handle_tree s K i' Frozen x H Hst Hi') as (u & _ & _ & _ & Eu & [? Hu] & HKx).
        assert (x <> n) as Hxn by (intros ->; rewrite HKn in HKx; by destruct HKx).
        rewrite (proj2 (Ho1 x Hxn)) in Hx. congruence.
      - apply card_zero in Ha as (x & _ & Hx). simpl in Hx. rewrite Hh1 in Hx.
        destruct (decide (x = i)) as [->|Hne]; [rewrite lookup_insert in Hx; done|]. rewrite lookup_insert_ne in Hx by done.
        by apply (Hut x _ Hx). }
  exists s1, i, s2, j, n, t. unfold call_hand. rewrite E1, E2. split; [done|]. split; [done|]. split; [exact Hst0|]. split; [exact G1|].
  split; [done|]. split; [done|].
  assert (j <> i) as Hji by (intros ->; congruence).
  assert (grew (s_hands s) s1 (<[n := []]> K) n s2 (<[n := []]> K) (Rose n []) (Rose d [])) as G2 by (by eapply grew_view).
  split; [|split; [|split]].
  - constructor.
    + exact H. + exact Hst. + exact HKn. + exact Hun. + exact Ht. + exact Hut.
    + rewrite (sv_tree _ _ V2). exact Ht1.
    + intros y Hy. rewrite (sv_tree _ _ V2), (sv_payload _ _ V2). by apply Ho1.
    + intros u. rewrite (view_alive _ _ u V2). apply Hts.
  - destruct G2. constructor; try assumption; done.
  - rewrite Hh1 in Hj. by rewrite lookup_insert_ne in Hj.
  - rewrite Hh2, Hh1. f_equal. by apply delete_insert.
Qed.

Theorem tree_node_macro_ok s d l : reach s -> exists s' i, tree_node_macro s d l = Ret (s', i) /\ builds s s' i (written_root d l).
Proof.
  intros H. destruct (reach_stores s H) as [K Hst].
  destruct (macro_start s K d H Hst) as (s1 & i & s2 & c & n & t & E1 & E2 & St1 & G1 & Hi & Hh1 & St2 & G2 & Hc & Hh2).
  destruct l as [l|]; unfold tree_node_macro, written_root.
  - rewrite E1. cbn [mbind run_bind]. rewrite E2. cbn [mbind run_bind].
    destruct (macro_items_piece l (s_hands s) s2 _ n s2 _ _ _ 0 n c G2) as (s3 & K3 & t3 & td3 & E3 & G3 & Hh3 & A3 & P3).
    { constructor. } { rewrite Hh2. apply lookup_insert. } { intros j hd Hj. rewrite Hh2. rewrite lookup_insert_ne; [done|]. intros ->. congruence. }
    cbn beta in E3. rewrite E3. cbn [mbind run_bind].
    inversion A3; subst. simpl in G3. pose proof (g_reach _ _ _ _ _ _ _ _ G3) as R3. pose proof (g_stores _ _ _ _ _ _ _ _ G3) as Hst3.
    assert (s_hands s3 !! c = Some (HNode Hot n)) as Hc3 by (rewrite Hh3, Hh2; apply lookup_insert).
    destruct (reach_effect s3 _ (OpPlain c) R3 Hst3 ltac:(exact Logic.I)) as (s4 & r4 & E4 & R4 & Ef4); [exists Hot, n; split; [done|exact Hc3]|exact (fun F => F)|].
    destruct Ef4 as [(k & x & p & Hjx & _ & -> & (V4 & Hp & Hh4))|[[]|[]]].
    assert (x = n) as -> by congruence. assert (call_hand s3 (OpPlain c) = Ret (s4, p)) as E4' by (unfold call_hand; by rewrite E4).
    rewrite E4'. cbn [mbind run_bind].
    pose proof (grew_view _ _ _ _ _ _ _ _ s4 G3 V4 R4) as G4.
    assert (p <> c) as Hpc by congruence.
    destruct (drop_held s4 K3 c p Hot Plain n n R4 (g_stores _ _ _ _ _ _ _ _ G4)) as (s5 & E5 & R5 & V5 & Hh5).
    { rewrite Hh4. by rewrite lookup_insert_ne. } { rewrite Hh4. apply lookup_insert. } { done. } { done. }
    assert (drop_opt s4 (Some c) = Ret s5) as E5' by (unfold drop_opt; by rewrite E5).
    exists s5, p. rewrite E5'. cbn [mbind run_bind]. split; [done|].
    assert (s_hands s !! p = None) as Hps.
    { rewrite Hh3, Hh2 in Hp. by rewrite lookup_insert_ne in Hp. }
    eapply grew_builds; [exact St2|eapply grew_view; [exact G4|exact V5|exact R5]|exact Hps|].
    rewrite Hh5, Hh4, Hh3, Hh2. rewrite delete_insert_ne by done. f_equal. by apply delete_insert.
  - exists s1, i. split; [done|]. eapply grew_builds; [exact St1|exact G1|exact Hi|exact Hh1].
Qed.

Theorem tree_macro_ok s d l : reach s -> exists s' j, tree_macro s d l = Ret (s', j) /\ builds_as (fun _ u => HTree u) s s' j (written_root d l).
Proof.
  intros H. destruct (tree_node_macro_ok s d l H) as (s1 & i & E1 & B). destruct (builds_to_tree s s1 i _ B) as (s2 & s3 & j & E2 & E3 & B3).
  unfold tree_macro. rewrite E1. cbn [mbind run_bind]. rewrite E2. cbn [mbind run_bind]. rewrite E3. by exists s3, j.
Qed.
End Build11.
