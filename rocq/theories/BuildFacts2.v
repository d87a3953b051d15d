(** * BuildFacts2: the moves of the builder. *)
From Verif Require Import SerialSpec NavFacts SpecFacts RoseFacts EqFacts BracketFacts ApiFacts ApiFacts2 ApiFacts3 ApiFacts6 ApiFacts7 ApiFacts8 BuildFacts Spec.

Section Build2.
Context {T : Type} {ts0 : list (rose nid)} {b0 : lending}.
Local Notation grew := (@BuildFacts.grew T ts0 b0).
Implicit Types (s : sys T) (K : forest) (td : rose T) (hm : gmap nat handle).

(** The handles [hm], the builder's root handle [p] and its current handle [c]. *)
Definition held s hm (p c : nat) (r cur : nid) : Prop :=
  s_hands s = <[c := HNode Hot cur]> (<[p := HNode Plain r]> hm) /\ hm !! p = None /\ hm !! c = None /\ p <> c.
Lemma held_c s hm p c r cur : held s hm p c r cur -> s_hands s !! c = Some (HNode Hot cur).
Proof. intros (-> & _). apply lookup_insert. Qed.
Lemma held_p s hm p c r cur : held s hm p c r cur -> s_hands s !! p = Some (HNode Plain r).
Proof. intros (-> & _ & _ & H). rewrite lookup_insert_ne by done. apply lookup_insert. Qed.
Lemma held_old s hm p c r cur : held s hm p c r cur -> forall j hd, hm !! j = Some hd -> s_hands s !! j = Some hd.
Proof. intros (-> & H1 & H2 & H3) j hd Hj. rewrite !lookup_insert_ne by congruence. done. Qed.

Lemma drop_held s K c p k k' x y : reach s -> stores s K -> s_hands s !! c = Some (HNode k x) -> s_hands s !! p = Some (HNode k' y) ->
  p <> c -> tree_of s x = tree_of s y ->
  exists s', step s (OpDrop c) = Ret (s', OutUnit) /\ reach s' /\ same_view s s' /\ s_hands s' = delete c (s_hands s).
Proof.
  intros H Hst Hc Hp Hne Hxy. destruct (handle_tree s K c k x H Hst Hc) as (t & _ & _ & _ & Et & _).
  destruct (drop_api s K c (HNode k x) t H Hst Hc) as (s' & E & Hh & [[_ V]|[Hn _]]); [right; by exists k, x|..].
  - exists s'. split; [exact E|]. split; [|done]. eapply reach_step; [exact H|exact Hst| |exact E]; exact Logic.I.
  - exfalso. apply Hn. right. exists p, k', y. split; [rewrite Hh; by rewrite lookup_delete_ne|congruence].
Qed.

Lemma grew_tree hm s0 K0 r s K t0 td x : grew hm s0 K0 r s K t0 td -> x ∈ rose_nodes t0 -> tree_of s x = tree_of s r.
Proof.
  intros G Hx. pose proof (g_shape _ _ _ _ _ _ _ _ G) as Hs. apply (full_nodes ts0), (shape_nodes K r _ x Hs) in Hx.
  assert (is_Some (K !! r)) as Hr by (inversion Hs; subst; eauto).
  assert (is_Some (s_nodes s !! r)) as Hn by (by apply (rep_dom _ _ (proj1 (g_stores _ _ _ _ _ _ _ _ G)))).
  destruct (no_garbage s K (g_reach _ _ _ _ _ _ _ _ G) (g_stores _ _ _ _ _ _ _ _ G)) as [Hg _].
  destruct (Hg r Hn) as (t & Et & _). rewrite Et.
  by apply (subtree_tree s K r x t (g_reach _ _ _ _ _ _ _ _ G) (g_stores _ _ _ _ _ _ _ _ G)).
Qed.

Lemma open_ok hm s0 K0 r s K t0 td k cur p c d : grew hm s0 K0 r s K t0 td -> held s hm p c r cur -> rpath k t0 cur ->
  exists s' K' t0' td' n c', b_open s (mkBuilder (Some p) (Some c)) d = Ret (s', mkBuilder (Some p) (Some c'), None) /\
    grew hm s0 K0 r s' K' t0' td' /\ held s' hm p c' r n /\ grown n k t0 t0' /\ grown d k td td' /\
    (forall ks, K !! cur = Some ks -> K' = <[cur := ks ++ [n]]> (<[n := []]> K)) /\ K !! n = None.
Proof.
  intros G Hh Hr. pose proof (g_reach _ _ _ _ _ _ _ _ G) as R. pose proof (g_stores _ _ _ _ _ _ _ _ G) as Hst.
  pose proof (held_c _ _ _ _ _ _ Hh) as Hc. pose proof (rpath_node _ _ _ Hr) as Hin.
  destruct (grew_node _ _ _ _ _ _ _ _ cur G Hin) as [ks Hk].
  destruct (create_child_ok s K (ByHot c) Hot cur ks d R Hst (conj eq_refl Hc) Hk) as [_ (s1 & n & i & t & E & Et & A)].
  assert (reach s1) as R1 by (eapply reach_step; [exact R|exact Hst| |exact E]; exact Logic.I).
  destruct (grew_create _ _ _ _ _ _ _ _ k cur ks t n d Hot i s1 G Hr Hk (held_old _ _ _ _ _ _ Hh) A R1) as (t0' & td' & G1 & Hg & Hgd).
  pose proof (ad_hands _ _ _ _ _ _ _ _ A) as Hh1. pose proof (ad_fresh _ _ _ _ _ _ _ _ A) as Hf.
  assert (i <> c) as Hic by congruence.
  assert (i <> p) as Hip by (intros ->; rewrite (held_p _ _ _ _ _ _ Hh) in Hf; done).
  assert (s_hands s1 !! c = Some (HNode Hot cur)) as Hc1 by (rewrite Hh1; by rewrite lookup_insert_ne).
  assert (s_hands s1 !! i = Some (HNode Hot n)) as Hi1 by (rewrite Hh1; apply lookup_insert).
  destruct (drop_held s1 _ c i Hot Hot cur n R1 (g_stores _ _ _ _ _ _ _ _ G1) Hc1 Hi1 Hic) as (s2 & E2 & R2 & V2 & Hh2).
  { rewrite (grew_tree _ _ _ _ _ _ _ _ cur G1), (grew_tree _ _ _ _ _ _ _ _ n G1); [done|..]; apply (grown_nodes n k t0 t0' Hg); [by left|by right]. }
  exists s2, (<[cur := ks ++ [n]]> (<[n := []]> K)), t0', td', n, i. split.
  { unfold b_open, call_hand, drop_opt. cbn [b_root b_cur]. rewrite E. cbn [mbind run_bind]. rewrite E2. done. }
  split; [by eapply grew_view|]. split.
  - destruct Hh as (Hh & H1 & H2 & H3). split; [|split; [done|split; [|done]]].
    + rewrite Hh2, Hh1, Hh. rewrite delete_insert_ne by done. rewrite delete_insert; [done|]. by rewrite lookup_insert_ne.
    + rewrite Hh in Hf. rewrite !lookup_insert_ne in Hf by done. done.
  - split; [done|]. split; [done|]. split; [intros ks' Hk'; congruence|]. destruct (K !! n) eqn:En; [|done].
    assert (is_Some (s_nodes s !! n)) as [? En2] by (apply (rep_dom _ _ (proj1 Hst)); eauto). rewrite (ad_new _ _ _ _ _ _ _ _ A) in En2. done.
Qed.

Lemma nav_hot_step s K hm p c r cur y s1 j : reach s -> stores s K -> held s hm p c r cur -> step s (OpNav NParent c) = Ret (s1, OutHandle j) ->
  gives s s1 j (HNode Hot y) -> tree_of s cur = tree_of s r ->
  exists s2, step s1 (OpDrop c) = Ret (s2, OutUnit) /\ reach s2 /\ same_view s s2 /\ held s2 hm p j r y.
Proof.
  intros R Hst Hh E (V1 & Hf & Hh1) Ht.
  assert (reach s1) as R1 by (eapply reach_step; [exact R|exact Hst| |exact E]; exact Logic.I).
  pose proof (held_c _ _ _ _ _ _ Hh) as Hc. pose proof (held_p _ _ _ _ _ _ Hh) as Hp.
  assert (j <> c /\ j <> p) as [Hjc Hjp] by (split; intros ->; congruence).
  destruct (drop_held s1 K c p Hot Plain cur r R1 (sv_stores _ _ V1 K Hst)) as (s2 & E2 & R2 & V2 & Hh2).
  { rewrite Hh1. by rewrite lookup_insert_ne. }
  { rewrite Hh1. by rewrite lookup_insert_ne. }
  { by destruct Hh as (_ & _ & _ & ?). }
  { by rewrite !(sv_tree _ _ V1). }
  exists s2. split; [exact E2|]. split; [exact R2|]. split.
  { constructor.
    - intros K1 H1. by apply V2, V1.
    - intros x. by rewrite (sv_tree _ _ V2), (sv_tree _ _ V1).
    - intros x. by rewrite (sv_payload _ _ V2), (sv_payload _ _ V1).
    - intros u. by rewrite (sv_trees _ _ V2), (sv_trees _ _ V1). }
  destruct Hh as (Hh & H1 & H2 & H3). split; [|split; [done|split; [|done]]].
  - rewrite Hh2, Hh1, Hh. rewrite delete_insert_ne by done. rewrite delete_insert; [done|]. by rewrite lookup_insert_ne.
  - rewrite Hh in Hf. rewrite !lookup_insert_ne in Hf by done. done.
Qed.

Lemma up_ok hm s0 K0 r s K t0 td k cur p c : grew hm s0 K0 r s K t0 td -> held s hm p c r cur -> rpath (S k) t0 cur ->
  hand_ptr_eq s c p = Ret false /\
  exists s1 s2 c' cur', step s (OpNav NParent c) = Ret (s1, OutHandle c') /\ step s1 (OpDrop c) = Ret (s2, OutUnit) /\
    grew hm s0 K0 r s2 K t0 td /\ held s2 hm p c' r cur' /\ rpath k t0 cur'.
Proof.
  intros G Hh Hr. pose proof (g_reach _ _ _ _ _ _ _ _ G) as R. pose proof (g_stores _ _ _ _ _ _ _ _ G) as Hst.
  pose proof (g_shape _ _ _ _ _ _ _ _ G) as Hs. pose proof (held_c _ _ _ _ _ _ Hh) as Hc. split.
  { unfold hand_ptr_eq. rewrite Hc, (held_p _ _ _ _ _ _ Hh). rewrite bool_decide_eq_false_2; [done|].
    eapply rpath_not_root; [apply Hst|exact Hs|exact (full_rpath ts0 _ _ _ Hr)]. }
  destruct (rpath_parent K k r _ cur Hs (full_rpath ts0 _ _ _ Hr)) as (q & Hq & Hch).
  destruct (rpath_pred k t0 cur Hr) as [q' Hq']. apply (full_rpath_inv ts0 k t0 q' q Hq') in Hq.
  destruct (nav_api s K NParent c Hot cur R Hst Hc) as ([y|] & Hn & Hstep); simpl in Hn.
  - assert (y = q) as -> by (by eapply (wf_uniq K); [apply Hst|..]).
    destruct Hstep as (s1 & j & E & Gv).
    destruct (nav_hot_step s K hm p c r cur q s1 j R Hst Hh E Gv) as (s2 & E2 & R2 & V & H2).
    { apply (grew_tree _ _ _ _ _ _ _ _ cur G). by eapply rpath_node. }
    exists s1, s2, j, q. split; [exact E|]. split; [exact E2|]. split; [by eapply grew_view|]. done.
  - exfalso. by apply (proj2 Hn q).
Qed.

Lemma close_up_ok hm s0 K0 r p : forall j s K t0 td k cur c, grew hm s0 K0 r s K t0 td -> held s hm p c r cur -> rpath k t0 cur ->
  exists s' c' cur', grew hm s0 K0 r s' K t0 td /\ held s' hm p c' r cur' /\
    close_up j s (Some p) c = Ret (s', c', bool_decide (j <= k)) /\ rpath (k - j) t0 cur'.
Proof.
  induction j as [|j IH]; intros s K t0 td k cur c G Hh Hr; cbn [close_up].
  - exists s, c, cur. split; [done|]. split; [done|]. split; [|by rewrite Nat.sub_0_r].
    by rewrite bool_decide_eq_true_2 by lia.
  - destruct k as [|k].
    + assert (cur = r) as ->.
      { pose proof (g_shape _ _ _ _ _ _ _ _ G) as Hs. inversion Hr; subst. by apply full_root in Hs. }
      exists s, c, r. split; [done|]. split; [done|]. split; [|done].
      unfold hand_ptr_eq. rewrite (held_c _ _ _ _ _ _ Hh), (held_p _ _ _ _ _ _ Hh). cbn [mbind run_bind].
      by rewrite bool_decide_eq_true_2, bool_decide_eq_false_2 by (done || lia).
    + destruct (up_ok _ _ _ _ _ _ _ _ k cur p c G Hh Hr) as (Ep & s1 & s2 & c' & cur' & E1 & E2 & G2 & Hh2 & Hr2).
      destruct (IH s2 K t0 td k cur' c' G2 Hh2 Hr2) as (s3 & c3 & cur3 & G3 & Hh3 & E3 & Hr3).
      exists s3, c3, cur3. split; [done|]. split; [done|]. split; [|done].
      rewrite Ep. cbn [mbind run_bind]. rewrite E1. cbn [mbind run_bind drop_opt]. rewrite E2. cbn [mbind run_bind]. rewrite E3. do 2 f_equal.
      apply bool_decide_ext. lia.
Qed.

(** What [close] does when it stays in the tree, ends it, or goes too far. *)
Lemma close_ok hm s0 K0 r p s K t0 td k cur c j : grew hm s0 K0 r s K t0 td -> held s hm p c r cur -> rpath k t0 cur ->
  (j < k -> exists s' c' cur', b_close s (mkBuilder (Some p) (Some c)) (S j) = Ret (s', mkBuilder (Some p) (Some c'), None) /\
     grew hm s0 K0 r s' K t0 td /\ held s' hm p c' r cur' /\ rpath (k - S j) t0 cur') /\
  (j = k -> is_top K r -> exists s', b_close s (mkBuilder (Some p) (Some c)) (S j) = Ret (s', mkBuilder (Some p) None, None) /\
     grew hm s0 K0 r s' K t0 td /\ s_hands s' = <[p := HNode Plain r]> hm /\ hm !! p = None) /\
  (j = k -> forall q, child_of K q r -> exists s' c', b_close s (mkBuilder (Some p) (Some c)) (S j) = Ret (s', mkBuilder (Some p) (Some c'), None) /\
     grew hm s0 K0 r s' K t0 td /\ held s' hm p c' r q) /\
  (k < j -> exists s' c', b_close s (mkBuilder (Some p) (Some c)) (S j) = Ret (s', mkBuilder (Some p) (Some c'), Some RootClosed) /\
     grew hm s0 K0 r s' K t0 td /\ held s' hm p c' r r).
Proof.
  intros G Hh Hr. destruct (close_up_ok hm s0 K0 r p j s K t0 td k cur c G Hh Hr) as (s1 & c1 & cur1 & G1 & Hh1 & E1 & Hr1).
  assert (b_close s (mkBuilder (Some p) (Some c)) (S j) = ('(s1, c1, ok) ← close_up j s (Some p) c;
          if (ok : bool) then
            '(s2, o) ← step s1 (OpNav NParent c1);
            s3 ← drop_opt s2 (Some c1);
            match o with
            | OutHandle i => Ret (s3, mkBuilder (Some p) (Some i), None)
            | OutNone => Ret (s3, mkBuilder (Some p) None, None)
            | _ => Panic
            end
          else Ret (s1, mkBuilder (Some p) (Some c1), Some RootClosed))) as -> by done.
  rewrite E1. cbn [mbind run_bind].
  pose proof (g_reach _ _ _ _ _ _ _ _ G1) as R1. pose proof (g_stores _ _ _ _ _ _ _ _ G1) as Hst1.
  pose proof (g_shape _ _ _ _ _ _ _ _ G1) as Hs.
  assert (forall m, rpath 0 t0 m -> m = r) as Hroot by (intros m Hm; inversion Hm; subst; by apply full_root in Hs).
  split; [|split; [|split]].
  - intros Hlt. rewrite bool_decide_eq_true_2 by lia. replace (k - j) with (S (k - S j)) in Hr1 by lia.
    destruct (up_ok _ _ _ _ _ _ _ _ _ cur1 p c1 G1 Hh1 Hr1) as (_ & s2 & s3 & c' & cur' & E2 & E3 & G3 & Hh3 & Hr3).
    exists s3, c', cur'. split; [|done]. rewrite E2. cbn [mbind run_bind drop_opt]. rewrite E3. done.
  - intros -> Htop. rewrite bool_decide_eq_true_2 by lia. rewrite Nat.sub_diag in Hr1. apply Hroot in Hr1 as ->.
    destruct (nav_api s1 K NParent c1 Hot r R1 Hst1 (held_c _ _ _ _ _ _ Hh1)) as ([y|] & Hn & Hstep); simpl in Hn.
    { exfalso. by apply (proj2 Htop y). }
    destruct (drop_held s1 K c1 p Hot Plain r r R1 Hst1 (held_c _ _ _ _ _ _ Hh1) (held_p _ _ _ _ _ _ Hh1)) as (s2 & E2 & R2 & V2 & Hh2); [by destruct Hh1 as (_ & _ & _ & ?)|done|].
    exists s2. split. { rewrite Hstep. cbn [mbind run_bind drop_opt]. rewrite E2. done. }
    split; [by eapply grew_view|]. destruct Hh1 as (Hh1 & H1 & H2 & H3). split; [|done].
    rewrite Hh2, Hh1. apply delete_insert. by rewrite lookup_insert_ne.
  - intros -> q Hq. rewrite bool_decide_eq_true_2 by lia. rewrite Nat.sub_diag in Hr1. apply Hroot in Hr1 as ->.
    destruct (nav_api s1 K NParent c1 Hot r R1 Hst1 (held_c _ _ _ _ _ _ Hh1)) as ([y|] & Hn & Hstep); simpl in Hn.
    2:{ exfalso. by apply (proj2 Hn q). }
    assert (y = q) as -> by (by eapply (wf_uniq K); [apply Hst1|..]).
    destruct Hstep as (s2 & i & E & Gv).
    destruct (nav_hot_step s1 K hm p c1 r r q s2 i R1 Hst1 Hh1 E Gv eq_refl) as (s3 & E3 & R3 & V & H3).
    exists s3, i. split. { rewrite E. cbn [mbind run_bind drop_opt]. rewrite E3. done. }
    split; [by eapply grew_view|done].
  - intros Hlt. rewrite bool_decide_eq_false_2 by lia. replace (k - j) with 0 in Hr1 by lia. apply Hroot in Hr1 as ->.
    exists s1, c1. done.
Qed.
End Build2.
