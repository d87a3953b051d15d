(** * UndoFacts: adding a node and taking it out again changes nothing else. *)
From Verif Require Import Heap Edit System SysSpec SpecFacts NavFacts EditFacts2 SysFacts5 SysFacts7 ApiSpec ApiFacts ApiFacts2 ApiFacts3 ApiFacts6 ApiFacts7 BuildFacts15 UndoSpec Spec.

Section UndoFacts.
Context {T : Type}.
Implicit Types (s : sys T) (K : forest) (x : nid) (t : tid).

(** Trees with the same nodes have the same roots. *)
Lemma roots_same s s' K K' u : inv s K -> inv s' K' ->
  (forall r, is_top K r -> tree_of s r = Some u -> is_top K' r /\ tree_of s' r = Some u) ->
  (is_Some (s_trees s' !! u) -> is_Some (s_trees s !! u)) -> t_root <$> s_trees s' !! u = t_root <$> s_trees s !! u.
Proof.
  intros I I' Ht Hs. destruct (s_trees s !! u) as [tr|] eqn:E.
  - destruct (s_root _ _ (i_s _ _ I) _ _ E) as [A B]. destruct (Ht _ A B) as [C D].
    destruct (s_top _ _ (i_s _ _ I') _ C) as (t2 & tr2 & E2 & F & G). assert (t2 = u) as -> by congruence. rewrite F. simpl. by rewrite G.
  - destruct (s_trees s' !! u) as [tr|] eqn:E'; [|done]. exfalso. destruct Hs as [? ?]; [eauto|]. congruence.
Qed.

Lemma no_child_new s K n p : stores s K -> s_nodes s !! n = None -> ~ child_of K p n.
Proof.
  intros [R W] Hn Hc. pose proof (wf_dom _ W _ _ Hc) as Hd. apply (rep_dom _ _ R) in Hd as [? Hd]. congruence.
Qed.
Lemma new_none s K n : stores s K -> s_nodes s !! n = None -> K !! n = None.
Proof.
  intros [R _] Hn. destruct (K !! n) eqn:E; [|done]. assert (is_Some (s_nodes s !! n)) as [? ?]; [|congruence]. apply (rep_dom _ _ R). eauto.
Qed.

(** The general argument: [n] was added to the tree [t] of [x], and then split off. *)
Lemma set_apart_ok s s1 s2 K K1 K2 t t' n d k i x j kx : reach s -> stores s K -> s_hands s !! j = Some (HNode kx x) -> tree_of s x = Some t ->
  adds s s1 K1 t n d k i -> reach s2 -> splits s1 (<[n := []]> K) n t t' s2 K2 -> set_apart s K n d k i t' s2.
Proof.
  intros Hr Hst Hj Ex A Hr2 S.
  pose proof (ad_new _ _ _ _ _ _ _ _ A) as Hn. pose proof (ad_fresh _ _ _ _ _ _ _ _ A) as Hi.
  pose proof (sp_carries _ _ _ _ _ _ _ S) as C.
  assert (Hh : s_hands s2 = <[i := HNode k n]> (s_hands s)) by (rewrite (cy_hands _ _ _ _ _ _ _ C); apply (ad_hands _ _ _ _ _ _ _ _ A)).
  pose proof (reach_stores_inv _ _ Hr Hst) as I. pose proof (reach_stores_inv _ _ Hr2 (sp_stores _ _ _ _ _ _ _ S)) as I2.
  assert (Hxn : x <> n). { intros ->. destruct (handle_alive _ _ _ _ _ I Hj). congruence. }
  assert (Hb : forall y, below (<[n := []]> K) n y -> y = n). { intros y Hb. eapply below_leaf; [|exact Hb]. by rewrite lookup_insert. }
  assert (Hji : s_hands s2 !! j = Some (HNode kx x)). { rewrite Hh, lookup_insert_ne; [done|]. intros ->. congruence. }
  assert (Hheld : tree_held s2 (s_hands s2) t).
  { right. exists j, kx, x. split; [exact Hji|]. rewrite (cy_out _ _ _ _ _ _ _ C).
    - rewrite (ad_tree_other _ _ _ _ _ _ _ _ A); done.
    - intros Hc. by apply Hxn, Hb.
    - exact (handle_alive _ _ _ _ _ I2 Hji). }
  destruct (cy_rest _ _ _ _ _ _ _ C) as [(_ & Ht & EK)|(F & _)]; [|by destruct F].
  pose proof (sp_stores _ _ _ _ _ _ _ S) as Hst2. rewrite EK in Hst2, I2.
  assert (Hal : forall y, y <> n -> (is_Some (s_nodes s2 !! y) <-> is_Some (s_nodes s !! y))).
  { intros y Hy. rewrite (rep_dom _ _ (proj1 Hst2)), (rep_dom _ _ (proj1 Hst)), lookup_insert_ne by done. done. }
  assert (Hto : forall y, y <> n -> tree_of s2 y = tree_of s y).
  { intros y Hy. destruct (s_nodes s2 !! y) as [nd|] eqn:E.
    - rewrite (cy_out _ _ _ _ _ _ _ C); [by apply (ad_tree_other _ _ _ _ _ _ _ _ A)| |eauto]. intros Hc. by apply Hy, Hb.
    - assert (s_nodes s !! y = None) as E0. { apply eq_None_not_Some. intros Hs. apply Hal in Hs as [? ?]; [congruence|done]. }
      unfold tree_of, n_memb. by rewrite E, E0. }
  assert (Htn : tree_of s2 n = Some t') by (apply (cy_in _ _ _ _ _ _ _ C); constructor).
  assert (Hpo : forall y, y <> n -> payload s2 y = payload s y).
  { intros y Hy. destruct (s_nodes s2 !! y) as [nd|] eqn:E.
    - rewrite (cy_payload _ _ _ _ _ _ _ C) by eauto. by apply (ad_payload_other _ _ _ _ _ _ _ _ A).
    - assert (s_nodes s !! y = None) as E0. { apply eq_None_not_Some. intros Hs. apply Hal in Hs as [? ?]; [congruence|done]. }
      unfold payload. by rewrite E, E0. }
  assert (Htt : s_trees s !! t' = None).
  { pose proof (sp_new _ _ _ _ _ _ _ S) as Ht'. apply eq_None_not_Some. intros Hs. apply (ad_trees _ _ _ _ _ _ _ _ A) in Hs as [? ?]. congruence. }
  split; try assumption.
  - rewrite (cy_payload _ _ _ _ _ _ _ C); [apply (ad_data _ _ _ _ _ _ _ _ A)|]. apply (rep_dom _ _ (proj1 Hst2)). rewrite lookup_insert. eauto.
  - apply (sp_root _ _ _ _ _ _ _ S).
  - intros u Hu. apply (roots_same s s2 K (<[n := []]> K)); [exact I|exact I2| |].
    + intros r [Hr1 Hr2'] Hr3. assert (r <> n) as Hrn. { intros ->. unfold tree_of, n_memb in Hr3. by rewrite Hn in Hr3. }
      split; [|by rewrite Hto]. split; [by rewrite lookup_insert_ne|]. intros p (ks & Hp & Hin).
      apply lookup_insert_Some in Hp as [[<- <-]|[Hp1 Hp2]]; [by apply not_elem_of_nil in Hin|]. apply (Hr2' p). by exists ks.
    + intros Hs. apply (ad_trees _ _ _ _ _ _ _ _ A). destruct (decide (u = t)) as [->|Hut].
      * destruct (SysFacts5.handle_tree _ _ _ _ _ I Hj) as (t0 & tr & E0 & E1 & _). assert (t0 = t) as -> by congruence.
        apply (ad_trees _ _ _ _ _ _ _ _ A). eauto.
      * by apply (cy_trees _ _ _ _ _ _ _ C).
Qed.

(** ** Child lists *)

Lemma subst_splice x n (ks : list nid) : x ∈ ks -> n ∉ ks -> NoDup ks -> splice n [x] (subst_child x n ks) = ks.
Proof.
  intros Hin Hn Hnd. apply elem_of_list_split in Hin as (l1 & l2 & ->). apply NoDup_app in Hnd as (_ & H1 & H2).
  apply NoDup_cons in H2 as [H2 _]. unfold subst_child. rewrite splice_split.
  - change ([n] ++ l2) with (n :: l2). rewrite (splice_split n [x] l1 l2); [done|]. intros F. apply Hn. apply elem_of_app. by left.
  - intros F. apply (H1 x F). apply elem_of_list_here.
Qed.

Lemma without_new n (ks : list nid) : n ∉ ks -> without n ks = ks.
Proof. intros H. unfold without. induction ks as [|a ks IH]; [done|]. apply not_elem_of_cons in H as [H1 H2]. rewrite filter_cons_True by done. by rewrite IH. Qed.

(** A child list with [n] put in, and taken out again. *)
Lemma attached_undo K n dest K' : wf K -> (forall p, ~ child_of K p n) -> attached K n dest K' ->
  exists p ks ks', K !! p = Some ks /\ K' = <[p := ks']> K /\ n ∈ ks' /\ n ∉ ks /\ without n ks' = ks /\ NoDup ks'.
Proof.
  intros W Hn A.
  assert (Hni : forall p ks, K !! p = Some ks -> n ∉ ks). { intros p ks Hp F. apply (Hn p). by exists ks. }
  destruct (attached_perm _ _ _ _ W A) as (p & ks & ks' & Hd & Hk & E & Hp).
  exists p, ks, ks'. split; [exact Hk|]. split; [exact E|]. split; [rewrite Hp; apply elem_of_list_here|].
  split; [by eapply Hni|]. pose proof (Hni _ _ Hk) as Hnk. split; [|rewrite Hp; apply NoDup_cons; split; [done|by eapply wf_nodup]].
  assert (ks' = n :: ks \/ ks' = ks ++ [n] \/ (exists y, ks' = ins_before y n ks) \/ (exists y, ks' = ins_after y n ks)) as Hc.
  { assert (K' !! p = Some ks') as Ek' by (rewrite E; apply lookup_insert). clear E. revert Hd. inversion A as [q l Hq|q l Hq|y q l Hq Hy|y q l Hq Hy]; subst; simpl.
    1: intros ->. 2: intros ->.
    1,2: rewrite lookup_insert in Ek'; assert (l = ks) as -> by congruence; injection Ek' as <-; tauto.
    all: intros Hc; assert (q = p) as -> by (apply (wf_uniq _ W q p y); [by exists l|exact Hc]);
      rewrite lookup_insert in Ek'; assert (l = ks) as -> by congruence; injection Ek' as <-; eauto. }
  unfold without. destruct Hc as [->|[->|[[y ->]|[y ->]]]].
  - rewrite filter_cons_False by (intros F; by apply F). exact (without_new n ks Hnk).
  - rewrite filter_app, filter_cons_False by (intros F; by apply F). rewrite filter_nil, app_nil_r. exact (without_new n ks Hnk).
  - by apply filter_ins_before.
  - by apply filter_ins_after.
Qed.

(** ** Adding a node between others *)

Lemma receiver_hand s a k x : receiver s a k x -> exists j, s_hands s !! j = Some (HNode k x).
Proof. destruct a as [i|i g]; [intros [-> H]; eauto|intros (-> & H & _); eauto]. Qed.

Lemma wrap_undone s K a k x d : reach s -> stores s K -> receiver s a k x ->
  exists s1 n i, step s (OpInterruptParent a d) = Ret (s1, OutHandle i) /\ s_hands s1 !! i = Some (HNode k n) /\
    forall a' k', receiver s1 a' k' n -> exists s2 t', step s1 (OpReplace a') = Ret (s2, OutUnit) /\ set_apart s K n d k i t' s2.
Proof.
  intros Hr Hst Hrc. destruct (receiver_hand _ _ _ _ Hrc) as [j Hj].
  destruct (reach_effect s K (OpInterruptParent a d) Hr Hst Logic.I (receiver_typed _ _ _ _ Hrc) (receiver_not_unauth _ _ _ _ Hrc)) as (s1 & r & E & Hr1 & Ef).
  destruct Ef as [[]|[[]|(k0 & x0 & t & n & i & Hrc0 & Et & -> & C)]]. destruct (receiver_unique _ _ _ _ _ _ Hrc Hrc0) as [-> ->].
  exists s1, n, i. split; [exact E|].
  assert (exists K1, adds s s1 K1 t n d k i /\ K1 !! n = Some [x] /\ ((is_top K x /\ K1 = <[n := [x]]> K) \/
     (exists p ks, K !! p = Some ks /\ x ∈ ks /\ K1 = <[n := [x]]> (<[p := subst_child x n ks]> K)))) as (K1 & A & Kn & HK).
  { destruct C as [[Ht A]|(p & ks & Hp & Hin & A)]; eexists; (split; [exact A|]); (split; [apply lookup_insert|]); [by left|right; eauto]. }
  pose proof (ad_new _ _ _ _ _ _ _ _ A) as Hn. pose proof (new_none _ _ _ Hst Hn) as HnK.
  split. { rewrite (ad_hands _ _ _ _ _ _ _ _ A). apply lookup_insert. }
  intros a' k' Hrc'. pose proof (ad_stores _ _ _ _ _ _ _ _ A) as Hst1.
  destruct (reach_effect s1 K1 (OpReplace a') Hr1 Hst1) as (s2 & r2 & E2 & Hr2 & Ef2).
  { intros k2 x2 Hr' _ Hk2. destruct (receiver_unique _ _ _ _ _ _ Hrc' Hr') as [-> ->]. congruence. }
  { exact (receiver_typed _ _ _ _ Hrc'). } { exact (receiver_not_unauth _ _ _ _ Hrc'). }
  destruct Ef2 as [[]|[[]|(k2 & x2 & t2 & cs & Hrc2 & Et2 & Hcs & C2)]]. destruct (receiver_unique _ _ _ _ _ _ Hrc' Hrc2) as [-> ->].
  assert (cs = [x]) as -> by congruence. assert (t2 = t) as ->. { pose proof (ad_tree _ _ _ _ _ _ _ _ A). congruence. }
  assert (exists t' K2 Kx, r2 = OutUnit /\ splits s1 Kx n t t' s2 K2 /\ Kx = <[n := []]> K) as (t' & K2 & Kx & -> & S & EK).
  { destruct HK as [[Htop HK]|(p & ks & Hp & Hin & HK)].
    - destruct C2 as [(p & ks & t' & K2 & Hp & Hin & -> & S)|[(_ & c & t' & K2 & Ec & -> & S & _)|[(_ & Ec & _)|(_ & Ec & _)]]].
      + exfalso. subst K1. apply lookup_insert_Some in Hp as [[<- <-]|[Hp1 Hp2]].
        * apply elem_of_list_singleton in Hin as ->. destruct Htop as [[? Hx] _]. congruence.
        * apply (no_child_new s K n p Hst Hn). by exists ks.
      + exists t', K2, (<[n:=[]]> K1). split; [done|]. split; [exact S|]. subst K1. apply insert_insert.
      + done.
      + simpl in Ec. lia.
    - assert (p <> n) as Hpn by congruence. assert (n ∉ ks) as Hnk. { intros F. apply (no_child_new s K n p Hst Hn). by exists ks. }
      assert (NoDup ks) as Hnd by (by eapply wf_nodup; [exact (proj2 Hst)|]).
      assert (K1 !! p = Some (subst_child x n ks)) as Hp1 by (subst K1; rewrite lookup_insert_ne by done; apply lookup_insert).
      assert (n ∈ subst_child x n ks) as Hns.
      { apply elem_of_list_split in Hin as (l1 & l2 & ->). unfold subst_child. rewrite splice_split. { apply elem_of_app. right. apply elem_of_list_here. }
        apply NoDup_app in Hnd as (_ & H1 & _). intros F. apply (H1 x F). apply elem_of_list_here. }
      destruct C2 as [(q & ks1 & t' & K2 & Hq & Hin1 & -> & S)|[(Ht & _)|[(Ht & _)|(Ht & _)]]].
      + destruct (stores_parent s1 K1 n p q _ ks1 Hst1 Hp1 Hns Hq Hin1) as [-> ->].
        eexists t', K2, _. split; [done|]. split; [exact S|]. rewrite subst_splice by done. subst K1.
        rewrite (insert_commute _ p n) by done. rewrite insert_insert, insert_insert. rewrite (insert_id K p ks); [reflexivity|exact Hp].
      + exfalso. exact (top_no_parent _ _ _ _ Ht Hp1 Hns).
      + exfalso. exact (top_no_parent _ _ _ _ Ht Hp1 Hns).
      + exfalso. exact (top_no_parent _ _ _ _ Ht Hp1 Hns). }
  subst Kx. exists s2, t'. split; [exact E2|]. eapply (set_apart_ok s s1 s2 K K1 K2 t t' n d k i x j k); eassumption.
Qed.

Lemma wrap_child_undone s K a k x d : reach s -> stores s K -> receiver s a k x ->
  exists s1 n i, step s (OpInterruptChild a d) = Ret (s1, OutHandle i) /\ s_hands s1 !! i = Some (HNode k n) /\
    forall a' k', receiver s1 a' k' n -> exists s2 t', step s1 (OpReplace a') = Ret (s2, OutUnit) /\ set_apart s K n d k i t' s2.
Proof.
  intros Hr Hst Hrc. destruct (receiver_hand _ _ _ _ Hrc) as [j Hj].
  destruct (reach_effect s K (OpInterruptChild a d) Hr Hst Logic.I (receiver_typed _ _ _ _ Hrc) (receiver_not_unauth _ _ _ _ Hrc)) as (s1 & r & E & Hr1 & Ef).
  destruct Ef as [[]|[[]|(k0 & x0 & t & n & i & ks & Hrc0 & Et & -> & Hx & A)]]. destruct (receiver_unique _ _ _ _ _ _ Hrc Hrc0) as [-> ->].
  exists s1, n, i. split; [exact E|].
  pose proof (ad_new _ _ _ _ _ _ _ _ A) as Hn. pose proof (new_none _ _ _ Hst Hn) as HnK. assert (x <> n) as Hxn by congruence.
  split. { rewrite (ad_hands _ _ _ _ _ _ _ _ A). apply lookup_insert. }
  intros a' k' Hrc'. pose proof (ad_stores _ _ _ _ _ _ _ _ A) as Hst1.
  assert (HKx : (<[x:=[n]]> (<[n:=ks]> K) : forest) !! x = Some [n]) by apply lookup_insert.
  destruct (reach_effect s1 _ (OpReplace a') Hr1 Hst1) as (s2 & r2 & E2 & Hr2 & Ef2).
  { intros k2 x2 Hr' (q & l & Hq & Hl & Hh) _. destruct (receiver_unique _ _ _ _ _ _ Hrc' Hr') as [-> ->].
    destruct (stores_parent s1 _ n x q [n] l Hst1 HKx) as [-> ->]; [apply elem_of_list_singleton; done|exact Hq|by apply elem_of_last|]. by destruct Hh. }
  { exact (receiver_typed _ _ _ _ Hrc'). } { exact (receiver_not_unauth _ _ _ _ Hrc'). }
  destruct Ef2 as [[]|[[]|(k2 & x2 & t2 & cs & Hrc2 & Et2 & Hcs & C2)]]. destruct (receiver_unique _ _ _ _ _ _ Hrc' Hrc2) as [-> ->].
  assert (cs = ks) as ->. { rewrite lookup_insert_ne, lookup_insert in Hcs by done. congruence. }
  assert (t2 = t) as ->. { pose proof (ad_tree _ _ _ _ _ _ _ _ A). congruence. }
  destruct C2 as [(q & ks1 & t' & K2 & Hq & Hin1 & -> & S)|[(Ht & _)|[(Ht & _)|(Ht & _)]]].
  - destruct (stores_parent s1 _ n x q [n] ks1 Hst1 HKx) as [-> ->]; [apply elem_of_list_singleton; done|exact Hq|exact Hin1|].
    exists s2, t'. split; [exact E2|]. eapply (set_apart_ok s s1 s2 K _ K2 t t' n d k i x j k); try eassumption.
    simpl in S. rewrite decide_True, app_nil_r in S by done.
    rewrite insert_insert, (insert_commute _ n x), insert_insert in S by done. rewrite (insert_id (<[n := []]> K) x ks) in S; [exact S|]. by rewrite lookup_insert_ne.
  - exfalso. exact (top_no_parent _ _ _ _ Ht HKx (elem_of_list_here _ _)).
  - exfalso. exact (top_no_parent _ _ _ _ Ht HKx (elem_of_list_here _ _)).
  - exfalso. exact (top_no_parent _ _ _ _ Ht HKx (elem_of_list_here _ _)).
Qed.

(** ** Adding a leaf *)
Lemma splice_without n (ks : list nid) : NoDup ks -> splice n [] ks = without n ks.
Proof.
  unfold without. induction ks as [|a ks IH]; intros Hnd; [done|]. apply NoDup_cons in Hnd as [H1 H2]. simpl. destruct (decide (a = n)) as [->|Ha].
  - rewrite filter_cons_False by (intros F; by apply F). simpl. symmetry. exact (without_new n ks H1).
  - rewrite filter_cons_True by done. by rewrite IH.
Qed.

Lemma create_undone s K a k x d ad : reach s -> stores s K -> receiver s a k x -> has_place K ad x ->
  exists s1 n i K1, step s (OpCreate a d ad) = Ret (s1, OutHandle i) /\ s_hands s1 !! i = Some (HNode k n) /\ stores s1 K1 /\
    forall a' k' o, receiver s1 a' k' n -> ~ last_not_first K1 n -> o = OpDetach a' \/ o = OpReplace a' ->
      exists s2 t', step s1 o = Ret (s2, OutUnit) /\ set_apart s K n d k i t' s2.
Proof.
  intros Hr Hst Hrc Hpl. destruct (receiver_hand _ _ _ _ Hrc) as [j Hj].
  destruct (reach_effect s K (OpCreate a d ad) Hr Hst Logic.I (receiver_typed _ _ _ _ Hrc) (receiver_not_unauth _ _ _ _ Hrc)) as (s1 & r & E & Hr1 & Ef).
  destruct Ef as [[]|[[]|(k0 & x0 & t & Hrc0 & Et & C)]]. destruct (receiver_unique _ _ _ _ _ _ Hrc Hrc0) as [-> ->].
  destruct C as [(_ & n & i & K1 & -> & At & A)|(F & _)]; [|done].
  exists s1, n, i, K1. split; [exact E|]. pose proof (ad_new _ _ _ _ _ _ _ _ A) as Hn. pose proof (new_none _ _ _ Hst Hn) as HnK.
  split. { rewrite (ad_hands _ _ _ _ _ _ _ _ A). apply lookup_insert. }
  pose proof (ad_stores _ _ _ _ _ _ _ _ A) as Hst1. split; [exact Hst1|]. intros a' k' o Hrc' Hl Ho.
  assert (W0 : wf (<[n := []]> K)) by (apply wf_new; [exact (proj2 Hst)|done]).
  assert (N0 : forall p, ~ child_of (<[n := []]> K) p n).
  { intros p (ks & Hp & Hin). apply lookup_insert_Some in Hp as [[<- <-]|[Hp1 Hp2]]; [by apply not_elem_of_nil in Hin|].
    apply (no_child_new s K n p Hst Hn). by exists ks. }
  destruct (attached_undo _ _ _ _ W0 N0 At) as (p & ks & ks' & Hp & -> & Hin & Hni & Hwo & Hnd).
  assert (Hp1 : (<[p := ks']> (<[n := []]> K) : forest) !! p = Some ks') by apply lookup_insert.
  assert (Hback : (<[p := without n ks']> (<[p := ks']> (<[n := []]> K)) : forest) = <[n := []]> K).
  { rewrite insert_insert, Hwo. by apply insert_id. }
  destruct (reach_effect s1 _ o Hr1 Hst1) as (s2 & r2 & E2 & Hr2 & Ef2).
  { destruct Ho as [-> | ->]; intros k2 x2 Hr'; destruct (receiver_unique _ _ _ _ _ _ Hrc' Hr') as [-> ->]; intros F; by destruct (Hl F). }
  { destruct Ho as [-> | ->]; exact (receiver_typed _ _ _ _ Hrc'). } { destruct Ho as [-> | ->]; exact (receiver_not_unauth _ _ _ _ Hrc'). }
  exists s2. destruct Ho as [-> | ->].
  - destruct Ef2 as [[]|[[]|(k2 & x2 & t2 & Hrc2 & Et2 & -> & C2)]]. destruct (receiver_unique _ _ _ _ _ _ Hrc' Hrc2) as [-> ->].
    assert (t2 = t) as ->. { pose proof (ad_tree _ _ _ _ _ _ _ _ A). congruence. }
    destruct C2 as [(Ht & _)|(Ku & t' & K2 & (q & l & Hq & Hql & ->) & S)]; [exfalso; exact (top_no_parent _ _ _ _ Ht Hp1 Hin)|].
    destruct (stores_parent s1 _ n p q ks' l Hst1 Hp1 Hin Hq Hql) as [-> ->]. rewrite Hback in S.
    exists t'. split; [exact E2|]. eapply (set_apart_ok s s1 s2 K _ K2 t t' n d k i x j k); eassumption.
  - destruct Ef2 as [[]|[[]|(k2 & x2 & t2 & cs & Hrc2 & Et2 & Hcs & C2)]]. destruct (receiver_unique _ _ _ _ _ _ Hrc' Hrc2) as [-> ->].
    assert (t2 = t) as ->. { pose proof (ad_tree _ _ _ _ _ _ _ _ A). congruence. }
    assert (p <> n \/ p = n) as [Hpn|Hpn] by (destruct (decide (p = n)); [by right|by left]).
    2: { exfalso. apply (no_cycle (<[p := ks']> (<[n := []]> K)) n n (proj2 Hst1)); [|apply below_refl]. exists ks'. split; [rewrite <- Hpn; apply lookup_insert|exact Hin]. }
    rewrite lookup_insert_ne, lookup_insert in Hcs by done. injection Hcs as <-.
    destruct C2 as [(q & l & t' & K2 & Hq & Hql & -> & S)|[(Ht & _)|[(Ht & _)|(Ht & _)]]].
    2,3,4: exfalso; exact (top_no_parent _ _ _ _ Ht Hp1 Hin).
    destruct (stores_parent s1 _ n p q ks' l Hst1 Hp1 Hin Hq Hql) as [-> ->].
    rewrite splice_without in S by done. rewrite Hback, insert_insert in S.
    exists t'. split; [exact E2|]. eapply (set_apart_ok s s1 s2 K _ K2 t t' n d k i x j k); eassumption.
Qed.

End UndoFacts.
