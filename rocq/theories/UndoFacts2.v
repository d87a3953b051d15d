(** * UndoFacts2: moving a node away and back changes nothing. *)
From Verif Require Import Heap Edit System SysSpec SpecFacts NavFacts EditFacts2 SysFacts5 SysFacts7 ApiSpec ApiFacts ApiFacts2 ApiFacts3 ApiFacts6 ApiFacts7 ApiFacts8 Misled6 BuildFacts15 UndoSpec UndoFacts Spec.

Section UndoFacts2.
Context {T : Type}.
Implicit Types (s : sys T) (K : forest) (x : nid) (t : tid).

(** The anchor of a place is the parent of [x] or one of its siblings. *)
Lemma place_anchor K x ad y : wf K -> at_place K x ad y -> (exists p, child_of K p x) /\ y <> x /\ is_Some (K !! y) /\ has_place K ad y /\ ~ below K x y.
Proof.
  intros W. assert (Hsib : forall p (l : list nid), K !! p = Some l -> x ∈ l -> y ∈ l -> y <> x -> (exists p, child_of K p x) /\ y <> x /\ is_Some (K !! y) /\ has_place K ad y /\ ~ below K x y).
  { intros p l Hp Hx Hy Hne. assert (child_of K p x) as Cx by (by exists l). assert (child_of K p y) as Cy by (by exists l).
    split; [by exists p|]. split; [done|]. split; [by eapply wf_dom|]. split; [destruct ad; simpl; eauto|].
    intros Hb. destruct Hb as [|q c Hb Hc]; [done|]. assert (q = p) as -> by (by eapply wf_uniq). by apply (no_cycle K p x W Cx). }
  assert (Hpar : forall l : list nid, K !! y = Some l -> x ∈ l -> ad = AFirstChild \/ ad = ALastChild -> (exists p, child_of K p x) /\ y <> x /\ is_Some (K !! y) /\ has_place K ad y /\ ~ below K x y).
  { intros l Hy Hx Hd. assert (child_of K y x) as Cx by (by exists l). split; [by exists y|]. split.
    - intros ->. apply (no_cycle K x x W Cx). constructor.
    - split; [eauto|]. split; [by destruct Hd as [-> | ->]|]. by apply (no_cycle K y x W Cx). }
  destruct ad; simpl.
  - intros (l & Hy). apply (Hpar _ Hy); [apply elem_of_list_here|by left].
  - intros (l & Hy). apply (Hpar _ Hy); [apply elem_of_app; right; apply elem_of_list_here|by right].
  - intros (p & l1 & l2 & Hp). apply (Hsib p _ Hp).
    + apply elem_of_app. right. apply elem_of_list_here.
    + apply elem_of_app. right. apply elem_of_list_further, elem_of_list_here.
    + intros ->. pose proof (wf_nodup _ W _ _ Hp) as Hn. apply NoDup_app in Hn as (_ & _ & Hn). apply NoDup_cons in Hn as [Hn _]. apply Hn, elem_of_list_here.
  - intros (p & l1 & l2 & Hp). apply (Hsib p _ Hp).
    + apply elem_of_app. right. apply elem_of_list_further, elem_of_list_here.
    + apply elem_of_app. right. apply elem_of_list_here.
    + intros ->. pose proof (wf_nodup _ W _ _ Hp) as Hn. apply NoDup_app in Hn as (_ & _ & Hn). apply NoDup_cons in Hn as [Hn _]. apply Hn, elem_of_list_here.
Qed.

(** Taken out, and put back where it was. *)
Lemma attach_home K x ad y K0 K2 : wf K -> at_place K x ad y -> unlinked K x K0 -> attached K0 x (dest_of ad y) K2 -> K2 = K.
Proof.
  intros W P (q & ks & Hq & Hin & ->) A.
  assert (U : forall p (l1 l2 : list nid), K !! p = Some (l1 ++ x :: l2) -> (<[q := without x ks]> K : forest) = <[p := l1 ++ l2]> K).
  { intros p l1 l2 Hp. assert (q = p) as ->. { apply (wf_uniq _ W q p x); [by exists ks|]. exists (l1 ++ x :: l2). split; [done|]. apply elem_of_app. right. apply elem_of_list_here. }
    assert (ks = l1 ++ x :: l2) as -> by congruence. pose proof (wf_nodup _ W _ _ Hp) as Hn. apply NoDup_app in Hn as (_ & H1 & H2). apply NoDup_cons in H2 as [H2 _].
    rewrite without_split; [done| |done]. intros F. apply (H1 x F). apply elem_of_list_here. }
  assert (Sib : forall p (l1 l2 m : list nid) y', K !! p = Some (l1 ++ x :: l2) -> y' ∈ l1 ++ l2 -> forall p' ks', (<[p := l1 ++ l2]> K : forest) !! p' = Some ks' -> y' ∈ ks' -> p' = p /\ ks' = l1 ++ l2).
  { intros p l1 l2 m y' Hp Hy p' ks' Hp' Hy'. assert (p' = p) as ->.
    { apply lookup_insert_Some in Hp' as [[<- _]|[Hne Hp']]; [done|]. apply (wf_uniq _ W p' p y'); [by exists ks'|]. exists (l1 ++ x :: l2). split; [done|].
      apply elem_of_app in Hy as [Hy|Hy]; apply elem_of_app; [by left|right; by apply elem_of_list_further]. }
    split; [done|]. rewrite lookup_insert in Hp'. by injection Hp'. }
  destruct ad; simpl in P, A.
  - destruct P as (l & Hy). rewrite (U y [] l Hy) in A. inversion A as [p ks0 Hp0| | |]. subst p. rewrite lookup_insert in Hp0. injection Hp0 as <-.
    rewrite insert_insert. by apply insert_id.
  - destruct P as (l & Hy). rewrite (U y l [] Hy) in A. rewrite app_nil_r in A. inversion A as [|p ks0 Hp0| |]. subst p. rewrite lookup_insert in Hp0. injection Hp0 as <-.
    rewrite insert_insert. by apply insert_id.
  - destruct P as (p & l1 & l2 & Hp). rewrite (U p l1 (y :: l2) Hp) in A. destruct (attached_before _ _ _ _ A) as (p' & ks' & Hp' & Hy' & ->).
    destruct (Sib p l1 (y :: l2) [] y Hp) with (p' := p') (ks' := ks') as [-> ->]; [|exact Hp'|exact Hy'|].
    { apply elem_of_app. right. apply elem_of_list_here. }
    pose proof (wf_nodup _ W _ _ Hp) as Hn. apply NoDup_app in Hn as (_ & H1 & _).
    rewrite ins_before_split. 2: { intros F. apply (H1 y F). apply elem_of_list_further, elem_of_list_here. }
    rewrite insert_insert. by apply insert_id.
  - destruct P as (p & l1 & l2 & Hp). assert (Hp2 : K !! p = Some ((l1 ++ [y]) ++ x :: l2)) by (rewrite <- app_assoc; exact Hp).
    rewrite (U p (l1 ++ [y]) l2 Hp2) in A. destruct (attached_after _ _ _ _ A) as (p' & ks' & Hp' & Hy' & ->).
    destruct (Sib p (l1 ++ [y]) l2 [] y Hp2) with (p' := p') (ks' := ks') as [-> ->]; [|exact Hp'|exact Hy'|].
    { apply elem_of_app. left. apply elem_of_app. right. apply elem_of_list_here. }
    pose proof (wf_nodup _ W _ _ Hp) as Hn. apply NoDup_app in Hn as (_ & H1 & _).
    rewrite <- app_assoc. simpl. rewrite ins_after_split. 2: { intros F. apply (H1 y F). apply elem_of_list_here. }
    rewrite insert_insert. by apply insert_id.
Qed.

(** Put somewhere, and taken out again. *)
Lemma unlink_attached K0 x dest K1 K0' : wf K0 -> wf K1 -> (forall p, ~ child_of K0 p x) -> attached K0 x dest K1 -> unlinked K1 x K0' -> K0' = K0.
Proof.
  intros W0 W1 Hn A (q & l & Hq & Hl & ->). destruct (attached_undo _ _ _ _ W0 Hn A) as (p & ks & ks' & Hp & E & Hin & _ & Hwo & _).
  assert (K1 !! p = Some ks') as Hp1 by (rewrite E; apply lookup_insert).
  assert (q = p) as -> by (apply (wf_uniq _ W1 q p x); [by exists l|by exists ks']). assert (l = ks') as -> by congruence.
  rewrite Hwo, E, insert_insert. by apply insert_id.
Qed.

(** What is below [x] and where its anchors are does not depend on where [x] hangs. *)
Lemma attached_below_same K0 x dest K1 y : wf K0 -> attached K0 x dest K1 -> ~ below K0 x (dest_anchor dest) ->
  (forall p, ~ child_of K0 p x) -> (below K1 x y <-> below K0 x y).
Proof.
  intros W0 A Hb Hn. destruct (attached_child _ _ _ _ W0 A) as (p & Hd & _ & Hc & _).
  assert (Hbp : ~ below K0 x p).
  { destruct dest as [p0|p0|s0|s0]; simpl in Hd, Hb; [by subst|by subst| |]; intros F; apply Hb; by econstructor. }
  split.
  - induction 1 as [|q c Hq IH Hqc]; [constructor|]. apply Hc in Hqc as [Hqc|[-> ->]]; [by econstructor|]. by destruct (Hbp IH).
  - induction 1 as [|q c Hq IH Hqc]; [constructor|]. econstructor; [exact IH|]. apply Hc. by left.
Qed.

Lemma unlinked_wf K x K0 : wf K -> unlinked K x K0 -> wf K0.
Proof.
  intros W U. destruct (unlinked_child _ _ _ W U) as (Hc & Hd & _). split.
  - intros p c H. apply Hc in H as [H _]. apply Hd. by eapply wf_dom.
  - intros p l Hp. destruct U as (q & ks & Hq & Hin & ->). apply lookup_insert_Some in Hp as [[<- <-]|[_ Hp]]; [|by eapply wf_nodup].
    unfold without. apply NoDup_filter. by eapply wf_nodup.
  - intros p q c H1 H2. apply Hc in H1 as [H1 _]. apply Hc in H2 as [H2 _]. by eapply wf_uniq.
  - assert (forall c p, child_of K0 p c -> child_of K p c) as Hsub by (intros c p H; by apply Hc in H as [H _]).
    intros a. induction (wf_acyclic _ W a) as [a _ IH]. constructor. intros c H. apply IH. by apply Hsub.
Qed.

(** One move of a node that is not a root, while the tree it leaves stays in use. *)
Record transfers s K x t t' dest K0 s' K' : Prop := {
  tf_unlinked : unlinked K x K0;
  tf_attached : attached K0 x dest K';
  tf_stores : stores s' K';
  tf_hands : s_hands s' = s_hands s;
  tf_payload : forall v, payload s' v = payload s v;
  tf_in : forall v, below K x v -> tree_of s' v = Some t';
  tf_out : forall v, ~ below K x v -> tree_of s' v = tree_of s v;
  tf_trees : forall u : tid, is_Some (s_trees s' !! u) <-> is_Some (s_trees s !! u);
}.

Lemma move_transfers s K a k x ad j y t t' j2 k2 z : reach s -> stores s K -> receiver s a k x -> s_hands s !! j = Some (HNode Hot y) ->
  (exists p, child_of K p x) -> ~ last_not_first K x -> ~ below K x y -> has_place K ad y ->
  tree_of s x = Some t -> tree_of s y = Some t' ->
  s_hands s !! j2 = Some (HNode k2 z) -> tree_of s z = Some t -> ~ below K x z ->
  exists s' K0 K', step s (OpMove a ad j) = Ret (s', OutUnit) /\ reach s' /\ transfers s K x t t' (dest_of ad y) K0 s' K'.
Proof.
  intros Hr Hst Hrc Hj Hc Hl Hb Hpl Ex Ey Hj2 Ez Hbz. pose proof (reach_stores_inv _ _ Hr Hst) as I. pose proof (proj2 Hst) as W.
  assert (Hs : safe s K (OpMove a ad j)).
  { intros k' x' y' Hr' Hj'. destruct (receiver_unique _ _ _ _ _ _ Hrc Hr') as [-> ->]. assert (y' = y) as -> by congruence.
    right. left. split; [exact Hc|]. split; [intros F; by destruct (Hl F)|]. done. }
  destruct (reach_effect s K (OpMove a ad j) Hr Hst Hs) as (s' & r & E & Hr' & Ef).
  { split; [exact (receiver_typed _ _ _ _ Hrc)|by exists y]. } { intros [F _]. exact (receiver_not_unauth _ _ _ _ Hrc F). }
  destruct Ef as [[]|[[]|(k' & x' & y' & t0 & t0' & Hrc' & Hj' & Ex' & Ey' & -> & C)]]. destruct (receiver_unique _ _ _ _ _ _ Hrc Hrc') as [-> ->].
  assert (y' = y) as -> by congruence. assert (t0 = t) as -> by congruence. assert (t0' = t') as -> by congruence.
  destruct C as [(Ht & _ & _)|[(Et & K' & (K0 & U & A) & R)|(Et & K0 & K2 & K3 & Ap & C & A & Hst')]].
  - exfalso. destruct Hc as [p Hc]. exact (proj2 Ht p Hc).
  - exists s', K0, K'. split; [exact E|]. split; [exact Hr'|]. split.
    + exact U. + exact A. + exact (re_stores _ _ _ R). + exact (re_hands _ _ _ R). + exact (re_payload _ _ _ R).
    + intros v Hv. rewrite (re_tree _ _ _ R), <- Et. exact (subtree_tree s K x v t Hr Hst Ex Hv).
    + intros v _. exact (re_tree _ _ _ R v).
    + intros u. by rewrite (re_trees _ _ _ R).
  - assert (U : unlinked K x K0). { destruct Ap as [U|(Ht & _)]; [exact U|]. exfalso. destruct Hc as [p Hc]. exact (proj2 Ht p Hc). }
    assert (Hbe : forall v, below K0 x v <-> below K x v) by (intros v; by apply unlinked_below).
    pose proof (reach_stores_inv _ _ Hr' Hst') as I'.
    assert (Hj2' : s_hands s' !! j2 = Some (HNode k2 z)) by (by rewrite (cy_hands _ _ _ _ _ _ _ C)).
    assert (Hheld : tree_held s' (s_hands s') t).
    { right. exists j2, k2, z. split; [exact Hj2'|]. rewrite (cy_out _ _ _ _ _ _ _ C); [exact Ez| |exact (handle_alive _ _ _ _ _ I' Hj2')]. intros F. by apply Hbz, Hbe. }
    destruct (cy_rest _ _ _ _ _ _ _ C) as [(_ & Ht & ->)|(F & _)]; [|by destruct F].
    assert (Hal : forall v, is_Some (s_nodes s' !! v) <-> is_Some (s_nodes s !! v)).
    { intros v. rewrite (rep_dom _ _ (proj1 Hst')), (rep_dom _ _ (proj1 Hst)). destruct (unlinked_child _ _ _ W U) as (_ & Hd & _).
      destruct (attached_child _ _ _ _ (unlinked_wf _ _ _ W U) A) as (_ & _ & _ & _ & Hd'). by rewrite Hd', Hd. }
    assert (Hno : forall v, s_nodes s' !! v = None -> s_nodes s !! v = None).
    { intros v Hv. apply eq_None_not_Some. intros F. apply Hal in F as [? F]. congruence. }
    exists s', K0, K3. split; [exact E|]. split; [exact Hr'|]. split.
    + exact U. + exact A. + exact Hst'. + exact (cy_hands _ _ _ _ _ _ _ C).
    + intros v. destruct (s_nodes s' !! v) as [nd|] eqn:Ev; [apply (cy_payload _ _ _ _ _ _ _ C); eauto|]. unfold payload. by rewrite Ev, (Hno v Ev).
    + intros v Hv. apply (cy_in _ _ _ _ _ _ _ C). by apply Hbe.
    + intros v Hv. destruct (s_nodes s' !! v) as [nd|] eqn:Ev; [apply (cy_out _ _ _ _ _ _ _ C); [|eauto]; intros F; by apply Hv, Hbe|]. unfold tree_of, n_memb. by rewrite Ev, (Hno v Ev).
    + intros u. destruct (decide (u = t)) as [->|Hut].
      * destruct (SysFacts5.handle_tree _ _ _ _ _ I Hj2) as (t0 & tr & E0 & E1 & _). assert (t0 = t) as -> by congruence. split; [eauto|done].
      * destruct (decide (u = t')) as [->|Hut']; [|by apply (cy_trees _ _ _ _ _ _ _ C)].
        destruct (SysFacts5.handle_tree _ _ _ _ _ I Hj) as (t0 & tr & E0 & E1 & _). assert (t0 = t') as -> by congruence.
        split; [eauto|]. intros _. exact (cy_dest _ _ _ _ _ _ _ C).
Qed.

Lemma place_tree s K x ad y : inv s K -> at_place K x ad y -> tree_of s x = tree_of s y.
Proof.
  intros I P. pose proof (s_child _ _ (i_s _ _ I)) as SC. destruct ad; simpl in P.
  - destruct P as (l & Hy). apply SC. exists (x :: l). split; [done|apply elem_of_list_here].
  - destruct P as (l & Hy). apply SC. exists (l ++ [x]). split; [done|]. apply elem_of_app. right. apply elem_of_list_here.
  - destruct P as (p & l1 & l2 & Hp). transitivity (tree_of s p); [|symmetry]; apply SC; eexists; (split; [exact Hp|]); apply elem_of_app; right;
      [apply elem_of_list_here|apply elem_of_list_further, elem_of_list_here].
  - destruct P as (p & l1 & l2 & Hp). transitivity (tree_of s p); [|symmetry]; apply SC; eexists; (split; [exact Hp|]); apply elem_of_app; right;
      [apply elem_of_list_further, elem_of_list_here|apply elem_of_list_here].
Qed.

Lemma move_back s K a k x ad j y ad2 j2 y2 : reach s -> stores s K -> receiver s a k x -> ~ last_not_first K x ->
  s_hands s !! j = Some (HNode Hot y) -> ~ below K x y -> has_place K ad y ->
  at_place K x ad2 y2 -> s_hands s !! j2 = Some (HNode Hot y2) ->
  exists s1 K1, step s (OpMove a ad j) = Ret (s1, OutUnit) /\ stores s1 K1 /\ s_hands s1 = s_hands s /\
    forall a2 k2, receiver s1 a2 k2 x -> ~ last_not_first K1 x ->
      exists s2, step s1 (OpMove a2 ad2 j2) = Ret (s2, OutUnit) /\ s_hands s2 = s_hands s /\ same_view s s2.
Proof.
  intros Hr Hst Hrc Hl Hj Hb Hpl P Hj2. pose proof (proj2 Hst) as W. pose proof (reach_stores_inv _ _ Hr Hst) as I.
  destruct (place_anchor K x ad2 y2 W P) as (Hc & Hne & Hal & Hpl2 & Hb2).
  destruct (SysFacts5.handle_tree _ _ _ _ _ I Hj) as (t' & _ & Ey & _).
  destruct (SysFacts5.handle_tree _ _ _ _ _ I Hj2) as (t & _ & Ey2 & _).
  assert (Ex : tree_of s x = Some t).
  { rewrite <- Ey2. exact (place_tree s K x ad2 y2 I P). }
  destruct (move_transfers s K a k x ad j y t t' j2 Hot y2) as (s1 & K0 & K1 & E1 & Hr1 & M); try assumption.
  pose proof (tf_stores _ _ _ _ _ _ _ _ _ M) as Hst1. exists s1, K1. split; [exact E1|]. split; [exact Hst1|]. split; [exact (tf_hands _ _ _ _ _ _ _ _ _ M)|].
  intros a2 k2 Hrc2 Hl2. pose proof (proj2 Hst1) as W1. pose proof (unlinked_wf _ _ _ W (tf_unlinked _ _ _ _ _ _ _ _ _ M)) as W0.
  destruct (unlinked_child _ _ _ W (tf_unlinked _ _ _ _ _ _ _ _ _ M)) as (Hc0 & Hd0 & _).
  assert (Hn0 : forall p, ~ child_of K0 p x) by (intros p F; apply Hc0 in F as [_ F]; by apply F).
  assert (Hbe0 : forall v, below K0 x v <-> below K x v) by (intros v; apply unlinked_below; [exact W|exact (tf_unlinked _ _ _ _ _ _ _ _ _ M)]).
  assert (Hbe : forall v, below K1 x v <-> below K x v).
  { intros v. rewrite <- Hbe0. eapply attached_below_same; [exact W0|exact (tf_attached _ _ _ _ _ _ _ _ _ M)| |exact Hn0].
    rewrite Hbe0. destruct ad; exact Hb. }
  destruct (attached_child _ _ _ _ W0 (tf_attached _ _ _ _ _ _ _ _ _ M)) as (p1 & _ & _ & Hc1 & _).
  destruct (move_transfers s1 K1 a2 k2 x ad2 j2 y2 t' t j Hot y) as (s2 & K0' & K2 & E2 & Hr2 & M2); try assumption.
  { by rewrite (tf_hands _ _ _ _ _ _ _ _ _ M). }
  { exists p1. apply Hc1. by right. }
  { by rewrite Hbe. }
  { assert (forall p, child_of K p y2 -> exists p, child_of K1 p y2) as Hx. { intros p Hp. exists p. apply Hc1. left. by apply Hc0. }
    destruct ad2; simpl in Hpl2 |- *; try exact Logic.I; destruct Hpl2 as [p Hp]; exact (Hx p Hp). }
  { apply (tf_in _ _ _ _ _ _ _ _ _ M). constructor. }
  { by rewrite (tf_out _ _ _ _ _ _ _ _ _ M). }
  { by rewrite (tf_hands _ _ _ _ _ _ _ _ _ M). }
  { by rewrite (tf_out _ _ _ _ _ _ _ _ _ M). }
  { by rewrite Hbe. }
  assert (EK0 : K0' = K0). { eapply unlink_attached; [exact W0|exact W1|exact Hn0|exact (tf_attached _ _ _ _ _ _ _ _ _ M)|exact (tf_unlinked _ _ _ _ _ _ _ _ _ M2)]. }
  pose proof (tf_attached _ _ _ _ _ _ _ _ _ M2) as A2. rewrite EK0 in A2.
  assert (EK2 : K2 = K) by (eapply attach_home; [exact W|exact P|exact (tf_unlinked _ _ _ _ _ _ _ _ _ M)|exact A2]).
  pose proof (tf_stores _ _ _ _ _ _ _ _ _ M2) as Hst2. rewrite EK2 in Hst2.
  exists s2. split; [exact E2|]. split; [by rewrite (tf_hands _ _ _ _ _ _ _ _ _ M2), (tf_hands _ _ _ _ _ _ _ _ _ M)|].
  assert (Htr : forall v, tree_of s2 v = tree_of s v).
  { intros v. assert (is_Some (K !! x)) as Hxs by (destruct Hc as [p Hc]; by eapply wf_dom).
    destruct (below_dec K x v W Hxs) as [Hv|Hv].
    - rewrite (tf_in _ _ _ _ _ _ _ _ _ M2); [|by apply Hbe]. symmetry. exact (subtree_tree s K x v t Hr Hst Ex Hv).
    - rewrite (tf_out _ _ _ _ _ _ _ _ _ M2); [|by rewrite Hbe]. exact (tf_out _ _ _ _ _ _ _ _ _ M v Hv). }
  split.
  - intros K' H'. assert (K' = K) as -> by (by apply (stores_unique s)). exact Hst2.
  - exact Htr.
  - intros v. rewrite (tf_payload _ _ _ _ _ _ _ _ _ M2). exact (tf_payload _ _ _ _ _ _ _ _ _ M v).
  - intros u. apply (roots_same s s2 K K); [exact I|exact (reach_stores_inv _ _ Hr2 Hst2)| |].
    + intros r Hr0 Et. split; [exact Hr0|]. by rewrite Htr.
    + intros F. apply (tf_trees _ _ _ _ _ _ _ _ _ M). by apply (tf_trees _ _ _ _ _ _ _ _ _ M2).
Qed.

(** A leaf taken out of its tree, and put back. *)
Lemma detach_back s K a k x ad2 j2 y2 : reach s -> stores s K -> receiver s a k x -> ~ last_not_first K x -> K !! x = Some [] ->
  at_place K x ad2 y2 -> s_hands s !! j2 = Some (HNode Hot y2) ->
  exists s1, step s (OpDetach a) = Ret (s1, OutUnit) /\ s_hands s1 = s_hands s /\
    forall a2 k2, receiver s1 a2 k2 x ->
      exists s2, step s1 (OpMove a2 ad2 j2) = Ret (s2, OutUnit) /\ s_hands s2 = s_hands s /\ same_view s s2.
Proof.
  intros Hr Hst Hrc Hl Hx P Hj2. pose proof (proj2 Hst) as W. pose proof (reach_stores_inv _ _ Hr Hst) as I.
  destruct (place_anchor K x ad2 y2 W P) as (Hc & Hne & Hal & Hpl2 & Hb2).
  destruct (SysFacts5.handle_tree _ _ _ _ _ I Hj2) as (t & _ & Ey2 & _).
  assert (Ex : tree_of s x = Some t) by (rewrite <- Ey2; exact (place_tree s K x ad2 y2 I P)).
  destruct (reach_effect s K (OpDetach a) Hr Hst) as (s1 & r & E1 & Hr1 & Ef).
  { intros k' x' Hr'. destruct (receiver_unique _ _ _ _ _ _ Hrc Hr') as [-> ->]. intros F. by destruct (Hl F). }
  { exact (receiver_typed _ _ _ _ Hrc). } { exact (receiver_not_unauth _ _ _ _ Hrc). }
  destruct Ef as [[]|[[]|(k' & x' & t0 & Hrc' & Et & -> & C)]]. destruct (receiver_unique _ _ _ _ _ _ Hrc Hrc') as [-> ->].
  assert (t0 = t) as -> by congruence.
  destruct C as [(Ht & _)|(K0 & t' & Kr & U & S)]; [exfalso; destruct Hc as [p Hc]; exact (proj2 Ht p Hc)|].
  pose proof (sp_carries _ _ _ _ _ _ _ S) as C. pose proof (cy_hands _ _ _ _ _ _ _ C) as Hh.
  pose proof (unlinked_wf _ _ _ W U) as W0. destruct (unlinked_child _ _ _ W U) as (Hc0 & Hd0 & _).
  assert (Hx0 : K0 !! x = Some []).
  { destruct U as (q & ks & Hq & Hin & ->). rewrite lookup_insert_ne; [done|]. intros ->. rewrite Hx in Hq. injection Hq as <-. by apply not_elem_of_nil in Hin. }
  assert (Hb0 : forall v, below K0 x v -> v = x) by (intros v; by apply below_leaf).
  pose proof (reach_stores_inv _ _ Hr1 (sp_stores _ _ _ _ _ _ _ S)) as I1.
  assert (Hj1 : s_hands s1 !! j2 = Some (HNode Hot y2)) by (by rewrite Hh).
  assert (Ey1 : tree_of s1 y2 = Some t).
  { rewrite (cy_out _ _ _ _ _ _ _ C); [exact Ey2| |exact (handle_alive _ _ _ _ _ I1 Hj1)]. intros F. by apply Hne, Hb0. }
  assert (Hheld : tree_held s1 (s_hands s1) t) by (right; exists j2, Hot, y2; done).
  destruct (cy_rest _ _ _ _ _ _ _ C) as [(_ & Ht & EK)|(F & _)]; [|by destruct F].
  pose proof (sp_stores _ _ _ _ _ _ _ S) as Hst1. rewrite EK in Hst1, I1.
  assert (Htt : t <> t'). { intros F. pose proof (sp_new _ _ _ _ _ _ _ S) as Hs. rewrite <- F in Hs.
    destruct (SysFacts5.handle_tree _ _ _ _ _ I Hj2) as (t1 & tr & E0 & E1' & _). congruence. }
  assert (Ex1 : tree_of s1 x = Some t') by (apply (cy_in _ _ _ _ _ _ _ C); constructor).
  assert (Hal1 : forall v, is_Some (s_nodes s1 !! v) <-> is_Some (s_nodes s !! v)).
  { intros v. rewrite (rep_dom _ _ (proj1 Hst1)), (rep_dom _ _ (proj1 Hst)). exact (Hd0 v). }
  assert (Hno : forall v, s_nodes s1 !! v = None -> s_nodes s !! v = None).
  { intros v Hv. apply eq_None_not_Some. intros F. apply Hal1 in F as [? F]. congruence. }
  assert (Hto : forall v, v <> x -> tree_of s1 v = tree_of s v).
  { intros v Hv. destruct (s_nodes s1 !! v) as [nd|] eqn:Ev.
    - apply (cy_out _ _ _ _ _ _ _ C); [|eauto]. intros F. by apply Hv, Hb0.
    - unfold tree_of, n_memb. by rewrite Ev, (Hno v Ev). }
  assert (Hin' : forall v, tree_of s1 v = Some t' -> v = x).
  { intros v Ev. destruct (decide (v = x)) as [|Hv]; [done|exfalso]. rewrite Hto in Ev by done.
    assert (is_Some (s_nodes s !! v)) as Hvs. { unfold tree_of, n_memb in Ev. destruct (s_nodes s !! v); [eauto|done]. }
    destruct (SysFacts3.sinv_tree _ _ _ (i_s _ _ I) Hvs) as (t1 & tr & E0 & E2 & _). pose proof (sp_new _ _ _ _ _ _ _ S). congruence. }
  exists s1. split; [exact E1|]. split; [exact Hh|]. intros a2 k2 Hrc2.
  assert (Htop : is_top K0 x). { split; [eauto|]. intros p F. apply Hc0 in F as [_ F]. by apply F. }
  assert (Hplace1 : has_place K0 ad2 y2).
  { assert (forall p, child_of K p y2 -> exists p, child_of K0 p y2) as Hxx by (intros p Hp; exists p; by apply Hc0).
    destruct ad2; simpl in Hpl2 |- *; try exact Logic.I; destruct Hpl2 as [p Hp]; exact (Hxx p Hp). }
  assert (Hno_tree : forall i, s_hands s1 !! i <> Some (HTree t')). { intros i F. rewrite Hh in F. exact (sp_unknown _ _ _ _ _ _ _ S i _ F eq_refl). }
  destruct (reach_effect s1 K0 (OpMove a2 ad2 j2) Hr1 Hst1) as (s2 & r2 & E2 & Hr2 & Ef2).
  { intros k' x' y' Hr' Hj'. destruct (receiver_unique _ _ _ _ _ _ Hrc2 Hr') as [-> ->]. assert (y' = y2) as -> by congruence.
    right. right. split; [exact Htop|]. split; [exact Hx0|]. split; [congruence|]. split; [|exact Hplace1].
    intros t1 E'. assert (t1 = t') as -> by congruence. split; [exact Hno_tree|]. intros i k1 v _ Ev. rewrite (Hin' v Ev). constructor. }
  { split; [exact (receiver_typed _ _ _ _ Hrc2)|by exists y2]. } { intros [F _]. exact (receiver_not_unauth _ _ _ _ Hrc2 F). }
  destruct Ef2 as [[]|[[]|(k' & x' & y' & t1 & t1' & Hrc3 & Hj3 & Ex3 & Ey3 & -> & C2)]]. destruct (receiver_unique _ _ _ _ _ _ Hrc2 Hrc3) as [-> ->].
  assert (y' = y2) as -> by congruence. assert (t1 = t') as -> by congruence. assert (t1' = t) as -> by congruence.
  destruct C2 as [(_ & F & _)|[(F & _)|(_ & Ka & Kb & Kc & Ap & C2 & A2 & Hst2)]]; [congruence|congruence|].
  assert (Ka = K0) as ->. { destruct Ap as [(q & ks & Hq & Hin & _)|(_ & _ & E')]; [|done]. exfalso. exact (top_no_parent _ _ _ _ Htop Hq Hin). }
  assert (Kb = K0) as ->.
  { destruct (cy_rest _ _ _ _ _ _ _ C2) as [(_ & _ & E')|(_ & _ & Ho)]; [done|]. apply map_eq. intros v. apply Ho.
    destruct (decide (v = x)) as [->|Hv]; [left; constructor|]. right. intros F. by apply Hv, Hin'. }
  assert (EKc : Kc = K) by (eapply attach_home; [exact W|exact P|exact U|exact A2]). rewrite EKc in Hst2. clear EKc A2 Kc.
  assert (Hal2 : forall v, is_Some (s_nodes s2 !! v) <-> is_Some (s_nodes s !! v)).
  { intros v. by rewrite (rep_dom _ _ (proj1 Hst2)), (rep_dom _ _ (proj1 Hst)). }
  assert (Hno2 : forall v, s_nodes s2 !! v = None -> s_nodes s !! v = None).
  { intros v Hv. apply eq_None_not_Some. intros F. apply Hal2 in F as [? F]. congruence. }
  assert (Htr : forall v, tree_of s2 v = tree_of s v).
  { intros v. destruct (decide (v = x)) as [->|Hv].
    - rewrite (cy_in _ _ _ _ _ _ _ C2); [by rewrite Ex|constructor].
    - destruct (s_nodes s2 !! v) as [nd|] eqn:Ev.
      + rewrite (cy_out _ _ _ _ _ _ _ C2); [by apply Hto| |eauto]. intros F. by apply Hv, Hb0.
      + unfold tree_of, n_memb. by rewrite Ev, (Hno2 v Ev). }
  exists s2. split; [exact E2|]. split; [by rewrite (cy_hands _ _ _ _ _ _ _ C2)|]. split.
  - intros K' H'. assert (K' = K) as -> by (by apply (stores_unique s)). exact Hst2.
  - exact Htr.
  - intros v. destruct (s_nodes s2 !! v) as [nd|] eqn:Ev.
    + assert (is_Some (s_nodes s2 !! v)) as Hs2 by eauto. rewrite (cy_payload _ _ _ _ _ _ _ C2 v Hs2).
      apply (cy_payload _ _ _ _ _ _ _ C). apply Hal1. by apply Hal2.
    + unfold payload. by rewrite Ev, (Hno2 v Ev).
  - intros u. apply (roots_same s s2 K K); [exact I|exact (reach_stores_inv _ _ Hr2 Hst2)| |].
    + intros r' Hr0 Et'. split; [exact Hr0|]. by rewrite Htr.
    + intros F. destruct (s_trees s2 !! u) as [tr|] eqn:Eu; [|by destruct F].
      destruct (s_root _ _ (i_s _ _ (reach_stores_inv _ _ Hr2 Hst2)) _ _ Eu) as [Hrt Hrt2]. rewrite Htr in Hrt2.
      destruct (s_top _ _ (i_s _ _ I) _ Hrt) as (t2 & tr2 & E3 & E4 & _). assert (t2 = u) as -> by congruence. eauto.
Qed.

End UndoFacts2.
