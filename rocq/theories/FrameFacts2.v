(** * FrameFacts2: two parties *)
From Verif Require Import EditFacts2 Heap Edit Traverse System HIter HIterSpec SysSpec ApiSpec HeapFacts SpecFacts
  SysFacts SysFacts4 SysFacts5 SysFacts8 ApiFacts ApiFacts2 ApiFacts3 ApiFacts7 ApiFacts10 HIterFacts FrameSpec FrameFacts Spec.
From Coq Require Import Lia.

Section Two.
Context {T : Type}.
Implicit Types (s u : sys T) (p : nat -> bool) (b : bool).

(** All identities that occur anywhere have been handed out. *)
Record bounded s : Prop := {
  bd_nodes : forall (x : nid) nd, s_nodes s !! x = Some nd -> x < s_fresh s /\ forall y, refers nd y -> y < s_fresh s;
  bd_trees : forall (t : tid) tr, s_trees s !! t = Some tr -> t < s_fresh s /\ t_root tr < s_fresh s;
  bd_hands : forall i hd, s_hands s !! i = Some hd -> i < s_fresh s /\ hand_target hd < s_fresh s;
}.
Lemma to_oks p b s : parted p s -> bounded s ->
  oks p b (filter (fun kv => p kv.1 = negb b) (s_nodes s)) (restm p b (s_trees s)) (restm p b (s_hands s)) (s_fresh s) s.
Proof. intros [A B C] [D E F]. constructor; try done.
  - split; [|done]. intros x nd Hx. destruct (D x nd Hx) as [G H]. split; [done|]. intros y R. split; [by apply H|by eapply A].
  - intros t tr Ht. destruct (E t tr Ht). repeat split; try done. by eapply B.
  - intros i hd Hi. destruct (F i hd Hi). repeat split; try done. by eapply C. Qed.
Lemma of_oks p b oh ot oj M s : oks p b oh ot oj M s -> parted p s /\ bounded s /\
  filter (fun kv => p kv.1 = negb b) (s_nodes s) = oh /\ restm p b (s_trees s) = ot /\ restm p b (s_hands s) = oj /\ s_fresh s = M.
Proof. intros [[A0 A1] B C D E F]. split; [|split]; [constructor|constructor|repeat split; done]; rewrite ?F.
  - intros x nd y Hx R. by apply (A0 x nd Hx).
  - intros t tr Ht. by apply B.
  - intros i hd Hi. by apply D.
  - intros x nd Hx. destruct (A0 x nd Hx) as [G H]. split; [done|]. intros y R. by apply H.
  - intros t tr Ht. destruct (B t tr Ht) as (? & ? & ?). done.
  - intros i hd Hi. destruct (D i hd Hi) as (? & ? & ?). done. Qed.

Lemma turn_below p s b n : n < s_fresh s -> turn p s b n = p n.
Proof. intros H. unfold turn. by apply Nat.ltb_lt in H as ->. Qed.
Lemma turn_above p s b n : s_fresh s <= n -> turn p s b n = b.
Proof. intros H. unfold turn. by apply Nat.ltb_ge in H as ->. Qed.
Lemma turn_parted p s b : parted p s -> bounded s -> parted (turn p s b) s.
Proof. intros [A B C] [D E F]. constructor.
  - intros x nd y Hx R. destruct (D x nd Hx) as [G H]. rewrite (turn_below p s b y) by (by apply H). rewrite (turn_below p s b x) by done. by apply (A x nd).
  - intros t tr Ht. destruct (E t tr Ht). rewrite (turn_below p s b t), (turn_below p s b (t_root tr)) by done. by apply B.
  - intros i hd Hi. destruct (F i hd Hi). rewrite (turn_below p s b i), (turn_below p s b (hand_target hd)) by done. by apply C. Qed.
Lemma share_ext p p' b s : bounded s -> (forall n, n < s_fresh s -> p' n = p n) -> share p' b s = share p b s.
Proof. intros [D E F] H. unfold share. f_equal; apply map_eq; intros x; apply option_eq; intros v; rewrite !map_filter_lookup_Some; simpl; (split; intros [G1 G2]; split; try done).
  - rewrite <- H; [done|]. exact (proj1 (D x v G1)).
  - rewrite H; [done|]. exact (proj1 (D x v G1)).
  - rewrite <- H; [done|]. exact (proj1 (E x v G1)).
  - rewrite H; [done|]. exact (proj1 (E x v G1)).
  - rewrite <- H; [done|]. exact (proj1 (F x v G1)).
  - rewrite H; [done|]. exact (proj1 (F x v G1)). Qed.
Lemma turn_call p s b o : call_of p b o -> call_of (turn p s b) b (o : op T).
Proof. intros H i Hi. destruct (decide (i < s_fresh s)); [rewrite turn_below by done; by apply H|apply turn_above; lia]. Qed.

Lemma sep_step p s b o : parted p s -> bounded s -> call_of p b o ->
  J (fun r => parted (turn p s b) r.1 /\ bounded r.1 /\ s_fresh s <= s_fresh r.1 /\ untouched (share p (negb b) s) (share (turn p s b) (negb b) r.1))
    (fun r => (share (turn p s b) b r.1, r.2)) (step s o) (step (share p b s) o).
Proof. intros H1 H2 C. set (q := turn p s b).
  assert (Eq : forall v, share q v s = share p v s) by (intros v; apply share_ext; [done|]; intros n Hn; by apply turn_below).
  pose proof (to_oks q b s (turn_parted p s b H1 H2) H2) as K.
  assert (F : fr q b (s_fresh s)) by (intros n Hn; by apply turn_above).
  pose proof (step_frame q b _ _ _ (s_fresh s) s o K F (turn_call p s b o C)) as [A B].
  rewrite <- (Eq b). split.
  - intros [s' r] E. destruct (A _ E) as (M' & L & K'). cbn [fst] in *. apply of_oks in K' as (P & Bd & E1 & E2 & E3 & E4). split; [exact P|]. split; [exact Bd|]. split; [rewrite E4; exact L|]. split; [|split].
    + rewrite <- (f_equal s_nodes (Eq (negb b))). exact E1.
    + rewrite <- (f_equal s_trees (Eq (negb b))). exact E2.
    + rewrite <- (f_equal s_hands (Eq (negb b))). exact E3.
  - destruct B as [B|B]; [by left|right]. exact B. Qed.

Lemma init_two p : parted p (@init T) /\ bounded (@init T).
Proof. split; constructor; cbn; intros ? ?; rewrite lookup_empty; try done. Qed.
Lemma parties_two p s : parties p s -> parted p s /\ bounded s.
Proof. induction 1 as [p|p s b o s' r H [P B] C E]; [apply init_two|]. destruct (sep_step p s b o P B C) as [A _]. destruct (A _ E) as (G1 & G2 & _). done. Qed.

(** ** Counting on without doing anything *)
Lemma with_fresh_id s : with_fresh s (s_fresh s) = s. Proof. by destruct s. Qed.
Lemma del_add s hd : s_hands s !! s_fresh s = None -> del_hand (add_hand s hd) (s_fresh s) = with_fresh s (S (s_fresh s)).
Proof. intros H. unfold del_hand, add_hand, with_hands, with_fresh. cbn [s_nodes s_trees s_hands s_fresh]. by rewrite delete_insert. Qed.
Lemma fresh_hand s : reach s -> s_hands s !! s_fresh s = None.
Proof. intros H. destruct (reach_stores s H) as [K Hst]. pose proof (i_f _ _ (reach_stores_inv s K H Hst)) as F. destruct (s_hands s !! s_fresh s) as [hd|] eqn:E; [|done]. destruct (f_hands _ F _ _ E). lia. Qed.
Lemma reach_call s o s' r : reach s -> (forall K, safe s K o) -> step s o = Ret (s', r) -> reach s'.
Proof. intros H Hs E. destruct (reach_stores s H) as [K Hst]. eapply reach_step; [exact H|exact Hst|apply Hs|exact E]. Qed.
Lemma pad_by s o hd : reach s -> (forall K, safe s K o) -> step s o = Ret (add_hand s hd, OutHandle (s_fresh s)) ->
  step (add_hand s hd) (OpDrop (s_fresh s)) = Ret (del_hand (add_hand s hd) (s_fresh s), OutUnit) -> reach (with_fresh s (S (s_fresh s))).
Proof. intros H Hs E1 E2. rewrite <- (del_add s hd (fresh_hand s H)). eapply reach_call; [eapply reach_call; [exact H|exact Hs|exact E1]| |exact E2]. done. Qed.
Lemma pad_tree s i t : reach s -> s_hands s !! i = Some (HTree t) -> reach (with_fresh s (S (s_fresh s))).
Proof. intros H E. apply (pad_by s (OpDowngrade i) (HTreeWeak t)); [done|done| |].
  - cbn [step]. by rewrite E.
  - cbn [step]. unfold add_hand at 1. cbn [s_hands with_fresh with_hands]. by rewrite lookup_insert. Qed.
Lemma pad_node s i k x : reach s -> s_hands s !! i = Some (HNode k x) -> reach (with_fresh s (S (s_fresh s))).
Proof. intros H E. destruct (reach_stores s H) as [K Hst]. destruct (ApiFacts7.handle_tree s K i k x H Hst E) as (t & rc & lk & Em & Et & [tr Etr] & _).
  apply (pad_by s (OpTree i) (HTree t)); [done|done| |].
  - cbn [step]. rewrite E. unfold tree_core. rewrite Em. reflexivity.
  - cbn [step]. unfold add_hand at 1. cbn [s_hands with_fresh with_hands]. rewrite lookup_insert. unfold drop_tree_if_dead. rewrite del_add by (by apply fresh_hand). cbn [with_fresh s_trees]. rewrite Etr.
    replace (tree_referenced _ _ _) with true; [done|]. symmetry. unfold tree_referenced. apply orb_true_iff. right. apply existsb_exists. cbn [with_fresh s_nodes].
    unfold n_memb in Em. apply fmap_Some in Em as (nd & En & Em). exists (x, nd). split; [by apply elem_of_list_In, elem_of_map_to_list|]. simpl. rewrite <- Em. by apply bool_decide_eq_true. Qed.
Lemma pad_one s i hd : reach s -> s_hands s !! i = Some hd -> reach (with_fresh s (S (s_fresh s))).
Proof. intros H E. destruct (reach_stores s H) as [K Hst]. pose proof (reach_stores_inv s K H Hst) as I.
  assert (D : forall k t, (hd = HGrant t /\ k = Hot \/ hd = HProhib t /\ k = Frozen) -> reach (with_fresh s (S (s_fresh s)))).
  { intros k t Hk. destruct (s_trees s !! t) as [tr|] eqn:Et.
    - destruct (i_held _ _ I t ltac:(eauto)) as [[j Hj]|(j & k' & x & Hj & _)]; [by eapply pad_tree|by eapply pad_node].
    - assert (Ea : forall u, s_trees u = s_trees s -> tree_alive u t = false) by (intros u Eu; unfold tree_alive; rewrite Eu, Et; by apply bool_decide_eq_false; intros [? ?]).
      apply (pad_by s (OpClone i) hd); [done|done| |].
      + cbn [step]. rewrite E. destruct Hk as [[-> ->]|[-> ->]]; unfold clone_token; by rewrite Ea.
      + cbn [step]. unfold add_hand at 1. cbn [s_hands with_fresh with_hands]. rewrite lookup_insert. destruct Hk as [[-> ->]|[-> ->]]; unfold drop_token; by rewrite Ea. }
  destruct hd as [k x|t|t|t|x|t].
  - by eapply pad_node.
  - by eapply pad_tree.
  - apply (D Hot t). by left.
  - apply (D Frozen t). by right.
  - apply (pad_by s (OpClone i) (HNodeWeak x)); [done|done| |].
    + cbn [step]. by rewrite E.
    + cbn [step]. unfold add_hand at 1. cbn [s_hands with_fresh with_hands]. by rewrite lookup_insert.
  - apply (pad_by s (OpClone i) (HTreeWeak t)); [done|done| |].
    + cbn [step]. by rewrite E.
    + cbn [step]. unfold add_hand at 1. cbn [s_hands with_fresh with_hands]. by rewrite lookup_insert. Qed.
Lemma pad_some s i hd n : reach s -> s_hands s !! i = Some hd -> reach (with_fresh s (n + s_fresh s)).
Proof. intros H E. induction n as [|n IH]; [by rewrite with_fresh_id|]. pose proof (pad_one (with_fresh s (n + s_fresh s)) i hd IH E) as R. exact R. Qed.

(** An empty program can have any counter from 3 on. *)
Lemma empty_reach (d : T) n : reach (mkSys (T := T) ∅ ∅ ∅ (n + 3)).
Proof. pose proof (reach_call (@init T) (OpNewTree d) _ _ reach_init ltac:(done) eq_refl) as R.
  pose proof (pad_some _ 2 (HNode Plain 0) n R ltac:(reflexivity)) as R2.
  set (u := with_fresh _ _) in R2.
  assert (E : match step u (OpDrop 2) with Ret (v, r) => map_to_list (s_nodes v) = [] /\ map_to_list (s_trees v) = [] /\ map_to_list (s_hands v) = [] /\ s_fresh v = n + 3 | _ => False end) by (vm_compute; repeat split; reflexivity).
  destruct (step u (OpDrop 2)) as [[v r]| |] eqn:Es; try done.
  destruct E as (E1 & E2 & E3 & E4). apply map_to_list_empty_iff in E1, E2, E3.
  pose proof (reach_call u (OpDrop 2) v r R2 ltac:(done) Es) as R3. destruct v as [a b c f]. cbn [s_nodes s_trees s_hands s_fresh] in *. subst. exact R3. Qed.

(** ** One party is careful *)
Lemma half_parties p s : half_safe p s -> parties p s.
Proof. induction 1; [constructor|eapply parties_step; eauto..]. Qed.
Definition started s : Prop := s = init \/ (3 <= s_fresh s /\ exists d : T, True).
Lemma start_step (o : op T) s' r : step init o = Ret (s', r) -> started s'.
Proof. intros E. destruct o; try (left; vm_compute in E; injection E as <- _; reflexivity). 
  all: try (repeat match goal with d : auth |- _ => destruct d end; left; vm_compute in E; injection E as <- _; reflexivity).
  right. cbn [step] in E. vm_compute in E. injection E as <- _. cbn [s_fresh]. split; [lia|by exists d]. Qed.
Lemma parties_started p s : parties p s -> started s.
Proof. induction 1 as [p|p s b o s' r H IH C E]; [by left|]. destruct (parties_two p s H) as [P B]. destruct IH as [->|[F D]]; [by eapply start_step|]. right. split; [|done].
  destruct (sep_step p s b o P B C) as [A _]. destruct (A _ E) as (_ & _ & G & _). cbn [fst] in G. lia. Qed.
Lemma share_init p b : share p b (@init T) = init.
Proof. unfold share, init. cbn. by rewrite !map_filter_empty. Qed.
Lemma grown_share u n : reach u -> s_fresh u <= n -> n = 0 \/ (3 <= n /\ exists d : T, True) -> reach (with_fresh u n).
Proof. intros R L D. destruct (decide (s_hands u = ∅)) as [E|E]; [|apply map_choose in E as (i & hd & E)]; [|
    replace n with ((n - s_fresh u) + s_fresh u) by lia; by eapply pad_some].
  - destruct (all_dropped u R) as [E1 E2]; [by rewrite E; intros i; rewrite lookup_empty|]. destruct u as [a c e f]. cbn [s_nodes s_trees s_hands s_fresh] in *. subst.
    unfold with_fresh. cbn [s_nodes s_trees s_hands]. destruct D as [->|[F [d _]]]; [exact reach_init|]. replace n with ((n - 3) + 3) by lia. by apply empty_reach. Qed.
Lemma half_reach p s : half_safe p s -> reach (share p true s).
Proof. induction 1 as [p|p s K o s' r H IH C Hst Hs E|p s o s' r H IH C E].
  - rewrite share_init. constructor.
  - destruct (parties_two p s (half_parties p s H)) as [P B]. destruct (sep_step p s true o P B C) as [_ [N|A]].
    + exfalso. by apply (proj2 (panic_iff _ K o IH Hst Hs)).
    + rewrite E in A. cbn [ronr fst snd] in A. eapply reach_step; [exact IH|exact Hst|exact Hs|exact A].
  - pose proof (half_parties p s H) as Hp. destruct (parties_two p s Hp) as [P B]. destruct (sep_step p s false o P B C) as [A _]. destruct (A _ E) as (_ & _ & L & U1 & U2 & U3). cbn [fst negb] in *.
    pose proof (parties_started _ _ (parties_step p s false o s' r Hp C E)) as D.
    replace (share (turn p s false) true s') with (with_fresh (share p true s) (s_fresh s')).
    + apply grown_share; [done|done|]. destruct D as [->|D]; [by left|by right].
    + unfold with_fresh. rewrite <- U1, <- U2, <- U3. reflexivity. Qed.
End Two.
