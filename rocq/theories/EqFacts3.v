(** * EqFacts3: comparing subtrees is an equivalence relation. *)
From Verif Require Import Heap Edit System SysSpec SpecFacts RoseFacts Traverse Serial SerialSpec EqFacts EqFacts2 BuildFacts8 SysFacts5 ApiSpec ApiFacts ApiFacts2 ApiFacts3 Spec.

Lemma exactly_sym {T} (eqb : T -> T -> bool) (h1 h2 : heap T) t1 t2 r : (forall d e, eqb d e = eqb e d) ->
  eq_exactly eqb h1 h2 t1 t2 r -> eq_exactly eqb h2 h1 t2 t1 r.
Proof.
  intros Hs. unfold eq_exactly. generalize (events_before_end t1) (events_before_end t2). intros l m (n & F & M). exists n. split.
  - revert F. generalize (take n l) (take n m). intros l' m' F. induction F as [|e f l' m' H F IH]; constructor; [|exact IH].
    destruct e, f; simpl in H |- *; try done. destruct H as (d & d' & H1 & H2 & H3). exists d', d. rewrite Hs. done.
  - destruct (l !! n) as [[a|a]|], (m !! n) as [[b|b]|]; try done.
    destruct M as [[[H|H] E]|(d & d' & H1 & H2 & H3 & E)]; [left; split; [by right|done]|left; split; [by left|done]|].
    right. exists d', d. rewrite Hs. done.
Qed.

Lemma rose_rel_trans {A B C} (R : A -> B -> Prop) (S : B -> C -> Prop) (Q : A -> C -> Prop) :
  (forall a b c, R a b -> S b c -> Q a c) -> forall t u v, rose_rel R t u -> rose_rel S u v -> rose_rel Q t v.
Proof.
  intros H. fix IH 4. intros t u v Hr Hs. destruct Hr as [a b ts us Hab Fr]. inversion Hs as [? c ? vs Hbc Fs]; subst. constructor; [by eapply H|].
  clear Hs Hbc Hab. revert vs Fs. induction Fr as [|t0 u0 ts us Hr Fr IHF]; intros vs Fs.
  - inversion Fs; subst. constructor.
  - inversion Fs as [|? v0 ? vs' Hs Fs']; subst. constructor; [exact (IH _ _ _ Hr Hs)|exact (IHF _ Fs')].
Qed.

Lemma answer_trans {T} (eqb : T -> T -> bool) (h : heap T) t1 t2 t3 r : (forall d e f, eqb d e = true -> eqb e f = true -> eqb d f = true) ->
  eq_answer eqb h h t1 t2 (Some true) -> eq_answer eqb h h t2 t3 (Some true) -> eq_answer eqb h h t1 t3 r -> r = Some true.
Proof.
  intros Ht [E1 [N1 N2]] [E2 [_ N3]] A. assert (equal_data eqb h h t1 t3) as E3.
  { eapply rose_rel_trans; [|exact E1|exact E2]. intros a b c (d & e & Ha & Hb & He) (e' & f & Hb' & Hc & Hf). exists d, f. split; [exact Ha|]. split; [exact Hc|].
    assert (e' = e) as ->. { destruct Hb as (n1 & P1 & P2), Hb' as (n2 & P3 & P4). congruence. } by eapply Ht. }
  destruct r as [[]|]; [done|by destruct (A E3)|]. exfalso. by apply A.
Qed.

Section EqRel.
Context {T : Type} (eqb : T -> T -> bool) (Hsym : forall d e, eqb d e = eqb e d)
  (Htrans : forall d e f, eqb d e = true -> eqb e f = true -> eqb d f = true).
Implicit Types (s : sys T) (K : forest).

Lemma node_shape s K i k x : stores s K -> reach s -> s_hands s !! i = Some (HNode k x) -> exists t, shape K x t.
Proof.
  intros Hst R Hi. apply shape_exists; [exact (proj2 Hst)|]. apply (rep_dom _ _ (proj1 Hst)). exact (handle_alive _ _ _ _ _ (reach_stores_inv _ _ R Hst) Hi).
Qed.

Lemma node_eq_refl s i k x : reach s -> s_hands s !! i = Some (HNode k x) -> node_try_eq eqb s i i = Ret (Some true).
Proof.
  intros R Hi. destruct (reach_stores s R) as [K Hst]. destruct (node_shape s K i k x Hst R Hi) as [t S].
  destruct (node_try_eq_exact eqb s K i i k k x x t t Hst Hi Hi S S) as (r & E & H & _). rewrite E. by rewrite H.
Qed.
Lemma node_eq_sym s i j k k' x y : reach s -> s_hands s !! i = Some (HNode k x) -> s_hands s !! j = Some (HNode k' y) ->
  node_try_eq eqb s i j = node_try_eq eqb s j i.
Proof.
  intros R Hi Hj. destruct (reach_stores s R) as [K Hst]. destruct (node_shape s K i k x Hst R Hi) as [t S]. destruct (node_shape s K j k' y Hst R Hj) as [u U].
  destruct (node_try_eq_exact eqb s K i j k k' x y t u Hst Hi Hj S U) as (r & E & H1 & H2).
  destruct (node_try_eq_exact eqb s K j i k' k y x u t Hst Hj Hi U S) as (r' & E' & H1' & H2'). rewrite E, E'. f_equal.
  destruct (decide (x = y)) as [->|Hne]; [by rewrite H1, H1'|]. eapply exactly_unique; [exact (H2 Hne)|]. apply exactly_sym; [exact Hsym|]. apply H2'. congruence.
Qed.
Lemma node_eq_trans s i j l k k' k2 x y z : reach s -> s_hands s !! i = Some (HNode k x) -> s_hands s !! j = Some (HNode k' y) -> s_hands s !! l = Some (HNode k2 z) ->
  node_try_eq eqb s i j = Ret (Some true) -> node_try_eq eqb s j l = Ret (Some true) -> node_try_eq eqb s i l = Ret (Some true).
Proof.
  intros R Hi Hj Hl A B. destruct (reach_stores s R) as [K Hst].
  destruct (node_shape s K i k x Hst R Hi) as [t S]. destruct (node_shape s K j k' y Hst R Hj) as [u U]. destruct (node_shape s K l k2 z Hst R Hl) as [v V].
  destruct (node_try_eq_ok eqb s K i j k k' x y t u Hst Hi Hj S U) as (r & E & H1 & H2).
  destruct (node_try_eq_ok eqb s K j l k' k2 y z u v Hst Hj Hl U V) as (r' & E' & H1' & H2').
  destruct (node_try_eq_ok eqb s K i l k k2 x z t v Hst Hi Hl S V) as (r2 & E2 & H3 & H4).
  rewrite E2. f_equal. rewrite E in A. rewrite E' in B. injection A as ->. injection B as ->.
  destruct (decide (x = z)) as [Hxz|Hxz]; [by apply H3|].
  destruct (decide (x = y)) as [Hxy|Hxy].
  { subst y. assert (u = t) as -> by (eapply shape_unique; [exact U|exact S]). specialize (H2' Hxz). specialize (H4 Hxz).
    destruct H2' as [D N]. destruct r2 as [[]|]; [done|by destruct (H4 D)|]. by destruct (H4 N). }
  destruct (decide (y = z)) as [Hyz|Hyz].
  { subst z. assert (v = u) as -> by (eapply shape_unique; [exact V|exact U]). specialize (H2 Hxy). specialize (H4 Hxz).
    destruct H2 as [D N]. destruct r2 as [[]|]; [done|by destruct (H4 D)|]. by destruct (H4 N). }
  exact (answer_trans eqb _ t u v r2 Htrans (H2 Hxy) (H2' Hyz) (H4 Hxz)).
Qed.

(** The root of a tree, and its shape. *)
Lemma tree_top s K i t : reach s -> stores s K -> s_hands s !! i = Some (HTree t) -> exists x tr, is_top K x /\ tree_of s x = Some t /\ shape K x tr.
Proof.
  intros R Hst Hi. pose proof (reach_stores_inv _ _ R Hst) as I. destruct (h_tree _ _ (i_h _ _ I) _ _ Hi) as [tr Ht].
  destruct (s_root _ _ (i_s _ _ I) _ _ Ht) as [A B]. destruct (shape_exists K (t_root tr) (proj2 Hst) (proj1 A)) as [u U]. exists (t_root tr), u. done.
Qed.
Lemma tree_eq_refl s i t : reach s -> s_hands s !! i = Some (HTree t) -> tree_try_eq eqb s i i = Ret (Some true).
Proof.
  intros R Hi. destruct (reach_stores s R) as [K Hst]. destruct (tree_top s K i t R Hst Hi) as (x & u & A & B & U).
  destruct (tree_try_eq_exact eqb s K i i t t x x u u R Hst Hi Hi A B A B U U) as (r & E & H & _). rewrite E. by rewrite H.
Qed.
Lemma tree_eq_sym s i j t t' : reach s -> s_hands s !! i = Some (HTree t) -> s_hands s !! j = Some (HTree t') ->
  tree_try_eq eqb s i j = tree_try_eq eqb s j i.
Proof.
  intros R Hi Hj. destruct (reach_stores s R) as [K Hst]. destruct (tree_top s K i t R Hst Hi) as (x & u & A & B & U). destruct (tree_top s K j t' R Hst Hj) as (y & v & C & D & V).
  destruct (tree_try_eq_exact eqb s K i j t t' x y u v R Hst Hi Hj A B C D U V) as (r & E & H1 & H2).
  destruct (tree_try_eq_exact eqb s K j i t' t y x v u R Hst Hj Hi C D A B V U) as (r' & E' & H1' & H2'). rewrite E, E'. f_equal.
  destruct (decide (t = t')) as [->|Hne]; [by rewrite H1, H1'|]. eapply exactly_unique; [exact (H2 Hne)|]. apply exactly_sym; [exact Hsym|]. apply H2'. congruence.
Qed.
Lemma tree_eq_trans s i j l t t' t2 : reach s -> s_hands s !! i = Some (HTree t) -> s_hands s !! j = Some (HTree t') -> s_hands s !! l = Some (HTree t2) ->
  tree_try_eq eqb s i j = Ret (Some true) -> tree_try_eq eqb s j l = Ret (Some true) -> tree_try_eq eqb s i l = Ret (Some true).
Proof.
  intros R Hi Hj Hl A B. destruct (reach_stores s R) as [K Hst]. pose proof (reach_stores_inv _ _ R Hst) as I.
  destruct (tree_top s K i t R Hst Hi) as (x & u & Tx & Ex & U). destruct (tree_top s K j t' R Hst Hj) as (y & v & Ty & Ey & V). destruct (tree_top s K l t2 R Hst Hl) as (z & w & Tz & Ez & W).
  assert (Hsame : forall a b t0 ta tb, is_top K a -> is_top K b -> tree_of s a = Some t0 -> tree_of s b = Some t0 -> shape K a ta -> shape K b tb -> ta = tb).
  { intros a b t0 ta tb Ha Hb Ea Eb Sa Sb. destruct (s_top _ _ (i_s _ _ I) a Ha) as (t3 & tr & E3 & E4 & E5). destruct (s_top _ _ (i_s _ _ I) b Hb) as (t4 & tr' & F3 & F4 & F5).
    assert (a = b) as -> by congruence. by eapply shape_unique. }
  destruct (tree_try_eq_ok eqb s K i j t t' x y u v R Hst Hi Hj Tx Ex Ty Ey U V) as (r & E & H1 & H2).
  destruct (tree_try_eq_ok eqb s K j l t' t2 y z v w R Hst Hj Hl Ty Ey Tz Ez V W) as (r' & E' & H1' & H2').
  destruct (tree_try_eq_ok eqb s K i l t t2 x z u w R Hst Hi Hl Tx Ex Tz Ez U W) as (r2 & E2 & H3 & H4).
  rewrite E2. f_equal. rewrite E in A. rewrite E' in B. injection A as ->. injection B as ->.
  destruct (decide (t = t2)) as [Hxz|Hxz]; [by apply H3|].
  destruct (decide (t = t')) as [Hxy|Hxy].
  { subst t'. assert (v = u) as -> by (exact (Hsame y x t v u Ty Tx Ey Ex V U)). specialize (H2' Hxz). specialize (H4 Hxz).
    destruct H2' as [D N]. destruct r2 as [[]|]; [done|by destruct (H4 D)|]. by destruct (H4 N). }
  destruct (decide (t' = t2)) as [Hyz|Hyz].
  { subst t2. assert (w = v) as -> by (exact (Hsame z y t' w v Tz Ty Ez Ey W V)). specialize (H2 Hxy). specialize (H4 Hxz).
    destruct H2 as [D N]. destruct r2 as [[]|]; [done|by destruct (H4 D)|]. by destruct (H4 N). }
  exact (answer_trans eqb _ u v w r2 Htrans (H2 Hxy) (H2' Hyz) (H4 Hxz)).
Qed.
End EqRel.
