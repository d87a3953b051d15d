(** * EqFacts2: [try_eq] exactly. *)
From Verif Require Import Serial SysSpec ApiSpec SerialSpec SpecFacts RoseFacts AdjFacts IterFacts TravFacts TravFacts4 TdFacts2 EqFacts ApiFacts2 ApiFacts3 SysFacts5 Spec.
From Coq Require Import Lia.

Section Loop2.
Context {T U : Type} (eqb : T -> U -> bool) (h1 : heap T) (h2 : heap U).
Definition stops (l m : list (dft nid)) (r : option bool) : Prop :=
  exists n, Forall2 (event_agrees eqb h1 h2) (take n l) (take n m) /\
    match l !! n, m !! n with
    | None, None => r = Some true
    | Some (Open a), Some (Open b) =>
        ((borrowed h1 a \/ borrowed h2 b) /\ r = None) \/
        (exists d d', readable h1 a d /\ readable h2 b d' /\ eqb d d' = false /\ r = Some false)
    | Some (Close _), Some (Close _) => False
    | _, _ => r = Some false
    end.
Lemma stops_cons e f l m r : event_agrees eqb h1 h2 e f -> stops l m r -> stops (e :: l) (f :: m) r.
Proof. intros He (n & F & M). exists (S n). split; [by constructor|exact M]. Qed.
Lemma eq_loop_exact : forall fuel l m st1 st2,
  enumerates (link_dfs_next h1) st1 l -> enumerates (link_dfs_next h2) st2 m -> length l < fuel ->
  (forall e, e ∈ l -> is_Some (h1 !! ev_val e)) -> (forall e, e ∈ m -> is_Some (h2 !! ev_val e)) ->
  exists r, eq_loop eqb fuel h1 h2 st1 st2 = Ret r /\ stops l m r.
Proof.
  induction fuel as [|f IH]; intros l m st1 st2 H1 H2 Hf D1 D2; [lia|].
  apply enumerates_inv in H1 as (st1' & E1 & H1). apply enumerates_inv in H2 as (st2' & E2 & H2).
  simpl. rewrite E1. simpl. rewrite E2. simpl.
  destruct l as [|e l], m as [|g m]; simpl in *.
  - exists (Some true). split; [done|]. exists 0. split; [constructor|done].
  - exists (Some false). split; [done|]. exists 0. split; [constructor|done].
  - exists (Some false). split; [by destruct e|]. exists 0. split; [constructor|by destruct e].
  - destruct (IH l m st1' st2' H1 H2 ltac:(lia) ltac:(intros; apply D1; set_solver) ltac:(intros; apply D2; set_solver))
      as (r & Er & Hv).
    destruct e as [a|a], g as [b|b]; simpl.
    + destruct (try_borrow_spec h1 a) as (ra & Ea & Ra); [apply (D1 (Open a)); set_solver|]. rewrite Ea. simpl.
      destruct ra as [da|]; [|exists None; split; [done|]; exists 0; split; [constructor|]; left; by split; [left|]].
      destruct (try_borrow_spec h2 b) as (rb & Eb & Rb); [apply (D2 (Open b)); set_solver|]. rewrite Eb. simpl.
      destruct rb as [db|]; [|exists None; split; [done|]; exists 0; split; [constructor|]; left; by split; [right|]].
      destruct (eqb da db) eqn:E.
      * exists r. split; [done|]. apply stops_cons; [|done]. by exists da, db.
      * exists (Some false). split; [done|]. exists 0. split; [constructor|]. right. by exists da, db.
    + exists (Some false). split; [done|]. exists 0. split; [constructor|done].
    + exists (Some false). split; [done|]. exists 0. split; [constructor|done].
    + exists r. split; [done|]. by apply stops_cons.
Qed.
End Loop2.

Lemma before_end x ts : events_before_end (Rose x ts) = Open x :: concat (map dfs_events ts).
Proof. unfold events_before_end. cbn [dfs_events]. rewrite app_comm_cons. by rewrite removelast_last. Qed.
Lemma try_eq_apart_exact {T U} (eqb : T -> U -> bool) (h1 : heap T) (h2 : heap U) K1 K2 x y t1 t2 :
  rep h1 K1 -> wf K1 -> rep h2 K2 -> wf K2 -> shape K1 x t1 -> shape K2 y t2 ->
  exists r, try_eq_apart eqb h1 h2 x y = Ret r /\ eq_exactly eqb h1 h2 t1 t2 r.
Proof.
  intros R1 W1 R2 W2 S1 S2. destruct (shape_top_events _ _ _ S1) as [ts ->]. destruct (shape_top_events _ _ _ S2) as [us ->].
  pose proof (link_dfs_enum h1 K1 x ts R1 W1 S1) as E1. pose proof (link_dfs_enum h2 K2 y us R2 W2 S2) as E2.
  assert (forall V (h : heap V) K z vs e, rep h K -> wf K -> shape K z (Rose z vs) -> e ∈ Open z :: concat (map dfs_events vs) ->
    is_Some (h !! ev_val e)) as Hd.
  { intros V h K z vs e Hr Hw Hs He. assert (e ∈ dfs_events (Rose z vs)) as He'.
    { simpl. apply elem_of_cons in He as [->|He]; [by left|]. apply elem_of_cons. right. apply elem_of_app. by left. }
    apply (rep_dom h K Hr). by apply (shape_events_dom K z _ e Hw Hs He'). }
  destruct (eq_loop_exact eqb h1 h2 (dfs_fuel h1) _ _ _ _ E1 E2) as (r & Er & Hv).
  { pose proof (dfs_events_length (Rose x ts)) as HL. simpl in HL. rewrite app_length in HL. simpl in HL. pose proof (nodes_length_le h1 K1 x _ R1 W1 S1) as HN.
    simpl. unfold dfs_fuel. simpl in HN. lia. }
  { intros e He. by eapply (Hd T h1 K1). }
  { intros e He. by eapply (Hd U h2 K2). }
  exists r. split; [exact Er|]. unfold eq_exactly. rewrite !before_end. exact Hv.
Qed.
Lemma exactly_unique {T U} (eqb : T -> U -> bool) (h1 : heap T) (h2 : heap U) t1 t2 r r' :
  eq_exactly eqb h1 h2 t1 t2 r -> eq_exactly eqb h1 h2 t1 t2 r' -> r = r'.
Proof.
  unfold eq_exactly. generalize (events_before_end t1) (events_before_end t2). intros l m (n & F & M) (n' & F' & M').
  assert (forall (V : Type) (h : heap V) a d d', readable h a d -> readable h a d' -> d = d') as RU.
  { intros V h a d d' [(n1 & A1 & A2) _] [(n2 & B1 & B2) _]. congruence. }
  assert (G : forall k k' (q q' : option bool), k < k' ->
    match l !! k, m !! k with
    | None, None => q = Some true
    | Some (Open a), Some (Open b) => ((borrowed h1 a \/ borrowed h2 b) /\ q = None) \/ (exists d d', readable h1 a d /\ readable h2 b d' /\ eqb d d' = false /\ q = Some false)
    | Some (Close _), Some (Close _) => False
    | _, _ => q = Some false
    end -> Forall2 (event_agrees eqb h1 h2) (take k' l) (take k' m) -> l !! k = None /\ m !! k = None).
  { intros k k' q q' L X Y. destruct (l !! k) as [e|] eqn:El, (m !! k) as [g|] eqn:Em.
    - assert (event_agrees eqb h1 h2 e g) as A. { eapply (Forall2_lookup_lr _ _ _ k e g Y); by rewrite lookup_take. }
      destruct e as [a|a], g as [b|b]; simpl in A; try done. destruct A as (d & d' & Ra & Rb & E).
      destruct X as [[[B|B] _]|(d1 & d2 & Ra' & Rb' & E' & _)]; [by destruct Ra|by destruct Rb|].
      rewrite (RU _ _ _ _ _ Ra Ra'), (RU _ _ _ _ _ Rb Rb') in E. congruence.
    - exfalso. assert (is_Some (take k' m !! k)) as [z Z]. { eapply (Forall2_lookup_l _ _ _ k e Y) || idtac; destruct (Forall2_lookup_l _ _ _ k e Y) as (z & Z & _); [by rewrite lookup_take|by exists z]. }
      rewrite lookup_take in Z by done. congruence.
    - exfalso. destruct (Forall2_lookup_r _ _ _ k g Y) as (z & Z & _); [by rewrite lookup_take|]. rewrite lookup_take in Z by done. congruence.
    - done. }
  destruct (decide (n < n')) as [L|L].
  { destruct (G n n' r r L M F') as [A B]. rewrite A, B in M. apply lookup_ge_None in A, B.
    rewrite (proj2 (lookup_ge_None l n')), (proj2 (lookup_ge_None m n')) in M' by lia. congruence. }
  destruct (decide (n' < n)) as [L'|L'].
  { destruct (G n' n r' r' L' M' F) as [A B]. rewrite A, B in M'. apply lookup_ge_None in A, B.
    rewrite (proj2 (lookup_ge_None l n)), (proj2 (lookup_ge_None m n)) in M by lia. congruence. }
  assert (n' = n) as -> by lia. destruct (l !! n) as [[a|a]|], (m !! n) as [[b|b]|]; try congruence; try done.
  destruct M as [[B ->]|(d & d' & Ra & Rb & E & ->)], M' as [[B' ->]|(d1 & d2 & Ra' & Rb' & E' & ->)]; try done.
  - destruct B as [B|B]; [by destruct Ra'|by destruct Rb'].
  - destruct B' as [B|B]; [by destruct Ra|by destruct Rb].
Qed.

(** [==] *)
Lemma try_eq_exact {T} (eqb : T -> T -> bool) (h : heap T) K x y t1 t2 : rep h K -> wf K -> shape K x t1 -> shape K y t2 ->
  exists r, try_eq eqb h x y = Ret r /\ (x = y -> r = Some true) /\ (x <> y -> eq_exactly eqb h h t1 t2 r).
Proof.
  intros R W S1 S2. unfold try_eq. case_decide as E; [by exists (Some true)|].
  destruct (try_eq_apart_exact eqb h h K K x y t1 t2 R W R W S1 S2) as (r & Er & H). exists r. done.
Qed.
Lemma node_try_eq_exact {T} (eqb : T -> T -> bool) (s : sys T) K i j k k' x y t1 t2 : stores s K -> s_hands s !! i = Some (HNode k x) -> s_hands s !! j = Some (HNode k' y) ->
  shape K x t1 -> shape K y t2 ->
  exists r, node_try_eq eqb s i j = Ret r /\ (x = y -> r = Some true) /\ (x <> y -> eq_exactly eqb (s_nodes s) (s_nodes s) t1 t2 r).
Proof. intros [Hr Hw] Hi Hj S1 S2. unfold node_try_eq. rewrite Hi, Hj. by eapply try_eq_exact. Qed.
Lemma tree_try_eq_exact {T} (eqb : T -> T -> bool) (s : sys T) K i j t u x y t1 t2 : reach s -> stores s K -> s_hands s !! i = Some (HTree t) -> s_hands s !! j = Some (HTree u) ->
  is_top K x -> tree_of s x = Some t -> is_top K y -> tree_of s y = Some u -> shape K x t1 -> shape K y t2 ->
  exists r, tree_try_eq eqb s i j = Ret r /\ (t = u -> r = Some true) /\ (t <> u -> eq_exactly eqb (s_nodes s) (s_nodes s) t1 t2 r).
Proof.
  intros R Hst Hi Hj Tx Ex Ty Ey S1 S2. pose proof (reach_stores_inv s K R Hst) as Hinv.
  assert (forall z v, is_top K z -> tree_of s z = Some v -> exists tr, s_trees s !! v = Some tr /\ t_root tr = z) as Hroot.
  { intros z v Hz Hv. destruct (s_top _ _ (i_s _ _ Hinv) z Hz) as (v' & tr & H1 & H2 & H3). exists tr. split; [congruence|done]. }
  destruct (Hroot x t Tx Ex) as (tr & Htr & Hx). destruct (Hroot y u Ty Ey) as (ur & Hur & Hy).
  unfold tree_try_eq. rewrite Hi, Hj, Htr, Hur, Hx, Hy.
  destruct (try_eq_exact eqb (s_nodes s) K x y t1 t2 (proj1 Hst) (proj2 Hst) S1 S2) as (r & E & H1 & H2).
  exists r. split; [exact E|]. split.
  - intros ->. apply H1. congruence.
  - intros Hne. apply H2. congruence.
Qed.
Lemma expect_eq {T} (eqb : T -> T -> bool) (h : heap T) t1 t2 (e : run (option bool)) (P : Prop) :
  (exists r, e = Ret r /\ (P -> r = Some true) /\ (~ P -> eq_exactly eqb h h t1 t2 r)) ->
  (P -> eq_expect e = Ret true) /\ (~ P -> (eq_expect e = Panic /\ eq_exactly eqb h h t1 t2 None) \/ exists b, eq_expect e = Ret b /\ eq_exactly eqb h h t1 t2 (Some b)).
Proof.
  intros (r & -> & A & B). split; intros H.
  - by rewrite (A H).
  - specialize (B H). destruct r as [b|]; [right; by exists b|by left].
Qed.
