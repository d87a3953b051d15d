(** * BuilderFacts2: the builder among others (C51). *)
From Verif Require Import SerialSpec HIterSpec FrameSpec FrameFacts FrameFacts2 BuilderSpec GenSpec OwnSpec ApiFacts ApiFacts2 ApiFacts3 HIterFacts OwnFacts BuilderFacts Spec.
Notation started := FrameFacts2.started.
Section Lift.
Context {T : Type}.
Implicit Types (s u v : sys T) (p : nat -> bool) (b : builder) (e : event T).

Lemma parted_ext p p' s : parted p s -> bounded s -> (forall n, n < s_fresh s -> p' n = p n) -> parted p' s.
Proof. intros [A B C] [D E F] H. split.
  - intros x nd y Hx Hr. destruct (D x nd Hx) as [Dx Dy]. rewrite (H y), (H x); [exact (A x nd y Hx Hr)|exact Dx|exact (Dy y Hr)].
  - intros t tr Ht. destruct (E t tr Ht) as [Et Er]. rewrite (H (t_root tr)), (H t); [exact (B t tr Ht)|exact Et|exact Er].
  - intros i hd Hi. destruct (F i hd Hi) as [Fi Fh]. rewrite (H (hand_target hd)), (H i); [exact (C i hd Hi)|exact Fi|exact Fh]. Qed.

(** Nothing has happened yet, or something has. *)
Definition strt s : Prop := s_fresh s = 0 \/ (3 <= s_fresh s /\ exists d : T, True).
Lemma fresh_zero s : bounded s -> s_fresh s = 0 -> s = init.
Proof. intros [D E F] Z. destruct s as [h m hs k]. cbn in *. subst k. unfold init. f_equal; apply map_eq; intros y; rewrite lookup_empty.
  - destruct (h !! y) eqn:Ey; [|reflexivity]. destruct (D y _ Ey). lia.
  - destruct (m !! y) eqn:Ey; [|reflexivity]. destruct (E y _ Ey). lia.
  - destruct (hs !! y) eqn:Ey; [|reflexivity]. destruct (F y _ Ey). lia. Qed.
Lemma strt_step s o s' r : bounded s -> strt s -> step s o = Ret (s', r) -> s_fresh s <= s_fresh s' -> strt s'.
Proof. intros B [Z|[A D]] E L; [|right; split; [lia|exact D]]. rewrite (fresh_zero s B Z) in E. destruct (start_step o s' r E) as [->|H]; [by left|by right]. Qed.
(** [p], and all that is new belongs to the builder. *)
Definition mine p s : Prop := parted p s /\ bounded s /\ strt s /\ forall n, s_fresh s <= n -> p n = true.
Definition goes p s s' : Prop := mine p s' /\ s_fresh s <= s_fresh s' /\ untouched (share p false s) (share p false s').
Lemma unt_trans s u v : untouched s u -> untouched u v -> untouched s v.
Proof. intros (A & B & C) (D & E & F). split; [congruence|split; congruence]. Qed.
Lemma goes_trans p s s1 s2 : goes p s s1 -> goes p s1 s2 -> goes p s s2.
Proof. intros (A & B & C) (D & E & F). split; [exact D|]. split; [lia|exact (unt_trans _ _ _ C F)]. Qed.
Lemma goes_refl p s : mine p s -> goes p s s.
Proof. intros M. split; [exact M|]. split; [lia|]. by split. Qed.
Definition lifts {A} p s (f : sys T -> run (sys T * A)) : Prop := forall u a, f (share p true s) = Ret (u, a) ->
  exists s', f s = Ret (s', a) /\ u = share p true s' /\ goes p s s'.

Lemma l_step p s o : mine p s -> call_of p true o -> lifts p s (fun s => step s o).
Proof. intros (P & B & St & N) C u r E. destruct (sep_step p s true o P B C) as [A [F|F]]; [congruence|]. rewrite E in F.
  destruct (step s o) as [[s' r']| |] eqn:Es; cbn [ronr fst snd] in F; try discriminate F. destruct (A _ eq_refl) as (P' & B' & L & U). cbn [fst] in *.
  assert (forall n, n < s_fresh s' -> p n = turn p s true n) as X.
  { intros n _. destruct (decide (n < s_fresh s)) as [Hn|Hn]; [by rewrite turn_below|rewrite turn_above by lia; apply N; lia]. }
  assert (u = share (turn p s true) true s' /\ r = r') as [Hu ->] by (injection F as F1 F2; by split).
  exists s'. split; [reflexivity|]. split; [rewrite Hu; symmetry; by apply share_ext|].
  split; [split; [exact (parted_ext _ _ _ P' B' X)|split; [exact B'|split; [exact (strt_step s o s' r' B St Es L)|intros n Hn; apply N; lia]]]|]. split; [exact L|].
  rewrite (share_ext (turn p s true) p false s' B' X). exact U. Qed.
(** The handles of a share belong to the party. *)
Lemma share_hand p bb s i hd : s_hands (share p bb s) !! i = Some hd -> p i = bb.
Proof. cbn. intros H. apply map_filter_lookup_Some in H as [_ H]. exact H. Qed.
Lemma in_share p bb s i : p i = bb -> s_hands (share p bb s) !! i = s_hands s !! i.
Proof. intros H. cbn. destruct (s_hands s !! i) as [hd|] eqn:E.
  - apply map_filter_lookup_Some. by split.
  - apply map_filter_lookup_None. by left. Qed.
Lemma step_any u o u' r : any u -> step u o = Ret (u', r) -> any u'.
Proof. intros A E. exact (proj1 (after_fine u o u' r A E)). Qed.
Lemma new_hand u o u' i : any u -> step u o = Ret (u', OutHandle i) -> (forall j, o <> OpDrop j) -> is_Some (s_hands u' !! i).
Proof. intros A E N. pose proof (proj2 (after_fine u o u' _ A E)) as H. destruct o; cbn in H; try (destruct H as (_ & hd & ->); rewrite lookup_insert; eauto). Qed.
Lemma p_new p s o u i : any (share p true s) -> step (share p true s) o = Ret (u, OutHandle i) -> (forall j, o <> OpDrop j) -> forall s', u = share p true s' -> p i = true.
Proof. intros A E N s' ->. destruct (new_hand _ _ _ _ A E N) as [hd H]. exact (share_hand _ _ _ _ _ H). Qed.

(** A program that gives a handle. *)
Lemma l_call p s o u i : mine p s -> any (share p true s) -> call_of p true o -> (forall j, o <> OpDrop j) -> call_hand (share p true s) o = Ret (u, i) ->
  exists s', call_hand s o = Ret (s', i) /\ u = share p true s' /\ goes p s s' /\ any u /\ p i = true.
Proof. intros M A C N E. unfold call_hand in *. destruct (step (share p true s) o) as [[u1 r]| |] eqn:Es; cbn [mbind run_bind] in E; try discriminate E.
  destruct r as [j| | | | | | |]; try discriminate E. injection E as -> ->.
  destruct (l_step p s o M C _ _ Es) as (s' & Es' & Hu & G). exists s'. rewrite Es'. cbn [mbind run_bind]. split; [reflexivity|]. split; [exact Hu|]. split; [exact G|].
  split; [exact (step_any _ _ _ _ A Es)|exact (p_new p s o u i A Es N s' Hu)]. Qed.
Lemma l_drop_opt p s (o : option nat) u : mine p s -> any (share p true s) -> (forall i, o = Some i -> p i = true) -> drop_opt (share p true s) o = Ret u ->
  exists s', drop_opt s o = Ret s' /\ u = share p true s' /\ goes p s s' /\ any u.
Proof. intros M A C E. destruct o as [i|]; cbn [drop_opt] in *.
  - destruct (step (share p true s) (OpDrop i)) as [[u1 r]| |] eqn:Es; cbn [mbind run_bind] in E; try discriminate E. injection E as ->.
    assert (call_of p true (OpDrop i : op T)) as C'. { intros j Hj. cbn in Hj. apply elem_of_list_singleton in Hj as ->. by apply C. }
    destruct (l_step p s _ M C' _ _ Es) as (s' & Es' & Hu & G). exists s'. rewrite Es'. split; [reflexivity|]. split; [exact Hu|]. split; [exact G|exact (step_any _ _ _ _ A Es)].
  - injection E as <-. exists s. split; [reflexivity|]. split; [reflexivity|]. split; [exact (goes_refl p s M)|exact A]. Qed.
Lemma call1 p i (o : op T) : op_args o = [i] -> p i = true -> call_of p true o.
Proof. intros E H j Hj. rewrite E in Hj. apply elem_of_list_singleton in Hj as ->. exact H. Qed.
Lemma call0 p (o : op T) : op_args o = [] -> call_of p true o.
Proof. intros E j Hj. rewrite E in Hj. by apply elem_of_nil in Hj. Qed.

(** The builder's handles are its own. *)
Definition its p b : Prop := (forall i, b_root b = Some i -> p i = true) /\ (forall i, b_cur b = Some i -> p i = true).
Lemma goes_mine p s s' : goes p s s' -> mine p s'.
Proof. exact (fun G => proj1 G). Qed.
Ltac lcall H := let s1 := fresh "s" in let E := fresh "E" in let G := fresh "G" in let A := fresh "A" in let P := fresh "P" in let M := fresh "M" in
  destruct H as (s1 & E & -> & G & A & P); pose proof (goes_mine _ _ _ G) as M; cbn [mbind run_bind]; rewrite E; cbn [mbind run_bind].
Lemma l_open p s b d u b' x : mine p s -> any (share p true s) -> its p b -> b_open (share p true s) b d = Ret (u, b', x) ->
  exists s', b_open s b d = Ret (s', b', x) /\ u = share p true s' /\ goes p s s' /\ its p b'.
Proof. intros M A [I1 I2] E. unfold b_open in *. destruct (b_root b) as [rt|] eqn:Er.
  - destruct (b_cur b) as [c|] eqn:Ec.
    + destruct (call_hand _ (OpCreate _ _ _)) as [[u1 i]| |] eqn:E1; cbn [mbind run_bind] in E; try discriminate E.
      destruct (l_call p s (OpCreate (ByHot c) d ALastChild) _ _ M A (call1 p c (OpCreate (ByHot c) d ALastChild) eq_refl (I2 c eq_refl)) ltac:(discriminate) E1) as (s1 & E1' & -> & G1 & A1 & P1). rewrite E1'. cbn [mbind run_bind].
      destruct (drop_opt _ (Some c)) as [u2| |] eqn:E2; cbn [mbind run_bind] in E; try discriminate E. injection E as <- <- <-.
      destruct (l_drop_opt p s1 (Some c) u2 (goes_mine _ _ _ G1) A1) as (s2 & E2' & -> & G2 & A2); [intros ? [= <-]; by apply I2|exact E2|].
      rewrite E2'. exists s2. split; [reflexivity|]. split; [reflexivity|]. split; [exact (goes_trans _ _ _ _ G1 G2)|].
      split; cbn; [exact I1|]. intros ? [= <-]. exact P1.
    + injection E as <- <- <-. exists s. split; [reflexivity|]. split; [reflexivity|]. split; [exact (goes_refl p s M)|]. split; [by rewrite Er|by rewrite Ec].
  - destruct (call_hand _ (OpNewTree _)) as [[u1 i]| |] eqn:E1; cbn [mbind run_bind] in E; try discriminate E.
    destruct (l_call p s (OpNewTree d) _ _ M A (call0 p (OpNewTree d) eq_refl) ltac:(discriminate) E1) as (s1 & E1' & -> & G1 & A1 & P1). rewrite E1'. cbn [mbind run_bind].
    destruct (call_hand _ (OpBundle _ _)) as [[u2 j]| |] eqn:E2; cbn [mbind run_bind] in E; try discriminate E.
    destruct (l_call p s1 (OpBundle Hot i) _ _ (goes_mine _ _ _ G1) A1 (call1 p i (OpBundle Hot i) eq_refl P1) ltac:(discriminate) E2) as (s2 & E2' & -> & G2 & A2 & P2). rewrite E2'. cbn [mbind run_bind].
    destruct (call_hand _ (OpPlain _)) as [[u3 k]| |] eqn:E3; cbn [mbind run_bind] in E; try discriminate E.
    destruct (l_call p s2 (OpPlain j) _ _ (goes_mine _ _ _ G2) A2 (call1 p j (OpPlain j) eq_refl P2) ltac:(discriminate) E3) as (s3 & E3' & -> & G3 & A3 & P3). rewrite E3'. cbn [mbind run_bind].
    destruct (drop_opt _ (b_cur b)) as [u4| |] eqn:E4; cbn [mbind run_bind] in E; try discriminate E. injection E as <- <- <-.
    destruct (l_drop_opt p s3 (b_cur b) u4 (goes_mine _ _ _ G3) A3 I2 E4) as (s4 & E4' & -> & G4 & A4). rewrite E4'.
    exists s4. split; [reflexivity|]. split; [reflexivity|]. split; [exact (goes_trans _ _ _ _ (goes_trans _ _ _ _ (goes_trans _ _ _ _ G1 G2) G3) G4)|].
    split; cbn; intros ? [= <-]; [exact P3|exact P2]. Qed.

Lemma l_ptr p s i j r : p i = true -> p j = true -> hand_ptr_eq (share p true s) i j = Ret r -> hand_ptr_eq s i j = Ret r.
Proof. intros Hi Hj. unfold hand_ptr_eq. by rewrite !in_share. Qed.
Lemma l_close_up p root : (forall i, root = Some i -> p i = true) -> forall k s c u c' ok, mine p s -> any (share p true s) -> p c = true -> close_up k (share p true s) root c = Ret (u, c', ok) ->
  exists s', close_up k s root c = Ret (s', c', ok) /\ u = share p true s' /\ goes p s s' /\ any u /\ p c' = true.
Proof. intros Hr. induction k as [|k IH]; intros s c u c' ok M A Hc E; cbn [close_up] in *.
  { injection E as <- <- <-. exists s. split; [reflexivity|]. split; [reflexivity|]. split; [exact (goes_refl p s M)|by split]. }
  destruct root as [r|]; [|discriminate E]. specialize (Hr r eq_refl). destruct (hand_ptr_eq _ c r) as [eq| |] eqn:Ep; cbn [mbind run_bind] in E; try discriminate E.
  rewrite (l_ptr p s c r _ Hc Hr Ep). cbn [mbind run_bind]. destruct eq.
  { injection E as <- <- <-. exists s. split; [reflexivity|]. split; [reflexivity|]. split; [exact (goes_refl p s M)|by split]. }
  destruct (step (share p true s) (OpNav NParent c)) as [[u1 o]| |] eqn:E1; cbn [mbind run_bind] in E; try discriminate E.
  destruct (l_step p s _ M (call1 p c (OpNav NParent c) eq_refl Hc) _ _ E1) as (s1 & E1' & Hu1 & G1). rewrite E1'. cbn [mbind run_bind].
  pose proof (step_any _ _ _ _ A E1) as A1. destruct o as [i| | | | | | |]; try discriminate E.
  - pose proof (p_new p s _ _ _ A E1 ltac:(discriminate) s1 Hu1) as Pi. subst u1.
    destruct (drop_opt _ (Some c)) as [u2| |] eqn:E2; cbn [mbind run_bind] in E; try discriminate E.
    destruct (l_drop_opt p s1 (Some c) u2 (goes_mine _ _ _ G1) A1) as (s2 & E2' & -> & G2 & A2); [intros ? [= <-]; exact Hc|exact E2|].
    rewrite E2'. cbn [mbind run_bind]. destruct (IH s2 i u c' ok (goes_mine _ _ _ G2) A2 Pi E) as (s3 & E3 & Hu & G3 & A3 & P3).
    exists s3. split; [exact E3|]. split; [exact Hu|]. split; [exact (goes_trans _ _ _ _ (goes_trans _ _ _ _ G1 G2) G3)|by split].
  - injection E as <- <- <-. exists s1. split; [reflexivity|]. split; [exact Hu1|]. split; [exact G1|by split]. Qed.
Lemma l_close p s b n u b' x : mine p s -> any (share p true s) -> its p b -> b_close (share p true s) b n = Ret (u, b', x) ->
  exists s', b_close s b n = Ret (s', b', x) /\ u = share p true s' /\ goes p s s' /\ its p b'.
Proof. intros M A I E. pose proof I as [I1 I2]. unfold b_close in *. destruct n as [|n].
  { injection E as <- <- <-. exists s. split; [reflexivity|]. split; [reflexivity|]. split; [exact (goes_refl p s M)|exact I]. }
  destruct (b_cur b) as [c|] eqn:Ec.
  2:{ injection E as <- <- <-. exists s. split; [reflexivity|]. split; [reflexivity|]. split; [exact (goes_refl p s M)|exact I]. }
  destruct (close_up n (share p true s) (b_root b) c) as [[[u1 c1] ok]| |] eqn:E1; cbn [mbind run_bind] in E; try discriminate E.
  destruct (l_close_up p (b_root b) I1 n s c u1 c1 ok M A (I2 c eq_refl) E1) as (s1 & E1' & -> & G1 & A1 & P1). rewrite E1'. cbn [mbind run_bind].
  destruct ok.
  2:{ injection E as <- <- <-. exists s1. split; [reflexivity|]. split; [reflexivity|]. split; [exact G1|]. split; cbn; [exact I1|]. intros ? [= <-]. exact P1. }
  destruct (step (share p true s1) (OpNav NParent c1)) as [[u2 o]| |] eqn:E2; cbn [mbind run_bind] in E; try discriminate E.
  destruct (l_step p s1 _ (goes_mine _ _ _ G1) (call1 p c1 (OpNav NParent c1) eq_refl P1) _ _ E2) as (s2 & E2' & Hu2 & G2). rewrite E2'. cbn [mbind run_bind].
  pose proof (step_any _ _ _ _ A1 E2) as A2. destruct (drop_opt u2 (Some c1)) as [u3| |] eqn:E3; cbn [mbind run_bind] in E; try discriminate E.
  assert (forall i, o = OutHandle i -> p i = true) as Pi. { intros i ->. exact (p_new p s1 _ _ _ A1 E2 ltac:(discriminate) s2 Hu2). } subst u2.
  destruct (l_drop_opt p s2 (Some c1) u3 (goes_mine _ _ _ G2) A2) as (s3 & E3' & -> & G3 & A3); [intros ? [= <-]; exact P1|exact E3|].
  rewrite E3'. cbn [mbind run_bind]. pose proof (goes_trans _ _ _ _ (goes_trans _ _ _ _ G1 G2) G3) as G.
  destruct o as [i| | | | | | |]; try discriminate E; injection E as <- <- <-; exists s3; (split; [reflexivity|]); (split; [reflexivity|]); (split; [exact G|]); split; cbn; try exact I1.
  - intros ? [= <-]. by apply Pi.
  - done. Qed.
Lemma l_push p s b e u b' x : mine p s -> any (share p true s) -> its p b -> b_push (share p true s) b e = Ret (u, b', x) ->
  exists s', b_push s b e = Ret (s', b', x) /\ u = share p true s' /\ goes p s s' /\ its p b'.
Proof. destruct e; [apply l_open|apply l_close]. Qed.
Lemma l_finish p s b u x : mine p s -> any (share p true s) -> its p b -> b_finish (share p true s) b = Ret (u, x) ->
  exists s', b_finish s b = Ret (s', x) /\ u = share p true s' /\ goes p s s'.
Proof. intros M A [I1 I2] E. unfold b_finish in *. destruct (drop_opt _ (b_cur b)) as [u1| |] eqn:E1; cbn [mbind run_bind] in E; try discriminate E.
  destruct (l_drop_opt p s (b_cur b) u1 M A I2 E1) as (s1 & E1' & -> & G1 & _). rewrite E1'. injection E as <- <-. exists s1. split; [reflexivity|by split]. Qed.
Lemma l_b_drop p s b u : mine p s -> any (share p true s) -> its p b -> b_drop (share p true s) b = Ret u ->
  exists s', b_drop s b = Ret s' /\ u = share p true s' /\ goes p s s'.
Proof. intros M A [I1 I2] E. unfold b_drop in *. destruct (drop_opt _ (b_root b)) as [u1| |] eqn:E1; cbn [mbind run_bind] in E; try discriminate E.
  destruct (l_drop_opt p s (b_root b) u1 M A I1 E1) as (s1 & E1' & -> & G1 & A1). rewrite E1'. cbn [mbind run_bind].
  destruct (l_drop_opt p s1 (b_cur b) u (goes_mine _ _ _ G1) A1 I2 E) as (s2 & E2' & -> & G2 & _). exists s2. split; [exact E2'|]. split; [reflexivity|exact (goes_trans _ _ _ _ G1 G2)]. Qed.

(** ** The invariant of [building] *)
Definition binv p s b m : Prop := parted p s /\ bounded s /\ strt s /\ alone (share p true s) b m.
Lemma turn_mine p s : parted p s -> bounded s -> strt s -> mine (turn p s true) s.
Proof. intros P B St. split; [by apply turn_parted|]. split; [exact B|]. split; [exact St|]. intros n Hn. by apply turn_above. Qed.
Lemma turn_share p s bb x : bounded s -> share (turn p s bb) x s = share p x s.
Proof. intros B. apply share_ext; [exact B|]. intros n Hn. by apply turn_below. Qed.
Lemma alone_its p s b m : alone (share p true s) b m -> its p b.
Proof. intros A. remember (share p true s) as u eqn:Eu. destruct A as [u R Hv|v s1 n t u K t0 q c cur f fs Hv St G Hh Hr|v s1 n t u K t0 q td Hv St G Hh].
  - by split.
  - rewrite Eu in Hh. split; cbn; intros ? [= <-]; [exact (share_hand _ _ _ _ _ (BuildFacts2.held_p _ _ _ _ _ _ Hh))|exact (share_hand _ _ _ _ _ (BuildFacts2.held_c _ _ _ _ _ _ Hh))].
  - split; cbn; [|done]. intros ? [= <-]. rewrite Eu in Hh. eapply (share_hand p true s). rewrite Hh. apply lookup_insert. Qed.
Lemma alone_any u b m : alone u b m -> any u.
Proof. intros A. exact (reach_any u (alone_reach u b m A)). Qed.
Lemma binv_push p s b m e : binv p s b m -> exists s' b', b_push s b e = Ret (s', b', (answer m e).2) /\ binv (turn p s true) s' b' (answer m e).1 /\
  untouched (share p false s) (share (turn p s true) false s').
Proof. intros (P & B & St & A). pose proof (turn_mine p s P B St) as M. rewrite <- (turn_share p s true true B) in A. rewrite <- (turn_share p s true false B).
  destruct (alone_push _ _ _ e A) as (u & b' & E & A'). destruct (l_push _ _ _ _ _ _ _ M (alone_any _ _ _ A) (alone_its _ _ _ _ A) E) as (s' & E' & -> & (M' & L & U) & I).
  exists s', b'. split; [exact E'|]. split; [|exact U]. destruct M' as (P' & B' & St' & _). split; [exact P'|]. split; [exact B'|]. by split. Qed.
Lemma binv_finish p s b m : binv p s b m -> match tree_made m with
  | None => b_finish s b = Ret (s, inr RootNotOpened)
  | Some td => exists s' i, b_finish s b = Ret (s', inl i) /\ just_tree (share (turn p s true) true s') i td /\ untouched (share p false s) (share (turn p s true) false s') end.
Proof. intros (P & B & St & A). pose proof (turn_mine p s P B St) as M. rewrite <- (turn_share p s true true B) in A.
  pose proof (alone_finish _ _ _ A) as F. destruct (tree_made m) as [td|] eqn:Em.
  - rewrite <- (turn_share p s true false B). destruct F as (u & i & E & J). destruct (l_finish _ _ _ _ _ M (alone_any _ _ _ A) (alone_its _ _ _ _ A) E) as (s' & E' & -> & (M' & L & U)).
    exists s', i. split; [exact E'|]. by split.
  - remember (share (turn p s true) true s) as u eqn:Eu. destruct A; [reflexivity|rewrite made_open in Em; discriminate Em|discriminate Em]. Qed.
Lemma binv_drop p s b m : binv p s b m -> exists s', b_drop s b = Ret s' /\ void (share (turn p s true) true s') /\ untouched (share p false s) (share (turn p s true) false s').
Proof. intros (P & B & St & A). pose proof (turn_mine p s P B St) as M. rewrite <- (turn_share p s true true B) in A. rewrite <- (turn_share p s true false B).
  destruct (alone_drop _ _ _ A) as (u & E & V). destruct (l_b_drop _ _ _ _ M (alone_any _ _ _ A) (alone_its _ _ _ _ A) E) as (s' & E' & -> & (M' & L & U)).
  exists s'. split; [exact E'|]. by split. Qed.
Lemma binv_other p s b m o s' r : binv p s b m -> call_of p false o -> step s o = Ret (s', r) -> binv (turn p s false) s' b m.
Proof. intros (P & B & St & A) C E. destruct (sep_step p s false o P B C) as [Q _]. destruct (Q _ E) as (P' & B' & L & U). cbn [fst negb] in *.
  pose proof (strt_step s o s' r B St E L) as St'. split; [exact P'|]. split; [exact B'|]. split; [exact St'|]. eapply alone_other; [exact A|exact U|].
  replace (share (turn p s false) true s') with (with_fresh (share p true s) (s_fresh s')).
  - apply grown_share; [exact (alone_reach _ _ _ A)|exact L|exact St'].
  - destruct U as (U1 & U2 & U3). unfold with_fresh. rewrite <- U1, <- U2, <- U3. reflexivity. Qed.
Lemma building_inv p s b m : building p s b m -> binv p s b m.
Proof. induction 1 as [p s H N|p s b m o s' r H IH C E|p s b m e s' b' x H IH E].
  - destruct (parties_two p s H) as [P B]. assert (strt s) as St. { destruct (parties_started p s H) as [->|D]; [by left|by right]. }
    split; [exact P|]. split; [exact B|]. split; [exact St|].
    assert (share p true s = mkSys ∅ ∅ ∅ (s_fresh s)) as Es.
    { destruct B as [D E F]. unfold share. f_equal; apply map_filter_empty_iff; intros y v Hy; cbn; intros Hp.
      - rewrite N in Hp; [discriminate Hp|exact (proj1 (D y v Hy))].
      - rewrite N in Hp; [discriminate Hp|exact (proj1 (E y v Hy))].
      - rewrite N in Hp; [discriminate Hp|exact (proj1 (F y v Hy))]. }
    apply al_none; [|by rewrite Es]. rewrite Es.
    assert (reach (with_fresh (@init T) (s_fresh s))) as R by (apply grown_share; [constructor|cbn; lia|exact St]). exact R.
  - exact (binv_other _ _ _ _ _ _ _ IH C E).
  - destruct (binv_push p s b m e IH) as (s1 & b1 & E1 & I & _). rewrite E in E1. injection E1 as -> -> ->. exact I. Qed.
Lemma building_push p s b m e : building p s b m -> exists s' b', b_push s b e = Ret (s', b', (answer m e).2) /\ building (turn p s true) s' b' (answer m e).1.
Proof. intros H. destruct (binv_push p s b m e (building_inv p s b m H)) as (s' & b' & E & _ & _). exists s', b'. split; [exact E|]. exact (bg_push _ _ _ _ _ _ _ _ H E). Qed.
Lemma building_push_all es : forall p s b m, building p s b m -> exists s' b' p', b_push_all s b es = Ret (s', b', (answers m es).2) /\ building p' s' b' (answers m es).1.
Proof. induction es as [|e es IH]; intros p s b m H; [exists s, b, p; by split|]. cbn [b_push_all answers].
  destruct (building_push p s b m e H) as (s1 & b1 & E & H1). rewrite E. cbn [mbind run_bind]. destruct (answer m e) as [m1 [x|]]; cbn [fst snd] in *.
  - exists s1, b1, (turn p s true). by split.
  - exact (IH _ _ _ _ H1). Qed.
Lemma binv_root p s b m : binv p s b m -> b_is_root_available b = (match m with Nothing => false | _ => true end) /\ b_is_root_closed b = (match m with Done _ => true | _ => false end).
Proof. intros (_ & _ & _ & A). destruct A; by split. Qed.
End Lift.
