(** * IterFacts: proof principles for [enumerates], [double_ended], [hints_ok]. *)
From Verif Require Import IterSpec Spec SpecFacts.

Section Iter.
Context {S I : Type}.
Implicit Types (nx nf nb : S -> run (option I * S)) (s : S) (l : list I).

Lemma enumerates_cons nx s i s' l : nx s = Ret (Some i, s') -> enumerates nx s' l -> enumerates nx s (i :: l).
Proof.
  intros E H n. destruct n as [|n]; [done|]. cbn. rewrite E. cbn. rewrite H. cbn.
  rewrite <-seq_shift, map_map. done.
Qed.
Lemma enumerates_nil nx s : nx s = Ret (None, s) -> enumerates nx s [].
Proof.
  intros E n. induction n as [|n IH]; [done|]. cbn. rewrite E. cbn. rewrite IH. cbn.
  rewrite <-seq_shift, map_map. done.
Qed.
Lemma enumerates_none nx s s' : nx s = Ret (None, s') -> enumerates nx s' [] -> enumerates nx s [].
Proof.
  intros E H n. destruct n as [|n]; [done|]. cbn. rewrite E. cbn. rewrite H. cbn.
  rewrite <-seq_shift, map_map. done.
Qed.

(** One call. *)
Lemma enumerates_inv nx s l : enumerates nx s l ->
  exists s', nx s = Ret (head l, s') /\ enumerates nx s' (tail l).
Proof.
  intros H. pose proof (H 1) as H1. cbn in H1. destruct (nx s) as [[r s']| |] eqn:E; try done.
  cbn in H1. injection H1 as ->. exists s'. split; [by destruct l|].
  intros n. specialize (H (Datatypes.S n)). cbn in H. rewrite E in H. cbn in H.
  destruct (calls nx n s') as [m| |]; cbn in H; try done. injection H as H.
  rewrite H, <-seq_shift, map_map. f_equal. apply map_ext. intros i. by destruct l.
Qed.
Lemma enumerates_unique nx s l l' : enumerates nx s l -> enumerates nx s l' -> l = l'.
Proof.
  intros H H'. apply list_eq. intros i. specialize (H (Datatypes.S i)). specialize (H' (Datatypes.S i)).
  rewrite H in H'.
  assert (map (fun i => l !! i) (seq 0 (Datatypes.S i)) = map (fun i => l' !! i) (seq 0 (Datatypes.S i))) as H2 by congruence.
  apply (f_equal (fun m : list (option I) => m !! i)) in H2.
  rewrite !list_lookup_fmap, !lookup_seq_lt in H2 by lia. injection H2 as H2. done.
Qed.

Lemma after_enumerates nx n s l : enumerates nx s l ->
  exists s', after nx n s = Ret s' /\ enumerates nx s' (drop n l).
Proof.
  revert s l. induction n as [|n IH]; intros s l H; cbn.
  - exists s. by rewrite drop_0.
  - destruct (enumerates_inv _ _ _ H) as (s' & -> & H'). cbn.
    destruct (IH _ _ H') as (s2 & -> & H2). exists s2. split; [done|]. destruct l; simpl in *; [by rewrite drop_nil in H2|done].
Qed.

Lemma collect_enumerates nx s l fuel : enumerates nx s l -> length l < fuel ->
  collect_it nx fuel s = Ret l.
Proof.
  revert fuel s. induction l as [|i l IH]; intros [|fuel] s H Hf; simpl in Hf; try lia;
    destruct (enumerates_inv _ _ _ H) as (s' & E & H'); cbn; rewrite E; cbn; [done|].
  rewrite (IH fuel s'); [done|done|lia].
Qed.

Lemma enumerates_intro (P : S -> list I -> Prop) nx s l :
  P s l ->
  (forall s l, P s l -> exists s', nx s = Ret (head l, s') /\ P s' (tail l)) ->
  enumerates nx s l.
Proof.
  intros H0 Hn n. revert s l H0. induction n as [|n IH]; intros s l H0; [done|]. cbn.
  destruct (Hn _ _ H0) as (s' & -> & H'). cbn. rewrite (IH _ _ H'). cbn.
  rewrite <-seq_shift, map_map. f_equal. f_equal; [by destruct l|].
  apply map_ext. intros i. by destruct l.
Qed.

(** Size hints, by an invariant relating states and the remaining items. *)
Lemma hints_ok_intro (P : S -> list I -> Prop) nx hint s l :
  P s l ->
  (forall s l, P s l -> exists b, hint s = Ret b /\ bounds b (length l)) ->
  (forall s l, P s l -> exists s', nx s = Ret (head l, s') /\ P s' (tail l)) ->
  hints_ok nx hint s l.
Proof.
  intros H0 Hb Hn n. revert s l H0. induction n as [|n IH]; intros s l H0.
  - destruct (Hb _ _ H0) as (b & Eb & Hbb). exists s, b. rewrite Nat.sub_0_r. done.
  - destruct (Hn _ _ H0) as (s' & Es & H'). destruct (IH _ _ H') as (s2 & b & E2 & Eb & Hbb).
    exists s2, b. cbn. rewrite Es. cbn. split_and!; try done.
    destruct l; simpl in *; [done|done].
Qed.

(** Double-ended iteration, by an invariant. *)
Lemma double_ended_intro (P : S -> list I -> Prop) nf nb s l :
  P s l ->
  (forall s l, P s l -> exists s', nf s = Ret (head l, s') /\ P s' (tail l)) ->
  (forall s l, P s l -> exists s', nb s = Ret (last l, s') /\ P s' (take (length l - 1) l)) ->
  double_ended nf nb s l.
Proof.
  intros H0 Hf Hb bs. revert s l H0. induction bs as [|[] bs IH]; intros s l H0; cbn; [done| |].
  - destruct (Hf _ _ H0) as (s' & -> & H'). cbn. by rewrite (IH _ _ H').
  - destruct (Hb _ _ H0) as (s' & -> & H'). cbn. by rewrite (IH _ _ H').
Qed.

Lemma hints_ok2_intro (P : S -> list I -> Prop) nf nb hint s l :
  P s l ->
  (forall s l, P s l -> exists b, hint s = Ret b /\ bounds b (length l)) ->
  (forall s l, P s l -> exists s', nf s = Ret (head l, s') /\ P s' (tail l)) ->
  (forall s l, P s l -> exists s', nb s = Ret (last l, s') /\ P s' (take (length l - 1) l)) ->
  hints_ok2 nf nb hint s l.
Proof.
  intros H0 Hh Hf Hb bs. revert s l H0. induction bs as [|b bs IH]; intros s l H0.
  - destruct (Hh _ _ H0) as (b & Eb & Hbb). exists s, b. simpl. rewrite Nat.sub_0_r. done.
  - assert (exists s' r l', (if b then nf s else nb s) = Ret (r, s') /\ P s' l' /\ length l' = length l - 1) as (s' & r & l' & Es & H' & Hlen).
    { destruct b.
      - destruct (Hf _ _ H0) as (s' & Es & H'). exists s', (head l), (tail l). split_and!; [done|done|]. destruct l; simpl; lia.
      - destruct (Hb _ _ H0) as (s' & Es & H'). eexists s', _, _. split_and!; [done|done|]. rewrite take_length. lia. }
    destruct (IH _ _ H') as (s2 & hb & E2 & Eb & Hbb). exists s2, hb. cbn. rewrite Es. cbn. split_and!; [done|done|].
    simpl. replace (length l - Datatypes.S (length bs)) with (length l' - length bs) by lia. done.
Qed.

Lemma double_ended_enumerates nf nb s l : double_ended nf nb s l -> enumerates nf s l.
Proof.
  intros H n. specialize (H (repeat true n)).
  assert (forall s, sched nf nb s (repeat true n) = calls nf n s) as E.
  { clear. induction n as [|n IH]; intros s; cbn; [done|]. destruct (nf s) as [[r s']| |]; cbn; [|done..]. by rewrite IH. }
  rewrite E in H. rewrite H. f_equal. clear. revert l. induction n as [|n IH]; intros l; [done|]. cbn.
  rewrite IH. rewrite <-seq_shift, map_map. f_equal; [by destruct l|]. apply map_ext. intros i. by destruct l.
Qed.
End Iter.

(** The meaning of [deque] on complete schedules: what came out of the front,
    followed by the reverse of what came out of the back, is the sequence. *)
Definition fronts {I} (bs : list bool) (rs : list (option I)) : list I :=
  omap (fun br : bool * option I => if br.1 then br.2 else None) (zip bs rs).
Definition backs {I} (bs : list bool) (rs : list (option I)) : list I :=
  omap (fun br : bool * option I => if br.1 then None else br.2) (zip bs rs).
Lemma deque_length {I} (l : list I) bs : length (deque l bs) = length bs.
Proof. revert l. induction bs as [|[] bs IH]; intros l; simpl; [done|by rewrite IH|by rewrite IH]. Qed.
Lemma deque_complete {I} (l : list I) bs : length l <= length bs ->
  fronts bs (deque l bs) ++ rev (backs bs (deque l bs)) = l.
Proof.
  revert l. induction bs as [|[] bs IH]; intros l Hl; simpl in *.
  - destruct l; [done|simpl in Hl; lia].
  - destruct l as [|x l]; simpl in *.
    + apply (IH []). simpl. lia.
    + unfold fronts, backs in *. simpl. f_equal. apply IH. lia.
  - destruct (list_snoc_inv l) as [->|(l' & x & ->)].
    + simpl. apply (IH []). simpl. lia.
    + rewrite last_snoc. rewrite app_length in *. simpl in *. rewrite Nat.add_sub, take_app.
      unfold fronts, backs in *. simpl. rewrite app_assoc. f_equal. apply IH. lia.
Qed.
