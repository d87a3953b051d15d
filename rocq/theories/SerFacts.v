(** * SerFacts: the events of a subtree. *)
From Verif Require Import SerialSpec NavFacts SpecFacts RoseFacts AdjFacts IterFacts TravFacts TravFacts4 TdFacts2 EqFacts Spec.

Section Group.
Context {A : Type}.
(** Runs of closings put together. *)
Fixpoint group (l : list (dft A)) : list (event A) :=
  match l with
  | [] => []
  | Open a :: l' => EOpen a :: group l'
  | Close _ :: l' => match group l' with EClose n :: r => EClose (S n) :: r | r => EClose 1 :: r end
  end.
Definition bracket_of (e : dft A) : option A := into_open e.

Lemma brackets_events (t : rose A) : brackets t = map bracket_of (dfs_events t).
Proof.
  induction t as [x ts IH] using rose_ind2. simpl. f_equal. rewrite map_app. f_equal. rewrite concat_map, map_map. f_equal.
  induction IH; simpl; [done|]. by f_equal.
Qed.
Lemma expand_group l : expand (group l) = map bracket_of l.
Proof.
  induction l as [|[a|a] l IH]; simpl; [done| |].
  - unfold expand in *. simpl. by f_equal.
  - unfold expand in *. destruct (group l) as [|[d|n] r]; simpl in *; by rewrite <-IH.
Qed.
Lemma group_pos l i : group l !! i <> Some (EClose 0).
Proof.
  revert i. induction l as [|[a|a] l IH]; intros i; simpl; [done| |].
  - destruct i; [done|]. apply IH.
  - destruct (group l) as [|[d|n] r] eqn:E.
    + destruct i; [done|]. done.
    + destruct i; [done|]. apply IH.
    + destruct i; [done|]. apply (IH (S i)).
Qed.
Lemma group_sep l i n m : group l !! i = Some (EClose n) -> group l !! S i <> Some (EClose m).
Proof.
  revert i n m. induction l as [|[a|a] l IH]; intros i n m; simpl; [done| |].
  - destruct i; [done|]. apply IH.
  - destruct (group l) as [|[d|k] r] eqn:E.
    + done.
    + destruct i; simpl; [done|]. apply IH.
    + destruct i; simpl; [intros _; apply (IH 0 k m eq_refl)|]. apply (IH (S i) n m).
Qed.
Lemma group_compact l : compact (group l).
Proof. split; [exact (group_pos l)|exact (group_sep l)]. Qed.

(** The first event and the rest. *)
Lemma group_closes cs l : Forall (fun e => exists a : A, e = Close a) cs -> cs <> [] ->
  match l with Close _ :: _ => False | _ => True end -> group (cs ++ l) = EClose (length cs) :: group l.
Proof.
  intros H. induction H as [|e cs [a ->] H IH]; intros Hn Hl; [done|]. destruct cs as [|e' cs].
  - simpl. by destruct l as [|[b|b] l].
  - rewrite <-app_comm_cons. simpl. simpl in IH. rewrite IH by done. done.
Qed.
Lemma closes_split (l : list (dft A)) : exists cs r, l = cs ++ r /\ Forall (fun e => exists a : A, e = Close a) cs /\
  match r with Close _ :: _ => False | _ => True end.
Proof.
  induction l as [|[a|a] l IH].
  - exists [], []. done.
  - exists [], (Open a :: l). done.
  - destruct IH as (cs & r & -> & H1 & H2). exists (Close a :: cs), r. split; [done|]. split; [|done]. constructor; [by exists a|done].
Qed.
End Group.

Section Walk.
Context {T : Type}.
Implicit Types (h : heap T) (K : forest).

(** The traverser state with the events [l] left. *)
Definition at_ (x : nid) (l : list (dft nid)) : dfs_state := option_map (fun e => (e, x)) (head l).

Lemma adj_app_r {E} (R : E -> E -> Prop) l1 l2 : adj R (l1 ++ l2) -> adj R l2.
Proof.
  induction l1 as [|a l1 IH]; [done|]. intros H. apply IH. simpl in H. destruct (l1 ++ l2); [done|]. by destruct H.
Qed.

Lemma dfs_next_at h K x t pre l : rep h K -> wf K -> shape K x t -> dfs_events t = pre ++ l ->
  dfs_next h (at_ x l) = Ret (head l, at_ x (tail l)).
Proof.
  intros Hr Hw Hs E. destruct l as [|e l]; [done|]. simpl.
  pose proof (shape_adj h K x t Hr Hw Hs) as Ha. rewrite E in Ha. apply adj_app_r in Ha.
  pose proof (shape_events_nodup K x t Hw Hs) as Hn. rewrite E in Hn.
  destruct (shape_top_events _ _ _ Hs) as [ts ->].
  destruct l as [|f l].
  - assert (e = Close x) as ->.
    { assert (last (dfs_events (Rose x ts)) = last (pre ++ [e])) as H by (by rewrite E). simpl in H.
      rewrite last_snoc in H. rewrite app_comm_cons, last_snoc in H. congruence. }
    unfold dfs_next. by rewrite decide_True.
  - unfold dfs_next. rewrite decide_False.
    + simpl. do 2 f_equal. rewrite dft_next_g. destruct Ha as [Ha _]. unfold at_. simpl.
      assert (g_next (first_child_link h) (next_sibling_link h) (parent_link h) e = Some f) as ->; [|done].
      by apply Ha.
    + intros ->. assert (last (dfs_events (Rose x ts)) = last (pre ++ Close x :: f :: l)) as H by (by rewrite E).
      rewrite (last_events (Rose x ts)) in H. simpl in H.
      apply NoDup_app in Hn as (_ & _ & Hn). apply NoDup_cons in Hn as [Hn _]. apply Hn.
      apply elem_of_last. rewrite H. replace (pre ++ Close x :: f :: l) with ((pre ++ [Close x]) ++ f :: l) by (by rewrite <-app_assoc).
      rewrite last_app.
      by destruct (last (f :: l)) eqn:E2; [|apply last_None in E2].
Qed.

Lemma close_run_at h K x t : rep h K -> wf K -> shape K x t -> forall cs r pre fuel c, dfs_events t = pre ++ cs ++ r ->
  Forall (fun e => exists a : nid, e = Close a) cs -> match r with Close _ :: _ => False | _ => True end ->
  length cs <= fuel -> close_run fuel h (at_ x (cs ++ r)) c = Ret (c + length cs, at_ x r).
Proof.
  intros Hr Hw Hs. induction cs as [|e cs IH]; intros r pre fuel c E Hc Hrr Hf; simpl.
  - rewrite Nat.add_0_r. destruct r as [|[a|a] r]; [by destruct fuel|by destruct fuel|done].
  - apply Forall_cons in Hc as [[a ->] Hc]. simpl in Hf. destruct fuel as [|f]; [lia|]. unfold at_. simpl.
    pose proof (dfs_next_at h K x t pre (Close a :: cs ++ r) Hr Hw Hs E) as Hn. unfold at_ in Hn. simpl in Hn.
    fold (at_ x (cs ++ r)) in Hn. unfold dfs_next in Hn. simpl in Hn. 
    change (mbind (M := run) ?f ?m) with (run_bind _ _ f m). unfold run_bind. simpl. 
    injection Hn as Hn. rewrite Hn.
    rewrite (IH r (pre ++ [Close a]) f (S c)); [do 2 f_equal; lia| |done|done|lia].
    by rewrite <-app_assoc.
Qed.

(** One call of the serializer with the events [l] left. *)
Lemma ser_next_at h K x t pre l : rep h K -> wf K -> shape K x t -> dfs_events t = pre ++ l ->
  match group l with
  | [] => l = [] /\ ser_next h (at_ x l) = Ret (None, at_ x [])
  | e :: r => exists pre' l' o, dfs_events t = pre' ++ l' /\ group l' = r /\ length l' < length l /\ reads h e o /\
      ser_next h (at_ x l) = Ret (Some o, at_ x l')
  end.
Proof.
  intros Hr Hw Hs E. unfold ser_next. rewrite (dfs_next_at h K x t pre l Hr Hw Hs E). unfold mbind, run_bind.
  destruct l as [|[a|a] l]; cbn [head tail].
  - done.
  - simpl. destruct (try_borrow_spec h a) as (o & Eo & Ho).
    { apply (rep_dom h K Hr). apply (shape_events_dom K x t (Open a) Hw Hs). rewrite E. set_solver. }
    rewrite Eo. simpl. exists (pre ++ [Open a]), l, (option_map EOpen o). split; [by rewrite <-app_assoc|].
    split; [done|]. split; [lia|]. split; [|done]. by destruct o.
  - destruct (closes_split l) as (cs & r & -> & Hc & Hrr).
    pose proof (group_closes (Close a :: cs) r ltac:(constructor; eauto) ltac:(done) Hrr) as Hg.
    rewrite <-app_comm_cons in Hg. change (length (Close a :: cs)) with (S (length cs)) in Hg. rewrite Hg. exists (pre ++ Close a :: cs), r, (Some (EClose (S (length cs)))).
    split; [by rewrite <-app_assoc, <-app_comm_cons|]. split; [done|]. split; [simpl; rewrite app_length; lia|]. split; [done|].
    rewrite (close_run_at h K x t Hr Hw Hs cs r (pre ++ [Close a]) (walk_fuel h) 1); [done| |done|done|].
    + by rewrite <-app_assoc.
    + pose proof (nodes_length_le h K x t Hr Hw Hs) as HN. unfold walk_fuel.
      enough (length cs <= length (rose_nodes t)) by lia.
      pose proof (shape_events_nodup K x t Hw Hs) as Hn. rewrite E in Hn.
      assert (NoDup cs) as Hnc.
      { apply NoDup_app in Hn as (_ & _ & Hn). apply NoDup_cons in Hn as [_ Hn]. by apply NoDup_app in Hn as (Hn & _). }
      assert (cs = map Close (map ev_val cs)) as Ecs.
      { clear -Hc. induction Hc as [|e cs [b ->] Hc IH]; [done|]. simpl. by f_equal. }
      rewrite <-(map_length ev_val cs). apply submseteq_length, NoDup_submseteq.
      * rewrite Ecs in Hnc. by apply NoDup_fmap_1 in Hnc.
      * intros b Hb. apply (dfs_events_elem t (Close b)). rewrite E. apply elem_of_app. right. right. apply elem_of_app. left.
        rewrite Ecs. apply elem_of_list_fmap. eauto.
Qed.

Lemma ser_enum h K x t : rep h K -> wf K -> shape K x t ->
  exists items, enumerates (ser_next h) (dfs_start (Some x)) items /\ Forall2 (reads h) (group (dfs_events t)) items.
Proof.
  intros Hr Hw Hs.
  enough (forall n l pre, length l <= n -> dfs_events t = pre ++ l ->
    exists items, enumerates (ser_next h) (at_ x l) items /\ Forall2 (reads h) (group l) items) as H.
  { destruct (H (length (dfs_events t)) (dfs_events t) [] ltac:(done) eq_refl) as (items & H1 & H2).
    exists items. split; [|done]. destruct (shape_top_events _ _ _ Hs) as [ts ->]. exact H1. }
  induction n as [|n IH]; intros l pre Hl E.
  - pose proof (ser_next_at h K x t pre l Hr Hw Hs E) as H. destruct l; [|simpl in Hl; lia]. simpl in H. destruct H as [_ H].
    exists []. split; [|constructor]. by apply enumerates_nil.
  - pose proof (ser_next_at h K x t pre l Hr Hw Hs E) as H. destruct (group l) as [|e r] eqn:Eg.
    + destruct H as [-> H]. exists []. split; [|constructor]. by apply enumerates_nil.
    + destruct H as (pre' & l' & o & E' & Hg & Hlt & Ho & H). destruct (IH l' pre' ltac:(lia) E') as (items & H1 & H2).
      exists (o :: items). split; [by eapply enumerates_cons|]. rewrite Hg in H2. by constructor.
Qed.

Lemma to_events_ok h K x t : rep h K -> wf K -> shape K x t ->
  exists es items, expand es = brackets t /\ compact es /\ enumerates (ser_next h) (dfs_start (Some x)) items /\ Forall2 (reads h) es items.
Proof.
  intros Hr Hw Hs. destruct (ser_enum h K x t Hr Hw Hs) as (items & H1 & H2). exists (group (dfs_events t)), items.
  split; [by rewrite expand_group, brackets_events|]. split; [apply group_compact|]. done.
Qed.
End Walk.
