(** * PropOwn: every handle an iterator makes has exactly one owner (C50). *)
From Verif Require Import HIter HIter2 OwnSpec OwnFacts OwnFacts2 CloneSpec CloneFacts GenSpec GenFacts5 HIterFacts Demo PropLock Spec.

(** Whatever the state of the links ([any]: after any calls, and any damage to them), whatever the iterator stands at: a call of [next] or [next_back] that
    returns gives the caller the handle(s) of the item, keeps track of what the iterator has got then, drops the rest, and touches no handle of anybody else. *)
Theorem C50_next : forall T : Type,
  passes any (@hdfs_next T) hdfs_owns (fun e => [ev_val e]) /\ passes any (@hrdfs_next T) hdfs_owns (fun e => [ev_val e]) /\
  (forall v, passes any (@hsib_next T v) hsib_owns (fun i => [i])) /\
  passes any (@hss_next T) hss_owns (fun i => [i]) /\ passes any (@hss_next_back T) hss_owns (fun i => [i]) /\
  passes any (@hsdfs_next T) hsdfs_owns (fun e => [ev_val e]) /\ passes any (@hsdfs_next_back T) hsdfs_owns (fun e => [ev_val e]) /\
  (forall max, passes any (@hsh_next T max) hsh_owns (fun e => [(ev_val e).1])) /\
  (forall max, passes any (@hsh_next_back T max) hsh_owns (fun e => [(ev_val e).1])) /\
  passes any (@hnbf_next T) hnbf_owns (fun p => [p.1]) /\ passes any (@habf_next T) habf_owns (fun p => [p.1]).
Proof.
  intros T. exact (conj own_dfs_next (conj own_rdfs_next (conj own_sib_next (conj own_ss_next (conj own_ss_back (conj own_sdfs_next (conj own_sdfs_back
    (conj own_sh_next (conj own_sh_back (conj own_nbf_next own_abf_next)))))))))).
Qed.
Print Assumptions C50_next.

(** The methods that make an iterator and their clones leave every handle that exists alone; the iterator owns new ones. *)
Theorem C50_start : forall T : Type,
  takes any (@hdfs_start T) hdfs_owns /\ takes any (@hrdfs_start T) hdfs_owns /\ takes any (@hsh_start T) hsh_owns /\
  makes any (@hchildren_stable T) hss_owns /\ makes any (@hsiblings_stable T) hss_owns /\
  makes any (@hfollowing_or_self_stable T) hss_owns /\ makes any (@hfollowing_stable T) hss_owns /\
  makes any (@hpreceding_or_self_stable T) hss_owns /\ makes any (@hpreceding_stable T) hss_owns /\
  makes any (@hsdfs_start T) hsdfs_owns /\
  makes any (fun s (p : nat * nat) => @hnbf_start T s p.1 p.2) hnbf_owns /\ makes any (fun s (p : nat * nat) => @habf_start T s p.1 p.2) habf_owns.
Proof.
  intros T. exact (conj own_dfs_start (conj own_rdfs_start (conj own_sh_start (conj own_children (conj own_siblings (conj own_following_self (conj own_following
    (conj own_preceding_self (conj own_preceding (conj own_sdfs_start (conj own_nbf_start own_abf_start))))))))))).
Qed.
Print Assumptions C50_start.
Theorem C50_clone : forall T : Type,
  makes any (@hdfs_clone T) hdfs_owns /\ makes any (@hsib_clone T) hsib_owns /\ makes any (@hss_clone T) hss_owns /\ makes any (@hsdfs_clone T) hsdfs_owns /\
  makes any (@hsh_clone T) hsh_owns /\ makes any (@hnbf_clone T) hnbf_owns /\ makes any (@habf_clone T) habf_owns /\
  makes any (@habf_peek T) (fun o => match o with Some p => [p.1] | None => [] end).
Proof.
  intros T. exact (conj own_dfs_clone (conj own_sib_clone (conj own_ss_clone (conj own_sdfs_clone (conj own_sh_clone (conj own_nbf_clone (conj own_abf_clone own_abf_peek))))))).
Qed.
Print Assumptions C50_clone.
(** A clone stands where the original stands: its state is the same, with a handle of the same type on the same node for each of
    the original's; and [peek] of the breadth-first traverser shows what [next] gives then. *)
Theorem C50_clone_place : forall T : Type,
  copies any (@hdfs_clone T) alike_dfs /\ copies any (@hsib_clone T) alike_sib /\ copies any (@hss_clone T) alike_ss /\ copies any (@hsdfs_clone T) alike_sdfs /\
  copies any (@hsh_clone T) alike_sh /\ copies any (@hnbf_clone T) alike_nbf /\ copies any (@habf_clone T) alike_abf /\
  (forall (s : sys T) st s1 o s2 r st2, any s -> habf_peek s st = Ret (s1, o) -> habf_next s1 st = Ret (s2, r, st2) -> option_Forall2 (twin_at s1) o r).
Proof.
  intros T. split; [exact (part_copies _ _ (part_pair _ _ _ _ part_ev part_hand))|]. split; [exact (part_copies _ _ part_opt)|].
  split; [exact (part_copies _ _ (part_pair _ _ _ _ part_hand part_hand))|]. split; [exact (part_copies _ _ (part_pair _ _ _ _ part_ev part_ev))|].
  split; [exact (part_copies _ _ (part_pair _ _ _ _ part_evd part_evd))|]. split; [exact (part_copies _ _ part_nbf)|]. split; [exact copies_abf|exact peek_abf].
Qed.
Print Assumptions C50_clone_place.
(** Dropping an iterator half way releases what it owns. *)
Theorem C50_drop : forall (T : Type) (s : sys T) own s', any s -> owned own s -> h_drops s own = Ret s' -> any s' /\ hands_over own s [] s'.
Proof. intros T s own s'. exact (t_drops s own s'). Qed.
Print Assumptions C50_drop.
(** An iterator that has returned [None] owns nothing any more: nothing stays locked or alive because of it.
    (The breadth-first iterator drops its start node with the [None].) *)
Theorem C50_exhausted : forall (T : Type) (s s' : sys T),
  (forall st st', hdfs_next s st = Ret (s', None, st') \/ hrdfs_next s st = Ret (s', None, st') -> hdfs_owns st' = [] /\ s' = s) /\
  (forall v st st', hsib_next v s st = Ret (s', None, st') -> hsib_owns st' = [] /\ s' = s) /\
  (forall st st', hss_next s st = Ret (s', None, st') \/ hss_next_back s st = Ret (s', None, st') -> hss_owns st' = [] /\ s' = s) /\
  (forall st st', hsdfs_next s st = Ret (s', None, st') \/ hsdfs_next_back s st = Ret (s', None, st') -> hsdfs_owns st' = [] /\ s' = s) /\
  (forall max st st', hsh_next max s st = Ret (s', None, st') \/ hsh_next_back max s st = Ret (s', None, st') -> hsh_owns st' = [] /\ s' = s) /\
  (forall st st', (hnbf_root st = None -> hnbf_inner st = None) -> hnbf_next s st = Ret (s', None, st') -> hnbf_owns st' = []) /\
  (forall st st', habf_next s st = Ret (s', None, st') -> habf_owns st' = [] /\ s' = s).
Proof.
  intros T s s'. split; [intros st st' E; destruct (end_dfs _ _ _ _ E) as [-> ->]; done|]. split; [intros v st st' E; destruct (end_sib _ _ _ _ _ E) as [-> ->]; done|].
  split; [intros st st' E; destruct (end_pair _ _ _ _ _ _ _ E) as [-> ->]; done|]. split; [intros st st' E; destruct (end_pair _ _ _ _ _ _ _ E) as [-> ->]; done|].
  split; [intros max st st' E; destruct (end_sh _ _ _ _ _ E) as [-> ->]; done|].
  split; [intros st st' N E; exact (proj2 (nbf_sane_next _ _ _ _ _ N E) eq_refl)|]. intros st st' E. exact (end_abf_loop 3 _ _ _ _ _ E).
Qed.
Print Assumptions C50_exhausted.
(** That is how the states of the breadth-first iterator are. *)
Theorem C50_no_root : forall (T : Type) (s : sys T) s' st', (exists i d, hnbf_start s i d = Ret (s', st')) \/
  (exists st r, (hnbf_root st = None -> hnbf_inner st = None) /\ hnbf_next s st = Ret (s', r, st')) -> hnbf_root st' = None -> hnbf_inner st' = None.
Proof.
  intros T s s' st' [(i & d & E)|(st & r & N & E)]; [exact (nbf_sane_start _ _ _ _ _ E)|]. exact (proj1 (nbf_sane_next _ _ _ _ _ N E)).
Qed.
Print Assumptions C50_no_root.

(** The tree 22 -> [26] with the frozen handle 29 (the next handle is 32): both breadth-first iterators; a clone of one half way, dropped at once. *)
Definition own_run : run (list (list nat) * list (option (nat * nat)) * list nat) :=
  '(s1, n1) ← hnbf_start frozen_demo 29 0;
  '(s2, a, n2) ← hnbf_next s1 n1;
  '(s3, m) ← hnbf_clone s2 n2;
  s4 ← h_drops s3 (hnbf_owns m);
  '(s5, b, n3) ← hnbf_next s4 n2;
  '(s6, c, n4) ← hnbf_next s5 n3;
  '(s7, q1) ← habf_start s6 29 0;
  '(s8, d, q2) ← habf_next s7 q1;
  '(s9, e, q3) ← habf_next s8 q2;
  '(s10, f, q4) ← habf_next s9 q3;
  Ret ([hnbf_owns n1; hnbf_owns n2; hnbf_owns m; hnbf_owns n3; hnbf_owns n4; habf_owns q1; habf_owns q2; habf_owns q3; habf_owns q4],
       [a; b; c; d; e; f], filter (fun i => 32 <= i) (map fst (map_to_list (s_hands s10)))).
Example C50_nonvacuous : any frozen_demo /\
  match own_run with
  | Ret (owns, items, rest) =>
      (owns = [[34; 33; 32]; [35; 33; 32]; [36; 37; 38]; [42; 39; 32]; []; [49]; [51]; []; []]) /\
      (items = [Some (34, 0); Some (41, 1); None; Some (49, 0); Some (51, 1); None]) /\ (rest = [51; 49; 41; 34])
  | _ => False
  end.
Proof.
  split; [exact (reach_any _ frozen_reach)|]. vm_compute. repeat split; done.
Qed.
(** Clones half way: of a shallow traverser that is about to close the leaf 26, and of a breadth-first one with [peek]. *)
Definition clone_run : run (list hsh_state * list (list (option nat)) * list (option (nat * nat)) * list (option handle)) :=
  '(s0, i) ← h_clone frozen_demo 29;
  '(s1, h1) ← hsh_start s0 i;
  '(s2, a, h2) ← hsh_next None s1 h1;
  '(s3, b, h3) ← hsh_next None s2 h2;
  '(s4, h4) ← hsh_clone s3 h3;
  '(s5, q1) ← habf_start s4 29 0;
  '(s6, q2) ← habf_clone s5 q1;
  '(s7, p) ← habf_peek s6 q2;
  '(s8, n, q3) ← habf_next s7 q2;
  Ret ([h3; h4], [habf_queue q1; habf_queue q2], [p; n], map (fun i => s_hands s8 !! i) [35; 32; 36; 37; 38; 39; 40]).
Example C50_clone_nonvacuous : any frozen_demo /\
  match clone_run with
  | Ret (places, queues, items, hands) =>
      places = [Some (Close (35, 1), Close (32, 0)); Some (Close (36, 1), Close (37, 0))] /\
      queues = [[Some 38; None]; [Some 39; None]] /\ items = [Some (40, 0); Some (39, 0)] /\
      hands = map (fun x => Some (HNode Frozen x)) [26; 22; 26; 22; 22; 22; 22]
  | _ => False
  end.
Proof. split; [exact (reach_any _ frozen_reach)|]. vm_compute. repeat split; done. Qed.
