(** * PropStable: exactly how the two ends of a stable iterator behave (C15).

    [loose lf lb bs] (LooseSpec.v): the front goes through [lf], the back through [lb], each on its own,
    and as soon as one of them has come to the end nothing more is returned. *)
From Verif Require Import IterSpec LooseSpec LooseFacts LooseFacts2 TravFacts6 Spec Examples TravFacts5 RoseFacts.

(** The sibling iterators, for every schedule of calls at both ends.  They neither stop where the ends meet nor at the node they were asked for:
    following_siblings goes back to the first sibling, preceding_siblings begins with the second sibling and goes on to the last one. *)
Theorem C15_siblings_exact : forall (T : Type) (h : heap T) (K : forest) p l1 c l2, rep h K -> wf K -> K !! p = Some (l1 ++ c :: l2) ->
  loosely (children_stable_it h p) (ssib_next h) (ssib_next_back h) (l1 ++ c :: l2) (rev (l1 ++ c :: l2)) /\
  loosely (siblings_stable_it h c) (ssib_next h) (ssib_next_back h) (l1 ++ c :: l2) (rev (l1 ++ c :: l2)) /\
  loosely (following_siblings_or_self_stable_it h c) (ssib_next h) (ssib_next_back h) (c :: l2) (rev (l1 ++ c :: l2)) /\
  loosely (following_siblings_stable_it h c) (ssib_next h) (ssib_next_back h) l2 (rev (l1 ++ c :: l2)) /\
  loosely (preceding_siblings_or_self_stable_it h c) (ssib_next h) (ssib_next_back h) (l1 ++ c :: l2) (c :: rev l1) /\
  loosely (preceding_siblings_stable_it h c) (ssib_next h) (ssib_next_back h) (tail (l1 ++ c :: l2)) (c :: rev l1).
Proof. exact @siblings_loose. Qed.
Print Assumptions C15_siblings_exact.
(** On a root. *)
Theorem C15_root_siblings_exact : forall (T : Type) (h : heap T) (K : forest) x, rep h K -> wf K -> is_top K x ->
  loosely (siblings_stable_it h x) (ssib_next h) (ssib_next_back h) [x] [x] /\
  loosely (following_siblings_or_self_stable_it h x) (ssib_next h) (ssib_next_back h) [x] [x] /\
  loosely (following_siblings_stable_it h x) (ssib_next h) (ssib_next_back h) [] [x] /\
  loosely (preceding_siblings_or_self_stable_it h x) (ssib_next h) (ssib_next_back h) [x] [x] /\
  loosely (preceding_siblings_stable_it h x) (ssib_next h) (ssib_next_back h) [] [x].
Proof. exact @root_siblings_loose. Qed.
Print Assumptions C15_root_siblings_exact.
(** The depth-first iterator started at any node [x] of the tree [t] with root [r]: the front goes on to the closing of [r], the back to the opening of [r]. *)
Theorem C15_depth_first_exact : forall (T : Type) (h : heap T) (K : forest) r t x e1 e2 b1 b2, rep h K -> wf K -> is_top K r -> shape K r t ->
  dfs_events t = e1 ++ Open x :: e2 -> dfs_events t = b1 ++ Close x :: b2 ->
  loosely (Ret (sdfs_start (Some x))) (sdfs_next h) (sdfs_next_back h) (Open x :: e2) (Close x :: rev b1).
Proof. exact @dfs_loose. Qed.
Print Assumptions C15_depth_first_exact.
(** Until the ends meet - as long as there have not been more calls than items - nothing is amiss: each item is returned at most once, at the proper end. *)
Theorem C15_until_they_meet : forall (I : Type) (l : list I) (bs : list bool), length bs <= length l -> loose l (rev l) bs = deque l bs.
Proof. intros I l bs L. pose proof (loose_deque bs l [] [] L) as E. rewrite !app_nil_r in E. exact E. Qed.
Print Assumptions C15_until_they_meet.
(** And the first call beyond that returns an item that has been returned before, unless one end has taken them all. *)
Theorem C15_when_they_met : forall (I : Type) (l : list I) (n m : nat) (b : bool), 0 < n -> 0 < m -> n + m = length l ->
  last (loose l (rev l) (repeat true n ++ repeat false m ++ [b])) = Some (if b then l !! n else l !! (n - 1)).
Proof. exact @loose_met. Qed.
Print Assumptions C15_when_they_met.

Example C15_exact_nonvacuous : rep exh exK /\ wf exK /\ exK !! 0 = Some ([1] ++ 2 :: [3]) /\ is_top exK 0 /\ shape exK 0 ext /\
  (* forward from 1, backward from 3, forward again twice *)
  (s ← siblings_stable_it exh 2; sched (ssib_next exh) (ssib_next_back exh) s [true; false; true; true; false]) =
    Ret [Some 1; Some 3; Some 2; Some 3; None] /\
  (s ← preceding_siblings_stable_it exh 3; sched (ssib_next exh) (ssib_next_back exh) s [true; true; true]) = Ret [Some 2; Some 3; None] /\
  (s ← following_siblings_stable_it exh 1; sched (ssib_next exh) (ssib_next_back exh) s [false; false; false; false]) = Ret [Some 3; Some 2; Some 1; None] /\
  loose [1; 2; 3] [3; 2; 1] [true; false; true; true; false] = [Some 1; Some 3; Some 2; Some 3; None] /\
  dfs_events ext = [Open 0; Open 1; Open 4; Close 4; Open 5; Close 5] ++ Close 1 :: [Open 2; Close 2; Open 3; Open 6; Close 6; Close 3; Close 0].
Proof. split; [apply ex_ok|]. split; [apply ex_ok|]. split; [vm_compute; done|]. split; [exact ex_top0|]. split; [exact ex_shape0|]. vm_compute. done. Qed.

(** C18, the shallow depth-first iterator after any schedule of calls at both ends: the hint bounds the number of events left,
    except where these begin with the opening of a node and end with its closing: there it is (2, Some(2)), whatever lies between. *)
Theorem C18_shallow_exact : forall (T : Type) (h : heap T) (K : forest) max x t, rep h K -> wf K -> shape K x t -> forall bs, exists s' b,
  after2 (sh_next h max) (sh_next_back h max) (sh_start (Some x)) bs = Ret s' /\ sh_size_hint s' = Ret b /\
  let l := deque_left (dfs_events (rose_depths 0 (rose_cut max t))) bs in
  match head l, last l with
  | Some (Open v), Some (Close w) => if decide (v = w) then b = (2, Some 2) else bounds b (length l)
  | _, _ => bounds b (length l)
  end.
Proof. exact @sh_hints_exact. Qed.
Print Assumptions C18_shallow_exact.
(** The internal link traverser counts the closing of the start node, which it does not return: its hint bounds one more than is left. *)
Theorem C18_link_exact : forall (T : Type) (h : heap T) (K : forest) x ts, rep h K -> wf K -> shape K x (Rose x ts) ->
  forall n, exists s', after (link_dfs_next h) n (dfs_start (Some x)) = Ret s' /\
    bounds (link_dfs_size_hint s') (S (length (Open x :: concat (map dfs_events ts))) - n).
Proof. exact @link_hints_exact. Qed.
Print Assumptions C18_link_exact.
Example C18_exact_nonvacuous : rep exh exK /\ wf exK /\ shape exK 0 ext /\
  head (deque_left (dfs_events (rose_depths 0 (rose_cut None ext))) [true; false]) = Some (Open (1, 1)) /\
  last (deque_left (dfs_events (rose_depths 0 (rose_cut None ext))) [true; false]) = Some (Close (3, 1)) /\
  (s' ← after2 (sh_next exh None) (sh_next_back exh None) (sh_start (Some 0)) [true; false]; sh_size_hint s') = Ret (4, None) /\
  sh_size_hint (sh_start (Some 0)) = Ret (2, Some 2) /\
  (s' ← after (link_dfs_next exh) 13 (dfs_start (Some 0)); Ret (link_dfs_size_hint s')) = Ret (1, Some 1).
Proof. split; [apply ex_ok|]. split; [apply ex_ok|]. split; [exact ex_shape0|]. vm_compute. done. Qed.

(** C18, stable iterators.  The size hint compares the two items that come next ([loose_hint], LooseSpec.v). *)
Theorem C18_stable_siblings_exact : forall (T : Type) (h : heap T) (K : forest) p l1 c l2, rep h K -> wf K -> K !! p = Some (l1 ++ c :: l2) ->
  hinted (children_stable_it h p) (ssib_next h) (ssib_next_back h) ssib_size_hint (l1 ++ c :: l2) (rev (l1 ++ c :: l2)) /\
  hinted (siblings_stable_it h c) (ssib_next h) (ssib_next_back h) ssib_size_hint (l1 ++ c :: l2) (rev (l1 ++ c :: l2)) /\
  hinted (following_siblings_or_self_stable_it h c) (ssib_next h) (ssib_next_back h) ssib_size_hint (c :: l2) (rev (l1 ++ c :: l2)) /\
  hinted (following_siblings_stable_it h c) (ssib_next h) (ssib_next_back h) ssib_size_hint l2 (rev (l1 ++ c :: l2)) /\
  hinted (preceding_siblings_or_self_stable_it h c) (ssib_next h) (ssib_next_back h) ssib_size_hint (l1 ++ c :: l2) (c :: rev l1) /\
  hinted (preceding_siblings_stable_it h c) (ssib_next h) (ssib_next_back h) ssib_size_hint (tail (l1 ++ c :: l2)) (c :: rev l1).
Proof. exact @siblings_hinted. Qed.
Print Assumptions C18_stable_siblings_exact.
Theorem C18_stable_root_siblings_exact : forall (T : Type) (h : heap T) (K : forest) x, rep h K -> wf K -> is_top K x ->
  hinted (siblings_stable_it h x) (ssib_next h) (ssib_next_back h) ssib_size_hint [x] [x] /\
  hinted (following_siblings_or_self_stable_it h x) (ssib_next h) (ssib_next_back h) ssib_size_hint [x] [x] /\
  hinted (following_siblings_stable_it h x) (ssib_next h) (ssib_next_back h) ssib_size_hint [] [x] /\
  hinted (preceding_siblings_or_self_stable_it h x) (ssib_next h) (ssib_next_back h) ssib_size_hint [x] [x] /\
  hinted (preceding_siblings_stable_it h x) (ssib_next h) (ssib_next_back h) ssib_size_hint [] [x].
Proof. exact @root_siblings_hinted. Qed.
Print Assumptions C18_stable_root_siblings_exact.
Theorem C18_stable_depth_first_exact : forall (T : Type) (h : heap T) (K : forest) r t x e1 e2 b1 b2, rep h K -> wf K -> is_top K r -> shape K r t ->
  dfs_events t = e1 ++ Open x :: e2 -> dfs_events t = b1 ++ Close x :: b2 ->
  hinted (Ret (sdfs_start (Some x))) (sdfs_next h) (sdfs_next_back h) sdfs_size_hint (Open x :: e2) (Close x :: rev b1).
Proof. exact @dfs_hinted. Qed.
Print Assumptions C18_stable_depth_first_exact.
(** As long as items are left between the ends the hint bounds their number, for every schedule; the ends may have
    more before them ([r], [q]: see the theorems above). *)
Theorem C18_stable_until_they_meet : forall (I : Type) (D : EqDecision I) (l r q : list I) (bs : list bool), NoDup l -> length bs < length l ->
  bounds (loose_hint (loose_left (l ++ r) (rev l ++ q) bs)) (length l - length bs).
Proof. intros I D l r q bs. exact (hint_open bs l r q). Qed.
Print Assumptions C18_stable_until_they_meet.
(** If only one end is used, it is right to the last: for [next] on children, siblings and following siblings, for [next_back] on
    children, siblings and preceding siblings or self. *)
Theorem C18_stable_one_end : forall (I : Type) (D : EqDecision I) (l q : list I) (n : nat), NoDup l ->
  bounds (loose_hint (loose_left l (rev l ++ q) (repeat true n))) (length l - n) /\
  bounds (loose_hint (loose_left (l ++ q) (rev l) (repeat false n))) (length l - n).
Proof. intros I D l q n N. split; [exact (hint_front n l q N)|exact (hint_back n l q N)]. Qed.
Print Assumptions C18_stable_one_end.
(** Otherwise it may be wrong, for the number of items left between the ends as well as for the number still returned by [next]:
    the children 1, 2, 3 after [next], [next], [next_back]; and the preceding siblings or self of 1 at once. *)
Theorem C18_stable_hint_refuted : exists (h : heap nat) (K : forest), rep h K /\ wf K /\ K !! 0 = Some [1; 2; 3] /\
  (s ← children_stable_it h 0; s' ← after2 (ssib_next h) (ssib_next_back h) s [true; true; false];
   l ← calls (ssib_next h) 3 s'; Ret (ssib_size_hint s', l)) = Ret ((2, None), [Some 3; None; None]) /\
  (s ← preceding_siblings_or_self_stable_it h 1;
   l ← calls (ssib_next h) 4 s; Ret (ssib_size_hint s, l)) = Ret ((1, Some 1), [Some 1; Some 2; Some 3; None]).
Proof. exists exh, exK. split; [apply ex_ok|]. split; [apply ex_ok|]. vm_compute. done. Qed.
Print Assumptions C18_stable_hint_refuted.
Example C18_stable_nonvacuous : rep exh exK /\ wf exK /\ exK !! 0 = Some ([1] ++ 2 :: [3]) /\ is_top exK 0 /\ NoDup [1; 2; 3] /\
  (s ← siblings_stable_it exh 2; s' ← after2 (ssib_next exh) (ssib_next_back exh) s [true]; Ret (ssib_size_hint s')) = Ret (2, None) /\
  (s ← siblings_stable_it exh 2; s' ← after2 (ssib_next exh) (ssib_next_back exh) s [true; false]; Ret (ssib_size_hint s')) = Ret (1, Some 1) /\
  loose_hint (loose_left [1; 2; 3] [3; 2; 1] [true; false]) = (1, Some 1) /\
  (s' ← after2 (sdfs_next exh) (sdfs_next_back exh) (sdfs_start (Some 0)) (repeat true 13); Ret (sdfs_size_hint s')) = Ret (1, Some 1).
Proof.
  split; [apply ex_ok|]. split; [apply ex_ok|]. split; [vm_compute; done|]. split; [exact ex_top0|].
  split; [repeat (constructor; [clear; set_solver|]); constructor|]. vm_compute. done.
Qed.
