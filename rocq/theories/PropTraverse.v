(** * PropTraverse: properties of the iterators (C12-C18, C33, C34).

    [rep h K] : the heap stores the ordered forest [K]; [shape K x t] : the
    subtree of [x] is the ordered tree [t] (Spec.v).  [enumerates], [double_ended],
    [hints_ok], [dfs_events], [level_order] are in IterSpec.v. *)
From Verif Require Import IterSpec Spec SpecFacts RoseFacts AdjFacts IterFacts TravFacts TravFacts2 TravFacts3 TravFacts4 TravFacts5 Examples.

(** Every live node has exactly one shape, whose nodes are the nodes below it,
    each once: so "for every [t] with [shape K x t]" ranges over every node. *)
Theorem shape_total : forall (K : forest) x, wf K -> is_Some (K !! x) ->
  exists t, shape K x t /\ (forall t', shape K x t' -> t' = t) /\
    NoDup (rose_nodes t) /\ (forall y, y ∈ rose_nodes t <-> below K x y).
Proof.
  intros K x Hw Hx. destruct (shape_exists K x Hw Hx) as [t Ht]. exists t. split_and!; [done| | |].
  - intros t' Ht'. by eapply shape_unique.
  - by eapply shape_nodup.
  - intros y. by apply shape_nodes.
Qed.
Print Assumptions shape_total.

(** C12. *)
Theorem C12_depth_first : forall (T : Type) (h : heap T) (K : forest) x t, rep h K -> wf K -> shape K x t ->
  enumerates (dfs_next h) (dfs_start (Some x)) (dfs_events t).
Proof. exact @dfs_enum. Qed.
Print Assumptions C12_depth_first.
(** The internal link traverser yields the same events without the final [Close]. *)
Theorem C12_link_traverser : forall (T : Type) (h : heap T) (K : forest) x ts, rep h K -> wf K -> shape K x (Rose x ts) ->
  enumerates (link_dfs_next h) (dfs_start (Some x)) (Open x :: concat (map dfs_events ts)).
Proof. exact @link_dfs_enum. Qed.
Print Assumptions C12_link_traverser.
(** The [Open] events give each node before its children, the [Close] events after them. *)
Theorem C12_orders : forall (T : Type) (h : heap T) (K : forest) x t, rep h K -> wf K -> shape K x t ->
  exists es, enumerates (dfs_next h) (dfs_start (Some x)) es /\ omap into_open es = rose_nodes t /\ omap into_close es = rose_post t.
Proof. intros T h K x t Hr Hw Hs. exists (dfs_events t). split; [exact (dfs_enum h K x t Hr Hw Hs)|]. exact (events_orders t). Qed.
Print Assumptions C12_orders.
Example C12_nonvacuous : shape exK 0 ext /\
  dfs_events ext = [Open 0; Open 1; Open 4; Close 4; Open 5; Close 5; Close 1; Open 2; Close 2; Open 3; Open 6; Close 6; Close 3; Close 0] /\
  calls (dfs_next exh) 6 (dfs_start (Some 3)) = Ret [Some (Open 3); Some (Open 6); Some (Close 6); Some (Close 3); None; None] /\
  rose_nodes ext = [0; 1; 4; 5; 2; 3; 6] /\ rose_post ext = [4; 5; 1; 2; 6; 3; 0].
Proof. split; [exact ex_shape0|]. vm_compute. done. Qed.

(** C13. *)
Theorem C13_reverse : forall (T : Type) (h : heap T) (K : forest) x t, rep h K -> wf K -> shape K x t ->
  enumerates (rdfs_next h) (rdfs_start (Some x)) (rev (dfs_events t)).
Proof. exact @rdfs_enum. Qed.
Print Assumptions C13_reverse.
Theorem C13_reverse_of_forward : forall (T : Type) (h : heap T) (K : forest) x l l', rep h K -> wf K -> is_Some (K !! x) ->
  enumerates (dfs_next h) (dfs_start (Some x)) l -> enumerates (rdfs_next h) (rdfs_start (Some x)) l' -> l' = rev l.
Proof.
  intros T h K x l l' Hr Hw Hx H1 H2. destruct (shape_exists K x Hw Hx) as [t Ht].
  rewrite (enumerates_unique _ _ _ _ H1 (dfs_enum h K x t Hr Hw Ht)).
  exact (enumerates_unique _ _ _ _ H2 (rdfs_enum h K x t Hr Hw Ht)).
Qed.
Print Assumptions C13_reverse_of_forward.
Example C13_nonvacuous :
  calls (rdfs_next exh) 6 (rdfs_start (Some 3)) = Ret [Some (Close 3); Some (Close 6); Some (Open 6); Some (Open 3); None; None].
Proof. vm_compute. done. Qed.

(** C14. *)
Theorem C14_children : forall (T : Type) (h : heap T) (K : forest) x ks, rep h K -> wf K -> K !! x = Some ks ->
  enumerates (sib_next h) (children_it h x) ks /\
  starts (children_reverse_it h x) (rsib_next h) (rev ks) /\
  count_children h x = Ret (length ks).
Proof. exact @children_its. Qed.
Print Assumptions C14_children.
Theorem C14_siblings : forall (T : Type) (h : heap T) (K : forest) p l1 c l2, rep h K -> wf K ->
  K !! p = Some (l1 ++ c :: l2) ->
  enumerates (sib_next h) (following_siblings_or_self_it c) (c :: l2) /\
  starts (following_siblings_it h c) (sib_next h) l2 /\
  enumerates (rsib_next h) (preceding_siblings_or_self_reverse_it c) (c :: rev l1) /\
  starts (preceding_siblings_reverse_it h c) (rsib_next h) (rev l1) /\
  enumerates (sib_next h) (siblings_it h c) (l1 ++ c :: l2) /\
  starts (siblings_reverse_it h c) (rsib_next h) (rev (l1 ++ c :: l2)) /\
  count_following_siblings h c = Ret (length l2) /\
  count_preceding_siblings h c = Ret (length l1).
Proof. exact @sibling_its. Qed.
Print Assumptions C14_siblings.
Theorem C14_root_siblings : forall (T : Type) (h : heap T) (K : forest) x, rep h K -> wf K -> is_top K x ->
  enumerates (sib_next h) (following_siblings_or_self_it x) [x] /\
  starts (following_siblings_it h x) (sib_next h) [] /\
  enumerates (rsib_next h) (preceding_siblings_or_self_reverse_it x) [x] /\
  starts (preceding_siblings_reverse_it h x) (rsib_next h) [] /\
  enumerates (sib_next h) (siblings_it h x) [x] /\
  starts (siblings_reverse_it h x) (rsib_next h) [x] /\
  count_following_siblings h x = Ret 0 /\
  count_preceding_siblings h x = Ret 0.
Proof. exact @top_sibling_its. Qed.
Print Assumptions C14_root_siblings.
Theorem C14_ancestors : forall (T : Type) (h : heap T) (K : forest) x l, rep h K -> wf K -> is_Some (K !! x) -> anc K x l ->
  enumerates (anc_next h) (ancestors_or_self_it x) (x :: l) /\
  starts (ancestors_it h x) (anc_next h) l /\
  count_ancestors h x = Ret (length l).
Proof. exact @ancestor_its. Qed.
Print Assumptions C14_ancestors.
Example C14_nonvacuous : exK !! 0 = Some ([1] ++ 2 :: [3]) /\
  calls (sib_next exh) 3 (siblings_it exh 2) = Ret [Some 1; Some 2; Some 3] /\
  calls (anc_next exh) 3 (ancestors_or_self_it 4) = Ret [Some 4; Some 1; Some 0] /\ count_ancestors exh 6 = Ret 2.
Proof. vm_compute. done. Qed.
(** The hypothesis of [C14_ancestors] is met by every live node. *)
Theorem C14_anc_total : forall (K : forest) x, wf K -> is_Some (K !! x) -> exists l, anc K x l.
Proof. exact EditFacts2.anc_exists. Qed.
Print Assumptions C14_anc_total.

(** C15.  The stable iterators do not stop where the two ends meet, and the
    depth-first one runs past its top level node. *)
Theorem C15_stable_dfs_refuted : exists (h : heap nat) K x t, rep h K /\ wf K /\ shape K x t /\
  ~ enumerates (sdfs_next h) (sdfs_start (Some x)) (dfs_events t).
Proof.
  exists exh, exK, 1, (Rose 1 [Rose 4 []; Rose 5 []]). split_and!; [apply ex_ok|apply ex_ok|exact ex_shape1|].
  intros H. specialize (H 7). vm_compute in H. discriminate H.
Qed.
Print Assumptions C15_stable_dfs_refuted.
Theorem C15_stable_dfs_ends_refuted : exists (h : heap nat) K x t, rep h K /\ wf K /\ is_top K x /\ shape K x t /\
  ~ double_ended (sdfs_next h) (sdfs_next_back h) (sdfs_start (Some x)) (dfs_events t).
Proof.
  exists exh, exK, 0, ext. split_and!; [apply ex_ok|apply ex_ok|exact ex_top0|exact ex_shape0|].
  intros H. specialize (H (repeat false 1 ++ repeat true 14)). vm_compute in H. discriminate H.
Qed.
Print Assumptions C15_stable_dfs_ends_refuted.
Theorem C15_stable_siblings_refuted : exists (h : heap nat) K p ks s, rep h K /\ wf K /\ K !! p = Some ks /\
  children_stable_it h p = Ret s /\ ~ double_ended (ssib_next h) (ssib_next_back h) s ks.
Proof.
  exists exh, exK, 0, [1; 2; 3], (Some (1, 3)). split_and!; [apply ex_ok|apply ex_ok|vm_compute; done|vm_compute; done|].
  intros H. specialize (H [true; false; true; true]). vm_compute in H. discriminate H.
Qed.
Print Assumptions C15_stable_siblings_refuted.
Theorem C15_preceding_stable_refuted : exists (h : heap nat) K p l1 c l2, rep h K /\ wf K /\ K !! p = Some (l1 ++ c :: l2) /\
  ~ starts (preceding_siblings_stable_it h c) (ssib_next h) l1.
Proof.
  exists exh, exK, 0, [1], 2, [3]. split_and!; [apply ex_ok|apply ex_ok|vm_compute; done|].
  intros (s & E & H). vm_compute in E. injection E as <-. specialize (H 1). vm_compute in H. discriminate H.
Qed.
Print Assumptions C15_preceding_stable_refuted.
(** What does hold: used from one end only, they are correct (the depth-first
    one only on a whole tree, the sibling ones towards the end of the list). *)
Theorem C15_one_direction_partial : forall (T : Type) (h : heap T) (K : forest), rep h K -> wf K ->
  (forall x t, is_top K x -> shape K x t ->
     enumerates (sdfs_next h) (sdfs_start (Some x)) (dfs_events t) /\
     enumerates (sdfs_next_back h) (sdfs_start (Some x)) (rev (dfs_events t))) /\
  (forall p l1 c l2, K !! p = Some (l1 ++ c :: l2) ->
     starts (following_siblings_or_self_stable_it h c) (ssib_next h) (c :: l2) /\
     starts (preceding_siblings_or_self_stable_it h c) (ssib_next_back h) (c :: rev l1) /\
     starts (siblings_stable_it h c) (ssib_next h) (l1 ++ c :: l2) /\
     starts (siblings_stable_it h c) (ssib_next_back h) (rev (l1 ++ c :: l2)) /\
     starts (children_stable_it h p) (ssib_next h) (l1 ++ c :: l2) /\
     starts (children_stable_it h p) (ssib_next_back h) (rev (l1 ++ c :: l2)) /\
     starts (following_siblings_stable_it h c) (ssib_next h) l2).
Proof.
  intros T h K Hr Hw. split.
  - intros x t Hx Ht. split; [exact (sdfs_forward h K x t Hr Hw Hx Ht)|exact (sdfs_backward h K x t Hr Hw Hx Ht)].
  - intros p l1 c l2 Hp. exact (stable_dir h K p l1 c l2 Hr Hw Hp).
Qed.
Print Assumptions C15_one_direction_partial.

(** C16. *)
Theorem C16_shallow : forall (T : Type) (h : heap T) (K : forest) (max : option nat) x t, rep h K -> wf K -> shape K x t ->
  double_ended (sh_next h max) (sh_next_back h max) (sh_start (Some x)) (dfs_events (rose_depths 0 (rose_cut max t))).
Proof. exact @sh_double. Qed.
Print Assumptions C16_shallow.
(** Reading of [deque]: complete schedules split the sequence between both ends. *)
Theorem C16_deque_meaning : forall I (l : list I) bs, length l <= length bs ->
  fronts bs (deque l bs) ++ rev (backs bs (deque l bs)) = l.
Proof. exact @deque_complete. Qed.
Print Assumptions C16_deque_meaning.
Example C16_nonvacuous :
  dfs_events (rose_depths 0 (rose_cut (Some 1) ext)) =
    [Open (0, 0); Open (1, 1); Close (1, 1); Open (2, 1); Close (2, 1); Open (3, 1); Close (3, 1); Close (0, 0)] /\
  sched (sh_next exh (Some 1)) (sh_next_back exh (Some 1)) (sh_start (Some 0)) [true; false; true; false; false; true; true; true; true; false] =
    Ret [Some (Open (0, 0)); Some (Close (0, 0)); Some (Open (1, 1)); Some (Close (3, 1)); Some (Open (3, 1));
         Some (Close (1, 1)); Some (Open (2, 1)); Some (Close (2, 1)); None; None].
Proof. vm_compute. done. Qed.

(** C17. *)
Theorem C17_breadth_first : forall (T : Type) (h : heap T) (K : forest) x t d, rep h K -> wf K -> shape K x t ->
  enumerates (nbf_next h) (nbf_start x d) (level_order d t).
Proof. exact @nbf_enum. Qed.
Print Assumptions C17_breadth_first.
Theorem C17_allocating : forall (T : Type) (h : heap T) (K : forest) x t d, rep h K -> wf K -> shape K x t ->
  starts (abf_start h x d) (abf_next h) (level_order d t).
Proof. exact @abf_enum. Qed.
Print Assumptions C17_allocating.
Theorem C17_peek : forall (T : Type) (h : heap T) (K : forest) x t d n, rep h K -> wf K -> shape K x t ->
  exists s s', abf_start h x d = Ret s /\ after (abf_next h) n s = Ret s' /\ abf_peek s' = Ret (level_order d t !! n).
Proof. exact @abf_peeks. Qed.
Print Assumptions C17_peek.
Theorem C17_every_node_once : forall A (t : rose A), Permutation (map fst (level_order 0 t)) (rose_nodes t).
Proof. exact @level_order_perm. Qed.
Print Assumptions C17_every_node_once.
Example C17_nonvacuous : level_order 0 ext = [(0, 0); (1, 1); (2, 1); (3, 1); (4, 2); (5, 2); (6, 2)] /\
  level_order 2 ext = [(4, 2); (5, 2); (6, 2)] /\
  calls (nbf_next exh) 4 (nbf_start 0 2) = Ret [Some (4, 2); Some (5, 2); Some (6, 2); None].
Proof. vm_compute. done. Qed.

(** C18. *)
Theorem C18_size_hints_partial : forall (T : Type) (h : heap T) (K : forest), rep h K -> wf K ->
  (forall x t, shape K x t ->
     hints_ok (dfs_next h) (fun s => Ret (dfs_size_hint s)) (dfs_start (Some x)) (dfs_events t) /\
     hints_ok (rdfs_next h) (fun s => Ret (rdfs_size_hint s)) (rdfs_start (Some x)) (rev (dfs_events t))) /\
  (forall x t d, shape K x t ->
     hints_ok (nbf_next h) (fun s => Ret (nbf_size_hint s)) (nbf_start x d) (level_order d t) /\
     exists s, abf_start h x d = Ret s /\ hints_ok (abf_next h) (fun s => Ret (abf_size_hint s)) s (level_order d t)) /\
  (forall s l, enumerates (sib_next h) s l -> hints_ok (sib_next h) (fun s => Ret (opt_size_hint s)) s l) /\
  (forall s l, enumerates (rsib_next h) s l -> hints_ok (rsib_next h) (fun s => Ret (opt_size_hint s)) s l) /\
  (forall s l, enumerates (anc_next h) s l -> hints_ok (anc_next h) (fun s => Ret (opt_size_hint s)) s l) /\
  (** the shallow traverser, after any schedule: the lower bound, and every upper
      bound other than the value 2 *)
  (forall max x t, shape K x t -> forall bs, exists s' b,
     after2 (sh_next h max) (sh_next_back h max) (sh_start (Some x)) bs = Ret s' /\ sh_size_hint s' = Ret b /\
     b.1 <= length (dfs_events (rose_depths 0 (rose_cut max t))) - length bs /\
     match b.2 with
     | Some u => u = 2 \/ length (dfs_events (rose_depths 0 (rose_cut max t))) - length bs <= u
     | None => True
     end).
Proof.
  intros T h K Hr Hw. split_and!.
  - intros x t Ht. split; [exact (dfs_hints h K x t Hr Hw Ht)|exact (rdfs_hints h K x t Hr Hw Ht)].
  - intros x t d Ht. split; [exact (nbf_hints h K x t d Hr Hw Ht)|exact (abf_hints h K x t d Hr Hw Ht)].
  - exact (proj1 (simple_hints h)).
  - exact (proj1 (proj2 (simple_hints h))).
  - exact (proj2 (proj2 (simple_hints h))).
  - intros max x t Ht. exact (sh_hints h K max x t Hr Hw Ht).
Qed.
Print Assumptions C18_size_hints_partial.
Theorem C18_shallow_hint_refuted : exists (h : heap nat) K x t, rep h K /\ wf K /\ shape K x t /\
  ~ hints_ok (sh_next h None) sh_size_hint (sh_start (Some x)) (dfs_events (rose_depths 0 (rose_cut None t))).
Proof.
  exists exh, exK, 0, ext. split_and!; [apply ex_ok|apply ex_ok|exact ex_shape0|].
  intros H. destruct (H 0) as (s' & b & E1 & E2 & _ & H2). vm_compute in E1. injection E1 as <-.
  vm_compute in E2. injection E2 as <-. simpl in H2. lia.
Qed.
Print Assumptions C18_shallow_hint_refuted.
(** The internal link traverser announces one more event than it yields. *)
Theorem C18_link_hint_refuted : exists (h : heap nat) K x ts, rep h K /\ wf K /\ shape K x (Rose x ts) /\
  ~ hints_ok (link_dfs_next h) (fun s => Ret (link_dfs_size_hint s)) (dfs_start (Some x)) (Open x :: concat (map dfs_events ts)).
Proof.
  exists exh, exK, 2, []. split_and!; [apply ex_ok|apply ex_ok|shape|].
  intros H. destruct (H 0) as (s' & b & E1 & E2 & H1 & _). vm_compute in E1. injection E1 as <-.
  vm_compute in E2. injection E2 as <-. simpl in H1. lia.
Qed.
Print Assumptions C18_link_hint_refuted.

(** C33.  After [Open y] has been delivered, what remains is the events of the
    children of [y], [Close y], and the rest [r]: [close_current] of any
    traverser returns [y] and leaves exactly [r].  The number of iterations is
    bounded by the number of skipped events. *)
Theorem C33_close_current : forall S A (nx : S -> run (option (dft A) * S)) (ts : list (rose A)) y r s fuel,
  enumerates nx s (concat (map dfs_events ts) ++ Close y :: r) ->
  length (concat (map dfs_events ts)) < fuel ->
  exists s', close_current nx fuel s 0 = Ret (Some y, s') /\ enumerates nx s' r.
Proof. exact @close_current_ok. Qed.
Print Assumptions C33_close_current.
Theorem C33_close_current_end : forall S A (nx : S -> run (option (dft A) * S)) s fuel,
  enumerates nx s [] -> 0 < fuel -> exists s', close_current nx fuel s 0 = Ret (None, s') /\ enumerates nx s' [].
Proof. exact @close_current_end. Qed.
Print Assumptions C33_close_current_end.
Example C33_nonvacuous : exists s s', after (dfs_next exh) 2 (dfs_start (Some 0)) = Ret s /\
  close_current (dfs_next exh) 20 s 0 = Ret (Some 1, s') /\ calls (dfs_next exh) 2 s' = Ret [Some (Open 2); Some (Close 2)].
Proof. exists (Some (Open 4, 0)), (Some (Open 2, 0)). vm_compute. done. Qed.
(** [DftEvent::close_current] never returns when the next event is an [Open]. *)
Theorem C33_event_close_current_refuted : forall (T : Type) (h : heap T) e y,
  dft_next h e = Some (Open y) -> forall fuel d, ev_close_current fuel h e d = NoFuel.
Proof. intros T h e y E fuel d. exact (ev_close_diverges h e y fuel d E). Qed.
Print Assumptions C33_event_close_current_refuted.
Theorem C33_event_close_current_partial : forall (T : Type) (h : heap T) e y fuel,
  dft_next h e = Some (Close y) -> ev_close_current (S fuel) h e 0 = Ret (Some y).
Proof. exact @ev_close_close. Qed.
Print Assumptions C33_event_close_current_partial.
Example C33_refuted_instance : dft_next exh (Open 1) = Some (Open 4) /\ ev_close_current 1000 exh (Open 1) 0 = NoFuel.
Proof. vm_compute. done. Qed.

(** C34. *)
Theorem C34_next_prev_inverse : forall (T : Type) (h : heap T) (K : forest), rep h K -> wf K ->
  (forall e f, is_Some (K !! ev_val e) -> is_Some (K !! ev_val f) ->
     (dft_next h e = Some f <-> dft_prev h f = Ret (Some e))) /\
  (forall e, is_Some (K !! ev_val e) -> (dft_next h e = None <-> exists r, is_top K r /\ e = Close r)) /\
  (forall e, is_Some (K !! ev_val e) -> (dft_prev h e = Ret None <-> exists r, is_top K r /\ e = Open r)).
Proof.
  intros T h K Hr Hw. split_and!.
  - intros e f. exact (dft_inverse h K e f Hr Hw).
  - intros e. exact (dft_next_none h K e Hr Hw).
  - intros e. exact (dft_prev_none h K e Hr Hw).
Qed.
Print Assumptions C34_next_prev_inverse.
Example C34_nonvacuous : is_Some (exK !! 3) /\ dft_next exh (Close 2) = Some (Open 3) /\ dft_prev exh (Open 3) = Ret (Some (Close 2)).
Proof. vm_compute. eauto. Qed.
