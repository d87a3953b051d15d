(** * PropBuilder: a tree under construction is private, and each call of the builder does what it says (C51).

    [building p s b m] (BuilderSpec.v): any interleaving of calls of a [TreeBuilder] with any calls of other code,
    damaging ones included, starting in any state that any calls have led to; [m] is what the events accepted so
    far amount to: the open nodes and the subtrees closed below them. *)
From Verif Require Import Heap System Serial SerialSpec SysSpec ApiSpec HIterSpec FrameSpec FrameFacts2 BuilderSpec BuilderFacts BuilderFacts2 Demo Spec.

(** Every event is accepted or refused as the events accepted so far demand, whatever other code has done; the call
    never panics and always returns; nothing of other code is changed. *)
Theorem C51_each_call : forall (T : Type) (p : nat -> bool) (s : sys T) (b : builder) (m : progress) (e : event T), building p s b m ->
  exists s' b', b_push s b e = Ret (s', b', (answer m e).2) /\ building (turn p s true) s' b' (answer m e).1 /\
    untouched (share p false s) (share (turn p s true) false s').
Proof.
  intros T p s b m e H. destruct (binv_push p s b m e (building_inv p s b m H)) as (s' & b' & E & _ & U). exists s', b'.
  split; [exact E|]. split; [exact (bg_push _ _ _ _ _ _ _ _ H E)|exact U].
Qed.
Print Assumptions C51_each_call.
(** Several events at once: as one after the other, up to the first that is refused. *)
Theorem C51_push_events : forall (T : Type) (p : nat -> bool) (s : sys T) (b : builder) (m : progress) (es : list (event T)), building p s b m ->
  exists s' b' p', b_push_all s b es = Ret (s', b', (answers m es).2) /\ building p' s' b' (answers m es).1.
Proof. intros T p s b m es H. exact (building_push_all es p s b m H). Qed.
Print Assumptions C51_push_events.
(** [is_root_available] and [is_root_closed]. *)
Theorem C51_questions : forall (T : Type) (p : nat -> bool) (s : sys T) (b : builder) (m : progress), building p s b m ->
  (b_is_root_available b = true <-> m <> Nothing) /\ (b_is_root_closed b = true <-> exists t, m = Done t).
Proof.
  intros T p s b m H. destruct (binv_root p s b m (building_inv p s b m H)) as [-> ->]. destruct m as [|f fs|t]; split; split; intros A; try discriminate A; try reflexivity; try (intros F; discriminate F); try (by destruct A); by exists t.
Qed.
Print Assumptions C51_questions.
(** [finish] at any moment: an error if no node was opened; otherwise all that the builder ever made is one tree of
    exactly the data given, with what was open closed, and a handle on its root.  Nothing of other code is changed. *)
Theorem C51_finish : forall (T : Type) (p : nat -> bool) (s : sys T) (b : builder) (m : progress), building p s b m ->
  match tree_made m with
  | None => b_finish s b = Ret (s, inr RootNotOpened)
  | Some td => exists s' i, b_finish s b = Ret (s', inl i) /\ just_tree (share (turn p s true) true s') i td /\
      untouched (share p false s) (share (turn p s true) false s')
  end.
Proof. intros T p s b m H. exact (binv_finish p s b m (building_inv p s b m H)). Qed.
Print Assumptions C51_finish.
(** Dropping the builder at any moment: nothing of what it made is left. *)
Theorem C51_abandoned : forall (T : Type) (p : nat -> bool) (s : sys T) (b : builder) (m : progress), building p s b m ->
  exists s', b_drop s b = Ret s' /\ void (share (turn p s true) true s') /\ untouched (share p false s) (share (turn p s true) false s').
Proof. intros T p s b m H. exact (binv_drop p s b m (building_inv p s b m H)). Qed.
Print Assumptions C51_abandoned.
(** Meanwhile no other code can reach the tree: nothing of its refers to it. *)
Theorem C51_private : forall (T : Type) (p : nat -> bool) (s : sys T) (b : builder) (m : progress), building p s b m -> parted p s.
Proof. intros T p s b m H. exact (proj1 (building_inv p s b m H)). Qed.
Print Assumptions C51_private.

(** ** A builder at work *)
Fixpoint site (p : nat -> bool) (s : sys nat) (b : builder) (m : progress) (l : list (op nat + event nat)) : option ((nat -> bool) * sys nat * builder * progress) :=
  match l with
  | [] => Some (p, s, b, m)
  | inl o :: l' =>
      if forallb (fun i => negb (p i)) (op_args o) then
        match step s o with Ret (s1, _) => site (turn p s false) s1 b m l' | _ => None end
      else None
  | inr e :: l' => match b_push s b e with Ret (s1, b1, _) => site (turn p s true) s1 b1 (answer m e).1 l' | _ => None end
  end.
Lemma site_ok l : forall p s b m q u b' m', building p s b m -> site p s b m l = Some (q, u, b', m') -> building q u b' m'.
Proof. induction l as [|[o|e] l IH]; intros p s b m q u b' m' H E; cbn [site] in E.
  - apply Some_inj in E. injection E as <- <- <- <-. exact H.
  - destruct (forallb _ _) eqn:F; [|discriminate E]. destruct (step s o) as [[s1 r]| |] eqn:Es; try discriminate E. eapply IH; [|exact E].
    eapply bg_other; [exact H| |exact Es]. intros i Hi. rewrite forallb_forall in F. apply negb_true_iff, F, elem_of_list_In, Hi.
  - destruct (b_push s b e) as [[[s1 b1] x]| |] eqn:Es; try discriminate E. eapply IH; [|exact E]. exact (bg_push _ _ _ _ _ _ _ _ H Es). Qed.
(** Other code makes a tree 0 -> [9; 13], while the builder is told to open 7, 8 and 9; the other code detaches 13, which
    damages its tree, and adds 20 (whose previous sibling is then 13); the builder is told to close five nodes (it closes all but the root, and refuses),
    and to open 5. *)
Definition site_ops : list (op nat + event nat) :=
  [ inr (EClose 1); inl (OpNewTree 1); inl (OpBundle Hot 2); inr (EOpen 7); inl (OpCreate (ByHot 3) 2 ALastChild); inr (EOpen 8);
    inl (OpCreate (ByHot 3) 3 ALastChild); inr (EOpen 9); inl (OpDetach (ByHot 14)); inr (EClose 5);
    inl (OpCreate (ByHot 3) 4 ALastChild); inr (EOpen 5) ].
Definition site_end := site (fun _ => false) init b_new Nothing site_ops.
Definition site_state : (nat -> bool) * sys nat * builder * progress := match site_end with Some r => r | None => (fun _ => false, init, b_new, Nothing) end.
Lemma init_building : building (T := nat) (fun _ => false) init b_new Nothing.
Proof. apply bg_start; [apply parties_init|]. intros n Hn. cbn in Hn. lia. Qed.
Lemma site_building : building site_state.1.1.1 site_state.1.1.2 site_state.1.2 site_state.2.
Proof. unfold site_state. destruct site_end as [[[[q u] b] m]|] eqn:E; [|exact init_building]. exact (site_ok site_ops _ _ _ _ q u b m init_building E). Qed.
Example C51_nonvacuous : building site_state.1.1.1 site_state.1.1.2 site_state.1.2 site_state.2 /\
  fprev (s_nodes site_state.1.1.2) 20 = Some 13 /\ tree_of site_state.1.1.2 13 = Some 17 /\ tree_of site_state.1.1.2 20 = Some 1 /\
  site_state.2 = Opened (5, []) [(7, [Rose 8 [Rose 9 []]])] /\
  tree_made site_state.2 = Some (Rose 7 [Rose 8 [Rose 9 []]; Rose 5 []]) /\
  answer (Opened (9, []) [(8, []); (7, [])]) (EClose 5) = (Opened (7, [Rose 8 [Rose 9 []]]) [], Some RootClosed) /\
  (answer site_state.2 (EClose 3)).2 = Some RootClosed /\ (answer site_state.2 (EClose 2)).1 = Done (Rose 7 [Rose 8 [Rose 9 []]; Rose 5 []]).
Proof. split; [exact site_building|]. split; [by vm_compute|]. split; [by vm_compute|]. split; [by vm_compute|]. split; [by vm_compute|]. split; [by vm_compute|]. split; [by vm_compute|]. split; by vm_compute. Qed.
