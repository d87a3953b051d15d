(** * HIter2: the stable and the breadth-first iterators of src/traverse/ as owners of handles.

    Continues HIter.v: the iterators on [FrozenNode].  The public methods
    borrow the receiver, so they start with a clone of it.  No proofs here. *)
From Verif Require Export HIter Api.

Section HIter2.
Context {T : Type}.
Implicit Types (s : sys T) (i j : nat).

(** Dropping several handles, one after the other. *)
Fixpoint h_drops s (l : list nat) : run (sys T) :=
  match l with [] => Ret s | i :: l' => s1 ← h_drop s i; h_drops s1 l' end.
(** A navigation call giving [Self] ([first_sibling], [last_sibling], frozen.rs:405, 433). *)
Definition h_nav1 s (v : nav) i : run (sys T * nat) :=
  '(s1, r) ← h_nav s v i;
  match r with Some j => Ret (s1, j) | None => Panic end.

(** ** Two ends that do not watch each other *)

(** [StableSiblingsTraverser::next] (siblings.rs:168-174), [StableDepthFirstTraverser::next] (depth_first.rs:386-390): the front moves by [f];
    when it has come to the end the item of the back is dropped. *)
Definition hpair_next {I} (f : sys T -> I -> run (sys T * option I)) (v : I -> nat) s (st : option (I * I)) : run (sys T * option I * option (I * I)) :=
  match st with
  | None => Ret (s, None, None)
  | Some (a, b) =>
      '(s1, r) ← f s a;
      match r with
      | Some a' => Ret (s1, Some a, Some (a', b))
      | None => s2 ← h_drop s1 (v b); Ret (s2, Some a, None)
      end
  end.
(** [StableSiblingsTraverser::next_back] (siblings.rs:186-192), [StableDepthFirstTraverser::next_back] (depth_first.rs:409-415). *)
Definition hpair_back {I} (f : sys T -> I -> run (sys T * option I)) (v : I -> nat) s (st : option (I * I)) : run (sys T * option I * option (I * I)) :=
  match st with
  | None => Ret (s, None, None)
  | Some (a, b) =>
      '(s1, r) ← f s b;
      match r with
      | Some b' => Ret (s1, Some b, Some (a, b'))
      | None => s2 ← h_drop s1 (v a); Ret (s2, Some b, None)
      end
  end.
Definition hpair_owns {I} (v : I -> nat) (st : option (I * I)) : list nat :=
  match st with None => [] | Some (a, b) => [v a; v b] end.

(** ** [StableSiblingsTraverser] (siblings.rs:112-195) *)
Definition hss_state := option (nat * nat).
Definition hss_val (i : nat) : nat := i.
Definition hss_next s (st : hss_state) : run (sys T * option nat * hss_state) := hpair_next (fun s => h_nav s NNext) hss_val s st.
Definition hss_next_back s (st : hss_state) : run (sys T * option nat * hss_state) := hpair_back (fun s => h_nav s NPrev) hss_val s st.
Definition hss_owns (st : hss_state) : list nat := hpair_owns hss_val st.

(** [FrozenNode::children_stable] (frozen.rs:796-798): [with_parent(Some(self.clone()))] (siblings.rs:132-136), which drops the clone. *)
Definition hchildren_stable s i : run (sys T * hss_state) :=
  '(s1, j) ← h_clone s i;
  '(s2, fl) ← step_first_last_child s1 j;
  s3 ← h_drop s2 j;
  Ret (s3, fl).
(** [following_siblings_or_self_stable] (frozen.rs:854-859). *)
Definition hfollowing_or_self_stable s i : run (sys T * hss_state) :=
  '(s1, a) ← h_clone s i;
  '(s2, b) ← h_nav1 s1 NLastSibling i;
  Ret (s2, Some (a, b)).
(** [preceding_siblings_or_self_stable] (frozen.rs:825-830). *)
Definition hpreceding_or_self_stable s i : run (sys T * hss_state) :=
  '(s1, a) ← h_nav1 s NFirstSibling i;
  '(s2, b) ← h_clone s1 i;
  Ret (s2, Some (a, b)).
(** [siblings_stable] (frozen.rs:810-815): the handle on the parent is dropped in the end. *)
Definition hsiblings_stable s i : run (sys T * hss_state) :=
  '(s1, p) ← h_nav s NParent i;
  match p with
  | Some p => '(s2, st) ← hchildren_stable s1 p; s3 ← h_drop s2 p; Ret (s3, st)
  | None => hfollowing_or_self_stable s1 i
  end.
(** [iter.next();]: the item is dropped (frozen.rs:842, 871). *)
Definition hss_skip s (st : hss_state) : run (sys T * hss_state) :=
  '(s1, r, st') ← hss_next s st;
  s2 ← drop_opt s1 r;
  Ret (s2, st').
(** [preceding_siblings_stable] (frozen.rs:840-844), [following_siblings_stable] (frozen.rs:869-873). *)
Definition hpreceding_stable s i : run (sys T * hss_state) :=
  '(s1, st) ← hpreceding_or_self_stable s i; hss_skip s1 st.
Definition hfollowing_stable s i : run (sys T * hss_state) :=
  '(s1, st) ← hfollowing_or_self_stable s i; hss_skip s1 st.

(** ** [StableDepthFirstTraverser] (depth_first.rs:319-418) *)
Definition hsdfs_state := option (dft nat * dft nat).
Definition hsdfs_next s (st : hsdfs_state) : run (sys T * option (dft nat) * hsdfs_state) := hpair_next hev_next ev_val s st.
Definition hsdfs_next_back s (st : hsdfs_state) : run (sys T * option (dft nat) * hsdfs_state) := hpair_back hev_prev ev_val s st.
Definition hsdfs_owns (st : hsdfs_state) : list nat := hpair_owns ev_val st.
(** [FrozenNode::depth_first_traverse_stable] (frozen.rs:782-784): [with_toplevel(Some(self.clone()))] (depth_first.rs:340-344). *)
Definition hsdfs_start s i : run (sys T * hsdfs_state) :=
  '(s1, c) ← h_clone s i;
  '(s2, j) ← h_clone s1 c;
  Ret (s2, Some (Open j, Close c)).

(** ** [NonAllocatingBreadthFirstTraverser] (breadth_first.rs:17-109) *)
Record hnbf_state := mkHnbf { hnbf_inner : hsh_state; hnbf_root : option nat; hnbf_depth : nat }.
Definition hnbf_owns (st : hnbf_state) : list nat := hsh_owns (hnbf_inner st) ++ option_list (hnbf_root st).
(** [FrozenNode::non_allocating_breadth_first_traverse_stable] (frozen.rs:1042-1047): [with_toplevel(self.clone(), start_depth)] (breadth_first.rs:45-54). *)
Definition hnbf_start s i (d : nat) : run (sys T * hnbf_state) :=
  '(s1, c) ← h_clone s i;
  '(s2, c2) ← h_clone s1 c;
  '(s3, inner) ← hsh_start s2 c2;
  Ret (s3, mkHnbf inner (Some c) d).
(** [next_in_current_depth] (breadth_first.rs:57-68): [filter_map] and [find_map] drop what they pass by. *)
Fixpoint h_find (fuel : nat) (d : nat) s (st : hsh_state) : run (sys T * option nat * hsh_state) :=
  match fuel with
  | 0 => NoFuel
  | S f =>
      '(s1, r, st') ← hsh_next (Some d) s st;
      match r with
      | None => Ret (s1, None, st')
      | Some (Open (i, d')) => if decide (d' = d) then Ret (s1, Some i, st') else s2 ← h_drop s1 i; h_find f d s2 st'
      | Some (Close (i, _)) => s2 ← h_drop s1 i; h_find f d s2 st'
      end
  end.
(** [next] (breadth_first.rs:74-97); [self.inner = ..] drops the former inner iterator. *)
Definition hnbf_next s (st : hnbf_state) : run (sys T * option (nat * nat) * hnbf_state) :=
  match hnbf_root st with
  | None => Ret (s, None, st)
  | Some root =>
      '(s1, r, inner) ← h_find (dfs_fuel (s_nodes s)) (hnbf_depth st) s (hnbf_inner st);
      match r with
      | Some i => Ret (s1, Some (i, hnbf_depth st), mkHnbf inner (Some root) (hnbf_depth st))
      | None =>
          let d := S (hnbf_depth st) in
          '(s2, c) ← h_clone s1 root;
          '(s3, inner2) ← hsh_start s2 c;
          s4 ← h_drops s3 (hsh_owns inner);
          '(s5, r2, inner3) ← h_find (dfs_fuel (s_nodes s4)) d s4 inner2;
          match r2 with
          | Some i => Ret (s5, Some (i, d), mkHnbf inner3 (Some root) d)
          | None => s6 ← h_drop s5 root; Ret (s6, None, mkHnbf inner3 None d)
          end
      end
  end.

(** ** [AllocatingBreadthFirstTraverser] (breadth_first.rs:139-266) *)
Record habf_state := mkHabf { habf_queue : list (option nat); habf_depth : nat }.
Definition habf_owns (st : habf_state) : list nat := omap id (habf_queue st).
(** The [filter_map]s of [with_toplevel] (breadth_first.rs:168-178) drained into the queue. *)
Fixpoint h_opens (fuel : nat) (d : nat) s (st : hsh_state) : run (sys T * list nat) :=
  match fuel with
  | 0 => NoFuel
  | S f =>
      '(s1, r, st') ← hsh_next (Some d) s st;
      match r with
      | None => Ret (s1, [])
      | Some (Open (i, d')) =>
          if decide (d' = d) then '(s2, l) ← h_opens f d s1 st'; Ret (s2, i :: l)
          else s2 ← h_drop s1 i; h_opens f d s2 st'
      | Some (Close (i, _)) => s2 ← h_drop s1 i; h_opens f d s2 st'
      end
  end.
(** [FrozenNode::allocating_breadth_first_traverse_stable] (frozen.rs:1120-1125): [with_toplevel(self.clone(), start_depth)] (breadth_first.rs:161-187). *)
Definition habf_start s i (d : nat) : run (sys T * habf_state) :=
  '(s1, c) ← h_clone s i;
  match d with
  | 0 => Ret (s1, mkHabf [Some c; None] 0)
  | _ =>
      '(s2, st) ← hsh_start s1 c;
      '(s3, l) ← h_opens (dfs_fuel (s_nodes s2)) d s2 st;
      Ret (s3, mkHabf (map Some l ++ [None]) d)
  end.
(** [extend(next.children_stable().map(..))] (breadth_first.rs:244-245). *)
Fixpoint hss_collect (fuel : nat) s (st : hss_state) : run (sys T * list nat) :=
  match fuel with
  | 0 => NoFuel
  | S f =>
      '(s1, r, st') ← hss_next s st;
      match r with
      | None => Ret (s1, [])
      | Some i => '(s2, l) ← hss_collect f s1 st'; Ret (s2, i :: l)
      end
  end.
(** [next] (breadth_first.rs:227-252). *)
Fixpoint habf_loop (fuel : nat) s (q : list (option nat)) (d : nat) : run (sys T * option (nat * nat) * habf_state) :=
  match fuel with
  | 0 => NoFuel
  | S f =>
      match q with
      | [] => Ret (s, None, mkHabf [] d)
      | None :: q' => match q' with
                      | [] => Ret (s, None, mkHabf [] d)
                      | _ => habf_loop f s (q' ++ [None]) (S d)
                      end
      | Some i :: q' =>
          '(s1, st) ← hchildren_stable s i;
          '(s2, cs) ← hss_collect (S (walk_fuel (s_nodes s1))) s1 st;
          Ret (s2, Some (i, d), mkHabf (q' ++ map Some cs) d)
      end
  end.
Definition habf_next s (st : habf_state) : run (sys T * option (nat * nat) * habf_state) :=
  habf_loop 3 s (habf_queue st) (habf_depth st).

(** ** [Clone] of the iterators *)
Definition h_clone_opt s (o : option nat) : run (sys T * option nat) :=
  match o with None => Ret (s, None) | Some i => '(s1, j) ← h_clone s i; Ret (s1, Some j) end.
Definition ev_clone s (e : dft nat) : run (sys T * dft nat) :=
  match e with
  | Open i => '(s1, j) ← h_clone s i; Ret (s1, Open j)
  | Close i => '(s1, j) ← h_clone s i; Ret (s1, Close j)
  end.
Definition evd_clone s (e : dft (nat * nat)) : run (sys T * dft (nat * nat)) :=
  match e with
  | Open (i, d) => '(s1, j) ← h_clone s i; Ret (s1, Open (j, d))
  | Close (i, d) => '(s1, j) ← h_clone s i; Ret (s1, Close (j, d))
  end.
(** A pair is cloned component by component. *)
Definition pair_clone {A B} (ca : sys T -> A -> run (sys T * A)) (cb : sys T -> B -> run (sys T * B)) s (o : option (A * B)) : run (sys T * option (A * B)) :=
  match o with None => Ret (s, None) | Some (a, b) => '(s1, a') ← ca s a; '(s2, b') ← cb s1 b; Ret (s2, Some (a', b')) end.
(** depth_first.rs:164-171, 252-259: the next event and the start node. *)
Definition hdfs_clone s (st : hdfs_state) : run (sys T * hdfs_state) := pair_clone ev_clone h_clone s st.
(** ancestors.rs:15-22, siblings.rs:15-22, 67-74. *)
Definition hsib_clone s (st : option nat) : run (sys T * option nat) := h_clone_opt s st.
(** siblings.rs:119-126. *)
Definition hss_clone s (st : hss_state) : run (sys T * hss_state) := pair_clone h_clone h_clone s st.
(** depth_first.rs:329-336. *)
Definition hsdfs_clone s (st : hsdfs_state) : run (sys T * hsdfs_state) := pair_clone ev_clone ev_clone s st.
(** depth_first.rs:443-451. *)
Definition hsh_clone s (st : hsh_state) : run (sys T * hsh_state) := pair_clone evd_clone evd_clone s st.
(** breadth_first.rs:29-38. *)
Definition hnbf_clone s (st : hnbf_state) : run (sys T * hnbf_state) :=
  '(s1, inner) ← hsh_clone s (hnbf_inner st);
  '(s2, root) ← h_clone_opt s1 (hnbf_root st);
  Ret (s2, mkHnbf inner root (hnbf_depth st)).
(** breadth_first.rs:146-154, 123-131. *)
Fixpoint queue_clone s (q : list (option nat)) : run (sys T * list (option nat)) :=
  match q with
  | [] => Ret (s, [])
  | o :: q' => '(s1, o') ← h_clone_opt s o; '(s2, q2) ← queue_clone s1 q'; Ret (s2, o' :: q2)
  end.
Definition habf_clone s (st : habf_state) : run (sys T * habf_state) :=
  '(s1, q) ← queue_clone s (habf_queue st); Ret (s1, mkHabf q (habf_depth st)).
(** [AllocatingBreadthFirstTraverser::peek] (breadth_first.rs:192-203): a clone of the next node. *)
Definition habf_peek s (st : habf_state) : run (sys T * option (nat * nat)) :=
  match habf_queue st with
  | [] => Ret (s, None)
  | Some i :: _ => '(s1, j) ← h_clone s i; Ret (s1, Some (j, habf_depth st))
  | None :: q => match q with
                 | [] => Ret (s, None)
                 | Some i :: _ => '(s1, j) ← h_clone s i; Ret (s1, Some (j, S (habf_depth st)))
                 | None :: _ => Panic
                 end
  end.

End HIter2.
