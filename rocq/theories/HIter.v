(** * HIter: the iterators of src/traverse/ as owners of handles.

    Traverse.v models what the iterators yield, on node identities.  Here the
    iterators hold what they hold in Rust: handles ([Node], [FrozenNode]) that
    keep trees alive and locked and are cloned and dropped on the way.  A handle
    is its name in [s_hands]; a state of an iterator lists the names it owns.
    No proofs here. *)
From Verif Require Export Serial.

Section HIter.
Context {T : Type}.
Implicit Types (s : sys T) (i j : nat).

(** A navigation call giving [Option<Self>]. *)
Definition h_nav s (v : nav) i : run (sys T * option nat) :=
  '(s1, r) ← step s (OpNav v i);
  match r with
  | OutHandle j => Ret (s1, Some j)
  | OutNone => Ret (s1, None)
  | _ => Panic
  end.
(** [Clone] of a node handle. *)
Definition h_clone s i : run (sys T * nat) := call_hand s (OpClone i).
(** [Drop] of a node handle. *)
Definition h_drop s i : run (sys T) := drop_opt s (Some i).

(** [DftEvent::next] (depth_first.rs:92-110). *)
Definition hev_next s (e : dft nat) : run (sys T * option (dft nat)) :=
  match e with
  | Open i =>
      '(s1, c) ← h_nav s NFirstChild i;
      match c with
      | Some j => Ret (s1, Some (Open j))
      | None => '(s2, j) ← h_clone s1 i; Ret (s2, Some (Close j))
      end
  | Close i =>
      '(s1, c) ← h_nav s NNext i;
      match c with
      | Some j => Ret (s1, Some (Open j))
      | None => '(s2, p) ← h_nav s1 NParent i; Ret (s2, option_map Close p)
      end
  end.

(** [DftEvent::prev] (depth_first.rs:130-148). *)
Definition hev_prev s (e : dft nat) : run (sys T * option (dft nat)) :=
  match e with
  | Close i =>
      '(s1, c) ← h_nav s NLastChild i;
      match c with
      | Some j => Ret (s1, Some (Close j))
      | None => '(s2, j) ← h_clone s1 i; Ret (s2, Some (Open j))
      end
  | Open i =>
      '(s1, c) ← h_nav s NPrev i;
      match c with
      | Some j => Ret (s1, Some (Close j))
      | None => '(s2, p) ← h_nav s1 NParent i; Ret (s2, option_map Open p)
      end
  end.

(** ** [DepthFirstTraverser], [ReverseDepthFirstTraverser] *)

(** The next event and the start node. *)
Definition hdfs_state := option (dft nat * nat).

(** [DepthFirstTraverser::with_start(Some(node))] (depth_first.rs:177-181);
    [node.depth_first_traverse()] (plain.rs) passes a clone. *)
Definition hdfs_start s i : run (sys T * hdfs_state) :=
  '(s1, j) ← h_clone s i; Ret (s1, Some (Open j, i)).
(** [ReverseDepthFirstTraverser::with_start] (depth_first.rs:265-269). *)
Definition hrdfs_start s i : run (sys T * hdfs_state) :=
  '(s1, j) ← h_clone s i; Ret (s1, Some (Close j, i)).

(** [DepthFirstTraverser::next] (depth_first.rs:218-225): the event goes to the
    caller; when the iteration ends [start] is dropped. *)
Definition hdfs_next s (st : hdfs_state) : run (sys T * option (dft nat) * hdfs_state) :=
  match st with
  | None => Ret (s, None, None)
  | Some (e, start) =>
      fin ← match e with Close i => hand_ptr_eq s i start | Open _ => Ret false end;
      if (fin : bool) then s1 ← h_drop s start; Ret (s1, Some e, None)
      else
        '(s1, r) ← hev_next s e;
        match r with
        | Some e' => Ret (s1, Some e, Some (e', start))
        | None => s2 ← h_drop s1 start; Ret (s2, Some e, None)
        end
  end.

(** [ReverseDepthFirstTraverser::next] (depth_first.rs:291-298). *)
Definition hrdfs_next s (st : hdfs_state) : run (sys T * option (dft nat) * hdfs_state) :=
  match st with
  | None => Ret (s, None, None)
  | Some (e, start) =>
      fin ← match e with Open i => hand_ptr_eq s i start | Close _ => Ret false end;
      if (fin : bool) then s1 ← h_drop s start; Ret (s1, Some e, None)
      else
        '(s1, r) ← hev_prev s e;
        match r with
        | Some e' => Ret (s1, Some e, Some (e', start))
        | None => s2 ← h_drop s1 start; Ret (s2, Some e, None)
        end
  end.

Definition hdfs_owns (st : hdfs_state) : list nat :=
  match st with None => [] | Some (e, start) => [ev_val e; start] end.

(** ** [AncestorsTraverser] (ancestors.rs:43-46), [SiblingsTraverser]
    (siblings.rs:43-46), [ReverseSiblingsTraverser] (siblings.rs:95-98): one node,
    moved along [v] = [NParent], [NNext], [NPrev]. *)
Definition hsib_next (v : nav) s (st : option nat) : run (sys T * option nat * option nat) :=
  match st with
  | None => Ret (s, None, None)
  | Some i => '(s1, r) ← h_nav s v i; Ret (s1, Some i, r)
  end.
Definition hsib_owns (st : option nat) : list nat := option_list st.

(** ** [StableShallowDepthFirstTraverser] *)
Definition hsh_state := option (dft (nat * nat) * dft (nat * nat)).

(** [with_toplevel(Some(node), max_depth)] (depth_first.rs:463-475). *)
Definition hsh_start s i : run (sys T * hsh_state) :=
  '(s1, j) ← h_clone s i; Ret (s1, Some (Open (j, 0), Close (i, 0))).

(** The guard (depth_first.rs:512-524, 552-564). *)
Definition hsh_same s (e eb : dft (nat * nat)) : run bool :=
  match e, eb with
  | Open (i, d), Open (j, d') | Close (i, d), Close (j, d') =>
      b ← hand_ptr_eq s i j;
      if (b : bool) then _ ← assertb (bool_decide (d = d')); Ret true else Ret false
  | _, _ => Ret false
  end.

(** [next_of_next_forward] (depth_first.rs:508-545). *)
Definition hsh_forward s (max : option nat) (e eb : dft (nat * nat)) : run (sys T * option (dft (nat * nat))) :=
  same ← hsh_same s e eb;
  if (same : bool) then Ret (s, None) else
  match e with
  | Open (i, d) =>
      if decide (max = Some d) then '(s1, j) ← h_clone s i; Ret (s1, Some (Close (j, d)))
      else
        '(s1, c) ← h_nav s NFirstChild i;
        match c with
        | Some j => Ret (s1, Some (Open (j, S d)))
        | None => '(s2, j) ← h_clone s1 i; Ret (s2, Some (Close (j, d)))
        end
  | Close (i, d) =>
      '(s1, c) ← h_nav s NNext i;
      match c with
      | Some j => Ret (s1, Some (Open (j, d)))
      | None =>
          '(s2, p) ← h_nav s1 NParent i;
          match p with
          | None => Ret (s2, None)
          | Some p => match d with 0 => Panic | S d' => Ret (s2, Some (Close (p, d'))) end
          end
      end
  end.

(** [next_of_next_backward] (depth_first.rs:549-586). *)
Definition hsh_backward s (max : option nat) (e eb : dft (nat * nat)) : run (sys T * option (dft (nat * nat))) :=
  same ← hsh_same s e eb;
  if (same : bool) then Ret (s, None) else
  match eb with
  | Close (i, d) =>
      if decide (max = Some d) then '(s1, j) ← h_clone s i; Ret (s1, Some (Open (j, d)))
      else
        '(s1, c) ← h_nav s NLastChild i;
        match c with
        | Some j => Ret (s1, Some (Close (j, S d)))
        | None => '(s2, j) ← h_clone s1 i; Ret (s2, Some (Open (j, d)))
        end
  | Open (i, d) =>
      '(s1, c) ← h_nav s NPrev i;
      match c with
      | Some j => Ret (s1, Some (Close (j, d)))
      | None =>
          '(s2, p) ← h_nav s1 NParent i;
          match p with
          | None => Ret (s2, None)
          | Some p => match d with 0 => Panic | S d' => Ret (s2, Some (Open (p, d'))) end
          end
      end
  end.

(** [next] (depth_first.rs:596-602) and [next_back] (depth_first.rs:677-683);
    when the iteration ends the event of the other end is dropped. *)
Definition hsh_next (max : option nat) s (st : hsh_state) : run (sys T * option (dft (nat * nat)) * hsh_state) :=
  match st with
  | None => Ret (s, None, None)
  | Some (e, eb) =>
      '(s1, r) ← hsh_forward s max e eb;
      match r with
      | Some e' => Ret (s1, Some e, Some (e', eb))
      | None => s2 ← h_drop s1 (ev_val eb).1; Ret (s2, Some e, None)
      end
  end.
Definition hsh_next_back (max : option nat) s (st : hsh_state) : run (sys T * option (dft (nat * nat)) * hsh_state) :=
  match st with
  | None => Ret (s, None, None)
  | Some (e, eb) =>
      '(s1, r) ← hsh_backward s max e eb;
      match r with
      | Some e' => Ret (s1, Some eb, Some (e, e'))
      | None => s2 ← h_drop s1 (ev_val e).1; Ret (s2, Some eb, None)
      end
  end.
Definition hsh_owns (st : hsh_state) : list nat :=
  match st with None => [] | Some (e, eb) => [(ev_val e).1; (ev_val eb).1] end.

End HIter.
