(** * Serial: comparison of subtrees (internal.rs:406-445), serialization and
    the tree builder (serial.rs), cloning (plain.rs:2360-2390, edit.rs:754-790).

    The builder and the cloning functions own ordinary handles and only use calls
    of the public API, so they are written as sequences of [step].
    Simplifications: [T: Clone] and [T: PartialEq] are pure functions, cloning a
    datum gives the same datum; counters do not overflow.  No proofs here. *)
From Verif Require Export System.

(** [try_borrow_data] (internal.rs:361): [None] is [Err(BorrowError)]. *)
Definition try_borrow {T} (h : heap T) (x : nid) : run (option T) :=
  match h !! x with
  | None => Panic
  | Some nd => Ret (if n_mut nd then None else Some (n_data nd))
  end.

Section Equal.
Context {T U : Type} (eqb : T -> U -> bool).

(** The loop of [try_eq] (internal.rs:427-442) on two link traversers; the inner
    [None] is [Err(BorrowError)].  [!=] on data is [negb eqb]. *)
Fixpoint eq_loop (fuel : nat) (h1 : heap T) (h2 : heap U) (st1 st2 : dfs_state) : run (option bool) :=
  match fuel with
  | 0 => NoFuel
  | S f =>
      '(l, st1') ← link_dfs_next h1 st1;
      '(r, st2') ← link_dfs_next h2 st2;
      match l, r with
      | None, None => Ret (Some true)
      | Some (Open a), Some (Open b) =>
          da ← try_borrow h1 a;
          match da with
          | None => Ret None
          | Some da =>
              db ← try_borrow h2 b;
              match db with
              | None => Ret None
              | Some db => if eqb da db then eq_loop f h1 h2 st1' st2' else Ret (Some false)
              end
          end
      | Some (Close _), Some (Close _) => eq_loop f h1 h2 st1' st2'
      | _, _ => Ret (Some false)
      end
  end.

(** [try_eq] between nodes of different allocations (internal.rs:425-444): nodes
    of [Node<T>] and [Node<U>] live in different heaps. *)
Definition try_eq_apart (h1 : heap T) (h2 : heap U) (x y : nid) : run (option bool) :=
  eq_loop (dfs_fuel h1) h1 h2 (dfs_start (Some x)) (dfs_start (Some y)).
End Equal.

Section Equal1.
Context {T : Type} (eqb : T -> T -> bool).

(** [try_eq] (internal.rs:406-445) for two nodes of the same type, with the
    pointer comparison. *)
Definition try_eq (h : heap T) (x y : nid) : run (option bool) :=
  if decide (x = y) then Ret (Some true) else try_eq_apart eqb h h x y.

(** [Node::try_eq] (plain.rs:2704), the other node types being compared through
    their links (plain.rs:135, frozen.rs:75, hot.rs:75). *)
Definition node_try_eq (s : sys T) (i j : nat) : run (option bool) :=
  match s_hands s !! i, s_hands s !! j with
  | Some (HNode _ x), Some (HNode _ y) => try_eq (s_nodes s) x y
  | _, _ => Panic
  end.

(** [Tree::try_eq] (tree.rs:360): the temporary handles on the roots only change
    reference counts and are dropped at the end. *)
Definition tree_try_eq (s : sys T) (i j : nat) : run (option bool) :=
  match s_hands s !! i, s_hands s !! j with
  | Some (HTree t), Some (HTree u) =>
      match s_trees s !! t, s_trees s !! u with
      | Some tr, Some ur => try_eq (s_nodes s) (t_root tr) (t_root ur)
      | _, _ => Panic
      end
  | _, _ => Panic
  end.

(** [PartialEq::eq] (plain.rs:62, tree.rs:177): an [Err] panics. *)
Definition eq_expect (r : run (option bool)) : run bool :=
  b ← r; match b with Some b => Ret b | None => Panic end.
End Equal1.

(** ** Events *)

(** [serial::Event] (serial.rs:12). *)
Inductive event (A : Type) := EOpen (d : A) | EClose (n : nat).
Arguments EOpen {A} d.
Arguments EClose {A} n.

(** [TreeBuildError] (serial.rs:127). *)
Inductive berr := RootNotOpened | RootClosed | BorrowData.

Section Serial.
Context {T : Type}.
Implicit Types (h : heap T) (s : sys T).

(** The [while let] loop of [TreeSerializeIter::next] (serial.rs:782-790):
    [peek] (depth_first.rs:195) looks at the stored next event. *)
Fixpoint close_run (fuel : nat) h (st : dfs_state) (count : nat) : run (nat * dfs_state) :=
  match st with
  | Some (Close _, _) =>
      match fuel with
      | 0 => NoFuel
      | S f => '(_, st') ← dfs_next h st; close_run f h st' (S count)
      end
  | _ => Ret (count, st)
  end.

(** [TreeSerializeIter::next] (serial.rs:775-794); an item [None] is
    [Err(BorrowError)]. *)
Definition ser_next h (st : dfs_state) : run (option (option (event T)) * dfs_state) :=
  '(e, st1) ← dfs_next h st;
  match e with
  | None => Ret (None, st1)
  | Some (Open x) => d ← try_borrow h x; Ret (Some (option_map EOpen d), st1)
  | Some (Close _) =>
      '(n, st2) ← close_run (walk_fuel h) h st1 1;
      Ret (Some (Some (EClose n)), st2)
  end.

(** ** TreeBuilder *)

(** [TreeBuilder] (serial.rs:262-267): the names of the handles it owns. *)
Record builder := mkBuilder { b_root : option nat; b_cur : option nat }.

(** [TreeBuilder::new] (serial.rs:291). *)
Definition b_new : builder := mkBuilder None None.

(** [is_root_closed] (serial.rs:347), [is_root_available] (serial.rs:385). *)
Definition b_is_root_closed (b : builder) : bool :=
  match b_root b, b_cur b with Some _, None => true | _, _ => false end.
Definition b_is_root_available (b : builder) : bool :=
  match b_root b with Some _ => true | None => false end.

(** Dropping an owned handle. *)
Definition drop_opt s (i : option nat) : run (sys T) :=
  match i with
  | None => Ret s
  | Some i => '(s1, _) ← step s (OpDrop i); Ret s1
  end.

(** A call that gives a handle, or [.expect(..)]/[unwrap]s it. *)
Definition call_hand s (o : op T) : run (sys T * nat) :=
  '(s1, r) ← step s o; match r with OutHandle i => Ret (s1, i) | _ => Panic end.

(** [TreeBuilder::with_root] (serial.rs:318-323). *)
Definition b_with_root s (i : nat) : run (sys T * builder) :=
  '(s1, p) ← call_hand s (OpPlain i);
  Ret (s1, mkBuilder (Some p) (Some i)).

(** [TreeBuilder::open] (serial.rs:523-536), [HotNode::new_tree] (hot.rs:784),
    [create_as_last_child] (hot.rs:839); [None] is [Ok(())]. *)
Definition b_open s (b : builder) (d : T) : run (sys T * builder * option berr) :=
  match b_root b with
  | None =>
      '(s1, i) ← call_hand s (OpNewTree d);
      '(s2, j) ← call_hand s1 (OpBundle Hot i);
      '(s3, p) ← call_hand s2 (OpPlain j);
      s4 ← drop_opt s3 (b_cur b);
      Ret (s4, mkBuilder (Some p) (Some j), None)
  | Some _ =>
      match b_cur b with
      | None => Ret (s, b, Some RootClosed)
      | Some c =>
          '(s1, i) ← call_hand s (OpCreate (ByHot c) d ALastChild);
          s2 ← drop_opt s1 (Some c);
          Ret (s2, mkBuilder (b_root b) (Some i), None)
      end
  end.

(** [ptr_eq_plain] (hot.rs:319). *)
Definition hand_ptr_eq s (i j : nat) : run bool :=
  match s_hands s !! i, s_hands s !! j with
  | Some (HNode _ x), Some (HNode _ y) => Ret (bool_decide (x = y))
  | _, _ => Panic
  end.

(** The [for] loop of [close] (serial.rs:569-579): the new value of [*current],
    and whether the loop ended without an error. *)
Fixpoint close_up (k : nat) s (root : option nat) (c : nat) : run (sys T * nat * bool) :=
  match k with
  | 0 => Ret (s, c, true)
  | S k' =>
      match root with
      | None => Panic
      | Some r =>
          eq ← hand_ptr_eq s c r;
          if (eq : bool) then Ret (s, c, false)
          else
            '(s1, o) ← step s (OpNav NParent c);
            match o with
            | OutHandle i => s2 ← drop_opt s1 (Some c); close_up k' s2 root i
            | OutNone => Ret (s1, c, false)
            | _ => Panic
            end
      end
  end.

(** [TreeBuilder::close] (serial.rs:562-588). *)
Definition b_close s (b : builder) (level : nat) : run (sys T * builder * option berr) :=
  match level with
  | 0 => Ret (s, b, None)
  | S k =>
      match b_cur b with
      | Some c =>
          '(s1, c1, ok) ← close_up k s (b_root b) c;
          if (ok : bool) then
            '(s2, o) ← step s1 (OpNav NParent c1);
            s3 ← drop_opt s2 (Some c1);
            match o with
            | OutHandle i => Ret (s3, mkBuilder (b_root b) (Some i), None)
            | OutNone => Ret (s3, mkBuilder (b_root b) None, None)
            | _ => Panic
            end
          else Ret (s1, mkBuilder (b_root b) (Some c1), Some RootClosed)
      | None => Ret (s, b, Some (if b_is_root_available b then RootClosed else RootNotOpened))
      end
  end.

(** [push_event] (serial.rs:610). *)
Definition b_push s (b : builder) (e : event T) : run (sys T * builder * option berr) :=
  match e with EOpen d => b_open s b d | EClose n => b_close s b n end.

(** [push_events_impl] (serial.rs:650-661): stops at the first error. *)
Fixpoint b_push_all s (b : builder) (es : list (event T)) : run (sys T * builder * option berr) :=
  match es with
  | [] => Ret (s, b, None)
  | e :: es' =>
      '(s1, b1, r) ← b_push s b e;
      match r with
      | None => b_push_all s1 b1 es'
      | Some err => Ret (s1, b1, Some err)
      end
  end.

(** Dropping the builder: its fields in order. *)
Definition b_drop s (b : builder) : run (sys T) :=
  s1 ← drop_opt s (b_root b); drop_opt s1 (b_cur b).

(** [finish] (serial.rs:445): the root is moved out, [current] is dropped. *)
Definition b_finish s (b : builder) : run (sys T * (nat + berr)) :=
  s1 ← drop_opt s (b_cur b);
  Ret (s1, match b_root b with Some i => inl i | None => inr RootNotOpened end).

(** Ending a run of pushes: [?] drops the builder, otherwise [finish]. *)
Definition b_end (r : sys T * builder * option berr) : run (sys T * (nat + berr)) :=
  match r with
  | (s, b, None) => b_finish s b
  | (s, b, Some e) => s1 ← b_drop s b; Ret (s1, inr e)
  end.

(** [FromIterator<Event<T>> for Result<Node<T>, TreeBuildError>] (serial.rs:66-75). *)
Definition build s (es : list (event T)) : run (sys T * (nat + berr)) :=
  r ← b_push_all s b_new es; b_end r.

(** [FromIterator<Event<T>>] for [HotNode], [FrozenNode] (serial.rs:88-112) and
    [Tree] (serial.rs:114-123; the node handle is dropped). *)
Definition build_locked s (k : kind) (es : list (event T)) : run (sys T * (nat + berr)) :=
  '(s1, r) ← build s es;
  match r with
  | inl i => '(s2, j) ← call_hand s1 (OpBundle k i); Ret (s2, inl j)
  | inr e => Ret (s1, inr e)
  end.
Definition build_tree s (es : list (event T)) : run (sys T * (nat + berr)) :=
  '(s1, r) ← build s es;
  match r with
  | inl i => '(s2, j) ← call_hand s1 (OpTree i); s3 ← drop_opt s2 (Some i); Ret (s3, inl j)
  | inr e => Ret (s1, inr e)
  end.

(** ** Cloning *)

(** [try_fold] of the events of a subtree into a builder (plain.rs:2376-2380,
    edit.rs:771-778): events are read lazily, while the builder works. *)
Fixpoint fold_events (fuel : nat) s (b : builder) (st : dfs_state) : run (sys T * builder * option berr) :=
  match fuel with
  | 0 => NoFuel
  | S f =>
      '(ev, st1) ← ser_next (s_nodes s) st;
      match ev with
      | None => Ret (s, b, None)
      | Some None => Ret (s, b, Some BorrowData)
      | Some (Some e) =>
          '(s1, b1, r) ← b_push s b e;
          match r with
          | None => fold_events f s1 b1 st1
          | Some err => Ret (s1, b1, Some err)
          end
      end
  end.

(** [try_clone_subtree] (plain.rs:2360-2390) on the node [x], held by the caller;
    the second component [None] is [Err(BorrowError)]. *)
Definition clone_subtree s (x : nid) : run (sys T * option nat) :=
  r ← fold_events (dfs_fuel (s_nodes s)) s b_new (dfs_start (Some x));
  '(s1, res) ← b_end r;
  match res with
  | inl i => Ret (s1, Some i)
  | inr BorrowData => Ret (s1, None)
  | inr _ => Panic
  end.

(** [try_clone_tree] (tree.rs:404) on the root [x] of a tree: the node handle is
    dropped after [tree()]. *)
Definition clone_tree s (x : nid) : run (sys T * option nat) :=
  '(s1, r) ← clone_subtree s x;
  match r with
  | Some i => '(s2, j) ← call_hand s1 (OpTree i); s3 ← drop_opt s2 (Some i); Ret (s3, Some j)
  | None => Ret (s1, None)
  end.

(** [try_clone_insert_subtree] (edit.rs:754-790): [x] is the source, held by the
    caller, [j] the [HotNode] named by the destination. *)
Definition clone_insert_subtree (fuel : nat) s (x : nid) (ad : adopt_as) (j : nat) : run (sys T * hres nat) :=
  d ← try_borrow (s_nodes s) x;
  match d with
  | None => Ret (s, HErr BorrowNodeData)
  | Some d =>
      '(s1, r) ← step s (OpCreate (ByHot j) d ad);
      match r with
      | OutErr e => Ret (s1, HErr e)
      | OutHandle m =>
          '(_, st) ← ser_next (s_nodes s1) (dfs_start (Some x));
          '(s2, b) ← b_with_root s1 m;
          r ← fold_events fuel s2 b st;
          '(s3, res) ← b_end r;
          match res with
          | inl i => '(s4, k) ← call_hand s3 (OpBundle Hot i); Ret (s4, HOk k)
          | inr BorrowData => Ret (s3, HErr BorrowNodeData)
          | inr _ => Panic
          end
      | _ => Panic
      end
  end.
End Serial.
Arguments build {T} s es.
