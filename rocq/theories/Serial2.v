(** * Serial2: building from depth-first traversal events (serial.rs) and the
    [tree_node!]/[tree!] macros (macros.rs).  No proofs here. *)
From Verif Require Export Serial.

Section Serial2.
Context {T : Type}.
Implicit Types (h : heap T) (s : sys T).

(** [TryFrom<DftEvent<Node<T>>> for Event<T>] (serial.rs:33-42, for the other
    node types 44-64); [None] is [Err(BorrowError)]. *)
Definition dft_event h (e : dft nid) : run (option (event T)) :=
  match e with
  | Open x => d ← try_borrow h x; Ret (option_map EOpen d)
  | Close _ => Ret (Some (EClose 1))
  end.

(** [push_dft_events_impl] (serial.rs:737-750) on the traverser
    [depth_first_traverse()] of a node held by the caller: events are read lazily,
    while the builder works.  The handles inside the traverser only keep nodes
    alive that the caller keeps alive anyway. *)
Fixpoint push_dfts (fuel : nat) s (b : builder) (st : dfs_state) : run (sys T * builder * option berr) :=
  match fuel with
  | 0 => NoFuel
  | S f =>
      '(e, st1) ← dfs_next (s_nodes s) st;
      match e with
      | None => Ret (s, b, None)
      | Some e =>
          ev ← dft_event (s_nodes s) e;
          match ev with
          | None => Ret (s, b, Some BorrowData)
          | Some ev =>
              '(s1, b1, r) ← b_push s b ev;
              match r with
              | None => push_dfts f s1 b1 st1
              | Some err => Ret (s1, b1, Some err)
              end
          end
      end
  end.

(** [FromIterator<DftEvent<Node<T>>> for Result<Node<T>, TreeBuildError>]
    (serial.rs:77-86). *)
Definition collect_dfts s (x : nid) : run (sys T * (nat + berr)) :=
  r ← push_dfts (dfs_fuel (s_nodes s)) s b_new (dfs_start (Some x)); b_end r.

(** ** The macros *)

(** The descendants as written in the macro (macros.rs:85-113): [data], or
    [/(data, [descendants])]. *)
Inductive item := ILeaf (d : T) | INode (d : T) (l : list item).

(** One descendant below the [HotNode] [parent] ([@@process_descendant]): a leaf is
    created and its handle dropped at the end of the statement (macros.rs:107, 111);
    otherwise the handle [node] lives until the end of the block (macros.rs:89-92,
    99-102).  The rules for the last and for the other descendants do the same. *)
Fixpoint macro_item s (parent : nat) (it : item) : run (sys T) :=
  match it with
  | ILeaf d =>
      '(s1, c) ← call_hand s (OpCreate (ByHot parent) d ALastChild);
      drop_opt s1 (Some c)
  | INode d l =>
      '(s1, c) ← call_hand s (OpCreate (ByHot parent) d ALastChild);
      s2 ← (fix go s l := match l with
                          | [] => Ret s
                          | it :: l' => s' ← macro_item s c it; go s' l'
                          end) s1 l;
      drop_opt s2 (Some c)
  end.
Fixpoint macro_items s (parent : nat) (l : list item) : run (sys T) :=
  match l with
  | [] => Ret s
  | it :: l' => s' ← macro_item s parent it; macro_items s' parent l'
  end.

(** [tree_node!] (macros.rs:71-82): [data], or [data, [descendants]];
    [HotNode::new_tree] (hot.rs:784), [plain] (hot.rs:159), then [root] is
    dropped. *)
Definition tree_node_macro s (d : T) (l : option (list item)) : run (sys T * nat) :=
  match l with
  | None => call_hand s (OpNewTree d)
  | Some l =>
      '(s1, i) ← call_hand s (OpNewTree d);
      '(s2, c) ← call_hand s1 (OpBundle Hot i);
      s3 ← macro_items s2 c l;
      '(s4, p) ← call_hand s3 (OpPlain c);
      s5 ← drop_opt s4 (Some c);
      Ret (s5, p)
  end.

(** [tree!] (macros.rs:133-137): the temporary [Node] is dropped. *)
Definition tree_macro s (d : T) (l : option (list item)) : run (sys T * nat) :=
  '(s1, p) ← tree_node_macro s d l;
  '(s2, t) ← call_hand s1 (OpTree p);
  s3 ← drop_opt s2 (Some p);
  Ret (s3, t).
End Serial2.
Arguments item : clear implicits.
