(** * Debug: the [Debug] printers (node/debug_print/debug.rs, tree/debug_print.rs,
    plain.rs:2915-2925, tree.rs:546-553).

    What a printer hands to the standard [Formatter] is a document: structs, tuples
    and lists with fields, raw texts, numbers, the data ([DData], printed by its own
    [Debug]).  How [Formatter] lays a document out ([{:?}], [{:#?}]) is not
    modelled.  No proofs here. *)
From Coq Require Export String.
From Verif Require Export Serial.

Inductive doc (T : Type) :=
| DStruct (name : string) (fields : list (string * doc T))   (* debug_struct *)
| DTuple (name : string) (d : doc T)                         (* debug_tuple, one field *)
| DList (l : list (doc T))                                   (* debug_list *)
| DRaw (s : string)                                          (* write_str *)
| DNum (z : Z)
| DData (d : T).
Arguments DStruct {T}. Arguments DTuple {T}. Arguments DList {T}. Arguments DRaw {T}. Arguments DNum {T}. Arguments DData {T}.

Section Debug.
Context {T : Type}.
Implicit Types (h : heap T) (s : sys T).
Local Open Scope string_scope.

(** The field "data" (debug.rs:42-45, 108-111, 195-198). *)
Definition doc_data h (x : nid) : run (doc T) :=
  d ← try_borrow h x; Ret (match d with Some d => DData d | None => DRaw "<borrowed>" end).

(** The derived [Debug] of [HierarchyLockManager] (lock.rs:48-55). *)
Definition doc_lock s (t : tid) : run (doc T) :=
  match s_trees s !! t with
  | Some tr => Ret (DStruct "HierarchyLockManager" [("num_grants", DStruct "Cell" [("value", DNum (t_cnt tr))])])
  | None => Panic
  end.

(** [DebugPrintTreeLocal] (tree/debug_print.rs:53-59). *)
Definition doc_tree_local s (t : tid) : run (doc T) := l ← doc_lock s t; Ret (DStruct "Tree" [("lock_manager", l)]).

(** [FakeOption] (debug_print.rs:12-49). *)
Definition doc_opt (b : bool) : doc T := DRaw (if b then "Some(_)" else "None").

(** [NodeType::name] (debug.rs:24-30). *)
Definition type_name (k : kind) : string :=
  match k with Plain => "Node" | Frozen => "FrozenNode" | Hot => "HotNode" end.

(** [DebugPrintNodeLocal] (debug.rs:39-65) of a handle of kind [k]: the [Debug] of
    [Node], [FrozenNode], [HotNode]. *)
Definition doc_local s (k : kind) (x : nid) : run (doc T) :=
  let h := s_nodes s in
  d ← doc_data h x;
  p ← has_prev_sibling h x;
  t ← tree_core s x;
  tr ← doc_tree_local s t;
  Ret (DStruct (type_name k) [("data", d); ("parent", doc_opt (negb (is_root h x))); ("prev_sibling", doc_opt p);
    ("next_sibling", doc_opt (has_next_sibling h x)); ("first_child", doc_opt (has_children h x)); ("tree", tr)]).

(** [DebugPrintSubtreeChildren] and [DebugPrintSubtreeDescendant] (debug.rs:167-208):
    the entries for the sibling [o] and those after it. *)
Fixpoint doc_entries (fuel : nat) h (o : option nid) : run (list (doc T)) :=
  match o with
  | None => Ret []
  | Some c =>
      match fuel with
      | 0 => NoFuel
      | S f =>
          d ← doc_data h c;
          l ← doc_entries f h (first_child_link h c);
          rest ← doc_entries f h (next_sibling_link h c);
          Ret (DStruct "Node" [("data", d); ("children", DList l)] :: rest)
      end
  end.
Definition doc_children h (x : nid) : run (doc T) := l ← doc_entries (dfs_fuel h) h (first_child_link h x); Ret (DList l).

(** The node type chosen by [new_plain], [new_frozen], [new_hot] of
    [DebugPrintSubtree] (debug.rs:126-155): [new_frozen] takes [NodeType::Plain]. *)
Definition subtree_type (k : kind) : kind := match k with Plain => Plain | Frozen => Plain | Hot => Hot end.

(** [DebugPrintSubtree] (debug.rs:104-123): [debug_print_subtree]. *)
Definition doc_subtree s (k : kind) (x : nid) : run (doc T) :=
  t ← tree_core s x;
  tr ← doc_tree_local s t;
  d ← doc_data (s_nodes s) x;
  c ← doc_children (s_nodes s) x;
  Ret (DStruct (type_name (subtree_type k)) [("tree", tr); ("data", d); ("children", c)]).

(** [DebugPrintTree] (tree/debug_print.rs:77-85): [Tree::debug_print]; [root_link]
    (tree.rs:49). *)
Definition doc_tree s (t : tid) : run (doc T) :=
  match s_trees s !! t with
  | None => Panic
  | Some tr =>
      l ← doc_lock s t;
      d ← doc_data (s_nodes s) (t_root tr);
      c ← doc_children (s_nodes s) (t_root tr);
      Ret (DStruct "Tree" [("lock_manager", l); ("nodes", DStruct "Node" [("data", d); ("children", c)])])
  end.

(** The [Debug] of a handle: [Node] (plain.rs:36), [FrozenNode] (frozen.rs:47),
    [HotNode] (hot.rs:47), [Tree] (tree.rs:150), [NodeWeak] (plain.rs:2915), [TreeWeak]
    (tree.rs:546).  The weak ones make a handle, print and drop it. *)
Definition debug_fmt s (i : nat) : run (sys T * doc T) :=
  match s_hands s !! i with
  | Some (HNode k x) => d ← doc_local s k x; Ret (s, d)
  | Some (HTree t) => d ← doc_tree_local s t; Ret (s, d)
  | Some (HNodeWeak x) =>
      '(s1, r) ← step s (OpUpgrade i);
      match r with
      | OutHandle j => d ← doc_local s1 Plain x; '(s2, _) ← step s1 (OpDrop j); Ret (s2, DTuple "NodeWeak" d)
      | _ => Ret (s1, DRaw "NodeWeak(<dropped>)")
      end
  | Some (HTreeWeak t) =>
      '(s1, r) ← step s (OpUpgrade i);
      match r with
      | OutHandle j => d ← doc_tree_local s1 t; '(s2, _) ← step s1 (OpDrop j); Ret (s2, d)
      | _ => Ret (s1, DRaw "TreeWeak(<dropped>)")
      end
  | _ => Panic
  end.
(** [debug_print_subtree] (plain.rs:2895, frozen.rs:1236, hot.rs:1220). *)
Definition debug_subtree s (i : nat) : run (doc T) :=
  match s_hands s !! i with Some (HNode k x) => doc_subtree s k x | _ => Panic end.
(** [Tree::debug_print] (tree.rs:523). *)
Definition debug_tree s (i : nat) : run (doc T) :=
  match s_hands s !! i with Some (HTree t) => doc_tree s t | _ => Panic end.
End Debug.
