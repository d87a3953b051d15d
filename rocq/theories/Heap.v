(** * Heap: node records, getters and setters (src/node/internal.rs).

    No proofs here. *)
From Verif Require Export Base.

(** [MembershipCore] (membership.rs:18-45).  [MWeak None] is
    [MembershipCore::dangling()] (membership.rs:77).  [MStrong t rc lk]:
    [tree_core = t], [tree_refcount = rc] (a [NonZeroUsize]),
    [lock_aggregator.aggregated_count = lk] (lock.rs:383-389). *)
Inductive membership :=
| MWeak (t : option tid)
| MStrong (t : tid) (rc : nat) (lk : nat).

(** The borrow flag of a [RefCell]: the number of [Ref]s the user keeps, or that they
    keep the [RefMut].  (Simplification: no overflow of the count.) *)
Inductive lending :=
| Lent (n : nat)
| LentMut.

(** [NodeCore] and [Neighbors] (internal.rs:14-47).
    - [n_lend]: the borrow flag of [data: RefCell<T>].
    - [n_parent], [n_prev]: weak references; [None] is [Weak::new()];
      [Some x] with [x] absent from the heap is a dangling weak reference.
    - [n_first], [n_next]: strong references.
    Strong references from outside the heap (node handles, tree cores, local
    variables) are recorded in [System.v]. *)
Record node (T : Type) := mkNode {
  n_data : T;
  n_lend : lending;
  n_parent : option nid;
  n_first : option nid;
  n_next : option nid;
  n_prev : option nid;
  n_nch : nat;
  n_mem : membership;
}.
Arguments mkNode {T}.
Arguments n_data {T}. Arguments n_lend {T}. Arguments n_parent {T}.
Arguments n_first {T}. Arguments n_next {T}. Arguments n_prev {T}.
Arguments n_nch {T}. Arguments n_mem {T}.

(** Is the data mutably borrowed?  Then [RefCell::try_borrow] fails. *)
Definition n_mut {T} (nd : node T) : bool := match n_lend nd with LentMut => true | Lent _ => false end.
(** Is the data not borrowed at all?  If it is, [RefCell::try_borrow_mut] fails. *)
Definition n_free {T} (nd : node T) : bool := match n_lend nd with Lent 0 => true | _ => false end.

(** The heap: all currently allocated [NodeCore]s. *)
Notation heap T := (gmap nid (node T)).

Section Heap.
Context {T : Type}.
Implicit Types (h : heap T) (n x p c : nid).

(** An allocation is alive iff it is in the map ([Weak::upgrade] succeeds,
    internal.rs:571; [strong_count() != 0], internal.rs:578). *)
Definition alive h x : bool := bool_decide (is_Some (h !! x)).

(** Raw field reads ([self.neighbors().f], internal.rs:111).  A read through an
    [Rc] always finds its target; the default used for an absent identity is
    never relied upon. *)
Definition fparent h x : option nid := h !! x ≫= n_parent.
Definition ffirst h x : option nid := h !! x ≫= n_first.
Definition fnext h x : option nid := h !! x ≫= n_next.
Definition fprev h x : option nid := h !! x ≫= n_prev.
Definition fnch h x : nat := default 0 (n_nch <$> h !! x).

(** Upgrading a weak reference (internal.rs:571). *)
Definition upgrade h (w : option nid) : option nid :=
  match w with
  | Some x => if alive h x then Some x else None
  | None => None
  end.

(** [parent_link] (internal.rs:130). *)
Definition parent_link h x : option nid := upgrade h (fparent h x).

(** [is_root] (internal.rs:136): the parent reference is unavailable. *)
Definition is_root h x : bool :=
  match upgrade h (fparent h x) with Some _ => false | None => true end.

(** [prev_sibling_cyclic_link] (internal.rs:143): panics if dangling. *)
Definition prev_sibling_cyclic_link h x : run nid :=
  match upgrade h (fprev h x) with Some y => Ret y | None => Panic end.

(** [next_sibling_link] (internal.rs:183). *)
Definition next_sibling_link h x : option nid := fnext h x.

(** [prev_sibling_link] (internal.rs:158). *)
Definition prev_sibling_link h x : run (option nid) :=
  c ← prev_sibling_cyclic_link h x;
  Ret (match fnext h c with Some _ => Some c | None => None end).

(** [has_prev_sibling] (internal.rs:174). *)
Definition has_prev_sibling h x : run bool :=
  c ← prev_sibling_cyclic_link h x;
  Ret (match fnext h c with Some _ => true | None => false end).

(** [has_next_sibling] (internal.rs:190). *)
Definition has_next_sibling h x : bool :=
  match fnext h x with Some _ => true | None => false end.

(** [first_child_link] (internal.rs:197). *)
Definition first_child_link h x : option nid := ffirst h x.

(** [last_child_link] (internal.rs:203). *)
Definition last_child_link h x : run (option nid) :=
  match first_child_link h x with
  | None => Ret None
  | Some f => l ← prev_sibling_cyclic_link h f; Ret (Some l)
  end.

(** [last_child_link_weak] (internal.rs:210); the inner [option] is the weak
    reference itself. *)
Definition last_child_link_weak h x : option (option nid) :=
  match first_child_link h x with
  | None => None
  | Some f => Some (fprev h f)
  end.

(** [first_last_child_link] (internal.rs:217). *)
Definition first_last_child_link h x : run (option (nid * nid)) :=
  match first_child_link h x with
  | None => Ret None
  | Some f => l ← prev_sibling_cyclic_link h f; Ret (Some (f, l))
  end.

(** [has_children] (internal.rs:225). *)
Definition has_children h x : bool := negb (Nat.eqb (fnch h x) 0).

(** [is_last_sibling] (internal.rs:245). *)
Definition is_last_sibling h x : bool :=
  match fnext h x with Some _ => false | None => true end.

(** [is_first_sibling] (internal.rs:239). *)
Definition is_first_sibling h x : run bool :=
  c ← prev_sibling_cyclic_link h x; Ret (is_last_sibling h c).

(** [first_sibling] (plain.rs:659): first child of the parent, [self] for a root. *)
Definition first_sibling h x : run nid :=
  match parent_link h x with
  | Some p => match first_child_link h p with Some f => Ret f | None => Panic end
  | None => Ret x
  end.

(** [last_sibling] (plain.rs:696). *)
Definition last_sibling h x : run nid :=
  match parent_link h x with
  | Some p => l ← last_child_link h p; match l with Some l => Ret l | None => Panic end
  | None => Ret x
  end.

(** [first_last_sibling] (plain.rs:735). *)
Definition first_last_sibling h x : run (nid * nid) :=
  match parent_link h x with
  | Some p => fl ← first_last_child_link h p; match fl with Some fl => Ret fl | None => Panic end
  | None => Ret (x, x)
  end.

(** [has_one_child] (plain.rs:987), [has_multiple_children] (plain.rs:1021). *)
Definition has_one_child h x : bool := Nat.eqb (fnch h x) 1.
Definition has_multiple_children h x : bool := Nat.ltb 1 (fnch h x).

(** ** Setters (internal.rs:283-356).  They write through an [Rc], whose target
    is always alive. *)

(** [replace_parent] (internal.rs:287). *)
Definition set_parent h x (w : option nid) : heap T :=
  alter (fun nd => mkNode (n_data nd) (n_lend nd) w (n_first nd) (n_next nd)
                          (n_prev nd) (n_nch nd) (n_mem nd)) x h.

(** [replace_prev_sibling_cyclic] (internal.rs:295). *)
Definition set_prev h x (w : option nid) : heap T :=
  alter (fun nd => mkNode (n_data nd) (n_lend nd) (n_parent nd) (n_first nd)
                          (n_next nd) w (n_nch nd) (n_mem nd)) x h.

(** [replace_next_sibling] (internal.rs:308). *)
Definition set_next h x (s : option nid) : heap T :=
  alter (fun nd => mkNode (n_data nd) (n_lend nd) (n_parent nd) (n_first nd)
                          s (n_prev nd) (n_nch nd) (n_mem nd)) x h.

(** [replace_first_child] (internal.rs:321). *)
Definition set_first h x (s : option nid) : heap T :=
  alter (fun nd => mkNode (n_data nd) (n_lend nd) (n_parent nd) s
                          (n_next nd) (n_prev nd) (n_nch nd) (n_mem nd)) x h.

(** [num_children_cell().set] (internal.rs:339). *)
Definition set_nch h x (k : nat) : heap T :=
  alter (fun nd => mkNode (n_data nd) (n_lend nd) (n_parent nd) (n_first nd)
                          (n_next nd) (n_prev nd) k (n_mem nd)) x h.

(** Writing the membership cell (membership.rs:86). *)
Definition set_mem h x (m : membership) : heap T :=
  alter (fun nd => mkNode (n_data nd) (n_lend nd) (n_parent nd) (n_first nd)
                          (n_next nd) (n_prev nd) (n_nch nd) m) x h.

(** Data writes and borrow flag (internal.rs:361-392). *)
Definition set_data h x (d : T) : heap T :=
  alter (fun nd => mkNode d (n_lend nd) (n_parent nd) (n_first nd)
                          (n_next nd) (n_prev nd) (n_nch nd) (n_mem nd)) x h.
Definition set_lend h x (b : lending) : heap T :=
  alter (fun nd => mkNode (n_data nd) b (n_parent nd) (n_first nd)
                          (n_next nd) (n_prev nd) (n_nch nd) (n_mem nd)) x h.

(** [connect_adjacent_siblings] (internal.rs:332). *)
Definition connect_adjacent_siblings h (prev next : nid) : heap T :=
  set_next (set_prev h next (Some prev)) prev (Some next).

(** [num_children_add] (internal.rs:345).  Simplification: no overflow. *)
Definition num_children_add h x (v : nat) : heap T := set_nch h x (fnch h x + v).

(** [num_children_sub] (internal.rs:352): underflow panics (debug build). *)
Definition num_children_sub h x (v : nat) : run (heap T) :=
  if Nat.leb v (fnch h x) then Ret (set_nch h x (fnch h x - v)) else Panic.

(** A freshly allocated [NodeCore] with no neighbours, as built by
    [new_tree_root] and [new_orphan] (internal.rs:609-626, 639-656):
    [prev_sibling_cyclic] refers to the node itself. *)
Definition new_node (n : nid) (d : T) (m : membership) : node T :=
  mkNode d (Lent 0) None None None (Some n) 0 m.

Definition alloc h n (d : T) (m : membership) : heap T :=
  <[n := new_node n d m]> h.

End Heap.
