(** * Edit: the link surgery of src/node/edit.rs.

    Every function works on the heap of neighbour links only.  Tree cores,
    memberships and locks are handled in [System.v], which calls these functions.
    No proofs here. *)
From Verif Require Export Heap.

Section Edit.
Context {T : Type}.
Implicit Types (h : heap T) (n x p c : nid).

(** [OrphanRoot::new_by_unlink] (edit.rs:56-110).  The boolean of the result is
    [is_newly_created]. *)
Definition new_by_unlink h (n : nid) : run (heap T * bool) :=
  if is_root h n then Ret (h, false)
  else
    let parent := parent_link h n in
    prev_sibling ← prev_sibling_link h n;
    prev_sibling_cyclic ← prev_sibling_cyclic_link h n;
    let next_sibling := next_sibling_link h n in
    (* edit.rs:83-92 *)
    h1 ← match parent with
         | Some p =>
             is_first ← is_first_sibling h n;
             let ha := if (is_first : bool) then set_first h p next_sibling else h in
             _ ← assertb (Nat.ltb 0 (fnch ha p));
             num_children_sub ha p 1
         | None => Ret h
         end;
    (* edit.rs:93-95 *)
    let h2 := match prev_sibling with
              | Some q => set_next h1 q next_sibling
              | None => h1
              end in
    (* edit.rs:96-98 *)
    let h3 := match next_sibling with
              | Some s => set_prev h2 s (Some prev_sibling_cyclic)
              | None => h2
              end in
    (* edit.rs:101-104 *)
    let h4 := set_parent h3 n None in
    let h5 := set_prev h4 n (Some n) in
    let h6 := set_next h5 n None in
    Ret (h6, true).

(** [OrphanRoot::is_ancestor_of] (edit.rs:128-138): is [self_] equal to [node]
    or one of its ancestors? *)
Fixpoint is_ancestor_of (fuel : nat) h (self_ : nid) (node : option nid) : run bool :=
  match node with
  | None => Ret false
  | Some a =>
      if decide (self_ = a) then Ret true
      else match fuel with
           | 0 => NoFuel
           | S f => is_ancestor_of f h self_ (parent_link h a)
           end
  end.

(** Fuel for walks bounded by the number of nodes. *)
Definition walk_fuel h : nat := S (size h).

(** The guard at the start of both insert functions (edit.rs:176-178, 214-216). *)
Definition loop_check h (n : nid) (is_new : bool) (parent : nid) : run bool :=
  if is_new then Ret false else is_ancestor_of (walk_fuel h) h n (Some parent).

(** [OrphanRoot::insert_as_first_child_of] (edit.rs:175-210). *)
Definition insert_as_first_child_of h (n : nid) (is_new : bool) (parent : nid)
  : run (heap T * hres unit) :=
  looped ← loop_check h n is_new parent;
  if (looped : bool) then Ret (h, HErr AncestorDescendantLoop) else
  fl ← first_last_child_link h parent;
  let h1 := match fl with
            | Some (old_first, last) =>
                connect_adjacent_siblings (set_prev h n (Some last)) n old_first
            | None => set_prev h n (Some n)
            end in
  let h2 := set_parent h1 n (Some parent) in
  let h3 := set_first h2 parent (Some n) in
  Ret (num_children_add h3 parent 1, HOk tt).

(** [OrphanRoot::insert_as_last_child_of] (edit.rs:213-243). *)
Definition insert_as_last_child_of h (n : nid) (is_new : bool) (parent : nid)
  : run (heap T * hres unit) :=
  looped ← loop_check h n is_new parent;
  if (looped : bool) then Ret (h, HErr AncestorDescendantLoop) else
  fl ← first_last_child_link h parent;
  let h1 := match fl with
            | Some (first, old_last) =>
                connect_adjacent_siblings (set_prev h first (Some n)) old_last n
            | None => set_first (set_prev h n (Some n)) parent (Some n)
            end in
  let h2 := set_parent h1 n (Some parent) in
  Ret (num_children_add h2 parent 1, HOk tt).

(** [x] has parent link [p]; [map_or(false, ptr_eq)]. *)
Definition opt_is (o : option nid) (x : nid) : bool :=
  match o with Some y => bool_decide (y = x) | None => false end.

(** [OrphanRoot::insert_between] (edit.rs:263-320), with its four
    [debug_assert!]s. *)
Definition insert_between h (n parent prev_s next_s : nid) : run (heap T) :=
  _ ← assertb (opt_is (parent_link h prev_s) parent);
  _ ← assertb (opt_is (parent_link h next_s) parent);
  _ ← assertb (opt_is (next_sibling_link h prev_s) next_s);
  q ← prev_sibling_link h next_s;
  _ ← assertb (opt_is q prev_s);
  let h1 := set_parent h n (Some parent) in
  let next_owned := fnext h1 prev_s in
  let h2 := set_next h1 prev_s (Some n) in
  let h3 := set_next h2 n next_owned in
  let prev_weak := fprev h3 next_s in
  let h4 := set_prev h3 next_s (Some n) in
  let h5 := set_prev h4 n prev_weak in
  Ret (num_children_add h5 parent 1).

(** [OrphanRoot::insert] (edit.rs:141-172). *)
Definition insert_orphan h (n : nid) (is_new : bool) (dest : insert_as)
  : run (heap T * hres unit) :=
  match dest with
  | FirstChildOf p => insert_as_first_child_of h n is_new p
  | LastChildOf p => insert_as_last_child_of h n is_new p
  | PreviousSiblingOf anchor =>
      match parent_link h anchor with
      | None => Ret (h, HErr SiblingsWithoutParent)
      | Some parent =>
          q ← prev_sibling_link h anchor;
          match q with
          | Some prev_s =>
              h' ← insert_between h n parent prev_s anchor;
              Ret (h', HOk tt)
          | None => insert_as_first_child_of h n is_new parent
          end
      end
  | NextSiblingOf anchor =>
      match parent_link h anchor with
      | None => Ret (h, HErr SiblingsWithoutParent)
      | Some parent =>
          match next_sibling_link h anchor with
          | Some next_s =>
              h' ← insert_between h n parent anchor next_s;
              Ret (h', HOk tt)
          | None => insert_as_last_child_of h n is_new parent
          end
      end
  end.

(** [detach_and_move_inside_same_tree] (edit.rs:339-351). *)
Definition move_inside_same_tree h (n : nid) (dest : insert_as)
  : run (heap T * hres unit) :=
  if is_root h n then Ret (h, HOk tt)
  else
    '(h1, is_new) ← new_by_unlink h n;
    insert_orphan h1 n is_new dest.

(** The closure of [create_as_interrupting_parent] (edit.rs:525-550), for the
    already allocated orphan [n]; the boolean tells whether [this] was the root,
    in which case the caller also executes [tree_core.replace_root(n)]
    (edit.rs:542). *)
Definition interrupt_parent h (this n : nid) : run (heap T * bool) :=
  match parent_link h this with
  | Some parent =>
      h1 ← match next_sibling_link h this with
           | Some next_s => insert_between h n parent this next_s
           | None =>
               '(h', r) ← insert_as_last_child_of h n true parent;
               match (r : hres unit) with HOk _ => Ret h' | HErr _ => Panic end
           end;
      '(h2, r) ← move_inside_same_tree h1 this (LastChildOf n);
      match (r : hres unit) with HOk _ => Ret (h2, false) | HErr _ => Panic end
  | None =>
      let h1 := set_prev h n (Some n) in
      let h2 := set_first h1 n (Some this) in
      let h3 := set_parent h2 this (Some n) in
      Ret (num_children_add h3 n 1, true)
  end.

(** The loops rewriting the parent of each node of a sibling chain
    (edit.rs:564-568 and 627-630): from [c], set the parent to [p] and follow
    [next_sibling].  (Line 629 reads the next sibling before writing the parent,
    line 567 after; the two orders agree because they are different fields.) *)
Fixpoint reparent_chain (fuel : nat) h (c : option nid) (p : nid) : run (heap T) :=
  match c with
  | None => Ret h
  | Some x =>
      match fuel with
      | 0 => NoFuel
      | S f => let h' := set_parent h x (Some p) in
               reparent_chain f h' (next_sibling_link h' x) p
      end
  end.

(** The closure of [create_as_interrupting_child] (edit.rs:557-578). *)
Definition interrupt_child h (this n : nid) : run (heap T) :=
  let first_child := ffirst h this in
  let h1 := set_first h this (Some n) in
  let h2 := set_parent h1 n (Some this) in
  let h3 := set_first h2 n first_child in
  h4 ← reparent_chain (walk_fuel h3) h3 first_child n;
  let h5 := set_nch h4 n (fnch h4 this) in
  Ret (set_nch h5 this 1).

(** The non-root half of [try_replace_with_children] (edit.rs:623-708). *)
Definition replace_with_children_nonroot h (this parent : nid) : run (heap T) :=
  let first_child := first_child_link h this in
  h0 ← reparent_chain (walk_fuel h) h first_child parent;
  prev_sib ← prev_sibling_link h0 this;
  let next_sib := next_sibling_link h0 this in
  h1 ← match first_child with
       | Some first_child =>
           last_child ← prev_sibling_cyclic_link h0 first_child;
           match prev_sib, next_sib with
           | Some prev_s, Some next_s =>
               let ha := connect_adjacent_siblings h0 prev_s first_child in
               Ret (connect_adjacent_siblings ha last_child next_s)
           | Some prev_s, None =>
               let ha := connect_adjacent_siblings h0 prev_s first_child in
               match first_child_link ha parent with
               | Some first_s => Ret (set_prev ha first_s (Some last_child))
               | None => Panic
               end
           | None, Some next_s =>
               let ha := connect_adjacent_siblings h0 last_child next_s in
               match last_child_link_weak ha parent with
               | Some last_w =>
                   let hb := set_prev ha first_child last_w in
                   Ret (set_first hb parent (Some first_child))
               | None => Panic
               end
           | None, None => Ret (set_first h0 parent (Some first_child))
           end
       | None =>
           match prev_sib, next_sib with
           | Some prev_s, Some next_s => Ret (connect_adjacent_siblings h0 prev_s next_s)
           | Some prev_s, None => Ret (set_next h0 prev_s None)
           | None, Some next_s =>
               match last_child_link_weak h0 parent with
               | Some last_w =>
                   let hb := set_prev h0 next_s last_w in
                   Ret (set_first hb parent (Some next_s))
               | None => Panic
               end
           | None, None => Ret (set_first h0 parent None)
           end
       end;
  _ ← assertb (Nat.ltb 0 (fnch h1 parent));
  h2 ← num_children_sub h1 parent 1;
  Ret (num_children_add h2 parent (fnch h2 this)).

(** The final disconnection (edit.rs:728-736). *)
Definition disconnect h (this : nid) : heap T :=
  let h1 := set_parent h this None in
  let h2 := set_first h1 this None in
  let h3 := set_prev h2 this (Some this) in
  let h4 := set_next h3 this None in
  set_nch h4 this 0.

(** [try_replace_with_children] (edit.rs:619-736), link part.  [HOk (Some c)]:
    the caller also executes [tree_core.replace_root(c)] (edit.rs:725); in both
    [HOk] cases the caller gives [this] a new tree core (edit.rs:739-741). *)
Definition replace_with_children h (this : nid) : run (heap T * hres (option nid)) :=
  match parent_link h this with
  | Some parent =>
      h1 ← replace_with_children_nonroot h this parent;
      Ret (disconnect h1 this, HOk None)
  | None =>
      _ ← assertb (is_root h this);
      match fnch h this with
      | 0 => Ret (h, HErr EmptyTree)
      | 1 =>
          match first_child_link h this with
          | None => Panic
          | Some child =>
              let h1 := set_parent h child None in
              Ret (disconnect h1 this, HOk (Some child))
          end
      | _ => Ret (h, HErr SiblingsWithoutParent)
      end
  end.

End Edit.
