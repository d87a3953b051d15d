(** * Traverse: the iterators of src/traverse/ and the link traverser of
    src/node/internal.rs.

    Every iterator is a state and a function [next : state -> run (option item * state)].
    The handles ([Node], [FrozenNode]) held by an iterator are represented by the
    node they point to: a traversal only reads neighbour links, and holding the
    handles keeps the nodes alive (System.v).
    Simplification: [Open]ing an accessor through a handle adjusts reference
    counts; that is modelled in System.v ([op_nav]) and is irrelevant to what an
    iterator yields.  No proofs here. *)
From Verif Require Export Edit.

(** [DftEvent] (depth_first.rs:11-17). *)
Inductive dft (A : Type) := Open (a : A) | Close (a : A).
Arguments Open {A} a.
Arguments Close {A} a.

Global Instance dft_eq_dec {A} `{EqDecision A} : EqDecision (dft A).
Proof. solve_decision. Defined.

(** [into_value] (depth_first.rs:26), [as_value] (36), [as_value_mut] (46): by
    value, by reference or by mutable reference. *)
Definition ev_val {A} (e : dft A) : A := match e with Open a => a | Close a => a end.
(** [into_open] (depth_first.rs:68). *)
Definition into_open {A} (e : dft A) : option A := match e with Open a => Some a | Close _ => None end.
(** [into_close] (depth_first.rs:78). *)
Definition into_close {A} (e : dft A) : option A := match e with Open _ => None | Close a => Some a end.
(** [map] (depth_first.rs:55). *)
Definition ev_map {A B} (f : A -> B) (e : dft A) : dft B :=
  match e with Open a => Open (f a) | Close a => Close (f a) end.

Section Traverse.
Context {T : Type}.
Implicit Types (h : heap T) (x : nid).

(** [DftEvent::next] for links (internal.rs:458-476) and for [Node],
    [FrozenNode], [HotNode] (depth_first.rs:92-110). *)
Definition dft_next h (e : dft nid) : option (dft nid) :=
  match e with
  | Open x => match first_child_link h x with
              | Some c => Some (Open c)
              | None => Some (Close x)
              end
  | Close x => match next_sibling_link h x with
               | Some s => Some (Open s)
               | None => match parent_link h x with
                         | Some p => Some (Close p)
                         | None => None
                         end
               end
  end.

(** [DftEvent::prev] (depth_first.rs:130-148). *)
Definition dft_prev h (e : dft nid) : run (option (dft nid)) :=
  match e with
  | Close x => l ← last_child_link h x;
               Ret (match l with Some c => Some (Close c) | None => Some (Open x) end)
  | Open x => q ← prev_sibling_link h x;
              Ret (match q with
                   | Some s => Some (Close s)
                   | None => match parent_link h x with
                             | Some p => Some (Open p)
                             | None => None
                             end
                   end)
  end.

(** [DftEvent::close_current(&self)] (depth_first.rs:117-126): every iteration
    asks for the successor of [self] again. *)
Fixpoint ev_close_current (fuel : nat) h (e : dft nid) (depth : nat) : run (option nid) :=
  match fuel with
  | 0 => NoFuel
  | S f =>
      match dft_next h e with
      | None => Ret None
      | Some (Open _) => ev_close_current f h e (S depth)
      | Some (Close y) => match depth with
                          | 0 => Ret (Some y)
                          | S d => ev_close_current f h e d
                          end
      end
  end.

(** ** Depth-first traversers *)

(** State of [DepthFirstLinkTraverser], [DepthFirstTraverser] and
    [ReverseDepthFirstTraverser]: the next event and the start node. *)
Definition dfs_state := option (dft nid * nid).

(** [DepthFirstLinkTraverser::next] (internal.rs:510-519): omits the final [Close]. *)
Definition link_dfs_next h (s : dfs_state) : run (option (dft nid) * dfs_state) :=
  match s with
  | None => Ret (None, None)
  | Some (e, start) =>
      if decide (e = Close start) then Ret (None, None)
      else Ret (Some e, option_map (fun e' => (e', start)) (dft_next h e))
  end.

(** [DepthFirstLinkTraverser::size_hint] (internal.rs:521-534). *)
Definition link_dfs_size_hint (s : dfs_state) : nat * option nat :=
  match s with
  | Some (Open _, _) => (2, None)
  | Some (Close x, start) => if decide (x = start) then (1, Some 1) else (1, None)
  | None => (0, Some 0)
  end.

(** [DepthFirstTraverser::with_start] (depth_first.rs:177). *)
Definition dfs_start (o : option nid) : dfs_state := option_map (fun x => (Open x, x)) o.

(** [DepthFirstTraverser::next] (depth_first.rs:218-225). *)
Definition dfs_next h (s : dfs_state) : run (option (dft nid) * dfs_state) :=
  match s with
  | None => Ret (None, None)
  | Some (e, start) =>
      Ret (Some e,
           if decide (e = Close start) then None
           else option_map (fun e' => (e', start)) (dft_next h e))
  end.

(** [DepthFirstTraverser::size_hint] (depth_first.rs:227-241). *)
Definition dfs_size_hint (s : dfs_state) : nat * option nat :=
  match s with
  | Some (Open _, _) => (2, None)
  | Some (Close x, start) => if decide (x = start) then (1, Some 1) else (1, None)
  | None => (0, Some 0)
  end.

(** [ReverseDepthFirstTraverser::with_start] (depth_first.rs:265), [next]
    (depth_first.rs:291-298), [size_hint] (depth_first.rs:300-314). *)
Definition rdfs_start (o : option nid) : dfs_state := option_map (fun x => (Close x, x)) o.
Definition rdfs_next h (s : dfs_state) : run (option (dft nid) * dfs_state) :=
  match s with
  | None => Ret (None, None)
  | Some (e, start) =>
      if decide (e = Open start) then Ret (Some e, None)
      else e' ← dft_prev h e;
           Ret (Some e, option_map (fun e' => (e', start)) e')
  end.
Definition rdfs_size_hint (s : dfs_state) : nat * option nat :=
  match s with
  | Some (Close _, _) => (2, None)
  | Some (Open x, start) => if decide (x = start) then (1, Some 1) else (1, None)
  | None => (0, Some 0)
  end.

(** The loop shared by the [close_current] methods of the traversers
    (depth_first.rs:203-212, 377-386, 495-504): call [next] until the node that
    was open is closed. *)
Fixpoint close_current {S A} (nx : S -> run (option (dft A) * S)) (fuel : nat) (s : S) (depth : nat)
  : run (option A * S) :=
  match fuel with
  | 0 => NoFuel
  | S f =>
      '(r, s') ← nx s;
      match r with
      | None => Ret (None, s')
      | Some (Open _) => close_current nx f s' (Datatypes.S depth)
      | Some (Close y) => match depth with
                          | 0 => Ret (Some y, s')
                          | Datatypes.S d => close_current nx f s' d
                          end
      end
  end.

(** [StableDepthFirstTraverser] (depth_first.rs:320-423). *)
Definition sdfs_state := option (dft nid * dft nid).
Definition sdfs_start (o : option nid) : sdfs_state := option_map (fun x => (Open x, Close x)) o.
Definition sdfs_next h (s : sdfs_state) : run (option (dft nid) * sdfs_state) :=
  match s with
  | None => Ret (None, None)
  | Some (e, eb) => Ret (Some e, option_map (fun e' => (e', eb)) (dft_next h e))
  end.
Definition sdfs_next_back h (s : sdfs_state) : run (option (dft nid) * sdfs_state) :=
  match s with
  | None => Ret (None, None)
  | Some (e, eb) => r ← dft_prev h eb; Ret (Some eb, option_map (fun e' => (e, e')) r)
  end.
Definition sdfs_size_hint (s : sdfs_state) : nat * option nat :=
  match s with
  | Some (e, eb) => if decide (e = eb) then (1, Some 1) else (2, None)
  | None => (0, Some 0)
  end.

(** ** Shallow depth-first traverser (depth_first.rs:427-686) *)

(** The two next events, each with its depth.  The maximum depth is kept beside
    the state: [None] stands for [usize::MAX] (depth_first.rs:459, 489). *)
Definition sh_state := option (dft (nid * nat) * dft (nid * nat)).
Definition sh_start (o : option nid) : sh_state := option_map (fun x => (Open (x, 0), Close (x, 0))) o.

(** The guard at the head of both helpers (depth_first.rs:512-524, 552-564),
    with its [debug_assert_eq!]: same node and same kind of event. *)
Definition sh_same (e eb : dft (nid * nat)) : run bool :=
  match e, eb with
  | Open (x, d), Open (y, d') | Close (x, d), Close (y, d') =>
      if decide (x = y) then _ ← assertb (bool_decide (d = d')); Ret true else Ret false
  | _, _ => Ret false
  end.

(** [next_of_next_forward] (depth_first.rs:508-545).  [*depth - 1] would
    underflow only for the parent of the top level node. *)
Definition sh_forward h (max : option nat) (s : sh_state) : run (option (dft (nid * nat))) :=
  match s with
  | None => Ret None
  | Some (e, eb) =>
      same ← sh_same e eb;
      if (same : bool) then Ret None else
      match e with
      | Open (x, d) =>
          if decide (max = Some d) then Ret (Some (Close (x, d)))
          else Ret (match first_child_link h x with
                    | Some c => Some (Open (c, S d))
                    | None => Some (Close (x, d))
                    end)
      | Close (x, d) =>
          match next_sibling_link h x with
          | Some y => Ret (Some (Open (y, d)))
          | None => match parent_link h x with
                    | None => Ret None
                    | Some p => match d with
                                | 0 => Panic
                                | S d' => Ret (Some (Close (p, d')))
                                end
                    end
          end
      end
  end.

(** [next_of_next_backward] (depth_first.rs:549-586). *)
Definition sh_backward h (max : option nat) (s : sh_state) : run (option (dft (nid * nat))) :=
  match s with
  | None => Ret None
  | Some (e, eb) =>
      same ← sh_same e eb;
      if (same : bool) then Ret None else
      match eb with
      | Close (x, d) =>
          if decide (max = Some d) then Ret (Some (Open (x, d)))
          else l ← last_child_link h x;
               Ret (match l with
                    | Some c => Some (Close (c, S d))
                    | None => Some (Open (x, d))
                    end)
      | Open (x, d) =>
          q ← prev_sibling_link h x;
          match q with
          | Some y => Ret (Some (Close (y, d)))
          | None => match parent_link h x with
                    | None => Ret None
                    | Some p => match d with
                                | 0 => Panic
                                | S d' => Ret (Some (Open (p, d')))
                                end
                    end
          end
      end
  end.

(** [next] (depth_first.rs:596-602) and [next_back] (depth_first.rs:677-683). *)
Definition sh_next h max (s : sh_state) : run (option (dft (nid * nat)) * sh_state) :=
  match s with
  | None => Ret (None, None)
  | Some (e, eb) => r ← sh_forward h max s; Ret (Some e, option_map (fun e' => (e', eb)) r)
  end.
Definition sh_next_back h max (s : sh_state) : run (option (dft (nid * nat)) * sh_state) :=
  match s with
  | None => Ret (None, None)
  | Some (e, eb) => r ← sh_backward h max s; Ret (Some eb, option_map (fun e' => (e, e')) r)
  end.

(** [size_hint] (depth_first.rs:604-672). *)
Definition sh_size_hint (s : sh_state) : run (nat * option nat) :=
  match s with
  | None => Ret (0, Some 0)
  | Some (Open (x, d), Open (y, d')) =>
      if decide (x = y) then _ ← assertb (bool_decide (d = d')); Ret (1, Some 1)
      else Ret (if d' <? d then d - d' + 3 else if d =? d' then 3 else d' - d + 1, None)
  | Some (Close (x, d), Close (y, d')) =>
      if decide (x = y) then _ ← assertb (bool_decide (d = d')); Ret (1, Some 1)
      else Ret (if d' <? d then d - d' + 1 else if d =? d' then 3 else d' - d + 3, None)
  | Some (Open (x, d), Close (y, d')) =>
      if d' <? d then Ret (d - d' + 2, None)
      else if d =? d' then (if decide (x = y) then Ret (2, Some 2) else Ret (4, None))
      else Ret (d' - d + 2, None)
  | Some (Close (x, d), Open (y, d')) =>
      if d' <? d then Ret (d - d' + 2, None)
      else if d =? d' then Ret (2, None) else Ret (d' - d + 2, None)
  end.

(** ** Siblings and ancestors *)

(** [AncestorsTraverser::next] (ancestors.rs:43), [size_hint] (49). *)
Definition anc_next h (s : option nid) : run (option nid * option nid) :=
  match s with
  | None => Ret (None, None)
  | Some x => Ret (Some x, parent_link h x)
  end.
(** [SiblingsTraverser::next] (siblings.rs:43). *)
Definition sib_next h (s : option nid) : run (option nid * option nid) :=
  match s with
  | None => Ret (None, None)
  | Some x => Ret (Some x, next_sibling_link h x)
  end.
(** [ReverseSiblingsTraverser::next] (siblings.rs:95). *)
Definition rsib_next h (s : option nid) : run (option nid * option nid) :=
  match s with
  | None => Ret (None, None)
  | Some x => q ← prev_sibling_link h x; Ret (Some x, q)
  end.
(** Their common [size_hint] (ancestors.rs:49, siblings.rs:49, 101). *)
Definition opt_size_hint (s : option nid) : nat * option nat :=
  match s with Some _ => (1, None) | None => (0, Some 0) end.

(** One [iter.next()] whose item is dropped. *)
Definition skip1 {S I} (nx : S -> run (option I * S)) (s : S) : run S := '(_, s') ← nx s; Ret s'.

(** Constructors on [Node] (plain.rs:1306-1593). *)
Definition children_it h x : option nid := first_child_link h x.
Definition children_reverse_it h x : run (option nid) := last_child_link h x.
Definition ancestors_or_self_it (x : nid) : option nid := Some x.
Definition ancestors_it h x : run (option nid) := skip1 (anc_next h) (Some x).
Definition following_siblings_or_self_it (x : nid) : option nid := Some x.
Definition following_siblings_it h x : run (option nid) := skip1 (sib_next h) (Some x).
Definition preceding_siblings_or_self_reverse_it (x : nid) : option nid := Some x.
Definition preceding_siblings_reverse_it h x : run (option nid) := skip1 (rsib_next h) (Some x).
Definition siblings_it h x : option nid :=
  match parent_link h x with
  | Some p => children_it h p
  | None => following_siblings_or_self_it x
  end.
Definition siblings_reverse_it h x : run (option nid) :=
  match parent_link h x with
  | Some p => children_reverse_it h p
  | None => Ret (preceding_siblings_or_self_reverse_it x)
  end.

(** [count_children], [count_preceding_siblings], [count_following_siblings],
    [count_ancestors] (internal.rs:251-280): [iter::successors(..).count()]. *)
Fixpoint count_successors (nx : nid -> run (option nid)) (fuel : nat) (s : option nid) : run nat :=
  match s with
  | None => Ret 0
  | Some x => match fuel with
              | 0 => NoFuel
              | S f => s' ← nx x; n ← count_successors nx f s'; Ret (S n)
              end
  end.
Definition count_children h x : run nat :=
  count_successors (fun y => Ret (next_sibling_link h y)) (walk_fuel h) (first_child_link h x).
Definition count_following_siblings h x : run nat :=
  count_successors (fun y => Ret (next_sibling_link h y)) (walk_fuel h) (next_sibling_link h x).
Definition count_preceding_siblings h x : run nat :=
  s ← prev_sibling_link h x;
  count_successors (prev_sibling_link h) (walk_fuel h) s.
Definition count_ancestors h x : run nat :=
  count_successors (fun y => Ret (parent_link h y)) (walk_fuel h) (parent_link h x).

(** [StableSiblingsTraverser] (siblings.rs:118-196: next 169, size_hint 177, next_back 187). *)
Definition ssib_state := option (nid * nid).
Definition ssib_next h (s : ssib_state) : run (option nid * ssib_state) :=
  match s with
  | None => Ret (None, None)
  | Some (x, xb) => Ret (Some x, option_map (fun y => (y, xb)) (next_sibling_link h x))
  end.
Definition ssib_next_back h (s : ssib_state) : run (option nid * ssib_state) :=
  match s with
  | None => Ret (None, None)
  | Some (x, xb) => q ← prev_sibling_link h xb; Ret (Some xb, option_map (fun y => (x, y)) q)
  end.
Definition ssib_size_hint (s : ssib_state) : nat * option nat :=
  match s with
  | Some (x, xb) => if decide (x = xb) then (1, Some 1) else (2, None)
  | None => (0, Some 0)
  end.
(** Constructors on [FrozenNode] (frozen.rs:796-873). *)
Definition children_stable_it h x : run ssib_state := first_last_child_link h x.
Definition following_siblings_or_self_stable_it h x : run ssib_state :=
  l ← last_sibling h x; Ret (Some (x, l)).
Definition preceding_siblings_or_self_stable_it h x : run ssib_state :=
  f ← first_sibling h x; Ret (Some (f, x)).
Definition siblings_stable_it h x : run ssib_state :=
  match parent_link h x with
  | Some p => children_stable_it h p
  | None => following_siblings_or_self_stable_it h x
  end.
Definition preceding_siblings_stable_it h x : run ssib_state :=
  s ← preceding_siblings_or_self_stable_it h x; skip1 (ssib_next h) s.
Definition following_siblings_stable_it h x : run ssib_state :=
  s ← following_siblings_or_self_stable_it h x; skip1 (ssib_next h) s.

(** ** Breadth-first traversers (breadth_first.rs) *)

(** State of [NonAllocatingBreadthFirstTraverser] (breadth_first.rs:18-26):
    inner traverser and its maximum depth, root, current depth. *)
Record nbf_state := mkNbf { nbf_inner : sh_state; nbf_root : option nid; nbf_depth : nat }.
(** [with_toplevel] (breadth_first.rs:45-54).  The maximum depth of the inner
    traverser is always the current depth. *)
Definition nbf_start (x : nid) (d : nat) : nbf_state := mkNbf (sh_start (Some x)) (Some x) d.

(** [next_in_current_depth] (breadth_first.rs:57-68): [find_map] over the inner
    iterator. *)
Fixpoint find_at_depth (fuel : nat) h (d : nat) (s : sh_state) : run (option nid * sh_state) :=
  match fuel with
  | 0 => NoFuel
  | S f =>
      '(r, s') ← sh_next h (Some d) s;
      match r with
      | None => Ret (None, s')
      | Some (Open (x, d')) => if decide (d' = d) then Ret (Some x, s') else find_at_depth f h d s'
      | Some (Close _) => find_at_depth f h d s'
      end
  end.
(** More calls than an inner traverser of a tree of this heap can answer. *)
Definition dfs_fuel h : nat := S (S (2 * size h)).

(** [NonAllocatingBreadthFirstTraverser::next] (breadth_first.rs:74-97). *)
Definition nbf_next h (s : nbf_state) : run (option (nid * nat) * nbf_state) :=
  match nbf_root s with
  | None => Ret (None, s)
  | Some root =>
      '(r, inner) ← find_at_depth (dfs_fuel h) h (nbf_depth s) (nbf_inner s);
      match r with
      | Some x => Ret (Some (x, nbf_depth s), mkNbf inner (Some root) (nbf_depth s))
      | None =>
          let d := S (nbf_depth s) in
          '(r2, inner2) ← find_at_depth (dfs_fuel h) h d (sh_start (Some root));
          match r2 with
          | Some x => Ret (Some (x, d), mkNbf inner2 (Some root) d)
          | None => Ret (None, mkNbf inner2 None d)
          end
      end
  end.
(** [size_hint] (breadth_first.rs:100-106). *)
Definition nbf_size_hint (s : nbf_state) : nat * option nat :=
  match nbf_root s with None => (0, Some 0) | Some _ => (0, None) end.

(** [AllocatingBreadthFirstTraverser] (breadth_first.rs:112-266).  A queue entry
    is [Some x] for [QueuedEvent::Node(x)] and [None] for [IncrementDepth]. *)
Record abf_state := mkAbf { abf_queue : list (option nid); abf_depth : nat }.

(** Draining an iterator into a list ([extend], [collect]). *)
Fixpoint collect_it {S I} (nx : S -> run (option I * S)) (fuel : nat) (s : S) : run (list I) :=
  match fuel with
  | 0 => NoFuel
  | S f =>
      '(r, s') ← nx s;
      match r with
      | None => Ret []
      | Some i => l ← collect_it nx f s'; Ret (i :: l)
      end
  end.

(** The [filter_map]s of [with_toplevel] (breadth_first.rs:168-178). *)
Definition opens_at_depth (d : nat) (evs : list (dft (nid * nat))) : list nid :=
  omap (fun e => match e with
                 | Open (x, d') => if decide (d' = d) then Some x else None
                 | Close _ => None
                 end) evs.

(** [with_toplevel] (breadth_first.rs:161-187). *)
Definition abf_start h (x : nid) (d : nat) : run abf_state :=
  match d with
  | 0 => Ret (mkAbf [Some x; None] 0)
  | _ => evs ← collect_it (sh_next h (Some d)) (dfs_fuel h) (sh_start (Some x));
         Ret (mkAbf (map Some (opens_at_depth d evs) ++ [None]) d)
  end.

(** [next] (breadth_first.rs:227-252).  The [while] loop runs at most twice per
    call: after [IncrementDepth] a node is at the head of the queue. *)
Fixpoint abf_loop (fuel : nat) h (q : list (option nid)) (d : nat) : run (option (nid * nat) * abf_state) :=
  match fuel with
  | 0 => NoFuel
  | S f =>
      match q with
      | [] => Ret (None, mkAbf [] d)
      | None :: q' => match q' with
                      | [] => Ret (None, mkAbf [] d)
                      | _ => abf_loop f h (q' ++ [None]) (S d)
                      end
      | Some x :: q' =>
          s ← children_stable_it h x;
          cs ← collect_it (ssib_next h) (S (walk_fuel h)) s;
          Ret (Some (x, d), mkAbf (q' ++ map Some cs) d)
      end
  end.
Definition abf_next h (s : abf_state) : run (option (nid * nat) * abf_state) :=
  abf_loop 3 h (abf_queue s) (abf_depth s).
(** [size_hint] (breadth_first.rs:255-265). *)
Definition abf_size_hint (s : abf_state) : nat * option nat :=
  let len := length (abf_queue s) in
  if len <=? 1 then (0, Some 0) else (len - 1, None).
(** [peek] (breadth_first.rs:192-203). *)
Definition abf_peek (s : abf_state) : run (option (nid * nat)) :=
  match abf_queue s with
  | [] => Ret None
  | Some x :: _ => Ret (Some (x, abf_depth s))
  | None :: q => match q with
                 | [] => Ret None
                 | Some x :: _ => Ret (Some (x, S (abf_depth s)))
                 | None :: _ => Panic
                 end
  end.

End Traverse.
