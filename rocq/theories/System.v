(** * System: handles, trees, reference counts, locks and the public API.

    A state holds every allocated node, every allocated tree core and every
    handle the user owns.  [step] runs one call of the public API.

    Strong counts of [Rc] are not stored: an allocation is freed as soon as the
    last strong reference to it disappears, so "count is zero" is expressed as
    "nothing refers to it" ([referenced], [tree_referenced]).  The strong
    references are: node handles, tree handles, [first_child] and [next_sibling]
    links, the root field of a tree core, the tree field of a strong membership,
    and the local variables alive at that moment ([pins], [tpins]).  Local
    variables whose target is also held by a handle of the caller for the whole
    call are not listed.

    Simplifications: counters do not overflow ([tree_refcount], lock counts,
    [num_grants]); nested [RefCell] borrow failures of library-internal cells
    ("should never be borrowed nestedly") are not modelled.  No proofs here. *)
From Verif Require Export Traverse.
From Coq Require Export ZArith.

(** [Node] (plain.rs:25), [HotNode] (hot.rs:20), [FrozenNode] (frozen.rs:24). *)
Inductive kind := Plain | Hot | Frozen.
Global Instance kind_eq_dec : EqDecision kind.
Proof. solve_decision. Defined.

(** What a user can own: a node handle, a [Tree] (tree.rs:136), a
    [HierarchyEditGrant] (lock.rs:302) or [HierarchyEditProhibition]
    (lock.rs:218) token, a [NodeWeak] (plain.rs:2905), a [TreeWeak] (tree.rs:533).
    Tokens hold only a [Weak<TreeCore>]. *)
Inductive handle :=
| HNode (k : kind) (x : nid)
| HTree (t : tid)
| HGrant (t : tid)
| HProhib (t : tid)
| HNodeWeak (x : nid)
| HTreeWeak (t : tid).
Global Instance handle_eq_dec : EqDecision handle.
Proof. solve_decision. Defined.

(** [TreeCore] (tree.rs:30-35): the root and [HierarchyLockManager::num_grants]
    (lock.rs:49-56): positive for grants, negative for prohibitions. *)
Record tree := mkTree { t_root : nid; t_cnt : Z }.

Record sys (T : Type) := mkSys {
  s_nodes : heap T;
  s_trees : gmap tid tree;
  s_hands : gmap nat handle;
  s_fresh : nat;
}.
Arguments mkSys {T}. Arguments s_nodes {T}. Arguments s_trees {T}.
Arguments s_hands {T}. Arguments s_fresh {T}.

Section System.
Context {T : Type}.
Implicit Types (s : sys T) (x y : nid) (t : tid).

Definition init : sys T := mkSys ∅ ∅ ∅ 0.

(** Record updates. *)
Definition with_nodes s (h : heap T) : sys T := mkSys h (s_trees s) (s_hands s) (s_fresh s).
Definition with_trees s (m : gmap tid tree) : sys T := mkSys (s_nodes s) m (s_hands s) (s_fresh s).
Definition with_hands s (m : gmap nat handle) : sys T := mkSys (s_nodes s) (s_trees s) m (s_fresh s).
Definition with_fresh s (k : nat) : sys T := mkSys (s_nodes s) (s_trees s) (s_hands s) k.

(** The user receives a new handle. *)
Definition add_hand s (hd : handle) : sys T :=
  with_fresh (with_hands s (<[s_fresh s := hd]> (s_hands s))) (S (s_fresh s)).
Definition del_hand s (i : nat) : sys T := with_hands s (delete i (s_hands s)).

Definition n_memb s x : option membership := n_mem <$> s_nodes s !! x.
Definition put_mem s x (m : membership) : sys T := with_nodes s (set_mem (s_nodes s) x m).
Definition put_cnt s t (z : Z) : sys T :=
  with_trees s (alter (fun tr => mkTree (t_root tr) z) t (s_trees s)).
Definition put_root s t x : sys T :=
  with_trees s (alter (fun tr => mkTree x (t_cnt tr)) t (s_trees s)).

(** ** Deallocation *)

Definition hand_on x (hd : handle) : bool :=
  match hd with HNode _ y => bool_decide (y = x) | _ => false end.
Definition tree_on t (hd : handle) : bool :=
  match hd with HTree u => bool_decide (u = t) | _ => false end.

(** Is there a strong reference to the node [x]? *)
Definition referenced s (pins : list nid) x : bool :=
  bool_decide (x ∈ pins) ||
  existsb (fun kv : nat * handle => hand_on x kv.2) (map_to_list (s_hands s)) ||
  existsb (fun kv : nid * node T => opt_is (n_first kv.2) x || opt_is (n_next kv.2) x)
          (map_to_list (s_nodes s)) ||
  existsb (fun kv : tid * tree => bool_decide (t_root kv.2 = x)) (map_to_list (s_trees s)).

(** Is there a strong reference to the tree core [t]? *)
Definition tree_referenced s (tpins : list tid) t : bool :=
  bool_decide (t ∈ tpins) ||
  existsb (fun kv : nat * handle => tree_on t kv.2) (map_to_list (s_hands s)) ||
  existsb (fun kv : nid * node T =>
             match n_mem kv.2 with MStrong u _ _ => bool_decide (u = t) | MWeak _ => false end)
          (map_to_list (s_nodes s)).

(** A strong reference to [x] has just disappeared: if it was the last one the
    [NodeCore] is freed (drop glue of [Rc<NodeCore>], internal.rs:14-56), which
    drops its [first_child] and [next_sibling] in turn.  A node with a strong
    membership has a [NodeLink] referring to it, so freeing one is a
    contradiction, reported as [Panic]. *)
Fixpoint release (fuel : nat) (pins : list nid) s x : run (sys T) :=
  match s_nodes s !! x with
  | None => Ret s
  | Some nd =>
      if referenced s pins x then Ret s
      else match fuel with
      | 0 => NoFuel
      | S f =>
          match n_mem nd with
          | MStrong _ _ _ => Panic
          | MWeak _ =>
              let s1 := with_nodes s (delete x (s_nodes s)) in
              s2 ← match n_first nd with Some c => release f pins s1 c | None => Ret s1 end;
              match n_next nd with Some c => release f pins s2 c | None => Ret s2 end
          end
      end
  end.

Definition release_all s (pins : list nid) x : run (sys T) :=
  release (walk_fuel (s_nodes s)) pins s x.

Definition ev_pin (e : option (dft nid)) : list nid :=
  match e with Some e => [ev_val e] | None => [] end.

(** The loop of [TreeCore::drop] (tree.rs:83-116). *)
Fixpoint teardown (fuel : nat) (pins : list nid) s (next : option (dft nid)) : run (sys T) :=
  match next with
  | None => Ret s
  | Some current =>
      match fuel with
      | 0 => NoFuel
      | S f =>
          let next := dft_next (s_nodes s) current in
          match current with
          | Open _ => teardown f pins s next
          | Close v =>
              s1 ← match parent_link (s_nodes s) v with
                   | Some p =>
                       let next_sibling := fnext (s_nodes s) v in
                       let h1 := set_next (s_nodes s) v None in
                       let old_first := ffirst h1 p in
                       let h2 := set_first h1 p next_sibling in
                       match old_first with
                       | Some o => release_all (with_nodes s h2) (v :: p :: ev_pin next ++ pins) o
                       | None => Ret (with_nodes s h2)
                       end
                   | None => Ret s
                   end;
              s2 ← release_all s1 (ev_pin next ++ pins) v;
              teardown f pins s2 next
          end
      end
  end.

(** A strong reference to the tree core [t] has just disappeared (drop glue of
    [Rc<TreeCore>]): if it was the last one, [TreeCore::drop] runs, then the root
    field is dropped. *)
Definition drop_tree_if_dead (pins : list nid) (tpins : list tid) s t : run (sys T) :=
  match s_trees s !! t with
  | None => Ret s
  | Some tr =>
      if tree_referenced s tpins t then Ret s
      else
        s1 ← teardown (dfs_fuel (s_nodes s)) pins s (Some (Open (t_root tr)));
        let s2 := with_trees s1 (delete t (s_trees s1)) in
        release_all s2 pins (t_root tr)
  end.

(** ** Memberships (membership.rs) *)

Definition tree_alive s t : bool := bool_decide (is_Some (s_trees s !! t)).

(** [tree_core_opt] (membership.rs:145) and [tree_core] (internal.rs:102). *)
Definition tree_core s x : run tid :=
  match n_memb s x with
  | Some (MStrong t _ _) => Ret t
  | Some (MWeak (Some t)) => if tree_alive s t then Ret t else Panic
  | _ => Panic
  end.

(** [tree_core_strong_ref] (membership.rs:130) through [NodeLink::tree_core_ref]
    (internal.rs:688). *)
Definition link_tree_core s x : run tid :=
  match n_memb s x with Some (MStrong t _ _) => Ret t | _ => Panic end.

(** [increment_tree_refcount] (membership.rs:161); [None] is [Err]. *)
Definition incr_ref s x : option (sys T) :=
  match n_memb s x with
  | Some (MWeak (Some t)) => if tree_alive s t then Some (put_mem s x (MStrong t 1 0)) else None
  | Some (MStrong t rc lk) => Some (put_mem s x (MStrong t (S rc) lk))
  | _ => None
  end.

(** [increment_nonzero_tree_refcount] (membership.rs:188). *)
Definition incr_nonzero_ref s x : run (sys T) :=
  match n_memb s x with
  | Some (MStrong t rc lk) => Ret (put_mem s x (MStrong t (S rc) lk))
  | _ => Panic
  end.

(** [decrement_tree_refcount] (membership.rs:208-239); the [NodeLink] being
    dropped still refers to [x] ([pins]). *)
Definition decr_ref s x : run (sys T) :=
  match n_memb s x with
  | Some (MStrong t (S (S rc)) lk) => Ret (put_mem s x (MStrong t (S rc) lk))
  | Some (MStrong t 1 lk) =>
      _ ← assertb (Nat.eqb lk 0);
      drop_tree_if_dead [x] [] (put_mem s x (MWeak (Some t))) t
  | _ => Panic
  end.

(** ** Locks (tree/lock.rs) *)

(** [acquire_grant]/[acquire_prohibition] (lock.rs:80-130) on the tree [t];
    [None] is [Err]. *)
Definition lock_tree s (k : kind) t : option (sys T) :=
  match s_trees s !! t with
  | None => None
  | Some tr =>
      match k with
      | Plain => Some s
      | Hot => if (t_cnt tr <? 0)%Z then None else Some (put_cnt s t (t_cnt tr + 1))
      | Frozen => if (0 <? t_cnt tr)%Z then None else Some (put_cnt s t (t_cnt tr - 1))
      end
  end.

(** [release_grant] (lock.rs:133) and [release_prohibition] (lock.rs:104). *)
Definition unlock_tree s (k : kind) t : run (sys T) :=
  match s_trees s !! t with
  | None => Panic
  | Some tr =>
      match k with
      | Plain => Ret s
      | Hot => if (t_cnt tr <=? 0)%Z then Panic else Ret (put_cnt s t (t_cnt tr - 1))
      | Frozen => if (0 <=? t_cnt tr)%Z then Panic else Ret (put_cnt s t (t_cnt tr + 1))
      end
  end.

(** [release_any_lock] (lock.rs:146-165). *)
Definition release_any s t : run (sys T) :=
  match s_trees s !! t with
  | None => Panic
  | Some tr =>
      match t_cnt tr with
      | Z0 => Panic
      | Zpos _ => Ret (put_cnt s t (t_cnt tr - 1))
      | Zneg _ => Ret (put_cnt s t (t_cnt tr + 1))
      end
  end.

(** [transfer_single_lock_to] (lock.rs:170-206); [None] is [Err]. *)
Definition transfer_lock s t t' : option (sys T) :=
  match s_trees s !! t with
  | None => None
  | Some tr =>
      match t_cnt tr with
      | Z0 => Some s
      | Zpos _ => s1 ← lock_tree s Hot t';
                  Some (match s_trees s1 !! t with
                        | Some tr1 => put_cnt s1 t (t_cnt tr1 - 1)
                        | None => s1
                        end)
      | Zneg _ => s1 ← lock_tree s Frozen t';
                  Some (match s_trees s1 !! t with
                        | Some tr1 => put_cnt s1 t (t_cnt tr1 + 1)
                        | None => s1
                        end)
      end
  end.

(** [acquire_edit_grant]/[acquire_edit_prohibition] on a node
    (membership.rs:338-380, lock.rs:430-462); the inner [None] is [Err]. *)
Definition acquire s (k : kind) x : run (option (sys T)) :=
  match k with
  | Plain => Ret (Some s)
  | _ =>
      match n_memb s x with
      | Some (MStrong t rc lk) =>
          match s_trees s !! t with
          | None => Panic
          | Some tr =>
              let acquirable := match k with Hot => (0 <=? t_cnt tr)%Z | _ => (t_cnt tr <=? 0)%Z end in
              if acquirable then
                match lk with
                | 0 => match lock_tree s k t with
                       | Some s1 => Ret (Some (put_mem s1 x (MStrong t rc 1)))
                       | None => Ret None
                       end
                | S _ => Ret (Some (put_mem s x (MStrong t rc (S lk))))
                end
              else Ret None
          end
      | _ => Panic
      end
  end.

(** [.expect(..)] on the above. *)
Definition acquire_expect s (k : kind) x : run (sys T) :=
  r ← acquire s k x; match r with Some s1 => Ret s1 | None => Panic end.

(** [increment_nonzero_edit_lock_count] (membership.rs:318, lock.rs:418). *)
Definition incr_nonzero_lock s x : run (sys T) :=
  match n_memb s x with
  | Some (MStrong t rc (S lk)) => Ret (put_mem s x (MStrong t rc (S (S lk))))
  | _ => Panic
  end.

(** [decrement_edit_lock_count] (membership.rs:291, lock.rs:401). *)
Definition decr_lock s x : run (sys T) :=
  match n_memb s x with
  | Some (MStrong t rc (S lk)) =>
      let s1 := put_mem s x (MStrong t rc lk) in
      match lk with 0 => release_any s1 t | S _ => Ret s1 end
  | _ => Panic
  end.

(** ** Node handles *)

(** [Node::with_node_core] (plain.rs:161), [from_node_link_with_grant]
    (hot.rs:116), [from_node_link_with_prohibition] (frozen.rs): a new handle of
    kind [k] on [x]. *)
Definition new_node_hand s (k : kind) x : run (sys T * nat) :=
  match incr_ref s x with
  | None => Panic
  | Some s1 =>
      s2 ← acquire_expect s1 k x;
      Ret (add_hand s2 (HNode k x), s_fresh s2)
  end.

(** Dropping a [Node] (internal.rs:589 and drop glue): the reference count is
    decremented while the link still exists, then the link goes away. *)
Definition drop_link s (i : nat) x : run (sys T) :=
  s1 ← decr_ref (del_hand s i) x;
  release_all s1 [] x.

(** Dropping any node handle (hot.rs:26, frozen.rs:30). *)
Definition drop_node s (i : nat) (k : kind) x : run (sys T) :=
  s1 ← match k with Plain => Ret s | _ => decr_lock s x end;
  drop_link s1 i x.

(** Cloning a node handle (internal.rs:596, hot.rs:33, frozen.rs:37). *)
Definition clone_node s (k : kind) x : run (sys T * nat) :=
  s1 ← match k with Plain => Ret s | _ => incr_nonzero_lock s x end;
  s2 ← incr_nonzero_ref s1 x;
  Ret (add_hand s2 (HNode k x), s_fresh s2).

(** ** Creation *)

(** [NodeLink::new_tree_root] (internal.rs:608-637). *)
Definition new_tree s (d : T) : sys T * nat :=
  let n := s_fresh s in
  let t := S n in
  let s1 := mkSys (alloc (s_nodes s) n d (MStrong t 1 0)) (<[t := mkTree n 0]> (s_trees s))
                  (s_hands s) (S t) in
  (add_hand s1 (HNode Plain n), s_fresh s1).

(** [NodeLink::new_orphan] (internal.rs:638-664): allocation, then
    [NodeLink::new].  The link is entered as a plain handle; it is the one
    finally given to the user. *)
Definition new_orphan s (d : T) t : run (sys T * nid * nat) :=
  let n := s_fresh s in
  let s1 := with_fresh (with_nodes s (alloc (s_nodes s) n d (MWeak (Some t)))) (S n) in
  match incr_ref s1 n with
  | None => Panic
  | Some s2 => Ret (add_hand s2 (HNode Plain n), n, s_fresh s2)
  end.

(** [HotNode::from_node(node).expect(..)] (hot.rs:86) for the node just created. *)
Definition upgrade_new s (i : nat) (n : nid) (k : kind) : run (sys T) :=
  s1 ← acquire_expect s k n;
  Ret (with_hands s1 (<[i := HNode k n]> (s_hands s1))).

(** [AdoptAs] relative to a node (edit.rs:401-413). *)
Definition dest_of (ad : adopt_as) x : insert_as :=
  match ad with
  | AFirstChild => FirstChildOf x
  | ALastChild => LastChildOf x
  | APreviousSibling => PreviousSiblingOf x
  | ANextSibling => NextSiblingOf x
  end.

(** [try_create_node_as] and the four functions it dispatches to
    (edit.rs:401-516), [create_and_process] (edit.rs:33-50), and the locking of
    the result by the [HotNode] wrappers (hot.rs:803-906). *)
Definition create_node_as s (k : kind) x (d : T) (ad : adopt_as) : run (sys T * hres nat) :=
  t ← tree_core s x;
  '(s1, n, i) ← new_orphan s d t;
  '(h', r) ← insert_orphan (s_nodes s1) n true (dest_of ad x);
  let s2 := with_nodes s1 h' in
  match (r : hres unit) with
  | HErr e => s3 ← drop_node s2 i Plain n; Ret (s3, HErr e)
  | HOk _ => s3 ← upgrade_new s2 i n k; Ret (s3, HOk i)
  end.

(** [create_as_interrupting_parent] (edit.rs:523-552). *)
Definition create_interrupting_parent s (k : kind) x (d : T) : run (sys T * nat) :=
  t ← tree_core s x;
  '(s1, n, i) ← new_orphan s d t;
  '(h', was_root) ← interrupt_parent (s_nodes s1) x n;
  let s2 := with_nodes s1 h' in
  let s3 := if (was_root : bool) then put_root s2 t n else s2 in
  s4 ← upgrade_new s3 i n k;
  Ret (s4, i).

(** [create_as_interrupting_child] (edit.rs:555-580). *)
Definition create_interrupting_child s (k : kind) x (d : T) : run (sys T * nat) :=
  t ← tree_core s x;
  '(s1, n, i) ← new_orphan s d t;
  h' ← interrupt_child (s_nodes s1) x n;
  s2 ← upgrade_new (with_nodes s1 h') i n k;
  Ret (s2, i).

(** ** Changing trees *)

(** [MembershipRef::set_tree_core] (membership.rs:248-268); replacing the core
    of a strong membership drops the old [Rc<TreeCore>].  [None] is [Err]. *)
Definition set_tree_core s (pins : list nid) (tpins : list tid) x t' : run (option (sys T)) :=
  match n_memb s x with
  | Some (MWeak _) => Ret (Some (put_mem s x (MWeak (Some t'))))
  | Some (MStrong t rc lk) =>
      match (if Nat.eqb lk 0 then Some s else transfer_lock s t t') with
      | None => Ret None
      | Some s1 =>
          s2 ← drop_tree_if_dead pins tpins (put_mem s1 x (MStrong t' rc lk)) t;
          Ret (Some s2)
      end
  | None => Panic
  end.

(** [set_memberships_of_descendants_and_self] (edit.rs:381-391): a lazy
    traversal; at each turn the current node and the node of the next event are
    held. *)
Fixpoint set_memberships (fuel : nat) s (tpins : list tid) (st : dfs_state) t' : run (option (sys T)) :=
  '(ev, st') ← link_dfs_next (s_nodes s) st;
  match ev with
  | None => Ret (Some s)
  | Some e =>
      match fuel with
      | 0 => NoFuel
      | S f =>
          let held := ev_pin (option_map fst st') in
          r ← match e with
              | Open y => set_tree_core s (y :: held) tpins y t'
              | Close _ => Ret (Some s)
              end;
          match r with
          | None => Ret None
          | Some s1 =>
              s2 ← release_all s1 held (ev_val e);
              set_memberships f s2 tpins st' t'
          end
      end
  end.

(** The call on the subtree of [x], whose target tree is held by a local. *)
Definition set_subtree_tree s (tpins : list tid) x t' : run (option (sys T)) :=
  set_memberships (dfs_fuel (s_nodes s)) s (t' :: tpins) (Some (Open x, x)) t'.

(** [TreeCore::new_rc] (tree.rs:40) and the loop, both with [.expect]
    (edit.rs:120-124 and 738-741). *)
Definition create_new_tree s (tpins : list tid) x : run (sys T) :=
  let t' := s_fresh s in
  let s1 := with_fresh (with_trees s (<[t' := mkTree x 0]> (s_trees s))) (S t') in
  r ← set_subtree_tree s1 tpins x t';
  match r with Some s2 => Ret s2 | None => Panic end.

(** [detach_subtree] (edit.rs:325-334). *)
Definition detach_subtree s x : run (sys T) :=
  if is_root (s_nodes s) x then Ret s
  else
    '(h', _) ← new_by_unlink (s_nodes s) x;
    create_new_tree (with_nodes s h') [] x.

(** [try_replace_with_children] (edit.rs:619-743).  The local [tree_core]
    (edit.rs:620) is dropped last. *)
Definition replace_node s x : run (sys T * hres unit) :=
  t ← tree_core s x;
  '(h', r) ← replace_with_children (s_nodes s) x;
  let s1 := with_nodes s h' in
  match (r : hres (option nid)) with
  | HErr e => Ret (s1, HErr e)
  | HOk o =>
      let s2 := match o with Some c => put_root s1 t c | None => s1 end in
      s3 ← create_new_tree s2 [t] x;
      s4 ← drop_tree_if_dead [] [] s3 t;
      Ret (s4, HOk tt)
  end.

(** [detach_and_move_to_another_tree] (edit.rs:363-373). *)
Definition move_to_another_tree s x (dest : insert_as) t' : run (sys T * hres unit) :=
  '(h1, is_new) ← new_by_unlink (s_nodes s) x;
  r ← set_subtree_tree (with_nodes s h1) [] x t';
  match r with
  | None => Panic
  | Some s2 =>
      '(h3, r3) ← insert_orphan (s_nodes s2) x is_new dest;
      Ret (with_nodes s2 h3, r3)
  end.

(** [try_detach_insert_subtree] (hot.rs:1132-1149, plain.rs:2598-2617). *)
Definition move_subtree s x (ad : adopt_as) y : run (sys T * hres unit) :=
  t ← link_tree_core s x;
  t' ← link_tree_core s y;
  if decide (t = t') then
    '(h', r) ← move_inside_same_tree (s_nodes s) x (dest_of ad y);
    Ret (with_nodes s h', r)
  else move_to_another_tree s x (dest_of ad y) t'.

(** ** Queries *)

(** [NodeLink::belongs_to] (internal.rs:718-720, plain.rs:472). *)
Definition belongs_to s x t : run bool :=
  u ← link_tree_core s x; Ret (bool_decide (u = t)).

(** [NodeLink::belongs_to_same_tree] (internal.rs:724-731, plain.rs:499) on the
    handles [i] (on [x]) and [j] (on [y]); comparing the addresses of the two
    links is comparing the handles. *)
Definition belongs_to_same_tree s (i : nat) x (j : nat) y : run bool :=
  if decide (i = j) then Ret true
  else
    t ← link_tree_core s x;
    t' ← link_tree_core s y;
    Ret (bool_decide (t = t')).

(** [is_valid_for_node] of a token for the tree [tg] (lock.rs:273, 368,
    plain.rs:424). *)
Definition valid_for_node s (tg : tid) x : run bool :=
  t ← tree_core s x; Ret (bool_decide (t = tg)).

(** ** The API *)

Inductive nav := NRoot | NParent | NPrev | NNext | NFirstSibling | NLastSibling | NFirstChild | NLastChild.

(** The link a navigation method follows (plain.rs:549-830, hot.rs:434-540). *)
Definition nav_target s (v : nav) x : run (option nid) :=
  let h := s_nodes s in
  match v with
  | NRoot => t ← tree_core s x;
             match s_trees s !! t with Some tr => Ret (Some (t_root tr)) | None => Panic end
  | NParent => Ret (parent_link h x)
  | NPrev => prev_sibling_link h x
  | NNext => Ret (next_sibling_link h x)
  | NFirstSibling => y ← first_sibling h x; Ret (Some y)
  | NLastSibling => y ← last_sibling h x; Ret (Some y)
  | NFirstChild => Ret (first_child_link h x)
  | NLastChild => last_child_link h x
  end.

(** How an edit is authorised: by a [HotNode] receiver, or by a [Node] receiver
    and a grant token. *)
Inductive auth := ByHot (i : nat) | ByGrant (i g : nat).

(** Taking and giving back a [Ref] or [RefMut] of the data of a node
    (try_borrow_data, try_borrow_data_mut: plain.rs:329, 372, internal.rs:361-392).  [None]: refused.
    What is not there cannot be given back in Rust; here that has no effect.
    (Simplification: in Rust the handle cannot be dropped or converted in the meantime; here it can.) *)
Inductive loan := TakeRef | TakeMut | GiveRef | GiveMut.
Definition lend (b : loan) (l : lending) : option lending :=
  match b, l with
  | TakeRef, Lent n => Some (Lent (S n))
  | TakeRef, LentMut => None
  | TakeMut, Lent 0 => Some LentMut
  | TakeMut, _ => None
  | GiveRef, Lent (S n) => Some (Lent n)
  | GiveMut, LentMut => Some (Lent 0)
  | _, l => Some l
  end.

Inductive op :=
| OpNewTree (d : T)                    (* Node::new_tree (plain.rs:1607) *)
| OpClone (i : nat)                    (* Clone / try_clone of any handle *)
| OpDrop (i : nat)                     (* Drop of any handle *)
| OpNav (v : nav) (i : nat)            (* plain.rs:549-830 and the hot/frozen versions *)
| OpTree (i : nat)                     (* tree() (plain.rs:445) *)
| OpRoot (i : nat)                     (* Tree::root (tree.rs:196) *)
| OpLock (k : kind) (i : nat)          (* Tree::grant_hierarchy_edit / prohibit_hierarchy_edit *)
| OpBundle (k : kind) (i : nat)        (* bundle_new_hierarchy_edit_{grant,prohibition} (plain.rs:221,243) *)
| OpBundleWith (i j : nat)             (* bundle_hierarchy_edit_{grant,prohibition} (plain.rs:270,300) *)
| OpPlain (i : nat)                    (* plain() (hot.rs:159) *)
| OpExtract (i : nat)                  (* extract_hierarchy_edit_{grant,prohibition} (hot.rs:191) *)
| OpDowngrade (i : nat)                (* downgrade (plain.rs:182, tree.rs:459) *)
| OpUpgrade (i : nat)                  (* upgrade (plain.rs:2943, tree.rs:571) *)
| OpCreate (a : auth) (d : T) (ad : adopt_as)
| OpInterruptParent (a : auth) (d : T)
| OpInterruptChild (a : auth) (d : T)
| OpReplace (a : auth)
| OpDetach (a : auth)
| OpMove (a : auth) (ad : adopt_as) (j : nat)
| OpGet (i : nat)                      (* try_borrow_data (plain.rs:329), reading and releasing *)
| OpSet (i : nat) (d : T)              (* try_borrow_data_mut (plain.rs:372), writing and releasing *)
| OpBorrow (i : nat) (b : loan).       (* try_borrow_data, try_borrow_data_mut, keeping the [Ref] or [RefMut]; dropping it *)

Inductive out :=
| OutHandle (i : nat)
| OutNone
| OutUnit
| OutErr (e : herr)
| OutLockErr
| OutBorrowErr
| OutData (d : T)
| OutIll.   (* the call is not well-typed Rust: no such handle, or of another type *)

Definition ill s : run (sys T * out) := Ret (s, OutIll).

(** [Weak::upgrade] of a token (lock.rs:222, 306): only then is the count touched. *)
Definition clone_token s (k : kind) t (hd : handle) : run (sys T * out) :=
  if tree_alive s t then
    match lock_tree s k t with
    | None => Ret (s, OutLockErr)
    | Some s1 => Ret (add_hand s1 hd, OutHandle (s_fresh s1))
    end
  else Ret (add_hand s hd, OutHandle (s_fresh s)).

Definition drop_token s (k : kind) t (i : nat) : run (sys T) :=
  s1 ← (if tree_alive s t then unlock_tree s k t else Ret s);
  Ret (del_hand s1 i).

Definition token (k : kind) t : handle :=
  match k with Frozen => HProhib t | _ => HGrant t end.

(** [HierarchyEditGrant::new]/[HierarchyEditProhibition::new] (lock.rs:235, 330). *)
Definition new_token s (k : kind) t : run (sys T * out) :=
  match k with
  | Plain => ill s
  | _ => match lock_tree s k t with
         | None => Ret (s, OutLockErr)
         | Some s1 => Ret (add_hand s1 (token k t), OutHandle (s_fresh s1))
         end
  end.

Definition ret_hand (r : sys T * nat) : run (sys T * out) := Ret (r.1, OutHandle r.2).

Definition is_lock_kind (k : kind) : bool := match k with Plain => false | _ => true end.

(** Receiver of an edit; [panic_if_invalid_for_node] (lock.rs:371-378). *)
Definition with_auth s (a : auth) (f : kind -> nid -> run (sys T * out)) : run (sys T * out) :=
  match a with
  | ByHot i => match s_hands s !! i with Some (HNode Hot x) => f Hot x | _ => ill s end
  | ByGrant i g =>
      match s_hands s !! i, s_hands s !! g with
      | Some (HNode Plain x), Some (HGrant tg) =>
          t ← tree_core s x;
          if decide (t = tg) then f Plain x else Panic
      | _, _ => ill s
      end
  end.

Definition out_of (r : sys T * hres unit) : run (sys T * out) :=
  Ret (r.1, match r.2 with HOk _ => OutUnit | HErr e => OutErr e end).
Definition out_of_hand (r : sys T * hres nat) : run (sys T * out) :=
  Ret (r.1, match r.2 with HOk i => OutHandle i | HErr e => OutErr e end).

Definition step s (o : op) : run (sys T * out) :=
  match o with
  | OpNewTree d => ret_hand (new_tree s d)
  | OpClone i =>
      match s_hands s !! i with
      | None => ill s
      | Some (HNode k x) => r ← clone_node s k x; ret_hand r
      | Some (HGrant t) => clone_token s Hot t (HGrant t)
      | Some (HProhib t) => clone_token s Frozen t (HProhib t)
      | Some hd => Ret (add_hand s hd, OutHandle (s_fresh s))
      end
  | OpDrop i =>
      match s_hands s !! i with
      | None => ill s
      | Some (HNode k x) => s1 ← drop_node s i k x; Ret (s1, OutUnit)
      | Some (HTree t) => s1 ← drop_tree_if_dead [] [] (del_hand s i) t; Ret (s1, OutUnit)
      | Some (HGrant t) => s1 ← drop_token s Hot t i; Ret (s1, OutUnit)
      | Some (HProhib t) => s1 ← drop_token s Frozen t i; Ret (s1, OutUnit)
      | Some _ => Ret (del_hand s i, OutUnit)
      end
  | OpNav v i =>
      match s_hands s !! i with
      | Some (HNode k x) =>
          y ← nav_target s v x;
          match y with
          | None => Ret (s, OutNone)
          | Some y => r ← new_node_hand s k y; ret_hand r
          end
      | _ => ill s
      end
  | OpTree i =>
      match s_hands s !! i with
      | Some (HNode _ x) => t ← tree_core s x; Ret (add_hand s (HTree t), OutHandle (s_fresh s))
      | _ => ill s
      end
  | OpRoot i =>
      match s_hands s !! i with
      | Some (HTree t) =>
          match s_trees s !! t with
          | None => Panic
          | Some tr => r ← new_node_hand s Plain (t_root tr); ret_hand r
          end
      | _ => ill s
      end
  | OpLock k i =>
      match s_hands s !! i with
      | Some (HTree t) => new_token s k t
      | _ => ill s
      end
  | OpBundle k i =>
      match s_hands s !! i with
      | Some (HNode Plain x) =>
          if is_lock_kind k then
            r ← acquire s k x;
            match r with
            | Some s1 => Ret (add_hand (del_hand s1 i) (HNode k x), OutHandle (s_fresh s1))
            | None => s1 ← drop_node s i Plain x; Ret (s1, OutLockErr)
            end
          else ill s
      | _ => ill s
      end
  | OpBundleWith i j =>
      match s_hands s !! i, s_hands s !! j with
      | Some (HNode Plain x), Some (HGrant tj) =>
          t ← tree_core s x;
          if decide (t = tj) then
            s1 ← acquire_expect s Hot x;
            Ret (add_hand (del_hand s1 i) (HNode Hot x), OutHandle (s_fresh s1))
          else Panic
      | Some (HNode Plain x), Some (HProhib tj) =>
          t ← tree_core s x;
          if decide (t = tj) then
            s1 ← acquire_expect s Frozen x;
            Ret (add_hand (del_hand s1 i) (HNode Frozen x), OutHandle (s_fresh s1))
          else Panic
      | _, _ => ill s
      end
  | OpPlain i =>
      match s_hands s !! i with
      | Some (HNode k x) => if is_lock_kind k then r ← clone_node s Plain x; ret_hand r else ill s
      | _ => ill s
      end
  | OpExtract i =>
      match s_hands s !! i with
      | Some (HNode k x) =>
          if is_lock_kind k then
            t ← tree_core s x;
            '(s1, o1) ← new_token s k t;
            match o1 with OutLockErr => Panic | _ => Ret (s1, o1) end
          else ill s
      | _ => ill s
      end
  | OpDowngrade i =>
      match s_hands s !! i with
      | Some (HNode Plain x) => Ret (add_hand s (HNodeWeak x), OutHandle (s_fresh s))
      | Some (HTree t) => Ret (add_hand s (HTreeWeak t), OutHandle (s_fresh s))
      | _ => ill s
      end
  | OpUpgrade i =>
      match s_hands s !! i with
      | Some (HNodeWeak x) =>
          if alive (s_nodes s) x then r ← new_node_hand s Plain x; ret_hand r
          else Ret (s, OutNone)
      | Some (HTreeWeak t) =>
          if tree_alive s t then Ret (add_hand s (HTree t), OutHandle (s_fresh s))
          else Ret (s, OutNone)
      | _ => ill s
      end
  | OpCreate a d ad => with_auth s a (fun k x => r ← create_node_as s k x d ad; out_of_hand r)
  | OpInterruptParent a d => with_auth s a (fun k x => r ← create_interrupting_parent s k x d; ret_hand r)
  | OpInterruptChild a d => with_auth s a (fun k x => r ← create_interrupting_child s k x d; ret_hand r)
  | OpReplace a => with_auth s a (fun _ x => r ← replace_node s x; out_of r)
  | OpDetach a => with_auth s a (fun _ x => s1 ← detach_subtree s x; Ret (s1, OutUnit))
  | OpMove a ad j =>
      match s_hands s !! j with
      | Some (HNode Hot y) => with_auth s a (fun _ x => r ← move_subtree s x ad y; out_of r)
      | _ => ill s
      end
  | OpGet i =>
      match s_hands s !! i with
      | Some (HNode _ x) =>
          match s_nodes s !! x with
          | Some nd => Ret (s, if n_mut nd then OutBorrowErr else OutData (n_data nd))
          | None => Panic
          end
      | _ => ill s
      end
  | OpSet i d =>
      match s_hands s !! i with
      | Some (HNode _ x) =>
          match s_nodes s !! x with
          | Some nd => if negb (n_free nd) then Ret (s, OutBorrowErr)
                       else Ret (with_nodes s (set_data (s_nodes s) x d), OutUnit)
          | None => Panic
          end
      | _ => ill s
      end
  | OpBorrow i b =>
      match s_hands s !! i with
      | Some (HNode _ x) =>
          match s_nodes s !! x with
          | Some nd => match lend b (n_lend nd) with
                       | None => Ret (s, OutBorrowErr)
                       | Some l => Ret (with_nodes s (set_lend (s_nodes s) x l), OutUnit)
                       end
          | None => Panic
          end
      | _ => ill s
      end
  end.

(** Running a sequence of calls. *)
Fixpoint steps s (os : list op) : run (sys T * list out) :=
  match os with
  | [] => Ret (s, [])
  | o :: os' =>
      '(s1, r) ← step s o;
      '(s2, rs) ← steps s1 os';
      Ret (s2, r :: rs)
  end.

End System.
Arguments op : clear implicits.
Arguments out : clear implicits.
