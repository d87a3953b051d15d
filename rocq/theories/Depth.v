(** * Depth: the same program on a bounded call stack.

    [step_upto n] is [step] (System.v) where the destructors of nodes may be nested at
    most [n] deep: freeing a node drops its [first_child] and [next_sibling] fields
    (drop glue of [Rc<NodeCore>], internal.rs:14-56), which may free another node, and
    so on; a call that needs more than [n] nested destructors overflows the stack,
    reported as [NoFuel].  [TreeCore::drop] (tree.rs:83-116) is there to prevent that:
    "This drop prevents stack overflow on drop of very wide or very deep tree".

    Every definition repeats the one of System.v with the same name and without
    [_upto]; only [release_upto] differs.  Calls that free nothing are [step]. *)
From Verif Require Export System.

Section Depth.
Context {T : Type}.
Implicit Types (s : sys T) (x y : nid) (t : tid) (n : nat).

(** [release_all] (System.v; internal.rs:14-56) with at most [n] nested destructors. *)
Definition release_upto n s (pins : list nid) x : run (sys T) :=
  release (Nat.min n (walk_fuel (s_nodes s))) pins s x.

(** [TreeCore::drop] (tree.rs:83-116). *)
Fixpoint teardown_upto n (fuel : nat) (pins : list nid) s (next : option (dft nid)) : run (sys T) :=
  match next with
  | None => Ret s
  | Some current =>
      match fuel with
      | 0 => NoFuel
      | S f =>
          let next := dft_next (s_nodes s) current in
          match current with
          | Open _ => teardown_upto n f pins s next
          | Close v =>
              s1 ← match parent_link (s_nodes s) v with
                   | Some p =>
                       let next_sibling := fnext (s_nodes s) v in
                       let h1 := set_next (s_nodes s) v None in
                       let old_first := ffirst h1 p in
                       let h2 := set_first h1 p next_sibling in
                       match old_first with
                       | Some o => release_upto n (with_nodes s h2) (v :: p :: ev_pin next ++ pins) o
                       | None => Ret (with_nodes s h2)
                       end
                   | None => Ret s
                   end;
              s2 ← release_upto n s1 (ev_pin next ++ pins) v;
              teardown_upto n f pins s2 next
          end
      end
  end.

(** Drop glue of [Rc<TreeCore>] (tree.rs:83-116). *)
Definition drop_tree_upto n (pins : list nid) (tpins : list tid) s t : run (sys T) :=
  match s_trees s !! t with
  | None => Ret s
  | Some tr =>
      if tree_referenced s tpins t then Ret s
      else
        s1 ← teardown_upto n (dfs_fuel (s_nodes s)) pins s (Some (Open (t_root tr)));
        let s2 := with_trees s1 (delete t (s_trees s1)) in
        release_upto n s2 pins (t_root tr)
  end.

(** [decrement_tree_refcount] (membership.rs:208-239). *)
Definition decr_ref_upto n s x : run (sys T) :=
  match n_memb s x with
  | Some (MStrong t (S (S rc)) lk) => Ret (put_mem s x (MStrong t (S rc) lk))
  | Some (MStrong t 1 lk) =>
      _ ← assertb (Nat.eqb lk 0);
      drop_tree_upto n [x] [] (put_mem s x (MWeak (Some t))) t
  | _ => Panic
  end.

(** Dropping a [Node] (internal.rs:589), a [HotNode] or a [FrozenNode] (hot.rs:26,
    frozen.rs:30). *)
Definition drop_link_upto n s (i : nat) x : run (sys T) :=
  s1 ← decr_ref_upto n (del_hand s i) x;
  release_upto n s1 [] x.
Definition drop_node_upto n s (i : nat) (k : kind) x : run (sys T) :=
  s1 ← match k with Plain => Ret s | _ => decr_lock s x end;
  drop_link_upto n s1 i x.

(** [try_create_node_as] (edit.rs:401-516). *)
Definition create_node_upto n s (k : kind) x (d : T) (ad : adopt_as) : run (sys T * hres nat) :=
  t ← tree_core s x;
  '(s1, m, i) ← new_orphan s d t;
  '(h', r) ← insert_orphan (s_nodes s1) m true (dest_of ad x);
  let s2 := with_nodes s1 h' in
  match (r : hres unit) with
  | HErr e => s3 ← drop_node_upto n s2 i Plain m; Ret (s3, HErr e)
  | HOk _ => s3 ← upgrade_new s2 i m k; Ret (s3, HOk i)
  end.

(** [MembershipRef::set_tree_core] (membership.rs:248-268). *)
Definition set_tree_core_upto n s (pins : list nid) (tpins : list tid) x t' : run (option (sys T)) :=
  match n_memb s x with
  | Some (MWeak _) => Ret (Some (put_mem s x (MWeak (Some t'))))
  | Some (MStrong t rc lk) =>
      match (if Nat.eqb lk 0 then Some s else transfer_lock s t t') with
      | None => Ret None
      | Some s1 =>
          s2 ← drop_tree_upto n pins tpins (put_mem s1 x (MStrong t' rc lk)) t;
          Ret (Some s2)
      end
  | None => Panic
  end.

(** [set_memberships_of_descendants_and_self] (edit.rs:381-391). *)
Fixpoint set_memberships_upto n (fuel : nat) s (tpins : list tid) (st : dfs_state) t' : run (option (sys T)) :=
  '(ev, st') ← link_dfs_next (s_nodes s) st;
  match ev with
  | None => Ret (Some s)
  | Some e =>
      match fuel with
      | 0 => NoFuel
      | S f =>
          let held := ev_pin (option_map fst st') in
          r ← match e with
              | Open y => set_tree_core_upto n s (y :: held) tpins y t'
              | Close _ => Ret (Some s)
              end;
          match r with
          | None => Ret None
          | Some s1 =>
              s2 ← release_upto n s1 held (ev_val e);
              set_memberships_upto n f s2 tpins st' t'
          end
      end
  end.

Definition set_subtree_upto n s (tpins : list tid) x t' : run (option (sys T)) :=
  set_memberships_upto n (dfs_fuel (s_nodes s)) s (t' :: tpins) (Some (Open x, x)) t'.

(** (edit.rs:120-124 and 738-741) *)
Definition create_new_tree_upto n s (tpins : list tid) x : run (sys T) :=
  let t' := s_fresh s in
  let s1 := with_fresh (with_trees s (<[t' := mkTree x 0]> (s_trees s))) (S t') in
  r ← set_subtree_upto n s1 tpins x t';
  match r with Some s2 => Ret s2 | None => Panic end.

(** [detach_subtree] (edit.rs:325-334). *)
Definition detach_upto n s x : run (sys T) :=
  if is_root (s_nodes s) x then Ret s
  else
    '(h', _) ← new_by_unlink (s_nodes s) x;
    create_new_tree_upto n (with_nodes s h') [] x.

(** [try_replace_with_children] (edit.rs:619-743). *)
Definition replace_upto n s x : run (sys T * hres unit) :=
  t ← tree_core s x;
  '(h', r) ← replace_with_children (s_nodes s) x;
  let s1 := with_nodes s h' in
  match (r : hres (option nid)) with
  | HErr e => Ret (s1, HErr e)
  | HOk o =>
      let s2 := match o with Some c => put_root s1 t c | None => s1 end in
      s3 ← create_new_tree_upto n s2 [t] x;
      s4 ← drop_tree_upto n [] [] s3 t;
      Ret (s4, HOk tt)
  end.

(** [detach_and_move_to_another_tree] (edit.rs:363-373). *)
Definition move_other_upto n s x (dest : insert_as) t' : run (sys T * hres unit) :=
  '(h1, is_new) ← new_by_unlink (s_nodes s) x;
  r ← set_subtree_upto n (with_nodes s h1) [] x t';
  match r with
  | None => Panic
  | Some s2 =>
      '(h3, r3) ← insert_orphan (s_nodes s2) x is_new dest;
      Ret (with_nodes s2 h3, r3)
  end.

(** [try_detach_insert_subtree] (hot.rs:1132-1149, plain.rs:2598-2617). *)
Definition move_upto n s x (ad : adopt_as) y : run (sys T * hres unit) :=
  t ← link_tree_core s x;
  t' ← link_tree_core s y;
  if decide (t = t') then
    '(h', r) ← move_inside_same_tree (s_nodes s) x (dest_of ad y);
    Ret (with_nodes s h', r)
  else move_other_upto n s x (dest_of ad y) t'.

(** One call of the API. *)
Definition step_upto n s (o : op T) : run (sys T * out T) :=
  match o with
  | OpDrop i =>
      match s_hands s !! i with
      | None => ill s
      | Some (HNode k x) => s1 ← drop_node_upto n s i k x; Ret (s1, OutUnit)
      | Some (HTree t) => s1 ← drop_tree_upto n [] [] (del_hand s i) t; Ret (s1, OutUnit)
      | Some (HGrant t) => s1 ← drop_token s Hot t i; Ret (s1, OutUnit)
      | Some (HProhib t) => s1 ← drop_token s Frozen t i; Ret (s1, OutUnit)
      | Some _ => Ret (del_hand s i, OutUnit)
      end
  | OpBundle k i =>
      match s_hands s !! i with
      | Some (HNode Plain x) =>
          if is_lock_kind k then
            r ← acquire s k x;
            match r with
            | Some s1 => Ret (add_hand (del_hand s1 i) (HNode k x), OutHandle (s_fresh s1))
            | None => s1 ← drop_node_upto n s i Plain x; Ret (s1, OutLockErr)
            end
          else ill s
      | _ => ill s
      end
  | OpCreate a d ad => with_auth s a (fun k x => r ← create_node_upto n s k x d ad; out_of_hand r)
  | OpReplace a => with_auth s a (fun _ x => r ← replace_upto n s x; out_of r)
  | OpDetach a => with_auth s a (fun _ x => s1 ← detach_upto n s x; Ret (s1, OutUnit))
  | OpMove a ad j =>
      match s_hands s !! j with
      | Some (HNode Hot y) => with_auth s a (fun _ x => r ← move_upto n s x ad y; out_of r)
      | _ => ill s
      end
  | _ => step s o
  end.

End Depth.
