(** * Api: the public methods that wrap others - queries through handles, the
    panicking variants of the fallible methods, and methods giving two handles.
    No proofs here.  As everywhere, counters do not overflow. *)
From Verif Require Import Traverse Serial.
From Verif Require Export System.

Section Api.
Context {T : Type}.
Implicit Types (s : sys T).

(** ** Queries *)

(** A question put to the node handle [i]; [QBelongsTo j], [QValid j] take a tree handle and a token,
    the others a node handle. *)
Inductive query :=
  | QIsRoot | QHasPrevSibling | QHasNextSibling | QHasChildren | QNumChildren | QHasOneChild | QHasMultipleChildren
  | QCountChildren | QCountPreceding | QCountFollowing | QCountAncestors
  | QPtrEq (j : nat) | QBelongsTo (j : nat) | QSameTree (j : nat) | QValid (j : nat).

Inductive answer := AnsBool (b : bool) | AnsNum (n : nat) | AnsIll.

(** The tree core as seen through a handle: [NodeCoreLink::tree_core] (internal.rs:102) for a plain
    node (plain.rs:525-529), [NodeLink::tree_core] (internal.rs:680) for the others (hot.rs:143, frozen.rs:146). *)
Definition handle_core s (k : kind) (x : nid) : run tid :=
  match k with Plain => tree_core s x | _ => link_tree_core s x end.

(** [is_root] (plain.rs:522-533, hot.rs:361-368, frozen.rs:366-373), with its [debug_assert_eq!]. *)
Definition ask_is_root s (k : kind) (x : nid) : run bool :=
  t ← handle_core s k x;
  match s_trees s !! t with
  | None => Panic
  | Some tr =>
      if Bool.eqb (is_root (s_nodes s) x) (bool_decide (t_root tr = x)) then Ret (is_root (s_nodes s) x) else Panic
  end.

(** [count_children]: plain.rs:1056 reads the counter, hot.rs:623 and frozen.rs:624 count. *)
Definition ask_count_children s (k : kind) (x : nid) : run nat :=
  match k with Plain => Ret (fnch (s_nodes s) x) | _ => count_children (s_nodes s) x end.

(** The types [ptr_eq] (plain.rs:417, hot.rs:303, frozen.rs:324) and [HotNode::ptr_eq_plain] (hot.rs:319)
    compare. *)
Definition comparable (k k' : kind) : bool :=
  match k, k' with
  | Plain, Plain | Hot, Hot | Frozen, Frozen | Hot, Plain => true
  | _, _ => false
  end.
Definition same_kind (k k' : kind) : bool :=
  match k, k' with Plain, Plain | Hot, Hot | Frozen, Frozen => true | _, _ => false end.

(** Each line: plain.rs, hot.rs, frozen.rs.
    - [has_prev_sibling] 859, 556, 557; [has_next_sibling] 885, 565, 566;
    - [has_children] 953, 574, 575; [num_children] 923, 585, 586;
    - [has_one_child] 987, 598, 599; [has_multiple_children] 1021, 611, 612;
    - [count_preceding_siblings] 1090, 634, 635; [count_following_siblings] 1124, 645, 646;
    - [count_ancestors] 1155, 656, 657;
    - [belongs_to] 472, 391, 394; [belongs_to_same_tree] 499, 416, 416;
    - [is_valid_for_node] of a token (lock.rs:273, 368). *)
Definition ask s (i : nat) (q : query) : run answer :=
  match s_hands s !! i with
  | Some (HNode k x) =>
      let h := s_nodes s in
      match q with
      | QIsRoot => b ← ask_is_root s k x; Ret (AnsBool b)
      | QHasPrevSibling => b ← has_prev_sibling h x; Ret (AnsBool b)
      | QHasNextSibling => Ret (AnsBool (has_next_sibling h x))
      | QHasChildren => Ret (AnsBool (has_children h x))
      | QNumChildren => Ret (AnsNum (fnch h x))
      | QHasOneChild => Ret (AnsBool (has_one_child h x))
      | QHasMultipleChildren => Ret (AnsBool (has_multiple_children h x))
      | QCountChildren => n ← ask_count_children s k x; Ret (AnsNum n)
      | QCountPreceding => n ← count_preceding_siblings h x; Ret (AnsNum n)
      | QCountFollowing => n ← count_following_siblings h x; Ret (AnsNum n)
      | QCountAncestors => n ← count_ancestors h x; Ret (AnsNum n)
      | QPtrEq j =>
          match s_hands s !! j with
          | Some (HNode k' y) => if comparable k k' then Ret (AnsBool (bool_decide (x = y))) else Ret AnsIll
          | _ => Ret AnsIll
          end
      | QBelongsTo j =>
          match s_hands s !! j with
          | Some (HTree t) => b ← belongs_to s x t; Ret (AnsBool b)
          | _ => Ret AnsIll
          end
      | QSameTree j =>
          match s_hands s !! j with
          | Some (HNode k' y) => if same_kind k k' then b ← belongs_to_same_tree s i x j y; Ret (AnsBool b) else Ret AnsIll
          | _ => Ret AnsIll
          end
      | QValid j =>
          match k, s_hands s !! j with
          | Plain, Some (HGrant t) | Plain, Some (HProhib t) => b ← valid_for_node s t x; Ret (AnsBool b)
          | _, _ => Ret AnsIll
          end
      end
  | _ => Ret AnsIll
  end.

(** [Tree::ptr_eq] (tree.rs:294). *)
Definition tree_ptr_eq s (i j : nat) : answer :=
  match s_hands s !! i, s_hands s !! j with
  | Some (HTree t), Some (HTree u) => AnsBool (bool_decide (t = u))
  | _, _ => AnsIll
  end.

(** ** Two handles at once *)

(** The two handles of [first_last_sibling], [first_last_child]: one after the other, of the kind of the
    receiver ([with_node_core] plain.rs:161, [from_node_link_with_grant] hot.rs:117,
    [from_node_link_with_prohibition] frozen.rs:119). *)
Definition two_hands s (k : kind) (y z : nid) : run (sys T * option (nat * nat)) :=
  '(s1, j1) ← new_node_hand s k y;
  '(s2, j2) ← new_node_hand s1 k z;
  Ret (s2, Some (j1, j2)).

(** [first_last_sibling] (plain.rs:735, hot.rs:504, frozen.rs:505); on a root, two clones of the handle
    (plain.rs:747, hot.rs:516, frozen.rs:517). *)
Definition step_first_last_sibling s (i : nat) : run (sys T * option (nat * nat)) :=
  match s_hands s !! i with
  | Some (HNode k x) =>
      match parent_link (s_nodes s) x with
      | Some _ => '(y, z) ← first_last_sibling (s_nodes s) x; two_hands s k y z
      | None =>
          '(s1, j1) ← clone_node s k x;
          '(s2, j2) ← clone_node s1 k x;
          Ret (s2, Some (j1, j2))
      end
  | _ => Ret (s, None)
  end.

(** [first_last_child] (plain.rs:829, hot.rs:543, frozen.rs:544). *)
Definition step_first_last_child s (i : nat) : run (sys T * option (nat * nat)) :=
  match s_hands s !! i with
  | Some (HNode k x) =>
      fl ← first_last_child_link (s_nodes s) x;
      match fl with
      | Some (y, z) => two_hands s k y z
      | None => Ret (s, None)
      end
  | _ => Ret (s, None)
  end.

(** [From<HotNode<T>> for Node<T>] (hot.rs:173), [From<FrozenNode<T>> for Node<T>] (frozen.rs:172):
    a plain handle is made ([plain], hot.rs:159, frozen.rs:165), then the argument is dropped. *)
Definition step_into_plain s (i : nat) : run (sys T * out T) :=
  '(s1, r) ← step s (OpPlain i);
  match r with
  | OutHandle j => '(s2, _) ← step s1 (OpDrop i); Ret (s2, OutHandle j)
  | _ => Ret (s1, r)
  end.

(** [HotNode::new_tree] (hot.rs:784): [bundle_new_hierarchy_edit_grant] of a new tree, [expect]ed. *)
Definition step_new_hot_tree s (d : T) : run (sys T * out T) :=
  '(s1, r) ← step s (OpNewTree d);
  match r with
  | OutHandle i =>
      '(s2, r2) ← step s1 (OpBundle Hot i);
      match r2 with OutHandle _ => Ret (s2, r2) | _ => Panic end
  | _ => Ret (s1, r)
  end.

(** ** Panicking variants *)

(** [Result::expect] on the result of a call. *)
Definition expect (r : run (sys T * out T)) : run (sys T * out T) :=
  '(s', o) ← r;
  match o with OutErr _ | OutLockErr | OutBorrowErr => Panic | _ => Ret (s', o) end.

(** The calls whose [Err] is turned into a panic:
    - [create_node_as] (plain.rs:1847, hot.rs:817), [create_as_prev_sibling] (plain.rs:1991, hot.rs:870),
      [create_as_next_sibling] (plain.rs:2055, hot.rs:898); the two [create_as_first_child], [create_as_last_child]
      (plain.rs:1885, 1924, hot.rs:826, 839) have no [Err];
    - [replace_with_children] (plain.rs:2317, hot.rs:1029);
    - [detach_insert_subtree] (plain.rs:2633, hot.rs:1164);
    - [borrow_data] (plain.rs:349, hot.rs:238, frozen.rs:250), with the [Ref] read and dropped at once
      ([PRead]) or kept ([PBorrow]);
    - [borrow_data_mut] (plain.rs:393, hot.rs:279, frozen.rs:296), with the [RefMut] written and dropped at once
      ([PWrite]) or kept ([PBorrowMut]);
    - [Clone::clone] of a grant (lock.rs:319). *)
Inductive pcall :=
  | PCreate (a : auth) (d : T) (ad : adopt_as)
  | PReplace (a : auth)
  | PMove (a : auth) (ad : adopt_as) (j : nat)
  | PRead (i : nat)
  | PWrite (i : nat) (d : T)
  | PBorrow (i : nat)
  | PBorrowMut (i : nat)
  | PCloneToken (i : nat).

(** The fallible call each of them is made of. *)
Definition try_of (c : pcall) : op T :=
  match c with
  | PCreate a d ad => OpCreate a d ad
  | PReplace a => OpReplace a
  | PMove a ad j => OpMove a ad j
  | PRead i => OpGet i
  | PWrite i d => OpSet i d
  | PBorrow i => OpBorrow i TakeRef
  | PBorrowMut i => OpBorrow i TakeMut
  | PCloneToken i => OpClone i
  end.
Definition pstep s (c : pcall) : run (sys T * out T) := expect (step s (try_of c)).

(** [clone_subtree] (plain.rs:2398, hot.rs:1060, frozen.rs:1156) of the node [x], [clone_tree] (tree.rs:421) of
    the tree with root [x], [clone_insert_subtree] (plain.rs:2514, hot.rs:1112). *)
Definition expect_some (r : run (sys T * option nat)) : run (sys T * nat) :=
  '(s', o) ← r; match o with Some i => Ret (s', i) | None => Panic end.
Definition expect_hres (r : run (sys T * hres nat)) : run (sys T * nat) :=
  '(s', o) ← r; match o with HOk i => Ret (s', i) | HErr _ => Panic end.
Definition pclone_subtree s x := expect_some (clone_subtree s x).
Definition pclone_tree s x := expect_some (clone_tree s x).
Definition pclone_insert_subtree fuel s x ad j := expect_hres (clone_insert_subtree fuel s x ad j).
End Api.
