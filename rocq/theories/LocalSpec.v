(** * LocalSpec: calls documented to take constant time (C57).

    plain.rs:891, 1617, 2526, 2620, hot.rs:580, 1126, 1151, edit.rs:355: "This is O(1)
    operation if the destination is inside the same tree".  The model has no clock.  What
    it can say is which nodes a call depends on and which it changes: a call that takes
    constant time touches a bounded number of them, in trees of any size. *)
From Verif Require Import Heap Edit Traverse System Api.

Section Local.
Context {T : Type}.

(** The two states are the same except possibly at nodes that are not in [l]. *)
Definition same_on (l : list nid) (s1 s2 : sys T) : Prop :=
  s_trees s1 = s_trees s2 /\ s_hands s1 = s_hands s2 /\ s_fresh s1 = s_fresh s2 /\
  forall x, x ∈ l -> s_nodes s1 !! x = s_nodes s2 !! x.
(** Only nodes in [l] were changed (created, deallocated). *)
Definition only_on (l : list nid) (s s' : sys T) : Prop :=
  forall x, x ∉ l -> s_nodes s' !! x = s_nodes s !! x.
(** At most [k] nodes matter to the call and at most those are changed by it: in any
    other state that is the same on them, the call does exactly the same to them and gives the
    same answer (or panics as it does here). *)
Definition touches (k : nat) (s : sys T) (o : op T) : Prop :=
  exists l : list nid, length l <= k /\ forall s2, same_on l s s2 ->
    match step s o, step s2 o with
    | Ret (s', r), Ret (s2', r2) => r = r2 /\ same_on l s' s2' /\ only_on l s s' /\ only_on l s2 s2'
    | Panic, Panic | NoFuel, NoFuel => True
    | _, _ => False
    end.

(** The node that a [Node] or [HotNode] handle refers to. *)
Definition on_node (s : sys T) (i : nat) (x : nid) : Prop := exists k, s_hands s !! i = Some (HNode k x).
Definition in_tree (s : sys T) (x : nid) (t : tid) : Prop :=
  exists nd rc lk, s_nodes s !! x = Some nd /\ n_mem nd = MStrong t rc lk.
Definition receiver (a : auth) : nat := match a with ByHot i => i | ByGrant i _ => i end.

(** The calls of constant cost: not those that visit a subtree or all children, or that
    may deallocate (dropping handles). *)
Definition brief (s : sys T) (o : op T) : Prop :=
  match o with
  | OpDrop _ | OpReplace _ | OpDetach _ | OpInterruptChild _ _ => False
  | OpCreate _ _ _ | OpBundle _ _ => exists s' j, step s o = Ret (s', OutHandle j)
  | OpMove a ad j => exists x y t, on_node s (receiver a) x /\ on_node s j y /\ in_tree s x t /\ in_tree s y t
  | _ => True
  end.
End Local.

(** The questions of constant cost: those that do not count by walking. *)
Definition quick (q : query) : Prop :=
  match q with QCountChildren | QCountPreceding | QCountFollowing | QCountAncestors => False | _ => True end.
