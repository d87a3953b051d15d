(** * UndoSpec: what it means for an edit to be undone.

    A node that was added to a tree and taken out again is left alone in a tree of its
    own, and everything else is as it was; a node that was moved away and back leaves no
    trace at all. *)
From Verif Require Export ApiSpec Spec.

Section UndoSpec.
Context {T : Type}.
Implicit Types (s : sys T) (K : forest) (x : nid) (t : tid).

(** [s'] is [s] plus one node [n] with data [d], alone in the new tree [t'], on which the
    user has the handle [i] of kind [k]. *)
Record set_apart s K (n : nid) (d : T) (k : kind) (i : nat) t' s' : Prop := {
  sa_new : s_nodes s !! n = None;
  sa_fresh : s_hands s !! i = None;
  sa_new_tree : s_trees s !! t' = None;
  sa_stores : stores s' (<[n := []]> K);
  sa_hands : s_hands s' = <[i := HNode k n]> (s_hands s);
  sa_data : payload s' n = Some (d, Lent 0);
  sa_tree : tree_of s' n = Some t';
  sa_root : t_root <$> s_trees s' !! t' = Some n;
  sa_payload_other : forall y, y <> n -> payload s' y = payload s y;
  sa_tree_other : forall y, y <> n -> tree_of s' y = tree_of s y;
  sa_trees : forall u : tid, u <> t' -> t_root <$> s_trees s' !! u = t_root <$> s_trees s !! u;
}.

(** Among the children of its parent, [x] is at the place [ad] relative to [y]. *)
Definition at_place K x (ad : adopt_as) (y : nid) : Prop :=
  match ad with
  | AFirstChild => exists l, K !! y = Some (x :: l)
  | ALastChild => exists l, K !! y = Some (l ++ [x])
  | APreviousSibling => exists p l1 l2, K !! p = Some (l1 ++ x :: y :: l2)
  | ANextSibling => exists p l1 l2, K !! p = Some (l1 ++ y :: x :: l2)
  end.

End UndoSpec.
