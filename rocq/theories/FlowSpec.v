(** * FlowSpec: nodes with locks that change tree (C25). *)
From Verif Require Import Heap System SysSpec Spec.

Section FlowSpec.
Context {T : Type}.
Implicit Types (s u : sys T) (k : kind) (t : tid) (y : nid).
(** The node [y] has a handle of kind [k] and came into the tree [t] between [s] and [u]. *)
Definition joins s u k t y : Prop := (exists i, s_hands u !! i = Some (HNode k y)) /\ tree_of u y = Some t /\ tree_of s y <> Some t.
End FlowSpec.
