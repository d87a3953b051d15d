(** * AsideSpec: a tree a call has nothing to do with (C26, C36). *)
From Verif Require Import Heap System SysSpec Spec.

Section AsideSpec.
Context {T : Type}.
Implicit Types (h : heap T) (s u : sys T) (v : tid) (y : nid).

(** All neighbour links of the node [y] and its number of children are what they were. *)
Definition same_links h h' y : Prop :=
  fparent h' y = fparent h y /\ ffirst h' y = ffirst h y /\ fnext h' y = fnext h y /\ fprev h' y = fprev h y /\ fnch h' y = fnch h y.
(** Between [s] and [u] the nodes of the tree [v] that are still allocated kept all their links and are still in it; no node has come in; and as long as
    some handle keeps the tree, none has been deallocated. *)
Definition aside s v u : Prop :=
  (forall y, tree_of s y = Some v -> is_Some (s_nodes u !! y) -> same_links (s_nodes s) (s_nodes u) y /\ tree_of u y = Some v) /\
  (forall y, tree_of u y = Some v -> tree_of s y = Some v) /\
  (tree_held u (s_hands u) v -> forall y, tree_of s y = Some v -> is_Some (s_nodes u !! y)).
End AsideSpec.
