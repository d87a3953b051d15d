(** * GraftSpec: what giving a whole tree to another tree does. *)
From Verif Require Import Heap System SysSpec ApiSpec Spec.

Section GraftSpec.
Context {T : Type}.
Implicit Types (s : sys T) (K : forest).

(** Every node of the tree with root [x] now belongs to the tree [t']; nothing else is said
    about the links.  No tree disappears and each keeps the root it had: in particular the tree [x] came from still
    names [x]. *)
Record hands_over s K (x : nid) (t' : tid) s' : Prop := {
  ho_hands : s_hands s' = s_hands s;
  ho_in : forall y, below K x y -> tree_of s' y = Some t';
  ho_out : forall y, ~ below K x y -> tree_of s' y = tree_of s y;
  ho_payload : forall y, payload s' y = payload s y;
  ho_roots : forall u : tid, t_root <$> s_trees s' !! u = t_root <$> s_trees s !! u;
}.

(** The user has a handle on [y]. *)
Definition held_node s (y : nid) : Prop := exists i k, s_hands s !! i = Some (HNode k y).

(** The forest [K] after the tree with root [x] fell apart: the nodes of it with a handle are single nodes, the others are gone. *)
Definition falls_apart s K (x : nid) (K2 : forest) : Prop := forall y,
  (~ below K x y -> K2 !! y = K !! y) /\
  (below K x y -> held_node s y -> K2 !! y = Some []) /\
  (below K x y -> ~ held_node s y -> K2 !! y = None).

(** After a move of the whole tree [t] with root [x], that no [Tree] handle kept, into the tree [t']: its tree core is gone, and with it every node
    without a handle.  The others belong to [t'] and have lost their children and following siblings.  All nodes outside, and [x],
    are linked as in the forest [K3], except that [x] still counts its old children; the other nodes with handles keep
    their parent, previous sibling and number of children. *)
Record strands s K (x : nid) (t t' : tid) K3 s' : Prop := {
  st_hands : s_hands s' = s_hands s;
  st_old : s_trees s' !! t = None;
  st_roots : forall u : tid, u <> t -> t_root <$> s_trees s' !! u = t_root <$> s_trees s !! u;
  st_alive : forall y : nid, is_Some (s_nodes s' !! y) <-> is_Some (K3 !! y);
  st_payload : forall y : nid, is_Some (K3 !! y) -> payload s' y = payload s y;
  st_in : forall y : nid, below K x y -> held_node s y -> tree_of s' y = Some t';
  st_out : forall y : nid, ~ below K x y -> tree_of s' y = tree_of s y;
  st_links : exists h, rep h K3 /\
    (forall y : nid, ~ below K x y -> s_nodes s' !! y = h !! y) /\
    (fparent (s_nodes s') x = fparent h x /\ ffirst (s_nodes s') x = ffirst h x /\ fnext (s_nodes s') x = fnext h x /\ fprev (s_nodes s') x = fprev h x);
  st_stale : fnch (s_nodes s') x = fnch (s_nodes s) x;
  st_stranded : forall y : nid, below K x y -> y <> x -> held_node s y ->
    ffirst (s_nodes s') y = None /\ fnext (s_nodes s') y = None /\
    fparent (s_nodes s') y = fparent (s_nodes s) y /\ fprev (s_nodes s') y = fprev (s_nodes s) y /\ fnch (s_nodes s') y = fnch (s_nodes s) y;
}.
End GraftSpec.
