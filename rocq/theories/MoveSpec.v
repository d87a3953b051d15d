(** * MoveSpec: what a misdirected move does. *)
From Verif Require Import Heap System SysSpec ApiSpec MisledSpec Spec.

Section MoveSpec.
Context {T : Type}.
Implicit Types (s g : sys T) (K : forest).

(** Only the neighbour links change, to those of the child lists [K'] (of which nothing else is said:
    unlike in [reshapes] there may be a node below itself). *)
Record relinks s s' K' : Prop := {
  rl_rep : rep (s_nodes s') K';
  rl_hands : s_hands s' = s_hands s;
  rl_payload : forall y, payload s' y = payload s y;
  rl_tree : forall y, tree_of s' y = tree_of s y;
  rl_trees : s_trees s' = s_trees s;
}.

(** [x] was cut off from the forest [K]: [g], except that if [x] was the last of several
    siblings the previous-sibling link of the first of them names [x]. *)
Record cut_off K x g s' : Prop := {
  co_sound : ~ last_not_first K x -> s' = g;
  co_misled : forall p f m, K !! p = Some (f :: m ++ [x]) -> misled g f x s';
}.

(** There is no place for [x] at [ad] relative to [y] once [x] has been cut off. *)
Definition no_place K x (ad : adopt_as) y : Prop :=
  (ad = APreviousSibling \/ ad = ANextSibling) /\ (y = x \/ is_top K y).

(** A move of [x] to [ad] relative to [y] is refused: there is no place - except that nothing is looked at if [x] is a root
    and [y] is in its tree. *)
Definition refused_move s K x (ad : adopt_as) y : Prop := no_place K x ad y /\ ~ (is_top K x /\ tree_of s x = tree_of s y).

(** [s'] is the state [g], in which [x] is the root of a tree and [f] the first child of [p],
    except that: [p] counts one child more; the previous sibling of [f] is [x]; the parent of [x] is [p] and
    its next sibling [x] itself. *)
Record dangles g (p f x : nid) s' : Prop := {
  dg_trees : s_trees s' = s_trees g;
  dg_hands : s_hands s' = s_hands g;
  dg_fresh : s_fresh s' = s_fresh g;
  dg_rest : forall y, y <> p -> y <> f -> y <> x -> s_nodes s' !! y = s_nodes g !! y;
  dg_parent : s_nodes s' !! p =
    (fun nd => mkNode (n_data nd) (n_lend nd) (n_parent nd) (n_first nd) (n_next nd) (n_prev nd) (S (n_nch nd)) (n_mem nd)) <$> s_nodes g !! p;
  dg_first : s_nodes s' !! f =
    (fun nd => mkNode (n_data nd) (n_lend nd) (n_parent nd) (n_first nd) (n_next nd) (Some x) (n_nch nd) (n_mem nd)) <$> s_nodes g !! f;
  dg_node : s_nodes s' !! x =
    (fun nd => mkNode (n_data nd) (n_lend nd) (Some p) (n_first nd) (Some x) (Some x) (n_nch nd) (n_mem nd)) <$> s_nodes g !! x;
}.
End MoveSpec.
