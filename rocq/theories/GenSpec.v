(** * GenSpec: unrestricted histories.

    The links of the real code can become inconsistent (see the [_refuted]
    theorems).  Whatever the links are, something still holds: here are the
    states to which every successful call leads, and in addition every arbitrary
    change of links.  No proofs here. *)
From Verif Require Export ApiSpec.

Section GenSpec.
Context {T : Type}.
Implicit Types (s : sys T).

(** The neighbour links of the nodes and the root fields of the trees change
    arbitrarily, and any nodes without a handle are deallocated; nothing else
    happens. *)
Record scrambled s s' : Prop := {
  sc_hands : s_hands s' = s_hands s;
  sc_fresh : s_fresh s' = s_fresh s;
  sc_trees : forall t : tid, t_cnt <$> s_trees s' !! t = t_cnt <$> s_trees s !! t;
  sc_nodes : forall y : nid, is_Some (s_nodes s' !! y) -> fmeta (s_nodes s') y = fmeta (s_nodes s) y;
  sc_kept : forall (y : nid) i k, s_hands s !! i = Some (HNode k y) -> is_Some (s_nodes s' !! y);
}.

(** The states after any history of calls that returned (did not panic), with any
    corruption of the links between the calls. *)
Inductive any : sys T -> Prop :=
| any_init : any init
| any_step s o s' r : any s -> step s o = Ret (s', r) -> any s'
| any_scrambled s s' : any s -> scrambled s s' -> any s'.

(** Whatever existed before and still exists has the same data and borrow state;
    identities are not used again. *)
Record evolves s s' : Prop := {
  ev_fresh : s_fresh s <= s_fresh s';
  ev_data : forall y : nid, y < s_fresh s -> is_Some (s_nodes s' !! y) -> payload s' y = payload s y;
  ev_trees : forall t : tid, t < s_fresh s -> is_Some (s_trees s' !! t) -> is_Some (s_trees s !! t);
}.

(** How the handles of the user change: none, one more, one less. *)
Definition hands_after s (o : op T) s' (r : out T) : Prop :=
  match o, r with
  | OpDrop i, OutUnit => s_hands s' = delete i (s_hands s)
  | OpBundle _ i, OutHandle j | OpBundleWith i _, OutHandle j =>
      s_hands s !! j = None /\ exists hd, s_hands s' = <[j := hd]> (delete i (s_hands s))
  | OpBundle _ i, OutLockErr => s_hands s' = delete i (s_hands s)
  | _, OutHandle j => s_hands s !! j = None /\ exists hd, s_hands s' = <[j := hd]> (s_hands s)
  | _, _ => s_hands s' = s_hands s
  end.

(** Only handles, reference counts and lock counts differ: every link, every datum,
    every membership and every root field is as before, whatever they are. *)
Record unmoved s s' : Prop := {
  um_links : forall y : nid,
    (fparent (s_nodes s') y = fparent (s_nodes s) y) /\
    (ffirst (s_nodes s') y = ffirst (s_nodes s) y) /\
    (fnext (s_nodes s') y = fnext (s_nodes s) y) /\
    (fprev (s_nodes s') y = fprev (s_nodes s) y) /\
    (fnch (s_nodes s') y = fnch (s_nodes s) y) /\
    (is_Some (s_nodes s' !! y) <-> is_Some (s_nodes s !! y));
  um_payload : forall y, payload s' y = payload s y;
  um_tree : forall y, tree_of s' y = tree_of s y;
  um_root : forall t : tid, t_root <$> s_trees s' !! t = t_root <$> s_trees s !! t;
}.
(** The user receives the handle [hd] under the new name [j]; nothing else changes. *)
Definition hands_out s s' (j : nat) (hd : handle) : Prop :=
  unmoved s s' /\ s_hands s !! j = None /\ s_hands s' = <[j := hd]> (s_hands s).
(** The handle [i] is exchanged for the handle [hd] under the new name [j]. *)
Definition swaps s s' (i j : nat) (hd : handle) : Prop :=
  unmoved s s' /\ s_hands s !! j = None /\ s_hands s' = <[j := hd]> (delete i (s_hands s)).

(** Only the data of [x] and the state of its lending change, to [d] and [l]. *)
Record writes s (x : nid) (d : T) (l : lending) s' : Prop := {
  wr_payload : payload s' x = Some (d, l);
  wr_rest : forall y, y <> x -> s_nodes s' !! y = s_nodes s !! y;
  wr_tree : forall y, tree_of s' y = tree_of s y;
  wr_links : forall y, fparent (s_nodes s') y = fparent (s_nodes s) y /\ ffirst (s_nodes s') y = ffirst (s_nodes s) y /\
    fnext (s_nodes s') y = fnext (s_nodes s) y /\ fprev (s_nodes s') y = fprev (s_nodes s) y /\ fnch (s_nodes s') y = fnch (s_nodes s) y;
  wr_trees : s_trees s' = s_trees s;
  wr_hands : s_hands s' = s_hands s;
}.

(** The calls whose success does not depend on the links. *)
Definition link_free (o : op T) : Prop :=
  match o with
  | OpNewTree _ | OpClone _ | OpDrop _ | OpTree _ | OpLock _ _ | OpBundle _ _ | OpPlain _ | OpExtract _
  | OpDowngrade _ | OpGet _ | OpSet _ _ | OpBorrow _ _ => True
  | _ => False
  end.
End GenSpec.
