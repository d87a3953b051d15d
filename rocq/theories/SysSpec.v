(** * SysSpec: what a consistent system state is, in terms of handles, trees and
    locks.  Nothing here refers to how the operations work. *)
From Verif Require Export System Spec.

(** [card P n]: exactly [n] identities satisfy [P]. *)
Definition card (P : nat -> Prop) (n : nat) : Prop :=
  exists l : list nat, NoDup l /\ (forall x, x ∈ l <-> P x) /\ length l = n.

Section SysSpec.
Context {T : Type}.
Implicit Types (s : sys T) (hm : gmap nat handle) (x : nid) (t : tid).

(** The tree a node belongs to. *)
Definition tree_of s x : option tid :=
  match n_memb s x with
  | Some (MStrong t _ _) => Some t
  | Some (MWeak o) => o
  | None => None
  end.

(** The data of a node and whether a [RefMut] to it is alive. *)
Definition payload s (x : nid) : option (T * lending) := (fun nd => (n_data nd, n_lend nd)) <$> s_nodes s !! x.

(** [i] is a handle on the node [x] / a hot or frozen one. *)
Definition node_handle hm x (i : nat) : Prop := exists k, hm !! i = Some (HNode k x).
Definition lock_handle hm x (i : nat) : Prop := exists k, k <> Plain /\ hm !! i = Some (HNode k x).

(** Live holders of a grant ([Hot]) or prohibition ([Frozen]) of the tree [t]:
    tokens, and nodes of [t] having at least one handle of that kind. *)
Definition token_holder hm (k : kind) t (i : nat) : Prop := k <> Plain /\ hm !! i = Some (token k t).
Definition node_holder s hm (k : kind) t (x : nid) : Prop :=
  k <> Plain /\ tree_of s x = Some t /\ exists i, hm !! i = Some (HNode k x).

(** The number of holders of kind [k] of the tree [t] is [n]. *)
Definition holders s hm (k : kind) t (n : nat) : Prop :=
  exists a b, card (token_holder hm k t) a /\ card (node_holder s hm k t) b /\ n = a + b.

(** Some strong handle refers to the tree [t] or to one of its nodes. *)
Definition tree_held s hm t : Prop :=
  (exists i, hm !! i = Some (HTree t)) \/
  (exists i k x, hm !! i = Some (HNode k x) /\ tree_of s x = Some t).

(** Handles, reference counts and locks agree. *)
Record hinv s hm : Prop := {
  h_weak : forall x o, n_memb s x = Some (MWeak o) ->
    (exists t, o = Some t) /\ forall i, ~ node_handle hm x i;
  h_strong : forall x t rc lk, n_memb s x = Some (MStrong t rc lk) ->
    is_Some (s_trees s !! t) /\ 0 < rc /\ card (node_handle hm x) rc /\ card (lock_handle hm x) lk;
  h_node : forall i k x, hm !! i = Some (HNode k x) -> is_Some (s_nodes s !! x);
  h_tree : forall i t, hm !! i = Some (HTree t) -> is_Some (s_trees s !! t);
  h_lock : forall t tr, s_trees s !! t = Some tr ->
    exists g p, holders s hm Hot t g /\ holders s hm Frozen t p /\
      t_cnt tr = (Z.of_nat g - Z.of_nat p)%Z /\ (g = 0 \/ p = 0);
}.

(** Structure: the links form a forest whose trees are exactly the tree cores. *)
Record sinv s (K : forest) : Prop := {
  s_rep : rep (s_nodes s) K;
  s_wf : wf K;
  s_child : forall p c, child_of K p c -> tree_of s c = tree_of s p;
  s_top : forall x, is_top K x ->
    exists t tr, tree_of s x = Some t /\ s_trees s !! t = Some tr /\ t_root tr = x;
  s_root : forall t tr, s_trees s !! t = Some tr ->
    is_top K (t_root tr) /\ tree_of s (t_root tr) = Some t;
}.

(** Identities in use were given out before. *)
Definition hand_target (hd : handle) : nat :=
  match hd with
  | HNode _ x => x | HTree t => t | HGrant t => t | HProhib t => t
  | HNodeWeak x => x | HTreeWeak t => t
  end.
Record finv s : Prop := {
  f_nodes : forall x, is_Some (s_nodes s !! x) -> x < s_fresh s;
  f_trees : forall t, is_Some (s_trees s !! t) -> t < s_fresh s;
  f_hands : forall i hd, s_hands s !! i = Some hd -> i < s_fresh s /\ hand_target hd < s_fresh s;
  f_memb : forall x t, tree_of s x = Some t -> t < s_fresh s;
}.

(** A consistent state storing the forest [K]. *)
Record inv s (K : forest) : Prop := {
  i_s : sinv s K;
  i_h : hinv s (s_hands s);
  i_held : forall t, is_Some (s_trees s !! t) -> tree_held s (s_hands s) t;
  i_f : finv s;
}.

End SysSpec.

(** What a navigation method must return on the forest [K]. *)
Definition nav_spec (K : forest) (v : nav) (x : nid) (o : option nid) : Prop :=
  match v with
  | NRoot => exists r, o = Some r /\ is_top K r /\ below K r x
  | NParent => match o with Some p => child_of K p x | None => is_top K x end
  | NFirstChild => exists ks, K !! x = Some ks /\ o = head ks
  | NLastChild => exists ks, K !! x = Some ks /\ o = last ks
  | NPrev => (is_top K x /\ o = None) \/
      exists p ks i, K !! p = Some ks /\ ks !! i = Some x /\ o = match i with 0 => None | S j => ks !! j end
  | NNext => (is_top K x /\ o = None) \/
      exists p ks i, K !! p = Some ks /\ ks !! i = Some x /\ o = ks !! S i
  | NFirstSibling => (is_top K x /\ o = Some x) \/
      exists p ks, K !! p = Some ks /\ x ∈ ks /\ o = head ks
  | NLastSibling => (is_top K x /\ o = Some x) \/
      exists p ks, K !! p = Some ks /\ x ∈ ks /\ o = last ks
  end.
