(** * QuerySpec: what the queries must answer, when the panicking methods must panic. *)
From Verif Require Import Heap System SysSpec ApiSpec MoveSpec Serial SerialSpec Api Spec.

Section QuerySpec.
Context {T : Type}.
Implicit Types (s : sys T) (K : forest).

(** The answer is "yes" if [P] and "no" if not. *)
Definition says (a : answer) (P : Prop) : Prop := exists b, a = AnsBool b /\ (b = true <-> P).
Definition counts (a : answer) (n : nat) : Prop := a = AnsNum n.

(** The answer to the question [q] about the node [x] of the forest [K]. *)
Definition answers s K (x : nid) (q : query) (a : answer) : Prop :=
  match q with
  | QIsRoot => says a (is_top K x)
  | QHasPrevSibling => says a (exists p l1 y l2, K !! p = Some (l1 ++ y :: x :: l2))
  | QHasNextSibling => says a (exists p l1 y l2, K !! p = Some (l1 ++ x :: y :: l2))
  | QHasChildren => says a (exists c, child_of K x c)
  | QHasOneChild => says a (exists c, K !! x = Some [c])
  | QHasMultipleChildren => says a (exists c c' ks, K !! x = Some (c :: c' :: ks))
  | QNumChildren | QCountChildren => exists ks, K !! x = Some ks /\ counts a (length ks)
  | QCountPreceding => (is_top K x /\ counts a 0) \/ exists p l1 l2, K !! p = Some (l1 ++ x :: l2) /\ counts a (length l1)
  | QCountFollowing => (is_top K x /\ counts a 0) \/ exists p l1 l2, K !! p = Some (l1 ++ x :: l2) /\ counts a (length l2)
  | QCountAncestors => exists l, anc K x l /\ counts a (length l)
  | QPtrEq j => exists k y, s_hands s !! j = Some (HNode k y) /\ says a (x = y)
  | QBelongsTo j => exists t, s_hands s !! j = Some (HTree t) /\ says a (tree_of s x = Some t)
  | QSameTree j => exists k y, s_hands s !! j = Some (HNode k y) /\ says a (exists r, is_top K r /\ below K r x /\ below K r y)
  | QValid j => exists t, (s_hands s !! j = Some (HGrant t) \/ s_hands s !! j = Some (HProhib t)) /\ says a (tree_of s x = Some t)
  end.

(** The question is well-typed Rust, put to a handle of kind [k]. *)
Definition typed_query s (k : kind) (q : query) : Prop :=
  match q with
  | QPtrEq j => exists k' y, s_hands s !! j = Some (HNode k' y) /\ (k' = k \/ (k = Hot /\ k' = Plain))
  | QSameTree j => exists y, s_hands s !! j = Some (HNode k y)
  | QBelongsTo j => exists t, s_hands s !! j = Some (HTree t)
  | QValid j => k = Plain /\ exists t, s_hands s !! j = Some (HGrant t) \/ s_hands s !! j = Some (HProhib t)
  | _ => True
  end.

(** The user receives two handles of kind [k], on [y] and on [z]; nothing else. *)
Definition gives_two s s' (j1 j2 : nat) (k : kind) (y z : nid) : Prop :=
  same_view s s' /\ s_hands s !! j1 = None /\ s_hands s !! j2 = None /\ j1 <> j2 /\
  s_hands s' = <[j2 := HNode k z]> (<[j1 := HNode k y]> (s_hands s)).

(** ** Panicking variants *)

(** The fallible call returns an error. *)
Definition refuses s K (c : pcall (T := T)) : Prop :=
  match c with
  | PCreate a _ ad => exists k x, receiver s a k x /\ ~ has_place K ad x
  | PReplace a => exists k x cs, receiver s a k x /\ is_top K x /\ K !! x = Some cs /\ length cs <> 1
  | PMove a ad j => exists k x y, receiver s a k x /\ s_hands s !! j = Some (HNode Hot y) /\ refused_move s K x ad y
  | PRead i | PBorrow i => exists k x d, s_hands s !! i = Some (HNode k x) /\ payload s x = Some (d, LentMut)
  | PWrite i _ | PBorrowMut i => exists k x d l, s_hands s !! i = Some (HNode k x) /\ payload s x = Some (d, l) /\ l <> Lent 0
  | PCloneToken _ => False
  end.

(** What the panicking variant returns when it returns: no error. *)
Definition plain_result (c : pcall (T := T)) (r : out T) : Prop :=
  match c with
  | PCreate _ _ _ | PCloneToken _ => exists i, r = OutHandle i
  | PRead _ => exists d, r = OutData d
  | _ => r = OutUnit
  end.
End QuerySpec.
