(** * BareSpec: states that differ in the data of the nodes only. *)
From Verif Require Import Heap System SysSpec ApiSpec Spec.

(** The same nodes with the same links and memberships; nothing is said about their data (which may even be of different types)
    nor about how it is lent. *)
Record alike {T U : Type} (s : sys T) (u : sys U) : Prop := {
  al_nodes : forall x : nid, is_Some (s_nodes s !! x) <-> is_Some (s_nodes u !! x);
  al_links : forall x (nd : node T) (ne : node U), s_nodes s !! x = Some nd -> s_nodes u !! x = Some ne ->
    n_parent nd = n_parent ne /\ n_first nd = n_first ne /\ n_next nd = n_next ne /\ n_prev nd = n_prev ne /\ n_nch nd = n_nch ne /\ n_mem nd = n_mem ne;
  al_trees : s_trees s = s_trees u;
  al_hands : s_hands s = s_hands u;
  al_fresh : s_fresh s = s_fresh u;
}.

(** The same call, except for the data of the node to be created. *)
Definition same_call {T U : Type} (o : op T) (o' : op U) : Prop :=
  match o, o' with
  | OpNewTree _, OpNewTree _ => True
  | OpClone i, OpClone j | OpDrop i, OpDrop j | OpTree i, OpTree j | OpRoot i, OpRoot j | OpPlain i, OpPlain j
  | OpExtract i, OpExtract j | OpDowngrade i, OpDowngrade j | OpUpgrade i, OpUpgrade j => i = j
  | OpNav v i, OpNav w j => v = w /\ i = j
  | OpLock k i, OpLock l j | OpBundle k i, OpBundle l j => k = l /\ i = j
  | OpBundleWith i j, OpBundleWith i' j' => i = i' /\ j = j'
  | OpCreate a _ ad, OpCreate b _ ad' => a = b /\ ad = ad'
  | OpInterruptParent a _, OpInterruptParent b _ | OpInterruptChild a _, OpInterruptChild b _ => a = b
  | OpReplace a, OpReplace b | OpDetach a, OpDetach b => a = b
  | OpMove a ad j, OpMove b ad' j' => a = b /\ ad = ad' /\ j = j'
  | _, _ => False
  end.

(** The same answer, not a datum. *)
Definition same_out {T U : Type} (r : out T) (r' : out U) : Prop :=
  match r, r' with
  | OutHandle i, OutHandle j => i = j
  | OutNone, OutNone | OutUnit, OutUnit | OutLockErr, OutLockErr | OutBorrowErr, OutBorrowErr | OutIll, OutIll => True
  | OutErr e, OutErr e' => e = e'
  | _, _ => False
  end.

(** Both panic, both run for ever, or both return: the same answers, in states that are alike. *)
Definition same_run {A B : Type} (P : A -> B -> Prop) (r : run A) (r' : run B) : Prop :=
  match r, r' with
  | Ret a, Ret b => P a b
  | Panic, Panic | NoFuel, NoFuel => True
  | _, _ => False
  end.
Definition same_result {T U : Type} (a : sys T * out T) (b : sys U * out U) : Prop := alike a.1 b.1 /\ same_out a.2 b.2.
Definition same_results {T U : Type} (a : sys T * list (out T)) (b : sys U * list (out U)) : Prop := alike a.1 b.1 /\ Forall2 same_out a.2 b.2.

(** Borrowing, reading and writing the data. *)
Definition data_call {T : Type} (o : op T) : bool := match o with OpGet _ | OpSet _ _ | OpBorrow _ _ => true | _ => false end.
(** A history without the calls on data, and the answers of the remaining calls. *)
Definition hierarchy_calls {T : Type} (os : list (op T)) : list (op T) := List.filter (fun o => negb (data_call o)) os.
Definition hierarchy_answers {T : Type} (os : list (op T)) (rs : list (out T)) : list (out T) :=
  map snd (List.filter (fun p => negb (data_call p.1)) (combine os rs)).
