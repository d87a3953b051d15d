(** * DataSpec: what it means that the library is indifferent to the data (C56).

    Replace every piece of data [d] in a state by [f d], for any function [f]
    whatever (it may merge data, so comparisons would show).  Nothing else of the state
    changes. *)
From Verif Require Import Heap Edit Traverse System.

Section Data.
Context {T U : Type} (f : T -> U).

Definition data_node (nd : node T) : node U :=
  mkNode (f (n_data nd)) (n_lend nd) (n_parent nd) (n_first nd) (n_next nd) (n_prev nd)
         (n_nch nd) (n_mem nd).
Definition data_heap (h : heap T) : heap U := data_node <$> h.
Definition data_sys (s : sys T) : sys U :=
  mkSys (data_heap (s_nodes s)) (s_trees s) (s_hands s) (s_fresh s).

(** The same call with the data given to it replaced. *)
Definition data_op (o : op T) : op U :=
  match o with
  | OpNewTree d => OpNewTree (f d)
  | OpClone i => OpClone i
  | OpDrop i => OpDrop i
  | OpNav v i => OpNav v i
  | OpTree i => OpTree i
  | OpRoot i => OpRoot i
  | OpLock k i => OpLock k i
  | OpBundle k i => OpBundle k i
  | OpBundleWith i j => OpBundleWith i j
  | OpPlain i => OpPlain i
  | OpExtract i => OpExtract i
  | OpDowngrade i => OpDowngrade i
  | OpUpgrade i => OpUpgrade i
  | OpCreate a d ad => OpCreate a (f d) ad
  | OpInterruptParent a d => OpInterruptParent a (f d)
  | OpInterruptChild a d => OpInterruptChild a (f d)
  | OpReplace a => OpReplace a
  | OpDetach a => OpDetach a
  | OpMove a ad j => OpMove a ad j
  | OpGet i => OpGet i
  | OpSet i d => OpSet i (f d)
  | OpBorrow i b => OpBorrow i b
  end.

(** The same answer with the data in it replaced. *)
Definition data_out (r : out T) : out U :=
  match r with
  | OutHandle i => OutHandle i
  | OutNone => OutNone
  | OutUnit => OutUnit
  | OutErr e => OutErr e
  | OutLockErr => OutLockErr
  | OutBorrowErr => OutBorrowErr
  | OutData d => OutData (f d)
  | OutIll => OutIll
  end.
End Data.

(** The same outcome (return, panic, no end) with the result replaced. *)
Definition replaced {A B} (g : A -> B) (r : run A) : run B :=
  match r with Ret a => Ret (g a) | Panic => Panic | NoFuel => NoFuel end.

(** The data a call is given, and the data an answer carries. *)
Definition data_of_op {T} (o : op T) : list T :=
  match o with
  | OpNewTree d | OpCreate _ d _ | OpInterruptParent _ d | OpInterruptChild _ d | OpSet _ d => [d]
  | _ => []
  end.
Definition data_of_out {T} (r : out T) : list T := match r with OutData d => [d] | _ => [] end.
(** All the data held by nodes. *)
Definition holds {T} (s : sys T) (d : T) : Prop := exists x nd, s_nodes s !! x = Some nd /\ n_data nd = d.
