(** * Serial2Spec: the tree written down in a [tree_node!] macro. *)
From Verif Require Export SerialSpec Serial2.

(** [data] is a leaf, [/(data, [descendants])] a node with children. *)
Fixpoint written {T} (it : item T) : rose T :=
  match it with ILeaf d => Rose d [] | INode d l => Rose d (map written l) end.

(** The whole macro: [data], or [data, [descendants]]. *)
Definition written_root {T} (d : T) (l : option (list (item T))) : rose T :=
  Rose d (match l with None => [] | Some l => map written l end).
