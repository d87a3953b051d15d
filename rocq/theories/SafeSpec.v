(** * SafeSpec: undamaged states and histories, without reference to any particular call. *)
From Verif Require Import Heap System SysSpec ApiSpec Spec.

Section SafeSpec.
Context {T : Type}.
Implicit Types s : sys T.

(** The neighbour links of all nodes are those of an ordered forest, the nodes of each tree of the forest all record one and the same
    tree core, and each tree core names the root of that tree ([sinv]). *)
Definition undamaged s : Prop := exists K : forest, sinv s K.

(** A history, of any calls, in which no call has damaged the structure so far. *)
Inductive sound : sys T -> Prop :=
| sound_init : sound init
| sound_step s o s' r : sound s -> step s o = Ret (s', r) -> undamaged s' -> sound s'.

(** In an undamaged state with forest [K] and the receiver [x] the call runs into one of the defects of the code: *)
Definition damaging s K (o : op T) : Prop :=
  match o with
  (* detaching the last of several siblings, when something else keeps the tree left *)
  | OpDetach a => exists k x, receiver s a k x /\ last_not_first K x /\ ~ alone s K x
  (* removing such a node, when it has no children *)
  | OpReplace a => exists k x, receiver s a k x /\ last_not_first K x /\ K !! x = Some [] /\ ~ alone s K x
  | OpMove a ad j => exists k x y, receiver s a k x /\ s_hands s !! j = Some (HNode Hot y) /\
      (* moving a node that is not a root: such a node, or to a place below itself, or next to a root *)
      (((exists p, child_of K p x) /\ ((last_not_first K x /\ ~ alone s K x) \/ below K x y \/ ~ has_place K ad y)) \/
      (* moving a whole tree to another one: of several nodes, or kept by a [Tree] handle, or next to a root *)
       (is_top K x /\ tree_of s x <> tree_of s y /\
         (K !! x <> Some [] \/ (exists t i, tree_of s x = Some t /\ s_hands s !! i = Some (HTree t)) \/ ~ has_place K ad y)))
  | _ => False
  end.
End SafeSpec.
