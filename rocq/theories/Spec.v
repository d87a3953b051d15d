(** * Spec: what a forest is, independent of the code.

    A forest maps each live node to the ordered list of its children.
    Nothing in this file refers to the edit algorithms. *)
From Verif Require Export Heap.

Notation forest := (gmap nid (list nid)).

(** [c] is one of the children of [p]. *)
Definition child_of (K : forest) (p c : nid) : Prop :=
  exists ks, K !! p = Some ks /\ c ∈ ks.

(** A node that is nobody's child. *)
Definition is_top (K : forest) (x : nid) : Prop :=
  is_Some (K !! x) /\ forall p, ~ child_of K p x.

(** [x] is [a] itself or one of its descendants. *)
Inductive below (K : forest) (a : nid) : nid -> Prop :=
| below_refl : below K a a
| below_step p c : below K a p -> child_of K p c -> below K a c.

(** An ordered forest: children exist, no node occurs twice as a child, and
    there are no cycles (the child relation is well-founded, i.e. every node
    has a finite subtree). *)
Record wf (K : forest) : Prop := {
  wf_dom : forall p c, child_of K p c -> is_Some (K !! c);
  wf_nodup : forall p ks, K !! p = Some ks -> NoDup ks;
  wf_uniq : forall p q c, child_of K p c -> child_of K q c -> p = q;
  wf_acyclic : well_founded (fun c p => child_of K p c);
}.

Section Rep.
Context {T : Type}.

(** The sibling list [ks] of parent [p] is correctly linked in the heap: the
    [i]-th child has parent [p], its next sibling is the [i+1]-th, its cyclic
    previous sibling is the [i-1]-th (the last one when [i = 0]). *)
Definition linked (h : heap T) (p : nid) (ks : list nid) : Prop :=
  forall i c, ks !! i = Some c ->
    fparent h c = Some p /\
    fnext h c = ks !! S i /\
    fprev h c = match i with 0 => last ks | S j => ks !! j end.

(** The heap [h] stores exactly the forest [K]. *)
Record rep (h : heap T) (K : forest) : Prop := {
  rep_dom : forall x, is_Some (h !! x) <-> is_Some (K !! x);
  rep_first : forall x ks, K !! x = Some ks -> ffirst h x = head ks;
  rep_nch : forall x ks, K !! x = Some ks -> fnch h x = length ks;
  rep_linked : forall x ks, K !! x = Some ks -> linked h x ks;
  rep_top : forall x, is_top K x ->
    fparent h x = None /\ fnext h x = None /\ fprev h x = Some x;
}.

(** Everything about a node except its neighbour links: data, borrow flag,
    membership. *)
Definition fmeta (h : heap T) (x : nid) : option (T * lending * membership) :=
  (fun nd => (n_data nd, n_lend nd, n_mem nd)) <$> h !! x.

Definition same_meta (h h' : heap T) : Prop := forall x, fmeta h' x = fmeta h x.

End Rep.

(** ** Edits of child lists, as a user describes them. *)

(** [n] immediately before / after [a]. *)
Fixpoint ins_before (a n : nid) (l : list nid) : list nid :=
  match l with
  | [] => []
  | x :: l' => if decide (x = a) then n :: x :: l' else x :: ins_before a n l'
  end.
Fixpoint ins_after (a n : nid) (l : list nid) : list nid :=
  match l with
  | [] => []
  | x :: l' => if decide (x = a) then x :: n :: l' else x :: ins_after a n l'
  end.

(** All elements but [n]. *)
Definition without (n : nid) (l : list nid) : list nid := filter (fun x => x <> n) l.

(** [n] replaced in place by the list [r]. *)
Fixpoint splice (n : nid) (r : list nid) (l : list nid) : list nid :=
  match l with
  | [] => []
  | x :: l' => if decide (x = n) then r ++ l' else x :: splice n r l'
  end.

(** [n] replaced in place by [m]. *)
Definition subst_child (n m : nid) (l : list nid) : list nid := splice n [m] l.

(** [attached K n dest K']: [K'] is [K] with the top node [n] put at [dest]. *)
Inductive attached (K : forest) (n : nid) : insert_as -> forest -> Prop :=
| att_first p ks : K !! p = Some ks ->
    attached K n (FirstChildOf p) (<[p := n :: ks]> K)
| att_last p ks : K !! p = Some ks ->
    attached K n (LastChildOf p) (<[p := ks ++ [n]]> K)
| att_prev s p ks : K !! p = Some ks -> s ∈ ks ->
    attached K n (PreviousSiblingOf s) (<[p := ins_before s n ks]> K)
| att_next s p ks : K !! p = Some ks -> s ∈ ks ->
    attached K n (NextSiblingOf s) (<[p := ins_after s n ks]> K).

(** [unlinked K n K']: [K'] is [K] with [n] removed from its parent's children. *)
Definition unlinked (K : forest) (n : nid) (K' : forest) : Prop :=
  exists q ks, K !! q = Some ks /\ n ∈ ks /\ K' = <[q := without n ks]> K.

(** [moved K n dest K']: remove [n] from its place, then put it at [dest]. *)
Definition moved (K : forest) (n : nid) (dest : insert_as) (K' : forest) : Prop :=
  exists K1, unlinked K n K1 /\ attached K1 n dest K'.

(** The node named by a destination, and the node that becomes the parent. *)
Definition dest_anchor (dest : insert_as) : nid :=
  match dest with
  | FirstChildOf p => p | LastChildOf p => p
  | PreviousSiblingOf s => s | NextSiblingOf s => s
  end.
Definition dest_parent (K : forest) (dest : insert_as) (p : nid) : Prop :=
  match dest with
  | FirstChildOf q | LastChildOf q => p = q
  | PreviousSiblingOf s | NextSiblingOf s => child_of K p s
  end.

(** [last_not_first K n]: [n] is the last of at least two siblings. *)
Definition last_not_first (K : forest) (n : nid) : Prop :=
  exists q ks, K !! q = Some ks /\ last ks = Some n /\ head ks <> Some n.

(** Ancestors of [x], parent first. *)
Inductive anc (K : forest) : nid -> list nid -> Prop :=
| anc_top x : is_top K x -> anc K x []
| anc_step x p l : child_of K p x -> anc K p l -> anc K x (p :: l).

(** ** Finite ordered trees. *)
Inductive rose (A : Type) := Rose (x : A) (ts : list (rose A)).
Arguments Rose {A} x ts.

Definition rose_root {A} (t : rose A) : A := match t with Rose x _ => x end.
Definition rose_kids {A} (t : rose A) : list (rose A) := match t with Rose _ ts => ts end.

(** Nodes of a rose tree in document order (preorder). *)
Fixpoint rose_nodes {A} (t : rose A) : list A :=
  match t with Rose x ts => x :: concat (map rose_nodes ts) end.

(** Relabelling. *)
Fixpoint rose_map {A B} (f : A -> B) (t : rose A) : rose B :=
  match t with Rose x ts => Rose (f x) (map (rose_map f) ts) end.

(** Nodes at depth [d] below the root, in document order. *)
Fixpoint rose_level {A} (d : nat) (t : rose A) : list A :=
  match d with
  | 0 => [rose_root t]
  | S d' => concat (map (rose_level d') (rose_kids t))
  end.

(** [shape K x t]: the subtree of [x] in the forest [K] is [t]. *)
Inductive shape (K : forest) : nid -> rose nid -> Prop :=
| shape_intro x ts :
    K !! x = Some (map rose_root ts) ->
    Forall (fun t => shape K (rose_root t) t) ts ->
    shape K x (Rose x ts).
