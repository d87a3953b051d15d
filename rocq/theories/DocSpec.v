(** * DocSpec: edits seen through the event stream of a subtree (C58).

    The events of [depth_first_traverse] spell out a subtree as a document with one pair of
    brackets per node.  Here every edit is described as an edit of such documents: a pair of
    brackets is inserted, taken away, or a segment is cut out and pasted elsewhere. *)
From Verif Require Import Heap Traverse System SysSpec IterSpec Spec.

Notation doc := (list (dft nid)).

(** The depth-first traversal from [r] gives the events [E]. *)
Definition reads {T} (s : sys T) (r : nid) (E : doc) : Prop :=
  enumerates (dfs_next (s_nodes s)) (dfs_start (Some r)) E.

(** [x] with everything below it stands somewhere in [E], not as the whole of it: [E] is
    [A], then the brackets of [x] with [M] between them, then [B]. *)
Definition inside (E : doc) (x : nid) (A M B : doc) : Prop :=
  E = A ++ Open x :: M ++ Close x :: B /\ A <> [].
(** [x] does not stand inside [E] (it is the root of the document, or not in it). *)
Definition not_inside (E : doc) (x : nid) : Prop := forall A M B, ~ inside E x A M B.

(** [E'] is [E] with the segment [S] put at the place [ad] relative to [y], if [E] has such a place. *)
Inductive pasted (S : doc) (y : nid) (E : doc) : adopt_as -> doc -> Prop :=
| p_first A M B : E = A ++ Open y :: M ++ Close y :: B -> pasted S y E AFirstChild (A ++ Open y :: S ++ M ++ Close y :: B)
| p_last A M B : E = A ++ Open y :: M ++ Close y :: B -> pasted S y E ALastChild (A ++ Open y :: M ++ S ++ Close y :: B)
| p_prev A M B : inside E y A M B -> pasted S y E APreviousSibling (A ++ S ++ Open y :: M ++ Close y :: B)
| p_next A M B : inside E y A M B -> pasted S y E ANextSibling (A ++ Open y :: M ++ Close y :: S ++ B)
| p_none_child ad : ad = AFirstChild \/ ad = ALastChild -> Open y ∉ E -> pasted S y E ad E
| p_none_sibling ad : ad = APreviousSibling \/ ad = ANextSibling -> not_inside E y -> pasted S y E ad E.

(** [E'] is [E] with [x] and everything below it cut out, if it stands inside [E]. *)
Inductive cut (x : nid) (E : doc) : doc -> Prop :=
| cut_out A M B : inside E x A M B -> cut x E (A ++ B)
| cut_none : not_inside E x -> cut x E E.

(** [E'] is [E] with a pair of brackets [n] around [x]. *)
Inductive wrapped (n x : nid) (E : doc) : doc -> Prop :=
| wr_in A M B : inside E x A M B -> wrapped n x E (A ++ Open n :: Open x :: M ++ Close x :: Close n :: B)
| wr_none : not_inside E x -> wrapped n x E E.

(** [E'] is [E] with a pair of brackets [n] around all that is within [x]. *)
Inductive lined (n x : nid) (E : doc) : doc -> Prop :=
| ln_in A M B : E = A ++ Open x :: M ++ Close x :: B -> lined n x E (A ++ Open x :: Open n :: M ++ Close n :: Close x :: B)
| ln_none : Open x ∉ E -> lined n x E E.

(** [E'] is [E] without the brackets of [x]; what was between them stays, except when [x] is
    the root of the document: then it is left empty. *)
Inductive unwrapped (x : nid) (E : doc) : doc -> Prop :=
| un_in A M B : inside E x A M B -> unwrapped x E (A ++ M ++ B)
| un_root M : E = Open x :: M ++ [Close x] -> unwrapped x E [Open x; Close x]
| un_none : Open x ∉ E -> unwrapped x E E.

(** [x] is the last of several children and the destination is the place it has. *)
Definition stays_last (K : forest) (x : nid) (ad : adopt_as) (y : nid) : Prop :=
  exists p f m, K !! p = Some (f :: m ++ [x]) /\ ((ad = ALastChild /\ y = p) \/ (ad = ANextSibling /\ last (f :: m) = Some y)).

(** The document [E'], read in [s'], has the shape of [E], read in [s], and nodes with the same data. *)
Definition copied {T} (s s' : sys T) (E E' : doc) : Prop :=
  Forall2 (fun e e' => match e, e' with
    | Open a, Open b => exists d l, payload s a = Some (d, l) /\ payload s' b = Some (d, Lent 0)
    | Close _, Close _ => True
    | _, _ => False
    end) E E'.
