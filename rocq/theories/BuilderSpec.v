(** * BuilderSpec: what a [TreeBuilder] does, call by call, while other code runs (C51).
    Independent of the code of serial.rs. *)
From Verif Require Import Heap System Serial SerialSpec SysSpec ApiSpec HIterSpec FrameSpec Spec.

Section BuilderSpec.
Context {T : Type}.
Implicit Types (s u : sys T) (p : nat -> bool) (e : event T).

(** A node that has been opened and not closed: its data, and the subtrees closed below it. *)
Definition frame : Type := T * list (rose T).
(** How far the work has come: no node yet; the innermost open node, and the open nodes around it from the inside
    to the outside; or the root has been closed. *)
Inductive progress := Nothing | Opened (f : frame) (around : list frame) | Done (t : rose T).

(** Closing the innermost open node. *)
Definition close_one (m : progress) : progress :=
  match m with
  | Opened (d, ts) [] => Done (Rose d ts)
  | Opened (d, ts) ((d', ts') :: fs) => Opened (d', ts' ++ [Rose d ts]) fs
  | _ => m
  end.

(** What one event does, and the error it is answered with.  A [Close] of more nodes than are open closes all of them
    but the root, and is refused. *)
Definition answer (m : progress) e : progress * option berr :=
  match e, m with
  | EOpen d, Nothing => (Opened (d, []) [], None)
  | EOpen d, Opened f fs => (Opened (d, []) (f :: fs), None)
  | EOpen _, Done _ => (m, Some RootClosed)
  | EClose 0, _ => (m, None)
  | EClose _, Nothing => (m, Some RootNotOpened)
  | EClose n, Opened f fs =>
      if n <=? S (length fs) then (Nat.iter n close_one m, None) else (Nat.iter (length fs) close_one m, Some RootClosed)
  | EClose _, Done _ => (m, Some RootClosed)
  end.

(** Several events: the first refused one ends it. *)
Fixpoint answers (m : progress) (es : list (event T)) : progress * option berr :=
  match es with
  | [] => (m, None)
  | e :: es' => match answer m e with (m', None) => answers m' es' | (m', Some x) => (m', Some x) end
  end.

(** The tree made if the work ends here: what is open is closed. *)
Definition tree_made (m : progress) : option (rose T) :=
  match m with
  | Nothing => None
  | Opened f fs => match Nat.iter (S (length fs)) close_one m with Done t => Some t | _ => None end
  | Done t => Some t
  end.

(** Any interleaving of the calls of a builder with any calls of other code.  The party [true] is the builder,
    which owns nothing in the beginning; the party [false] is everyone else, in any state and doing anything but
    using the handles the builder keeps to itself.  An iterator given to [push_events] that does things of its own is a case of this. *)
Inductive building : (nat -> bool) -> sys T -> builder -> progress -> Prop :=
| bg_start p s : parties p s -> (forall n, n < s_fresh s -> p n = false) -> building p s b_new Nothing
| bg_other p s b m o s' r : building p s b m -> call_of p false o -> step s o = Ret (s', r) -> building (turn p s false) s' b m
| bg_push p s b m e s' b' x : building p s b m -> b_push s b e = Ret (s', b', x) -> building (turn p s true) s' b' (answer m e).1.

(** All there is: one tree, of exactly the data [td], and a handle [i] on its root. *)
Definition just_tree u (i : nat) (td : rose T) : Prop :=
  reach u /\ exists (n : nid) (t : tid) (t0 : rose nid) (K : forest),
    stores u K /\ s_hands u = {[i := HNode Plain n]} /\ is_top K n /\ shape K n t0 /\
    rose_rel (fun (y : nid) d => payload u y = Some (d, Lent 0)) t0 td /\
    (forall y : nid, is_Some (K !! y) <-> y ∈ rose_nodes t0) /\
    (forall y : nid, y ∈ rose_nodes t0 -> tree_of u y = Some t) /\
    (forall w : tid, is_Some (s_trees u !! w) <-> w = t).
(** Nothing at all. *)
Definition void u : Prop := s_nodes u = ∅ /\ s_trees u = ∅ /\ s_hands u = ∅.
End BuilderSpec.
