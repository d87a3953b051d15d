(** * PrettySinkSpec: writing pieces of text to a sink that can fail (C31).  Specification only. *)
From Verif Require Import Pretty.

(** A sink: what it holds, the piece to write; what it writes of it and whether it says [Ok(())].  It is honest if it says so
    only when it has written the whole piece, and never writes anything but a beginning of the piece. *)
Definition honest (sink : text -> text -> text * bool) : Prop :=
  forall o s, ((sink o s).2 = true -> (sink o s).1 = s) /\ (sink o s).1 `prefix_of` s.
(** The pieces one after the other, up to the first that is refused: what the sink holds in the end, and whether it took all of them. *)
Fixpoint feed (sink : text -> text -> text * bool) (o : text) (l : list text) : text * bool :=
  match l with
  | [] => (o, true)
  | s :: l' => if (sink o s).2 then feed sink (o ++ (sink o s).1) l' else (o ++ (sink o s).1, false)
  end.
