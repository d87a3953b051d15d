(** * OwnSpec: who owns which handle (C50).  Independent of HIter.v. *)
From Verif Require Export SysSpec.

Section OwnSpec.
Context {T : Type}.
Implicit Types (s : sys T) (own : list nat).

(** Code that owned the handles [own] in [s1] owns the handles [own'] in [s2], and nothing else has happened to any handle:
    what it owns now it owned before or it is new; each of these handles exists, and is listed once; what it owned and does not
    own any more has been dropped; nobody else's handle has changed, and no handle has been left behind without an owner. *)
Definition hands_over own s1 own' s2 : Prop :=
  NoDup own' /\
  (forall j, j ∈ own' -> is_Some (s_hands s2 !! j) /\ (j ∈ own \/ s_hands s1 !! j = None)) /\
  (forall j, j ∉ own' -> j ∈ own -> s_hands s2 !! j = None) /\
  (forall j, j ∉ own' -> j ∉ own -> s_hands s2 !! j = s_hands s1 !! j).
(** What is owned: distinct handles that exist. *)
Definition owned own s : Prop := NoDup own /\ forall j, j ∈ own -> is_Some (s_hands s !! j).
(** Each call of [nx] that returns hands the item over to the caller and keeps the rest. *)
Definition passes {S I} (ok : sys T -> Prop) (nx : sys T -> S -> run (sys T * option I * S)) (owns : S -> list nat) (item : I -> list nat) : Prop :=
  forall s st s' r st', ok s -> owned (owns st) s -> nx s st = Ret (s', r, st') ->
    ok s' /\ hands_over (owns st) s (match r with Some i => item i | None => [] end ++ owns st') s'.
(** Making one out of something borrowed: it owns new handles only. *)
Definition makes {A S} (ok : sys T -> Prop) (start : sys T -> A -> run (sys T * S)) (owns : S -> list nat) : Prop :=
  forall s a s' st, ok s -> start s a = Ret (s', st) -> ok s' /\ hands_over [] s (owns st) s'.
(** Making one out of a handle given away. *)
Definition takes {S} (ok : sys T -> Prop) (start : sys T -> nat -> run (sys T * S)) (owns : S -> list nat) : Prop :=
  forall s i s' st, ok s -> owned [i] s -> start s i = Ret (s', st) -> ok s' /\ hands_over [i] s (owns st) s'.
End OwnSpec.
