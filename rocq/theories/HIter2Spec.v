(** * HIter2Spec: iterators of a frozen tree while other calls are made (C42).  Independent of HIter2.v. *)
From Verif Require Export HIterSpec.

Section HIter2Spec.
Context {T : Type}.
Implicit Types (s : sys T) (own : list nat).

(** A schedule of calls on two ends that do not watch each other ([loose] of LooseSpec.v), with arbitrary other calls in between: the front goes
    through [lf], the back through [lb]; nothing more is returned once one of them has come to the end. *)
Fixpoint loosely_withstands {S I J} (nf nb : sys T -> S -> run (sys T * option I * S)) (owns : S -> list nat)
    (denotes : sys T -> I -> J -> Prop) (bs : list bool) s (st : S) (lf lb : list J) : Prop :=
  match bs with
  | [] => True
  | b :: bs' => forall s1, others (owns st) s s1 ->
      exists s2 r st', (if b then nf s1 st else nb s1 st) = Ret (s2, r, st') /\ reach s2 /\ undisturbed (owns st) s1 s2 /\ same_view s1 s2 /\
        match lf, lb with
        | x :: lf', y :: lb' =>
            (exists i, r = Some i /\ denotes s2 i (if b then x else y)) /\
            loosely_withstands nf nb owns denotes bs' s2 st' (if b then lf' else lf) (if b then lb else lb')
        | _, _ => r = None /\ s2 = s1 /\ loosely_withstands nf nb owns denotes bs' s2 st' lf lb
        end
  end.

(** [n] calls of [next], with arbitrary other calls in between, return the items of the fixed sequence [l] one after the other, and nothing after that.
    As long as there are items the call changes no tree (in the end the iterator may let go of the tree). *)
Fixpoint outlasts {S I J} (nx : sys T -> S -> run (sys T * option I * S)) (owns : S -> list nat)
    (denotes : sys T -> I -> J -> Prop) (n : nat) s (st : S) (l : list J) : Prop :=
  match n with
  | 0 => True
  | Datatypes.S n' => forall s1, others (owns st) s s1 ->
      exists s2 r st', nx s1 st = Ret (s2, r, st') /\ reach s2 /\ undisturbed (owns st) s1 s2 /\
        match l with
        | [] => r = None /\ outlasts nx owns denotes n' s2 st' []
        | j :: l' => same_view s1 s2 /\ (exists i, r = Some i /\ denotes s2 i j) /\ outlasts nx owns denotes n' s2 st' l'
        end
  end.

(** The method [start], called in [s], changes nothing and takes no handle away, and the iterator it makes then behaves that way. *)
Definition loosely_begins {S I J} (start : run (sys T * S)) (nf nb : sys T -> S -> run (sys T * option I * S)) (owns : S -> list nat)
    (denotes : sys T -> I -> J -> Prop) s (lf lb : list J) : Prop :=
  exists s1 st, start = Ret (s1, st) /\ reach s1 /\ same_view s s1 /\ (forall j hd, s_hands s !! j = Some hd -> s_hands s1 !! j = Some hd) /\
    forall bs, loosely_withstands nf nb owns denotes bs s1 st lf lb.
Definition outlasting {S I J} (start : run (sys T * S)) (nx : sys T -> S -> run (sys T * option I * S)) (owns : S -> list nat)
    (denotes : sys T -> I -> J -> Prop) s (l : list J) : Prop :=
  exists s1 st, start = Ret (s1, st) /\ reach s1 /\ same_view s s1 /\ (forall j hd, s_hands s !! j = Some hd -> s_hands s1 !! j = Some hd) /\
    forall n, outlasts nx owns denotes n s1 st l.
End HIter2Spec.
