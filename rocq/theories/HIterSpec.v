(** * HIterSpec: iterating while other calls are made.  Independent of HIter.v. *)
From Verif Require Export ApiSpec IterSpec.

Section HIterSpec.
Context {T : Type}.
Implicit Types (s : sys T) (K : forest) (own : list nat).

(** The handles a call is given. *)
Definition auth_args (a : auth) : list nat := match a with ByHot i => [i] | ByGrant i g => [i; g] end.
Definition op_args (o : op T) : list nat :=
  match o with
  | OpNewTree _ => []
  | OpClone i | OpDrop i | OpNav _ i | OpTree i | OpRoot i | OpLock _ i | OpBundle _ i | OpPlain i | OpExtract i
  | OpDowngrade i | OpUpgrade i | OpGet i | OpSet i _ | OpBorrow i _ => [i]
  | OpBundleWith i j => [i; j]
  | OpCreate a _ _ | OpInterruptParent a _ | OpInterruptChild a _ | OpReplace a | OpDetach a => auth_args a
  | OpMove a _ j => auth_args a ++ [j]
  end.

(** Any number of (safe) calls by code that has no access to the handles [own]. *)
Inductive others own : sys T -> sys T -> Prop :=
| others_none s : others own s s
| others_call s K o s1 r s2 : stores s K -> safe s K o -> (forall i, i ∈ op_args o -> i ∉ own) ->
    step s o = Ret (s1, r) -> others own s1 s2 -> others own s s2.

(** ** Cursors: what an iterator over a changing forest points to *)

(** The event after / before [e] in document order. *)
Inductive ev_succ K : dft nid -> option (dft nid) -> Prop :=
| es_child x c ks : K !! x = Some (c :: ks) -> ev_succ K (Open x) (Some (Open c))
| es_leaf x : K !! x = Some [] -> ev_succ K (Open x) (Some (Close x))
| es_sibling x p l1 y l2 : K !! p = Some (l1 ++ x :: y :: l2) -> ev_succ K (Close x) (Some (Open y))
| es_parent x p l1 : K !! p = Some (l1 ++ [x]) -> ev_succ K (Close x) (Some (Close p))
| es_root x : is_top K x -> ev_succ K (Close x) None.
Inductive ev_pred K : dft nid -> option (dft nid) -> Prop :=
| ep_child x c ks : K !! x = Some (ks ++ [c]) -> ev_pred K (Close x) (Some (Close c))
| ep_leaf x : K !! x = Some [] -> ev_pred K (Close x) (Some (Open x))
| ep_sibling x p l1 y l2 : K !! p = Some (l1 ++ y :: x :: l2) -> ev_pred K (Open x) (Some (Close y))
| ep_parent x p l2 : K !! p = Some (x :: l2) -> ev_pred K (Open x) (Some (Open p))
| ep_root x : is_top K x -> ev_pred K (Open x) None.

(** A depth-first iterator started at [r] stands before the event [e]; it ends
    after the closing of [r], or of the root of the tree it is in. *)
Inductive dfs_moves K : dft nid * nid -> option (dft nid * nid) -> Prop :=
| dm_end r : dfs_moves K (Close r, r) None
| dm_next e r o : e <> Close r -> ev_succ K e o -> dfs_moves K (e, r) ((fun e' => (e', r)) <$> o).
Inductive rdfs_moves K : dft nid * nid -> option (dft nid * nid) -> Prop :=
| rm_end r : rdfs_moves K (Open r, r) None
| rm_next e r o : e <> Open r -> ev_pred K e o -> rdfs_moves K (e, r) ((fun e' => (e', r)) <$> o).

(** The handle named by an event is one of kind [k] on the node of the event. *)
Definition names s (k : kind) (e : dft nat) (ev : dft nid) : Prop :=
  match e, ev with
  | Open i, Open x | Close i, Close x => s_hands s !! i = Some (HNode k x)
  | _, _ => False
  end.
Definition names_at s (k : kind) (e : dft (nat * nat)) (ev : dft (nid * nat)) : Prop :=
  match e, ev with
  | Open (i, d), Open (x, d') | Close (i, d), Close (x, d') => s_hands s !! i = Some (HNode k x) /\ d = d'
  | _, _ => False
  end.

(** The handles of everybody else are still there. *)
Definition undisturbed own s s' : Prop := forall i hd, i ∉ own -> s_hands s !! i = Some hd -> s_hands s' !! i = Some hd.

(** [n] calls of [next], with arbitrary other calls before each of them: none
    panics, and each returns a handle on the item the cursor stands at and moves
    the cursor as [moves] tells for the forest of that moment.  Nothing
    else changes (when the iteration ends the iterator lets go of its start node).
    An exhausted iterator returns nothing. *)
Fixpoint walks {S I C} (nx : sys T -> S -> run (sys T * option I * S)) (owns : S -> list nat)
    (denotes : sys T -> I -> C -> Prop) (moves : forest -> C -> option C -> Prop)
    (n : nat) s (st : S) (c : option C) : Prop :=
  match n with
  | 0 => True
  | Datatypes.S n' => forall s1 K1, others (owns st) s s1 -> stores s1 K1 ->
      exists s2 r st', nx s1 st = Ret (s2, r, st') /\ reach s2 /\ undisturbed (owns st) s1 s2 /\
        match c with
        | None => r = None /\ s2 = s1 /\ walks nx owns denotes moves n' s2 st' None
        | Some c => exists i c', r = Some i /\ denotes s2 i c /\ moves K1 c c' /\ (c' <> None -> same_view s1 s2) /\
            walks nx owns denotes moves n' s2 st' c'
        end
  end.

(** As long as the forest satisfies [stays] at the times of the calls, whatever
    else happens between them, the items are those of the fixed sequence [l]. *)
Fixpoint yields_while {S I C} (nx : sys T -> S -> run (sys T * option I * S)) (owns : S -> list nat)
    (denotes : sys T -> I -> C -> Prop) (stays : forest -> Prop) s (st : S) (l : list C) : Prop :=
  forall s1 K1, others (owns st) s s1 -> stores s1 K1 -> stays K1 ->
    exists s2 r st', nx s1 st = Ret (s2, r, st') /\ reach s2 /\ undisturbed (owns st) s1 s2 /\
      match l with
      | [] => r = None /\ s2 = s1
      | c :: l' => exists i, r = Some i /\ denotes s2 i c /\ yields_while nx owns denotes stays s2 st' l'
      end.

(** A schedule of calls on both ends, with arbitrary other calls in between,
    takes the items of the fixed sequence [l] from its ends. *)
Fixpoint withstands {S I J} (nf nb : sys T -> S -> run (sys T * option I * S)) (owns : S -> list nat)
    (denotes : sys T -> I -> J -> Prop) (bs : list bool) s (st : S) (l : list J) : Prop :=
  match bs with
  | [] => True
  | b :: bs' => forall s1, others (owns st) s s1 ->
      exists s2 r st', (if b then nf s1 st else nb s1 st) = Ret (s2, r, st') /\ reach s2 /\ undisturbed (owns st) s1 s2 /\ same_view s1 s2 /\
        match (if b then head l else last l) with
        | None => r = None /\ s2 = s1
        | Some j => exists i, r = Some i /\ denotes s2 i j
        end /\
        withstands nf nb owns denotes bs' s2 st' (if b then tail l else take (length l - 1) l)
  end.

End HIterSpec.
