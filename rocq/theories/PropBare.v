(** * PropBare: the hierarchy and the data are independent (C47). *)
From Verif Require Import Heap System SysSpec ApiSpec GenSpec BareSpec BareFacts ApiFacts3 Demo PropAny Spec.

(** No call on the hierarchy, on handles or on locks looks at the data of a node or at its borrows: in two states, reachable or
    not, that differ in nothing else (and may even hold data of different types) the same call does the same. *)
Theorem C47_call : forall (T U : Type) (s : sys T) (u : sys U) (o : op T) (o' : op U),
  alike s u -> same_call o o' -> same_run same_result (step s o) (step u o').
Proof. exact @bare_eq. Qed.
Print Assumptions C47_call.
(** So do the same calls one after the other. *)
Theorem C47_calls : forall (T U : Type) (os : list (op T)) (os' : list (op U)), Forall2 same_call os os' ->
  forall (s : sys T) (u : sys U), alike s u -> same_run same_results (steps s os) (steps u os').
Proof. exact @bare_steps. Qed.
Print Assumptions C47_calls.
(** Conversely a call on the data changes the data only. *)
Theorem C47_data : forall (T : Type) (s u : sys T) (o : op T) (r : out T), data_call o = true -> step s o = Ret (u, r) -> alike s u.
Proof. exact @bare_data_call. Qed.
Print Assumptions C47_data.
(** So the calls on the data can be left out of a history: the other calls still return the same answers. *)
Theorem C47_history : forall (T : Type) (os : list (op T)) (s s' u : sys T) (rs : list (out T)), alike s u -> steps s os = Ret (s', rs) ->
  exists (u' : sys T) (rs' : list (out T)), steps u (hierarchy_calls os) = Ret (u', rs') /\ alike s' u' /\ Forall2 same_out (hierarchy_answers os rs) rs'.
Proof. exact @bare_history. Qed.
Print Assumptions C47_history.

(** The demo state, built again with [bool] data; the second list also lends and writes data. *)
Definition to_bool (o : op nat) : op bool :=
  match o with
  | OpNewTree _ => OpNewTree true
  | OpClone i => OpClone i | OpDrop i => OpDrop i | OpNav v i => OpNav v i | OpTree i => OpTree i | OpRoot i => OpRoot i
  | OpLock k i => OpLock k i | OpBundle k i => OpBundle k i | OpBundleWith i j => OpBundleWith i j | OpPlain i => OpPlain i
  | OpExtract i => OpExtract i | OpDowngrade i => OpDowngrade i | OpUpgrade i => OpUpgrade i
  | OpCreate a _ ad => OpCreate a false ad | OpInterruptParent a _ => OpInterruptParent a true | OpInterruptChild a _ => OpInterruptChild a true
  | OpReplace a => OpReplace a | OpDetach a => OpDetach a | OpMove a ad j => OpMove a ad j
  | OpGet i => OpGet i | OpSet i _ => OpSet i true | OpBorrow i b => OpBorrow i b
  end.
Definition lent_ops : list (op nat) := demo_ops ++ [OpBorrow 5 TakeMut; OpSet 7 1; OpDetach (ByHot 5); OpGet 5; OpMove (ByHot 9) AFirstChild 19].
Definition outs {T} (r : run (sys T * list (out T))) : list (out T) := match r with Ret a => a.2 | _ => [] end.
Example C47_nonvacuous :
  Forall2 same_call demo_ops (map to_bool demo_ops) /\ alike (T := nat) (U := bool) init init /\
  outs (steps (init : sys bool) (map to_bool demo_ops)) = (map OutHandle [2; 3; 5; 7; 9; 11; 13; 15; 18; 19; 21]) /\
  length (hierarchy_calls lent_ops) + 3 = length lent_ops /\
  outs (steps (init : sys nat) lent_ops) = (map OutHandle [2; 3; 5; 7; 9; 11; 13; 15; 18; 19; 21] ++ [OutUnit; OutUnit; OutUnit; OutBorrowErr; OutUnit]) /\
  outs (steps (init : sys nat) (hierarchy_calls lent_ops)) = (map OutHandle [2; 3; 5; 7; 9; 11; 13; 15; 18; 19; 21] ++ [OutUnit; OutUnit]).
Proof. split; [unfold demo_ops; repeat constructor|]. split; [apply alike_bares; unfold bares, bare, init; cbn [s_nodes s_trees s_hands s_fresh]; by rewrite !fmap_empty|]. by vm_compute. Qed.
