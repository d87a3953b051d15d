(** * PropDepth: dropping trees needs no deep call stack (C43).

    [step_upto n] (Depth.v) is the same program on a stack that holds at most [n]
    nested destructors of nodes; needing more is reported as [NoFuel]. *)
From Verif Require Import Heap Edit System SysSpec ApiSpec ApiFacts ApiFacts2 ApiFacts3 ApiFacts6 ApiFacts7 Depth DepthFacts DepthFacts9 Demo Spec.

(** ** C43 *)

(** In every reachable state every call (dropping any handle, also one that tears down
    a tree of any depth and width, and also the calls that damage the links) runs
    with one destructor at a time.  Not covered: the calls made after links have been damaged. *)
Theorem C43_shallow_partial : forall (T : Type) (s : sys T) (o : op T) n, reach s -> 0 < n -> step_upto n s o = step s o.
Proof.
  intros T s o n H Hn. destruct n as [|n]; [lia|]. destruct (reach_stores s H) as [K HK]. exact (depth_any n s K o (reach_stores_inv s K H HK)).
Qed.
Print Assumptions C43_shallow_partial.

(** Dropping never depends on the caller at all. *)
Theorem C43_drop : forall (T : Type) (s : sys T) i n, reach s -> 0 < n -> step_upto n s (OpDrop i) = step s (OpDrop i).
Proof.
  intros T s i n H Hn. exact (C43_shallow_partial T s (OpDrop i) n H Hn).
Qed.
Print Assumptions C43_drop.

(** A bounded stack has no other effect than overflowing. *)
Theorem C43_bound_only : forall (T : Type) (s : sys T) (o : op T) n, step_upto n s o = NoFuel \/ step_upto n s o = step s o.
Proof. intros T s o n. exact (upto_step n s o). Qed.
Print Assumptions C43_bound_only.

Lemma overflows_ok {A} (r : run A) : match r with NoFuel => true | _ => false end = true -> r = NoFuel.
Proof. by destruct r. Qed.

(** The first tree of the demo: seven nodes on three levels, with a tree handle only. *)
Definition last_handle : list (op nat) := demo_ops ++ [OpTree 3] ++ map OpDrop [3; 5; 7; 9; 11; 13; 15].
Example C43_shallow_hyps : reach demo /\ stores demo demoK.
Proof. split; [exact demo_reach|exact demo_stores]. Qed.
(** One call frees all of them, a destructor is needed, and one at a time is enough. *)
Example C43_frees_many : forallb (alive (s_nodes (ran last_handle))) [0; 4; 6; 8; 10; 12; 14] = true /\
  step_upto 0 (ran last_handle) (OpDrop 22) = NoFuel /\
  (match step_upto 1 (ran last_handle) (OpDrop 22) with
   | Ret (s', _) => forallb (fun x => negb (alive (s_nodes s') x)) [0; 4; 6; 8; 10; 12; 14]
   | _ => false end) = true.
Proof. by vm_compute. Qed.
(** Moving a whole tree below another node destroys the old tree core, too: the nodes without a handle are freed in the middle of the call, one at a time. *)
Definition graft_ops : list (op nat) := demo_ops ++ map OpDrop [11; 13; 15].
Example C43_graft_frees : forallb (alive (s_nodes (ran graft_ops))) [10; 12; 14] = true /\
  step_upto 0 (ran graft_ops) (OpMove (ByHot 3) AFirstChild 21) = NoFuel /\
  (match step_upto 1 (ran graft_ops) (OpMove (ByHot 3) AFirstChild 21) with
   | Ret (s', _) => forallb (fun x => negb (alive (s_nodes s') x)) [10; 12; 14]
   | _ => false end) = true.
Proof. by vm_compute. Qed.
(** Without [TreeCore::drop] the same tree would need six: the plain drop glue of its
    root goes down to the last leaf. *)
Example C43_without_teardown :
  let s := with_trees (del_hand (ran last_handle) 22) (delete 1 (s_trees (ran last_handle))) in
  release_upto 4 s [] 0 = NoFuel /\ (match release_upto 5 s [] 0 with Ret _ => true | _ => false end) = true.
Proof. by vm_compute. Qed.

(** Once links are damaged, drops nest: 8, the last of three siblings, is detached;
    the nodes then added as last children of its former parent are chained behind 8,
    and once the tree of that parent is gone, dropping the last handle of 8 frees the chain recursively. *)
Theorem C43_refuted : exists (os : list (op nat)) s rs i s' r,
  steps init os = Ret (s, rs) /\ step s (OpDrop i) = Ret (s', r) /\ step_upto 3 s (OpDrop i) = NoFuel.
Proof.
  pose (os := demo_ops ++ [OpDetach (ByHot 9); OpCreate (ByHot 3) 70 ALastChild; OpCreate (ByHot 3) 71 ALastChild; OpCreate (ByHot 3) 72 ALastChild] ++
              map OpDrop [24; 26; 28; 3; 5; 7; 11; 13; 15]).
  exists os, (ran os), (outs os), 9, (nxt (ran os) (OpDrop 9)), OutUnit.
  split; [apply ran_ok; by vm_compute|]. split; [apply nxt_ok; by vm_compute|]. apply overflows_ok. by vm_compute.
Qed.
Print Assumptions C43_refuted.
