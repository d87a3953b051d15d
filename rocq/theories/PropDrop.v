(** * PropDrop: the order in which handles are dropped does not matter (C53). *)
From Verif Require Import Heap System SysSpec ApiSpec ApiFacts ApiFacts2 ApiFacts3 Demo DropSpec DropFacts Spec.

(** Dropping several handles, of any types and in any order, succeeds; what is left is described by [released] (DropSpec.v)
    in terms of the set of handles: the trees kept by the other handles are exactly as before, the others are gone. *)
Theorem C53_drop_several_partial : forall (T : Type) (s : sys T) (K : forest) (l : list nat),
  reach s -> stores s K -> NoDup l -> (forall i, i ∈ l -> is_Some (s_hands s !! i)) ->
  exists s', steps s (map OpDrop l) = Ret (s', map (fun _ => OutUnit) l) /\ reach s' /\ released s K l s'.
Proof. intros T s K l. exact (drop_list l s K). Qed.
Print Assumptions C53_drop_several_partial.

(** Two orders of dropping the same handles end in states that cannot be told apart: the same links, data, trees, roots and handles. *)
Theorem C53_drop_order_partial : forall (T : Type) (s : sys T) (l l' : list nat),
  reach s -> NoDup l -> (forall i, i ∈ l -> is_Some (s_hands s !! i)) -> l ≡ₚ l' ->
  exists s1 s2, steps s (map OpDrop l) = Ret (s1, map (fun _ => OutUnit) l) /\ steps s (map OpDrop l') = Ret (s2, map (fun _ => OutUnit) l') /\
    s_hands s1 = s_hands s2 /\ same_view s1 s2 /\ same_view s2 s1.
Proof.
  intros T s l l' R Hnd Hl Hp. destruct (reach_stores s R) as [K Hst].
  destruct (drop_list l s K R Hst Hnd Hl) as (s1 & E1 & R1 & L1).
  destruct (drop_list l' s K R Hst) as (s2 & E2 & R2 & L2). { by rewrite <- Hp. } { intros i Hi. apply Hl. by rewrite Hp. }
  assert (Hll : forall i, i ∈ l <-> i ∈ l') by (intros i; by rewrite Hp).
  exists s1, s2. split; [exact E1|]. split; [exact E2|]. destruct (released_unique s K l l' s1 s2 Hll R1 R2 L1 L2) as [Hh V]. split; [exact Hh|]. split; [exact V|].
  refine (proj2 (released_unique s K l' l s2 s1 _ R2 R1 L2 L1)). intros i. by rewrite Hll.
Qed.
Print Assumptions C53_drop_order_partial.

(** The handles 19 and 21 are all that keeps the second tree (16 and its child 20); 3 is one of several on the first one. *)
Example C53_nonvacuous : reach demo /\ stores demo demoK /\ NoDup [19; 3; 21] /\ (forall i, i ∈ [19; 3; 21] -> is_Some (s_hands demo !! i)) /\
  [19; 3; 21] ≡ₚ [21; 19; 3] /\ demoK !! 16 = Some [20] /\ demoK !! 0 = Some [4; 6; 8] /\
  exists s1, step demo (OpDrop 19) = Ret (s1, OutUnit) /\ is_Some (s_nodes s1 !! 16) /\
  exists s2, step s1 (OpDrop 3) = Ret (s2, OutUnit) /\ exists s3, step s2 (OpDrop 21) = Ret (s3, OutUnit) /\ s_nodes s3 !! 16 = None /\ is_Some (s_nodes s3 !! 0).
Proof.
  split; [exact demo_reach|]. split; [exact demo_stores|]. split; [by apply (bool_decide_unpack _); vm_compute|].
  split. { intros i Hi. repeat (apply elem_of_cons in Hi as [-> |Hi]; [vm_compute; eexists; reflexivity|]). exact (False_rect _ (not_elem_of_nil _ Hi)). }
  split; [apply (Permutation_app_comm [19; 3] [21])|]. split; [by vm_compute|]. split; [by vm_compute|].
  exists (nxt demo (OpDrop 19)). split; [apply nxt_ok; by vm_compute|]. split; [apply not_eq_None_Some; by vm_compute|].
  exists (nxt (nxt demo (OpDrop 19)) (OpDrop 3)). split; [apply nxt_ok; by vm_compute|].
  exists (nxt (nxt (nxt demo (OpDrop 19)) (OpDrop 3)) (OpDrop 21)). split; [apply nxt_ok; by vm_compute|]. split; [by vm_compute|]. apply not_eq_None_Some; by vm_compute.
Qed.
