(** * PropLocal: constant-time calls touch a constant number of nodes (C57). *)
From Verif Require Import Heap Edit Traverse System Api LocalSpec LocalFacts LocalFacts2 Demo.
From Coq Require Import Lia.

Section Q.
Context {T : Type}.
Lemma ask_local tr ha fr i q : quick q -> rdl (T := T) 5 (fun h => ask (mkSys h tr ha fr) i q).
Proof.
  intros Q. unfold ask. cbn [s_hands s_nodes]. destruct (ha !! i) as [[k x| | | | |]|]; try rk. destruct q; try contradiction.
  - unfold ask_is_root. cbn [s_nodes s_trees].
    apply (rdl_rd (fun v h => b ← (t ← v; match tr !! t with None => Panic | Some tr => if Bool.eqb (is_root h x) (bool_decide (t_root tr = x)) then Ret (is_root h x) else Panic end); Ret (AnsBool b))
      (fun h => handle_core (mkSys h tr ha fr) k x) 1); [destruct k; [apply r_tcore|apply r_ltcore..]|lia|].
    intros [t| |]; [|rk..]. eapply rdl_mono; [apply (rdl_map (fun r : bool => b ← (match tr !! t with None => Panic | Some tr => if Bool.eqb r (bool_decide (t_root tr = x)) then Ret r else Panic end); Ret (AnsBool b))), r_is_root|lia].
  - apply (rdl_rd (fun c h => b ← (c ← c; Ret (match fnext h c with Some _ => true | None => false end)); Ret (AnsBool b)) _ 2); [apply r_cyc|lia|].
    intros [c| |]; [|rk..]. eapply rdl_mono; [apply (rdl_map (fun o : option nid => Ret (AnsBool (match o with Some _ => true | None => false end)))), r_fnext|lia].
  - eapply rdl_mono; [apply (rdl_map (fun o : option nid => Ret (AnsBool (match o with Some _ => true | None => false end)))), r_fnext|lia].
  - eapply rdl_mono; [apply (rdl_map (fun n => Ret (AnsBool (negb (Nat.eqb n 0))))), r_fnch|lia].
  - eapply rdl_mono; [apply (rdl_map (fun n => Ret (AnsNum n))), r_fnch|lia].
  - eapply rdl_mono; [apply (rdl_map (fun n => Ret (AnsBool (Nat.eqb n 1)))), r_fnch|lia].
  - eapply rdl_mono; [apply (rdl_map (fun n => Ret (AnsBool (Nat.ltb 1 n)))), r_fnch|lia].
  - rk.
  - destruct (ha !! j) as [[]|]; try rk. eapply rdl_mono; [apply (rdl_map (fun v : run tid => b ← (u ← v; Ret (bool_decide (u = t))); Ret (AnsBool b))), r_ltcore|lia].
  - destruct (ha !! j) as [[k' y| | | | |]|]; try rk. destruct (same_kind k k'); [|rk]. unfold belongs_to_same_tree. destruct (decide (i = j)); [rk|].
    apply (rdl_rd (fun v h => b ← (t ← v; t' ← link_tree_core (mkSys h tr ha fr) y; Ret (bool_decide (t = t'))); Ret (AnsBool b)) (fun h => link_tree_core (mkSys h tr ha fr) x) 1); [apply r_ltcore|lia|].
    intros [t| |]; [|rk..]. eapply rdl_mono; [apply (rdl_map (fun v : run tid => b ← (u ← v; Ret (bool_decide (t = u))); Ret (AnsBool b))), r_ltcore|lia].
  - destruct k; try rk. destruct (ha !! j) as [[]|]; try rk;
      (eapply rdl_mono; [apply (rdl_map (fun v : run tid => b ← (u ← v; Ret (bool_decide (u = t))); Ret (AnsBool b))), r_tcore|lia]).
Qed.
Lemma num_local tr ha fr i : rdl (T := T) 1 (fun h => ask (mkSys h tr ha fr) i QNumChildren).
Proof.
  unfold ask. cbn [s_hands s_nodes]. destruct (ha !! i) as [[k x| | | | |]|]; try rk. apply (rdl_map (fun n => Ret (AnsNum n))), r_fnch.
Qed.
Lemma from_rdl k i q : (forall tr ha fr, rdl (T := T) k (fun h => ask (mkSys h tr ha fr) i q)) -> forall s : sys T,
  exists l : list nid, length l <= k /\ forall s2, same_on l s s2 -> ask s2 i q = ask s i q.
Proof.
  intros R [h tr ha fr]. destruct (R tr ha fr h) as (l & Hl & E). exists l. split; [exact Hl|].
  intros [g tr2 ha2 fr2] (E1 & E2 & E3 & Ag). cbn [s_nodes s_trees s_hands s_fresh] in E1, E2, E3, Ag. subst tr2 ha2 fr2. by apply E.
Qed.
End Q.

Theorem C57_constant : forall (T : Type) (s : sys T) (o : op T), brief s o -> touches 93 s o.
Proof. intros T s o. exact (constant s o). Qed.
Print Assumptions C57_constant.

Theorem C57_questions : forall (T : Type) (s : sys T) i q, quick q ->
  exists l : list nid, length l <= 5 /\ forall s2, same_on l s s2 -> ask s2 i q = ask s i q.
Proof. intros T s i q Q. exact (from_rdl 5 i q (fun tr ha fr => ask_local tr ha fr i q Q) s). Qed.
Print Assumptions C57_questions.

Theorem C57_num_children : forall (T : Type) (s : sys T) i,
  exists l : list nid, length l <= 1 /\ forall s2, same_on l s s2 -> ask s2 i QNumChildren = ask s i QNumChildren.
Proof. intros T s i. exact (from_rdl 1 i QNumChildren (fun tr ha fr => num_local tr ha fr i) s). Qed.
Print Assumptions C57_num_children.

(** The calls are brief in the demo: moving the node 6 below the node 8 and creating a child of 0; and
    they succeed. *)
Example C57_nonvacuous : brief demo (OpMove (ByHot 7) AFirstChild 9) /\ nxt_out demo (OpMove (ByHot 7) AFirstChild 9) = OutUnit /\
  brief demo (OpCreate (ByHot 3) 122 AFirstChild) /\ brief demo (OpInterruptParent (ByHot 5) 122) /\
  nxt_out demo (OpInterruptParent (ByHot 5) 122) = OutHandle 23.
Proof.
  split; [exists 6, 8, 1|split; [by vm_compute|split; [|split; [exact Logic.I|by vm_compute]]]].
  - split; [exists Hot; by vm_compute|]. split; [exists Hot; by vm_compute|].
    split; (eexists _, _, _; split; [vm_compute; reflexivity|vm_compute; reflexivity]).
  - exists (nxt demo (OpCreate (ByHot 3) 122 AFirstChild)), 23. apply nxt_ok; by vm_compute.
Qed.
