(** * PropDoc2: moving a whole tree into another one is pasting its document (C58). *)
From Verif Require Import Heap Traverse System SysSpec ApiSpec IterSpec IterFacts DocSpec DocFacts DocFacts2 DocFacts3 DocFacts4 DocFacts5 DocFacts6 Serial PropGraft  PropDoc PropMove Demo Examples Spec.

(** In every reachable state every node has exactly one document: it starts and ends with the node's own brackets, and no
    bracket occurs twice. *)
Theorem C58_readable : forall (T : Type) (s : sys T) r, reach s -> is_Some (s_nodes s !! r) ->
  exists E, reads s r E /\ NoDup E /\ hd_error E = Some (Open r) /\ last E = Some (Close r) /\ forall E', reads s r E' -> E' = E.
Proof. exact @doc_readable. Qed.
Print Assumptions C58_readable.

(** The root [x] of another tree is moved to a place that exists.  [_partial]: the tree consists of [x] alone, or the user has
    a [Tree] handle to it; otherwise it falls apart (below, and C10_whole_lost_exact). *)
Theorem C58_graft_partial : forall (T : Type) (s : sys T) K a k x ad j y t t', reach s -> stores s K -> receiver s a k x -> s_hands s !! j = Some (HNode Hot y) ->
  is_top K x -> tree_of s x = Some t -> tree_of s y = Some t' -> t <> t' -> has_place K ad y ->
  K !! x = Some [] \/ (exists i, s_hands s !! i = Some (HTree t)) ->
  exists s', step s (OpMove a ad j) = Ret (s', OutUnit) /\
  forall S, reads s x S -> reads s' x S /\
  forall r E, is_Some (s_nodes s !! r) -> reads s r E -> exists E', pasted S y E ad E' /\ reads s' r E'.
Proof. exact @doc_graft. Qed.
Print Assumptions C58_graft_partial.

Definition doc16 : doc := [Open 16; Open 20; Close 20; Close 16].
Example C58_graft_nonvacuous : reach graft_demo /\ stores graft_demo graftK /\ receiver graft_demo (ByHot 19) Hot 16 /\
  s_hands graft_demo !! 7 = Some (HNode Hot 6) /\ is_top graftK 16 /\ tree_of graft_demo 16 = Some 17 /\ tree_of graft_demo 6 = Some 1 /\
  has_place graftK ANextSibling 6 /\ s_hands graft_demo !! 22 = Some (HTree 17) /\ reads graft_demo 16 doc16 /\ reads graft_demo 0 doc0 /\
  pasted doc16 6 doc0 ANextSibling [Open 0; Open 4; Open 10; Close 10; Open 12; Close 12; Close 4; Open 6; Close 6;
    Open 16; Open 20; Close 20; Close 16; Open 8; Open 14; Close 14; Close 8; Close 0].
Proof.
  split; [exact graft_reach|]. split; [exact graft_stores|]. split; [by vm_compute|]. split; [by vm_compute|].
  split; [apply top_b_ok; by vm_compute|]. split; [by vm_compute|]. split; [by vm_compute|].
  split; [exists 0, [4; 6; 8]; split; [by vm_compute|set_solver]|]. split; [by vm_compute|].
  split; [apply run_enumerates; by vm_compute|]. split; [apply run_enumerates; by vm_compute|].
  by apply (p_next doc16 6 doc0 [Open 0; Open 4; Open 10; Close 10; Open 12; Close 12; Close 4] [] [Open 8; Open 14; Close 14; Close 8; Close 0]).
Qed.

(** Without a [Tree] handle the moved root loses its children: its document is not kept. *)
Theorem C58_graft_refuted : exists (s : sys nat) K a k x ad j y t t' s' S, reach s /\ stores s K /\ receiver s a k x /\ s_hands s !! j = Some (HNode Hot y) /\
  is_top K x /\ tree_of s x = Some t /\ tree_of s y = Some t' /\ t <> t' /\ has_place K ad y /\ step s (OpMove a ad j) = Ret (s', OutUnit) /\
  reads s x S /\ reads s' x [Open x; Close x] /\ S <> [Open x; Close x].
Proof.
  exists demo, demoK, (ByHot 19), Hot, 16, ALastChild, 7, 6, 17, 1, (nxt demo (OpMove (ByHot 19) ALastChild 7)), doc16.
  split; [exact demo_reach|]. split; [exact demo_stores|]. split; [by vm_compute|]. split; [by vm_compute|].
  split; [apply top_b_ok; by vm_compute|]. split; [by vm_compute|]. split; [by vm_compute|]. split; [done|]. split; [exact Logic.I|].
  split; [apply nxt_ok; by vm_compute|]. split; [apply run_enumerates; by vm_compute|]. split; [|done]. unfold reads. apply run_enumerates. by vm_compute.
Qed.
Print Assumptions C58_graft_refuted.

(** [try_clone_insert_subtree]; [_partial]: at a place outside the source (inside: C22_inside_exact).  A copy of the document of the source is pasted
    ([copied]: same shape, same data; the nodes are new). *)
Theorem C58_clone_insert_partial : forall (T : Type) (s : sys T) K x S ad j y fuel s' i, reach s -> stores s K -> is_Some (s_nodes s !! x) -> reads s x S ->
  s_hands s !! j = Some (HNode Hot y) -> has_place K ad y ->
  (forall q, dest_parent K (dest_of ad y) q -> ~ below K x q) -> dfs_fuel (s_nodes s) <= fuel ->
  clone_insert_subtree fuel s x ad j = Ret (s', HOk i) ->
  exists n S', s_hands s' !! i = Some (HNode Hot n) /\ s_nodes s !! n = None /\ reads s' n S' /\ copied s s' S S' /\
    forall r E, is_Some (s_nodes s !! r) -> reads s r E -> exists E', pasted S' y E ad E' /\ reads s' r E'.
Proof. exact @doc_clone_insert. Qed.
Print Assumptions C58_clone_insert_partial.

Definition doc4 : doc := [Open 4; Open 10; Close 10; Open 12; Close 12; Close 4].
Example C58_clone_insert_nonvacuous : reach demo /\ stores demo demoK /\ alive (s_nodes demo) 4 = true /\ reads demo 4 doc4 /\
  s_hands demo !! 19 = Some (HNode Hot 16) /\ has_place demoK ALastChild 16 /\ (forall q, dest_parent demoK (dest_of ALastChild 16) q -> ~ below demoK 4 q) /\
  dfs_fuel (s_nodes demo) <= 50 /\ reads demo 16 doc16 /\
  pasted [Open 22; Open 25; Close 25; Open 28; Close 28; Close 22] 16 doc16 ALastChild
    [Open 16; Open 20; Close 20; Open 22; Open 25; Close 25; Open 28; Close 28; Close 22; Close 16] /\
  match clone_insert_subtree 50 demo 4 ALastChild 19 with
  | Ret (s', HOk i) => s_hands s' !! i = Some (HNode Hot 22) /\
      run_dfs (s_nodes s') (dfs_start (Some 16)) [Open 16; Open 20; Close 20; Open 22; Open 25; Close 25; Open 28; Close 28; Close 22; Close 16] = true
  | _ => False end.
Proof.
  split; [exact demo_reach|]. split; [exact demo_stores|]. split; [by vm_compute|]. split; [apply run_enumerates; by vm_compute|].
  split; [by vm_compute|]. split; [exact Logic.I|]. split.
  { intros q Hq. simpl in Hq. subst q. apply (not_above_ok 20 (s_nodes demo)); [apply demo_stores|by vm_compute]. }
  split; [apply Nat.leb_le; by vm_compute|]. split; [apply run_enumerates; by vm_compute|]. split; [|by vm_compute].
  by apply (p_last [Open 22; Open 25; Close 25; Open 28; Close 28; Close 22] 16 doc16 [] [Open 20; Close 20] []).
Qed.
