(** * DocFacts5: moving a whole tree, seen through the documents (C58). *)
From Verif Require Import Heap Traverse System SysSpec SpecFacts RoseFacts IterSpec IterFacts TravFacts ApiSpec ApiFacts ApiFacts2 ApiFacts3 ApiFacts6 ApiFacts8 GraftSpec GraftFacts2 GraftFacts5 DocSpec EditFacts2 DocFacts DocFacts2 DocFacts3 DocFacts4 Spec.

Section DocFacts5.
Context {T : Type}.
Implicit Types (s : sys T) (K : forest).

Lemma graft_docs s K K' x ad y s' : stores s K -> is_Some (s_nodes s !! x) -> ~ below K x y -> attached K x (dest_of ad y) K' -> stores s' K' ->
  forall S, reads s x S -> reads s' x S /\
  forall r E, is_Some (s_nodes s !! r) -> reads s r E -> exists E', pasted S y E ad E' /\ reads s' r E'.
Proof.
  intros St Hx Hnb At S' S HS. apply (reads_docs s K) in HS; [|done..].
  assert (P : forall q, dest_parent K (dest_of ad y) q -> Open q ∉ S).
  { intros q Hq F. pose proof (docs_below K x S q (proj2 St) HS F) as Hb. destruct ad; cbn [dest_of dest_parent] in Hq; [by subst|by subst|..]; apply Hnb; (econstructor; [exact Hb|done]). }
  split.
  - apply (docs_reads s' K'); [done|]. eapply docs_agree; [exact HS|]. intros z Hz.
    assert (Hne : forall q, dest_parent K (dest_of ad y) q -> z <> q) by (intros q Hq ->; by apply (P q Hq)).
    inversion At as [p ks Hp E1 E2|p ks Hp E1 E2|v p ks Hp Hin E1 E2|v p ks Hp Hin E1 E2]; subst; (rewrite lookup_insert_ne; [done|]); intros <-; (eapply Hne; [|reflexivity]); rewrite <- E1; cbn; try done; by exists ks.
  - intros r E Hr HE. apply (reads_docs s K) in HE; [|done..].
    destruct (paste_docs K r E x S ad y K' (proj2 St) HE HS At P) as (E' & HP & D). exists E'. split; [done|]. by eapply docs_reads.
Qed.

Lemma doc_graft s K a k x ad j y t t' : reach s -> stores s K -> receiver s a k x -> s_hands s !! j = Some (HNode Hot y) ->
  is_top K x -> tree_of s x = Some t -> tree_of s y = Some t' -> t <> t' -> has_place K ad y ->
  K !! x = Some [] \/ (exists i, s_hands s !! i = Some (HTree t)) ->
  exists s', step s (OpMove a ad j) = Ret (s', OutUnit) /\
  forall S, reads s x S -> reads s' x S /\
  forall r E, is_Some (s_nodes s !! r) -> reads s r E -> exists E', pasted S y E ad E' /\ reads s' r E'.
Proof.
  intros R St Hr Hj Htop Ht Ht' Hne Hpl HH. destruct (receiver_facts s K a k x (reach_stores_inv s K R St) Hr) as (_ & _ & _ & _ & _ & _ & Hx & _).
  assert (Hnb : ~ below K x y). { intros B. pose proof (subtree_tree s K x y t R St Ht B). congruence. }
  destruct (tree_handle_dec s t) as [[i Hi]|Hno].
  - destruct (graft_kept s K a k x ad j y t t' i R St Hr Hj Htop Ht Ht' Hne Hi Hpl) as (s' & K' & Es & _ & At & S').
    exists s'. split; [done|]. by apply (graft_docs s K K').
  - destruct HH as [Hk|[i Hi]]; [|by destruct (Hno i)].
    destruct (graft_leaf_api s K a k x ad j y t t' R St Hr Hj Htop Hk Ht Ht' Hne Hno Hpl) as (s' & K' & Es & _ & _ & At & S' & _).
    exists s'. split; [done|]. by apply (graft_docs s K K').
Qed.
End DocFacts5.
