(** * ApiFacts6: the remaining lemmas behind the property files. *)
From Verif Require Import Heap Edit System SysSpec CardFacts HeapFacts SpecFacts NavFacts NavFacts2 EditFacts EditFacts2 EditFacts3 EditFacts4 EditFacts5 IterSpec RoseFacts AdjFacts TravFacts TdFacts TdFacts2 SysFacts SysFacts2 SysFacts3 SysFacts4 SysFacts5 SysFacts6 SysFacts7 SysFacts8 SysFacts9 SysFacts10 SysFacts11 SysFacts12 SysFacts13 SysFacts14 SysFacts15 ApiSpec ApiFacts ApiFacts2 ApiFacts3 ApiFacts4 ApiFacts5 Spec.

Section ApiFacts6.
Context {T : Type}.
Implicit Types (h : heap T) (s : sys T) (hm : gmap nat handle) (K : forest).

(** ** Shapes *)
Lemma shape_agree K K' : forall tr x, shape K x tr -> (forall y, y ∈ rose_nodes tr -> K' !! y = K !! y) -> shape K' x tr.
Proof.
  fix IH 1. intros [z ts] x H. inversion H as [? ? Hk Hf]; subst. intros Ha. constructor.
  - rewrite Ha; [done|]. simpl. left.
  - assert (forall y, y ∈ concat (map rose_nodes ts) -> K' !! y = K !! y) as Ha'. { intros y Hy. apply Ha. simpl. by right. }
    clear Ha H Hk. induction ts as [|t ts IHts]; [constructor|]. inversion Hf; subst. constructor.
    + apply IH; [done|]. intros y Hy. apply Ha'. simpl. apply elem_of_app. by left.
    + apply IHts; [done|]. intros y Hy. apply Ha'. simpl. apply elem_of_app. by right.
Qed.
Lemma shape_below K K' x tr : shape K x tr -> (forall y, below K x y -> K' !! y = K !! y) -> shape K' x tr.
Proof. intros H Ha. eapply shape_agree; [exact H|]. intros y Hy. apply Ha. by apply (shape_nodes K x tr y H). Qed.

(** A subtree does not change when a parent outside it does. *)
Lemma below_change K x p ks' y : ~ below K x p -> below K x y -> below (<[p := ks']> K) x y.
Proof.
  intros Hp. induction 1 as [|q c Hb IH (ks & Hq & Hin)]; [constructor|].
  econstructor; [exact IH|]. exists ks. split; [|done]. rewrite lookup_insert_ne; [done|]. intros ->. done.
Qed.
Lemma shape_change K x p ks' tr : ~ below K x p -> shape K x tr -> shape (<[p := ks']> K) x tr.
Proof. intros Hp H. eapply shape_below; [exact H|]. intros y Hb. rewrite lookup_insert_ne; [done|]. intros ->. done. Qed.
Lemma not_below_parent K p x : wf K -> child_of K p x -> ~ below K x p.
Proof. intros Hw Hc. by apply no_cycle. Qed.

Lemma unlinked_shape K x K1 tr : wf K -> unlinked K x K1 -> shape K x tr -> shape K1 x tr.
Proof. intros Hw (q & ks & Hq & Hin & ->). apply shape_change. apply not_below_parent; [done|]. by exists ks. Qed.
Lemma unlinked_below K x K1 y : wf K -> unlinked K x K1 -> (below K1 x y <-> below K x y).
Proof.
  intros Hw Hu. split; [by apply (below_unlinked K x)|]. destruct Hu as (q & ks & Hq & Hin & ->). apply below_change.
  apply not_below_parent; [done|]. by exists ks.
Qed.
Lemma carries_below s K1 x t t' s' K2 y : wf K1 -> carries s K1 x t t' s' K2 -> below K1 x y -> K2 !! y = K1 !! y.
Proof. intros Hw C Hb. destruct (cy_rest _ _ _ _ _ _ _ C) as [(_ & _ & ->)|(_ & _ & Ho)]; [done|]. apply Ho. by left. Qed.
Lemma carries_shape s K1 x t t' s' K2 tr : wf K1 -> carries s K1 x t t' s' K2 -> shape K1 x tr -> shape K2 x tr.
Proof. intros Hw C H. eapply shape_below; [exact H|]. intros y Hb. by eapply carries_below. Qed.
Lemma attached_shape K n dest K' tr : wf K -> attached K n dest K' -> ~ below K n (dest_anchor dest) -> shape K n tr -> shape K' n tr.
Proof.
  intros Hw A Hb. inversion A; subst; simpl in Hb.
  - by apply shape_change. - by apply shape_change.
  - apply shape_change. intros Hc. apply Hb. econstructor; [exact Hc|]. by exists ks.
  - apply shape_change. intros Hc. apply Hb. econstructor; [exact Hc|]. by exists ks.
Qed.


Lemma carries_below_inv s K1 x t t' s' K2 y : carries s K1 x t t' s' K2 -> below K2 x y -> below K1 x y.
Proof.
  intros C. destruct (cy_rest _ _ _ _ _ _ _ C) as [(_ & _ & ->)|(_ & _ & Ho)]; [done|].
  induction 1 as [|p c Hb IH (ks & Hp & Hin)]; [constructor|]. econstructor; [exact IH|]. exists ks. split; [|done].
  rewrite <- Hp. symmetry. apply Ho. by left.
Qed.

Lemma detach_shape_api s K a k x : reach s -> stores s K -> receiver s a k x ->
  forall p ks, K !! p = Some ks -> x ∈ ks -> (last_not_first K x -> alone s K x) ->
     exists s' t t' K2, step s (OpDetach a) = Ret (s', OutUnit) /\ tree_of s x = Some t /\
       splits s (<[p := without x ks]> K) x t t' s' K2 /\ (forall tr, shape K x tr -> shape K2 x tr).
Proof.
  intros H Hst Hr p ks Hp Hin Hl. destruct (proj2 (detach_api s K a k x H Hst Hr) p ks Hp Hin Hl) as (s' & t & t' & K2 & E & Et & Sp).
  exists s', t, t', K2. split; [exact E|]. split; [exact Et|]. split; [exact Sp|].
  intros tr Htr. assert (unlinked K x (<[p := without x ks]> K)) as Hu by (by exists p, ks).
  eapply carries_shape; [|exact (sp_carries _ _ _ _ _ _ _ Sp)|].
  - exact (proj1 (unlinked_wf K x _ (proj2 Hst) Hu)).
  - eapply unlinked_shape; [apply Hst|exact Hu|exact Htr].
Qed.

Lemma move_shape_api s K a k x ad j y : reach s -> stores s K -> receiver s a k x -> s_hands s !! j = Some (HNode Hot y) ->
  (exists p, child_of K p x) -> (last_not_first K x -> alone s K x) -> ~ below K x y -> has_place K ad y ->
  exists s' t t', step s (OpMove a ad j) = Ret (s', OutUnit) /\ tree_of s x = Some t /\ tree_of s y = Some t' /\
    (t = t' -> exists K', moved K x (dest_of ad y) K' /\ reshapes s s' K' /\ forall tr, shape K x tr -> shape K' x tr) /\
    (t <> t' -> exists K1 K2 K3, unlinked K x K1 /\ carries s K1 x t t' s' K2 /\ attached K2 x (dest_of ad y) K3 /\
       stores s' K3 /\ forall tr, shape K x tr -> shape K3 x tr).
Proof.
  intros H Hst Hr Hj Hp Hl Hb Hpl.
  destruct (move_api s K a k x ad j y H Hst Hr Hj Hp Hl Hb Hpl) as (s' & t & t' & E & Et & Et' & A & B).
  exists s', t, t'. split; [exact E|]. split; [exact Et|]. split; [exact Et'|]. split.
  - intros e. destruct (A e) as (K' & M & R). exists K'. split; [exact M|]. split; [exact R|].
    intros tr Htr. destruct M as (K1 & Hu & At). assert (wf K1) as W1 by (exact (proj1 (unlinked_wf K x _ (proj2 Hst) Hu))).
    eapply attached_shape; [exact W1|exact At| |eapply unlinked_shape; [apply Hst|exact Hu|exact Htr]].
    rewrite dest_of_anchor. intros Hc. apply Hb. by apply (below_unlinked K x K1); [apply Hst|..].
  - intros ne. destruct (B ne) as (K1 & K2 & K3 & Hu & C & At & S3). exists K1, K2, K3.
    split; [exact Hu|]. split; [exact C|]. split; [exact At|]. split; [exact S3|].
    intros tr Htr. assert (wf K1) as W1 by (exact (proj1 (unlinked_wf K x _ (proj2 Hst) Hu))).
    assert (shape K2 x tr) as H2. { eapply carries_shape; [exact W1|exact C|]. eapply unlinked_shape; [apply Hst|exact Hu|exact Htr]. }
    inversion At; subst; simpl in *;
      (eapply shape_below; [exact H2|]; intros z Hz; rewrite lookup_insert_ne; [done|]; intros ->; apply Hb;
       assert (below K x z) as Hz' by (apply (unlinked_below K x K1 z ltac:(apply Hst) Hu); by eapply carries_below_inv)).
    + destruct ad; simpl in *; congruence.
    + destruct ad; simpl in *; congruence.
    + destruct ad; simpl in *; try congruence. assert (s0 = y) as -> by congruence.
      apply (unlinked_below K x K1 y ltac:(apply Hst) Hu). eapply carries_below_inv; [exact C|]. econstructor; [exact Hz|]. by exists ks.
    + destruct ad; simpl in *; try congruence. assert (s0 = y) as -> by congruence.
      apply (unlinked_below K x K1 y ltac:(apply Hst) Hu). eapply carries_below_inv; [exact C|]. econstructor; [exact Hz|]. by exists ks.
Qed.
End ApiFacts6.
