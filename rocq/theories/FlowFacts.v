(** * FlowFacts: when nodes change tree the lock counts follow, after any history (C25). *)
From Verif Require Import Heap Edit System SysSpec ApiSpec ApiFacts5 ApiFacts8 GenSpec GenFacts GenFacts3 GenFacts5 GenFacts6 GenFacts7 CountFacts FlowSpec Spec.

Lemma card_unique (P : nat -> Prop) a b : card P a -> card P b -> a = b.
Proof. intros A B. pose proof (card_sub P P a b A B (fun _ H => H)). pose proof (card_sub P P b a B A (fun _ H => H)). lia. Qed.
Lemma card_split (P Q : nat -> Prop) `{!forall y, Decision (Q y)} n : card P n ->
  exists a b, card (fun y => P y /\ Q y) a /\ card (fun y => P y /\ ~ Q y) b /\ n = a + b.
Proof.
  intros (l & Nd & Hl & Hn). exists (length (filter Q l)), (length (filter (fun y => ~ Q y) l)). split; [|split].
  - exists (filter Q l). split; [by apply NoDup_filter|]. split; [|done]. intros y. rewrite elem_of_list_filter, Hl. tauto.
  - exists (filter (fun y => ~ Q y) l). split; [by apply NoDup_filter|]. split; [|done]. intros y. rewrite elem_of_list_filter, Hl. tauto.
  - rewrite <- Hn. clear -l. induction l as [|c l IH]; [done|]. destruct (decide (Q c)) as [Hq|Hq].
    + rewrite filter_cons_True by done. rewrite (filter_cons_False (fun y => ~ Q y)) by tauto. simpl. lia.
    + rewrite filter_cons_False by done. rewrite (filter_cons_True (fun y => ~ Q y)) by tauto. simpl. lia.
Qed.
Lemma card_none (P : nat -> Prop) : (forall y, ~ P y) -> card P 0.
Proof. intros N. exists []. split; [constructor|]. split; [|done]. intros y. split; [by intros ?%elem_of_nil|]. intros H. by apply N in H. Qed.

Section Flow.
Context {T : Type}.
Implicit Types (s u : sys T) (k : kind) (t : tid).

Lemma kind_flow s u k t n n' : s_hands u = s_hands s -> k <> Plain -> holders s (s_hands s) k t n -> holders u (s_hands u) k t n' ->
  exists gi go, card (joins s u k t) gi /\ card (joins u s k t) go /\ n' + go = n + gi.
Proof.
  intros Eh Hk (a & b & A & B & ->) (a' & b' & A' & B' & ->). rewrite Eh in A', B'. assert (a' = a) as -> by (by eapply card_unique).
  destruct (card_split _ (fun y => tree_of u y = Some t) b B) as (c & go & C & Go & ->).
  destruct (card_split _ (fun y => tree_of s y = Some t) b' B') as (c' & gi & C' & Gi & ->).
  assert (c' = c) as ->. { eapply card_unique; [exact C'|]. eapply card_eqv; [|exact C]. intros y. unfold node_holder. tauto. }
  exists gi, go. split; [|split; [|lia]].
  - eapply card_eqv; [|exact Gi]. intros y. unfold node_holder, joins. rewrite Eh. tauto.
  - eapply card_eqv; [|exact Go]. intros y. unfold node_holder, joins. tauto.
Qed.
(** A tree that does not exist has no holders that will ever count again. *)
Lemma absent_holders s o u r k t : ok s -> step s o = Ret (u, r) -> s_hands u = s_hands s -> s_trees s !! t = None -> is_Some (s_trees u !! t) ->
  holders s (s_hands s) k t 0.
Proof.
  intros Ok E Eh Hn Hu. exists 0, 0. split; [|split; [|done]].
  - apply card_none. intros i [Hk Hi]. destruct (any_gone s o u r i _ Ok E Hi) as [_ G].
    assert (s_trees u !! t = None) as Z. { apply (G t); [|exact Hn]. destruct k; [done| |]; simpl; auto. }
    rewrite Z in Hu. by destruct Hu.
  - apply card_none. intros y (_ & Ey & i & Hi). destruct (any_handle s i k y Ok Hi) as (d & l & t' & tr & _ & E1 & E2 & _).
    assert (t' = t) as -> by congruence. congruence.
Qed.
Lemma any_flow s o u r t : ok s -> ok u -> step s o = Ret (u, r) -> s_hands u = s_hands s -> is_Some (s_trees u !! t) ->
  exists gi go pi po, card (joins s u Hot t) gi /\ card (joins u s Hot t) go /\ card (joins s u Frozen t) pi /\ card (joins u s Frozen t) po /\
    lock_cnt u t = (lock_cnt s t + Z.of_nat gi - Z.of_nat go - Z.of_nat pi + Z.of_nat po)%Z.
Proof.
  intros Ok Ok' E Eh [tr' Htr']. destruct (any_balance u t tr' Ok' Htr') as (g' & p' & Hg' & Hp' & Ec' & _).
  assert (exists g p, holders s (s_hands s) Hot t g /\ holders s (s_hands s) Frozen t p /\ lock_cnt s t = (Z.of_nat g - Z.of_nat p)%Z) as (g & p & Hg & Hp & Ec).
  { unfold lock_cnt. destruct (s_trees s !! t) as [tr|] eqn:Htr.
    - destruct (any_balance s t tr Ok Htr) as (g & p & Hg & Hp & Ec & _). eauto.
    - exists 0, 0. split; [|split; [|done]]; eapply (absent_holders s o u r); eauto. }
  destruct (kind_flow s u Hot t g g' Eh ltac:(discriminate) Hg Hg') as (gi & go & A1 & A2 & A3).
  destruct (kind_flow s u Frozen t p p' Eh ltac:(discriminate) Hp Hp') as (pi & po & B1 & B2 & B3).
  exists gi, go, pi, po. split; [exact A1|]. split; [exact A2|]. split; [exact B1|]. split; [exact B2|].
  unfold lock_cnt at 1. rewrite Htr'. rewrite Ec, Ec'. lia.
Qed.
End Flow.
