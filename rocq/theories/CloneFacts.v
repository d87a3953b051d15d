From Verif Require Import HIter HIter2 OwnSpec OwnFacts OwnFacts2 CloneSpec GenSpec GenFacts5 HIterFacts Spec.

Section CloneFacts.
Context {T : Type}.
Implicit Types (s : sys T).

Lemma made_twin s own s' i j : hands_over [] s own s' -> twin s i j -> twin s' i j.
Proof.
  intros (_ & N & _ & F) (hd & Hi & Hj).
  assert (forall k, s_hands s !! k = Some hd -> s_hands s' !! k = Some hd) as A.
  { intros k Hk. destruct (decide (k ∈ own)) as [I|I]; [|rewrite F; [exact Hk|exact I|apply not_elem_of_nil]].
    destruct (proj2 (N k I)) as [X|X]; [by apply elem_of_nil in X|congruence]. }
  exists hd. split; apply A; done.
Qed.
Lemma clone_twin s i s' j : any s -> h_clone s i = Ret (s', j) -> twin s' i j.
Proof.
  intros H E. pose proof (t_clone s i s' j H E) as (_ & P). unfold h_clone, call_hand in E.
  destruct (step s (OpClone i)) as [[s1 o]| |] eqn:Est; [|discriminate E|discriminate E]. cbn [mbind run_bind] in E.
  assert (exists hd, s_hands s !! i = Some hd /\ s_hands s1 !! j = Some hd /\ s1 = s') as (hd & Hi & Hj & <-).
  { destruct o; try discriminate E. injection E as <- <-. cbn [step] in Est. destruct (s_hands s !! i) as [hd|] eqn:Hi; [|discriminate Est].
    exists hd. split; [done|]. split; [|done].
    assert (forall (u : sys T) h0, s_hands (add_hand u h0) !! s_fresh u = Some h0) as A. { intros u h0. apply lookup_insert. }
    destruct hd as [k x|t|t|t|x|t].
    - unfold clone_node in Est.
      destruct (match k with Plain => Ret s | _ => incr_nonzero_lock s x end) as [u1| |]; cbn [mbind run_bind] in Est; [|discriminate Est|discriminate Est].
      destruct (incr_nonzero_ref u1 x) as [u2| |]; cbn [mbind run_bind] in Est; [|discriminate Est|discriminate Est]. injection Est as <- <-. apply A.
    - injection Est as <- <-. apply A.
    - unfold clone_token in Est. destruct (tree_alive s t); [|injection Est as <- <-; apply A]. destruct (lock_tree s Hot t); [|discriminate Est]. injection Est as <- <-. apply A.
    - unfold clone_token in Est. destruct (tree_alive s t); [|injection Est as <- <-; apply A]. destruct (lock_tree s Frozen t); [|discriminate Est]. injection Est as <- <-. apply A.
    - injection Est as <- <-. apply A.
    - injection Est as <- <-. apply A. }
  exists hd. split; [|exact Hj]. destruct P as (_ & N & _ & F). destruct (decide (i = j)) as [-> |Ne]; [exact Hj|].
  rewrite F; [exact Hi| |apply not_elem_of_nil]. intros X%elem_of_list_singleton. done.
Qed.
Ltac bi E p E1 := lazymatch type of E with (mbind _ ?m) = _ => destruct m as [p| |] eqn:E1; cbn [mbind run_bind] in E; [|discriminate E|discriminate E] end.
(** A clone of a part, with what it owns then, and an alikeness that survives the making of handles. *)
Definition part {A} (c : sys T -> A -> run (sys T * A)) (al : sys T -> A -> A -> Prop) : Prop :=
  (forall s a s' a', any s -> c s a = Ret (s', a') -> (exists own, turns [] s own s') /\ al s' a a') /\
  (forall s own s' a a', hands_over [] s own s' -> al s a a' -> al s' a a').
Lemma part_hand : part (@h_clone T) twin.
Proof.
  split; [|intros s own s' a a'; exact (made_twin s own s' a a')]. intros s i s' j H E. split; [|exact (clone_twin s i s' j H E)]. exists [j]. exact (t_clone s i s' j H E).
Qed.
Lemma part_opt : part (@h_clone_opt T) (fun s => option_Forall2 (twin s)).
Proof.
  split.
  - intros s o s' o' H E. split; [exists (option_list o'); exact (t_clone_opt s o s' o' H E)|]. destruct o as [i|]; simpl in E.
    + bi E p E1. destruct p as [s1 j]. injection E as <- <-. constructor. exact (clone_twin _ _ _ _ H E1).
    + injection E as <- <-. constructor.
  - intros s own s' o o' Ho A. destruct A as [i j A|]; constructor. exact (made_twin _ _ _ _ _ Ho A).
Qed.
Lemma part_ev : part (@ev_clone T) (fun s => ev_rel (twin s)).
Proof.
  split.
  - intros s e s' e' H E. split; [exists [ev_val e']; exact (t_ev_clone s e s' e' H E)|].
    destruct e as [i|i]; simpl in E; bi E p E1; destruct p as [s1 j]; injection E as <- <-; exact (clone_twin _ _ _ _ H E1).
  - intros s own s' e e' Ho A. destruct e, e'; try exact A; exact (made_twin _ _ _ _ _ Ho A).
Qed.
Lemma part_evd : part (@evd_clone T) (fun s => ev_rel (twin_at s)).
Proof.
  split.
  - intros s e s' e' H E. split; [exists [(ev_val e').1]; exact (t_evd_clone s e s' e' H E)|].
    destruct e as [[i d]|[i d]]; simpl in E; bi E p E1; destruct p as [s1 j]; injection E as <- <-; (split; [exact (clone_twin _ _ _ _ H E1)|reflexivity]).
  - intros s own s' e e' Ho A. destruct e, e'; try exact A; (split; [exact (made_twin _ _ _ _ _ Ho (proj1 A))|exact (proj2 A)]).
Qed.
Lemma ho_trans0 s own s1 own1 s2 : any s -> turns [] s own s1 -> turns [] s1 own1 s2 -> exists own2, turns [] s own2 s2.
Proof.
  intros H A B. eexists. eapply t_new; [apply owned_nil|exact A|]. rewrite app_nil_r. intros H1 O1. eapply t_new; [exact O1|exact B|]. intros H2 O2.
  apply t_done; [exact H2|exact O2|apply Permutation_refl].
Qed.
Lemma part_pair {A B} (ca : sys T -> A -> run (sys T * A)) (cb : sys T -> B -> run (sys T * B)) la lb : part ca la -> part cb lb ->
  part (pair_clone ca cb) (fun s => option_Forall2 (prod_relation (la s) (lb s))).
Proof.
  intros [CA MA] [CB MB]. split.
  - intros s o s' o' H E. destruct o as [[x y]|]; simpl in E.
    + bi E p E1. destruct p as [s1 x']. bi E p E2. destruct p as [s2 y']. injection E as <- <-.
      destruct (CA _ _ _ _ H E1) as [(o1 & T1) L1]. destruct (CB _ _ _ _ (proj1 T1) E2) as [(o2 & T2) L2].
      split; [exact (ho_trans0 _ _ _ _ _ H T1 T2)|]. constructor. split; [exact (MA _ _ _ _ _ (proj2 T2) L1)|exact L2].
    + injection E as <- <-. split; [exists []; apply t_done; [exact H|apply owned_nil|apply Permutation_refl]|constructor].
  - intros s own s' o o' Ho L. destruct L as [[x y] [x' y'] [L1 L2]|]; constructor. split; [exact (MA _ _ _ _ _ Ho L1)|exact (MB _ _ _ _ _ Ho L2)].
Qed.
Lemma part_nbf : part (@hnbf_clone T) alike_nbf.
Proof.
  pose proof (part_pair _ _ _ _ part_evd part_evd) as [CP MP]. pose proof part_opt as [CO MO]. split.
  - intros s st s' st' H E. unfold hnbf_clone in E. bi E p E1. destruct p as [s1 inner]. bi E p E2. destruct p as [s2 root]. injection E as <- <-.
    destruct (CP _ _ _ _ H E1) as [(o1 & T1) L1]. destruct (CO _ _ _ _ (proj1 T1) E2) as [(o2 & T2) L2].
    split; [exact (ho_trans0 _ _ _ _ _ H T1 T2)|]. split; [exact (MP _ _ _ _ _ (proj2 T2) L1)|]. split; [exact L2|reflexivity].
  - intros s own s' a b Ho (L1 & L2 & L3). split; [exact (MP _ _ _ _ _ Ho L1)|]. split; [exact (MO _ _ _ _ _ Ho L2)|exact L3].
Qed.
Lemma part_queue : part (@queue_clone T) (fun s => Forall2 (option_Forall2 (twin s))).
Proof.
  pose proof part_opt as [CO MO].
  assert (forall s own s' a a', hands_over [] s own s' -> Forall2 (option_Forall2 (twin s)) a a' -> Forall2 (option_Forall2 (twin s')) a a') as M.
  { intros s own s' a a' Ho L. induction L as [|x y l k L1 L2 IH]; constructor; [exact (MO _ _ _ _ _ Ho L1)|exact IH]. }
  split; [|exact M]. intros s q. revert s. induction q as [|o q IH]; intros s s' q' H E; cbn [queue_clone] in E.
  - injection E as <- <-. split; [exists []; apply t_done; [exact H|apply owned_nil|apply Permutation_refl]|constructor].
  - bi E p E1. destruct p as [s1 o1]. bi E p E2. destruct p as [s2 q2]. injection E as <- <-.
    destruct (CO _ _ _ _ H E1) as [(w1 & T1) L1]. destruct (IH _ _ _ (proj1 T1) E2) as [(w2 & T2) L2].
    split; [exact (ho_trans0 _ _ _ _ _ H T1 T2)|]. constructor; [exact (MO _ _ _ _ _ (proj2 T2) L1)|exact L2].
Qed.
Lemma part_copies {A} (c : sys T -> A -> run (sys T * A)) al : part c al -> copies any c al.
Proof. intros [P _] s a s' a' H E. exact (proj2 (P _ _ _ _ H E)). Qed.
Lemma copies_abf : copies any (@habf_clone T) alike_abf.
Proof.
  intros s st s' st' H E. unfold habf_clone in E. bi E p E1. destruct p as [s1 q]. injection E as <- <-. split; [|reflexivity].
  exact (proj2 (proj1 part_queue _ _ _ _ H E1)).
Qed.
(** What [peek] shows is what [next] gives. *)
Lemma peek_abf s st s1 o s2 r st2 : any s -> habf_peek s st = Ret (s1, o) -> habf_next s1 st = Ret (s2, r, st2) -> option_Forall2 (twin_at s1) o r.
Proof.
  intros H E N. unfold habf_peek in E. unfold habf_next in N. destruct (habf_queue st) as [|[i|] q].
  - injection E as <- <-. cbn in N. injection N as _ <- _. constructor.
  - bi E p E1. destruct p as [s3 j]. injection E as <- <-. cbn [habf_loop] in N. bi N p N1. destruct p as [s4 z]. bi N p N2. destruct p as [s5 cs]. injection N as _ <- _.
    constructor. destruct (clone_twin _ _ _ _ H E1) as (hd & A & B). split; [exists hd; split; [exact B|exact A]|reflexivity].
  - destruct q as [|[i|] q]; [|  |discriminate E].
    + injection E as <- <-. cbn in N. injection N as _ <- _. constructor.
    + bi E p E1. destruct p as [s3 j]. injection E as <- <-. cbn [habf_loop app] in N. bi N p N1. destruct p as [s4 z]. bi N p N2. destruct p as [s5 cs]. injection N as _ <- _.
      constructor. destruct (clone_twin _ _ _ _ H E1) as (hd & A & B). split; [exists hd; split; [exact B|exact A]|reflexivity].
Qed.
End CloneFacts.
