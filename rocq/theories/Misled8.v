(** * Misled8: detaching, replacing and moving the last of several siblings, exactly. *)
From Verif Require Import Heap Edit Traverse System SysSpec CardFacts HeapFacts SpecFacts NavFacts NavFacts2 EditFacts EditFacts2 EditFacts3 EditFacts4 EditFacts5 IterSpec RoseFacts AdjFacts TravFacts TdFacts TdFacts2 SysFacts SysFacts2 SysFacts3 SysFacts4 SysFacts5 SysFacts6 SysFacts7 SysFacts8 SysFacts9 SysFacts10 SysFacts11 SysFacts12 SysFacts13 SysFacts14 SysFacts15 Misled Misled2 Misled3 Misled4 Misled5 ApiSpec MisledSpec ApiFacts ApiFacts2 ApiFacts3 ApiFacts6 Misled6 Misled7 Spec.

Section Misled8.
Context {T : Type}.
Implicit Types (h : heap T) (s g : sys T) (K : forest).

Lemma carries_wf s K1 x t t' g K2 : wf K1 -> carries s K1 x t t' g K2 -> (forall y, below K1 x y \/ ~ below K1 x y) ->
  (forall p c, child_of K1 p c -> tree_of s c = tree_of s p) -> wf K2.
Proof.
  intros W C Hd Hk. assert (forall p c, child_of K2 p c -> child_of K1 p c) as Hs.
  { intros p c (ks & Hp & Hc). exists ks. split; [|done]. by eapply carries_sub. }
  split.
  - intros p c Hpc. pose proof (wf_dom _ W p c (Hs p c Hpc)) as Hc.
    destruct (cy_rest _ _ _ _ _ _ _ C) as [(_ & _ & ->)|(_ & _ & Ho)]; [exact Hc|].
    assert (below K1 x c \/ tree_of s c <> Some t) as Hc'.
    { destruct (Hd p) as [Hb|Hb]; [left; econstructor; [exact Hb|by apply Hs]|].
      right. rewrite (Hk p c (Hs p c Hpc)). intros e. destruct Hpc as (ks & Hp & _).
      rewrite (proj2 (Ho p)) in Hp; [discriminate Hp|]. intros [?|?]; done. }
    rewrite (proj1 (Ho c) Hc'). exact Hc.
  - intros p ks Hp. apply (wf_nodup _ W p). by eapply carries_sub.
  - intros p q c Hp Hq. apply (wf_uniq _ W p q c); by apply Hs.
  - intros c. induction (wf_acyclic _ W c) as [c _ IH]. constructor. intros d Hd'. apply IH. by apply Hs.
Qed.

(** ** C07 *)
Lemma detach_exact s K a k x p f m : reach s -> stores s K -> receiver s a k x -> K !! p = Some (f :: m ++ [x]) ->
  exists s' g t t' K2, step s (OpDetach a) = Ret (s', OutUnit) /\ tree_of s x = Some t /\
    splits s (<[p := f :: m]> K) x t t' g K2 /\ (forall tr, shape K x tr -> shape K2 x tr) /\ misled g f x s' /\ misled_answers g K2 f x s' /\
    (alone s K x -> s' = g) /\ (~ alone s K x -> K2 = <[p := f :: m]> K /\ forall K', ~ stores s' K').
Proof.
  intros Hr Hst Hrc Hp. pose proof (reach_stores_inv s K Hr Hst) as H. pose proof (inv_wf s K H) as W.
  destruct (receiver_facts s K a k x H Hrc) as (i & t & Hi & Et & Ht & Hth & Ha & Hk & _).
  pose proof (proj1 (inv_alive s K x H) Ha) as HKx.
  destruct (detach_last s K i k x t p f m H Hi Et Hth Hp) as (g & t' & K2 & E & R).
  exists (sp f (Some x) g), g, t, t', K2.
  split. { unfold step. destruct (auth_cases s K a (fun _ x => s1 ← detach_subtree s x; Ret (s1, OutUnit)) H (receiver_typed _ _ _ _ Hrc)) as [(k' & x' & Hrc' & ->)|[Hu _]].
    - destruct (receiver_unique _ _ _ _ _ _ Hrc Hrc') as [-> ->]. rewrite E. done.
    - exfalso. exact (receiver_not_unauth _ _ _ _ Hrc Hu). }
  split; [exact Et|]. pose proof (rehomed_splits _ _ _ _ _ _ _ R) as S'. split; [exact S'|].
  split. { intros tr Htr. assert (unlinked K x (<[p := f :: m]> K)) as Hu by (by apply last_unlinked).
    eapply carries_shape; [|apply S'|by eapply unlinked_shape]. apply (unlinked_wf K x _ W Hu). }
  split; [apply sp_misled|].
  split. { eapply splits_answers; [exact H|exact Hp|exact Et|exact HKx|exact Hth|exact (rh_inv _ _ _ _ _ _ _ R)|exact (rehomed_splits _ _ _ _ _ _ _ R)]. }
  by apply (rehomed_exact s K x p f m t t' g K2).
Qed.

(** ** C06, the childless case *)
Lemma replace_exact s K a k x p f m : reach s -> stores s K -> receiver s a k x -> K !! p = Some (f :: m ++ [x]) -> K !! x = Some [] ->
  exists s' g t t' K2, step s (OpReplace a) = Ret (s', OutUnit) /\ tree_of s x = Some t /\
    splits s (<[p := f :: m]> K) x t t' g K2 /\ misled g f x s' /\ misled_answers g K2 f x s' /\
    (alone s K x -> s' = g) /\ (~ alone s K x -> K2 = <[p := f :: m]> K /\ forall K', ~ stores s' K').
Proof.
  intros Hr Hst Hrc Hp Hx. pose proof (reach_stores_inv s K Hr Hst) as H. pose proof (inv_wf s K H) as W.
  destruct (receiver_facts s K a k x H Hrc) as (i & t & Hi & Et & Ht & Hth & Ha & Hk & _).
  pose proof (proj1 (inv_alive s K x H) Ha) as HKx.
  destruct (replace_last s K i k x t p f m H Hi Et Hth Hp Hx) as (g & t' & K2 & E & R).
  exists (sp f (Some x) g), g, t, t', K2.
  split. { unfold step. destruct (auth_cases s K a (fun _ x => r ← replace_node s x; out_of r) H (receiver_typed _ _ _ _ Hrc)) as [(k' & x' & Hrc' & ->)|[Hu _]].
    - destruct (receiver_unique _ _ _ _ _ _ Hrc Hrc') as [-> ->]. rewrite E. done.
    - exfalso. exact (receiver_not_unauth _ _ _ _ Hrc Hu). }
  split; [exact Et|]. split; [exact (rehomed_splits _ _ _ _ _ _ _ R)|].
  split; [apply sp_misled|].
  split. { eapply splits_answers; [exact H|exact Hp|exact Et|exact HKx|exact Hth|exact (rh_inv _ _ _ _ _ _ _ R)|exact (rehomed_splits _ _ _ _ _ _ _ R)]. }
  by apply (rehomed_exact s K x p f m t t' g K2).
Qed.

(** ** C08 and C10 *)
Lemma other_shape s K x ad y K1 K2 K3 t t' g tr : wf K -> unlinked K x K1 -> ~ below K x y ->
  carries s K1 x t t' g K2 -> attached K2 x (dest_of ad y) K3 -> shape K x tr -> shape K3 x tr.
Proof.
  intros W Hu Hb C At Htr. assert (wf K1) as W1 by (exact (proj1 (unlinked_wf K x _ W Hu))).
  assert (shape K2 x tr) as H2. { eapply carries_shape; [exact W1|exact C|]. eapply unlinked_shape; [exact W|exact Hu|exact Htr]. }
  inversion At; subst; simpl in *;
    (eapply shape_below; [exact H2|]; intros z Hz; rewrite lookup_insert_ne; [done|]; intros ->; apply Hb;
     assert (below K x z) as Hz' by (apply (unlinked_below K x K1 z W Hu); by eapply carries_below_inv)).
  - destruct ad; simpl in *; congruence.
  - destruct ad; simpl in *; congruence.
  - destruct ad; simpl in *; try congruence. assert (s0 = y) as -> by congruence.
    apply (unlinked_below K x K1 y W Hu). eapply carries_below_inv; [exact C|]. econstructor; [exact Hz|]. by exists ks.
  - destruct ad; simpl in *; try congruence. assert (s0 = y) as -> by congruence.
    apply (unlinked_below K x K1 y W Hu). eapply carries_below_inv; [exact C|]. econstructor; [exact Hz|]. by exists ks.
Qed.

Lemma move_step_eq s K a k x ad j y (r : sys T * hres unit) : inv s K -> receiver s a k x -> s_hands s !! j = Some (HNode Hot y) ->
  move_subtree s x ad y = Ret r -> step s (OpMove a ad j) = out_of r.
Proof.
  intros H Hrc Hj E. unfold step. rewrite Hj.
  destruct (auth_cases s K a (fun _ x => r ← move_subtree s x ad y; out_of r) H (receiver_typed _ _ _ _ Hrc)) as [(k' & x' & Hrc' & ->)|[Hu _]].
  - destruct (receiver_unique _ _ _ _ _ _ Hrc Hrc') as [-> ->]. rewrite E. done.
  - exfalso. exact (receiver_not_unauth _ _ _ _ Hrc Hu).
Qed.

Lemma move_other_exact s K a k x ad j y p f m : reach s -> stores s K -> receiver s a k x -> s_hands s !! j = Some (HNode Hot y) ->
  K !! p = Some (f :: m ++ [x]) -> tree_of s x <> tree_of s y -> has_place K ad y ->
  exists s' g t t' K2 K3, step s (OpMove a ad j) = Ret (s', OutUnit) /\ tree_of s x = Some t /\ tree_of s y = Some t' /\
    carries s (<[p := f :: m]> K) x t t' g K2 /\ attached K2 x (dest_of ad y) K3 /\ stores g K3 /\
    (forall tr, shape K x tr -> shape K3 x tr) /\ misled g f x s' /\ misled_answers g K3 f x s' /\
    (alone s K x -> s' = g) /\ (~ alone s K x -> K2 = <[p := f :: m]> K /\ forall K', ~ stores s' K').
Proof.
  intros Hr Hst Hrc Hj Hp Hne Hpl. pose proof (reach_stores_inv s K Hr Hst) as H. pose proof (inv_wf s K H) as W.
  destruct (receiver_facts s K a k x H Hrc) as (i & t & Hi & Et & Ht & Hth & Ha & Hk & El).
  destruct (handle_tree s K j Hot y H Hj) as (t' & tr' & Et' & Ht' & _ & _ & El').
  assert (thawed s (s_hands s) t') as Hth'.
  { apply thawed_holders. exact (handle_excl s K j Hot y t' H Hj ltac:(done) Et'). }
  assert (t <> t') as Htt by congruence. pose proof (proj1 (inv_alive s K x H) Ha) as HKx.
  destruct (move_other_last s K i k x t j Hot y t' ad p f m H Hi Et Hth Hj Et' Hth' Htt Hp (adoptable_place _ _ _ Hpl)) as (g & K2 & K3 & E & C & At & I).
  pose proof (last_unlinked K p f m x W Hp) as Hu. pose proof (carried_carries _ _ _ _ _ _ _ _ I C) as C'.
  assert (~ below K x y) as Hb.
  { intros Hb. apply Hne. symmetry. apply (below_tree s K noX x y); [apply sinv_pinv; apply H|exact Hb]. }
  exists (sp f (Some x) g), g, t, t', K2, K3.
  split. { eapply (move_step_eq s K a k x ad j y (sp f (Some x) g, HOk tt) H Hrc Hj). unfold move_subtree. rewrite El, El'. simpl.
    rewrite decide_False by done. exact E. }
  split; [exact Et|]. split; [exact Et'|]. split; [exact C'|]. split; [exact At|]. split; [by apply inv_stores|].
  split. { intros tr Htr. eapply other_shape; [exact W|exact Hu|exact Hb|exact C'|exact At|exact Htr]. }
  split; [apply sp_misled|].
  split. { eapply other_answers; [exact H|exact Hp|exact Et|exact HKx|exact Hth|exact Hj|exact Et'|exact Htt|exact I|exact C'| |exact At].
    eapply carries_wf; [exact (proj1 (unlinked_wf K x _ W Hu))|exact C'| |].
    - intros z. apply below_dec; [exact (proj1 (unlinked_wf K x _ W Hu))|apply (unlinked_wf K x _ W Hu)].
    - intros q c (l & Hq & Hc). apply (s_child _ _ (i_s _ _ H)). destruct (decide (q = p)) as [->|Hn].
      + rewrite lookup_insert in Hq. injection Hq as <-. exists (f :: m ++ [x]). split; [exact Hp|]. set_solver.
      + rewrite lookup_insert_ne in Hq by done. by exists l. }
  split.
  - intros A. eapply carried_alone_sp; [exact H|exact Hu|exact C|exact I|congruence|exact Et|exact A| |].
    + by eapply first_outside.
    + by eapply sibling_tree.
  - intros Hna. destruct (cy_rest _ _ _ _ _ _ _ C') as [(_ & _ & ->)|(Hno & _ & _)].
    + split; [done|]. intros K' Hst'. eapply (nostore g K3 p f (f :: m) x K'); [by apply inv_stores| |done| |exact Hst'].
      * destruct (attached_perm _ _ _ _ (proj1 (unlinked_wf K x _ W Hu)) At) as (pd & ks & ks' & Hd & Hk2 & -> & _). rewrite lookup_insert_ne; [by rewrite lookup_insert|].
        intros ->. apply Hne. assert (tree_of s p = Some t) as Etp.
        { rewrite <- Et. symmetry. apply (below_tree s K noX p x); [apply sinv_pinv; apply H|]. econstructor; [constructor|]. exists (f :: m ++ [x]). split; [exact Hp|]. set_solver. }
        assert (y = p \/ y ∈ f :: m) as [->|Hy].
        { unfold dest_parent in Hd. destruct ad; simpl in Hd; [by left|by left|right|right];
          destruct Hd as (l & Hl & Hy); rewrite lookup_insert in Hl; injection Hl as <-; exact Hy. }
        { congruence. }
        rewrite Et, <- Etp. symmetry. apply (below_tree s K noX p y); [apply sinv_pinv; apply H|]. econstructor; [constructor|].
        exists (f :: m ++ [x]). split; [exact Hp|]. apply elem_of_cons in Hy as [->|Hy]; [ls|]. apply elem_of_cons. right. apply elem_of_app. by left.
      * intros Hl. apply (last_not_in K p f m x W Hp). by apply elem_of_last.
    + exfalso. apply Hna. eapply gone_alone; [exact H|exact Hu|exact Et|exact HKx|exact C'|exact I|exact Hno].
Qed.

Lemma move_same_exact s K a k x ad j y p f m : reach s -> stores s K -> receiver s a k x -> s_hands s !! j = Some (HNode Hot y) ->
  K !! p = Some (f :: m ++ [x]) -> tree_of s x = tree_of s y -> ~ below K x y -> has_place K ad y ->
  exists K' ks', moved K x (dest_of ad y) K' /\ K' !! p = Some ks' /\ (forall tr, shape K x tr -> shape K' x tr) /\
  (last ks' <> Some x ->
   exists s' g f', step s (OpMove a ad j) = Ret (s', OutUnit) /\ head ks' = Some f' /\ reshapes s g K' /\
    misled g f' x s' /\ misled_answers g K' f' x s' /\ forall K'', ~ stores s' K'').
Proof.
  intros Hr Hst Hrc Hj Hp He Hb Hpl. pose proof (reach_stores_inv s K Hr Hst) as H. pose proof (inv_wf s K H) as W.
  destruct (receiver_facts s K a k x H Hrc) as (i & t & Hi & Et & Ht & Hth & Ha & Hk & El).
  destruct (handle_tree s K j Hot y H Hj) as (t' & tr' & Et' & Ht' & _ & _ & El'). assert (t' = t) as -> by congruence.
  pose proof (handle_alive s K j Hot y H Hj) as Hya. pose proof (proj1 (inv_alive s K y H) Hya) as HKy.
  assert (child_of K p x) as Hpx. { exists (f :: m ++ [x]). split; [exact Hp|]. set_solver. }
  destruct (moved_exists K x (dest_of ad y) W (ex_intro _ p Hpx)) as [K' Hm].
  { by rewrite dest_of_anchor. } { by rewrite dest_of_anchor. } { by destruct ad. }
  assert (exists ks', K' !! p = Some ks') as [ks' Hks'].
  { destruct Hm as (K1 & Hu & At). destruct (attached_perm _ _ _ _ (proj1 (unlinked_wf K x _ W Hu)) At) as (pd & l1 & l2 & _ & _ & -> & _). destruct Hu as (q & l & Hq & Hin & ->).
    destruct (decide (pd = p)) as [->|]; [rewrite lookup_insert; eauto|]. rewrite lookup_insert_ne by done.
    destruct (decide (q = p)) as [->|]; [rewrite lookup_insert; eauto|]. rewrite lookup_insert_ne by done. eauto. }
  exists K', ks'. split; [exact Hm|]. split; [exact Hks'|].
  split. { intros tr Htr. pose proof Hm as (K1 & Hu & At). assert (wf K1) as W1 by (exact (proj1 (unlinked_wf K x _ W Hu))).
    eapply attached_shape; [exact W1|exact At| |eapply unlinked_shape; [exact W|exact Hu|exact Htr]].
    rewrite dest_of_anchor. intros Hc. apply Hb. by apply (below_unlinked K x K1). }
  intros Hl.
  destruct (move_same_last s K x (dest_of ad y) K' p f m ks' H Hp Hm) as (h' & f' & Hf' & E & R).
  { by rewrite dest_of_anchor. } { rewrite dest_of_anchor. congruence. } { exact Hks'. } { exact Hl. }
  exists (sp f' (Some x) (with_nodes s h')), (with_nodes s h'), f'.
  split. { eapply (move_step_eq s K a k x ad j y (sp f' (Some x) (with_nodes s h'), HOk tt) H Hrc Hj). unfold move_subtree. rewrite El, El'. simpl.
    rewrite decide_True by done. rewrite E. done. }
  split; [exact Hf'|]. pose proof (reshaped_reshapes _ _ _ R) as R'. split; [exact R'|]. split; [apply sp_misled|].
  split. { eapply same_answers; [exact H|exact (rs_inv _ _ _ R)|exact R'|exact Hks'|exact Hf'|exact Hi| |exact Hpx|].
    - intros t1 Et1. assert (t1 = t) as -> by congruence. exact Hth.
    - symmetry. exact (s_child _ _ (i_s _ _ H) p x Hpx). }
  intros K'' Hst''. eapply (nostore (with_nodes s h') K' p f' ks' x K''); [exact (re_stores _ _ _ R')|exact Hks'|exact Hf'|exact Hl|exact Hst''].
Qed.
End Misled8.
