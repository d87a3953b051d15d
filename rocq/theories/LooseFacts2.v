(** * LooseFacts2: the size hints of the stable iterators. *)
From Verif Require Import IterSpec LooseSpec Spec HeapFacts SpecFacts NavFacts NavFacts2 EditFacts2 EditFacts3 RoseFacts AdjFacts IterFacts TravFacts TravFacts2 TravFacts3 TravFacts4 TravFacts5 LooseFacts.
From Coq Require Import Lia.

Lemma loose_after {I} (f g : I -> run (option I)) (nf nb : option (I * I) -> run (option I * option (I * I))) :
  nf None = Ret (None, None) -> nb None = Ret (None, None) ->
  (forall x y, nf (Some (x, y)) = (r ← f x; Ret (Some x, option_map (fun z => (z, y)) r))) ->
  (forall x y, nb (Some (x, y)) = (r ← g y; Ret (Some y, option_map (fun z => (x, z)) r))) ->
  forall bs lf lb, chain f lf -> chain g lb -> after2 nf nb (at_both lf lb) bs = Ret (at_both (loose_left lf lb bs).1 (loose_left lf lb bs).2).
Proof.
  intros N1 N2 F B. induction bs as [|b bs IH]; intros lf lb Cf Cb; [done|].
  assert (D : forall k m, at_both k m = None -> chain f k -> chain g m ->
    after2 nf nb (at_both k m) (b :: bs) = Ret (at_both (loose_left k m bs).1 (loose_left k m bs).2)).
  { intros k m E Ck Cm. rewrite E. cbn [after2]. assert ((if b then nf None else nb None) = Ret (None, None)) as -> by (by destruct b). cbn [mbind run_bind].
    rewrite <- E. exact (IH k m Ck Cm). }
  destruct lf as [|x lf]; [by rewrite D|]. destruct lb as [|y lb]; [by rewrite D|]. clear D. simpl in Cf, Cb. destruct Cf as [Ef Cf], Cb as [Eb Cb].
  cbn [after2 loose_left at_both]. destruct b.
  - rewrite F, Ef. cbn [mbind run_bind]. replace (option_map (fun z => (z, y)) (head lf)) with (at_both lf (y :: lb)) by (by destruct lf).
    rewrite (IH lf (y :: lb)); [done|done|by split].
  - rewrite B, Eb. cbn [mbind run_bind]. replace (option_map (fun z => (x, z)) (head lb)) with (at_both (x :: lf) lb) by (by destruct lb).
    rewrite (IH (x :: lf) lb); [done|by split|done].
Qed.

(** Before they meet the hint is right, and so it is if one end only is used. *)
Lemma hint_open {I} `{EqDecision I} bs : forall (l r q : list I), NoDup l -> length bs < length l ->
  bounds (loose_hint (loose_left (l ++ r) (rev l ++ q) bs)) (length l - length bs).
Proof.
  induction bs as [|b bs IH]; intros l r q Nd L.
  - cbn [loose_left length]. destruct l as [|x l]; [simpl in L; lia|]. destruct (list_snoc_inv l) as [->|(k & y & ->)].
    + cbn. rewrite decide_True by done. cbn. split; simpl; lia.
    + cbn [app rev]. rewrite rev_app_distr. cbn [rev app loose_hint]. rewrite decide_False. { split; simpl; [|done]. rewrite app_length. simpl. lia. }
      intros ->. apply NoDup_cons in Nd as [Nd _]. apply Nd. clear. set_solver.
  - cbn [length] in *. destruct b.
    + destruct l as [|x l]; simpl in L; [lia|]. apply NoDup_cons in Nd as [_ Nd]. cbn [loose_left app].
      replace (rev (x :: l) ++ q) with (rev l ++ x :: q) by (simpl; by rewrite <- app_assoc).
      destruct (rev l ++ x :: q) eqn:E; [apply app_eq_nil in E as [_ [=]]|]. rewrite <- E. cbn [length]. apply (IH l r (x :: q) Nd). lia.
    + destruct (list_snoc_inv l) as [->|(k & y & ->)]; [simpl in L; lia|]. rewrite app_length in *. cbn [length] in *.
      apply NoDup_app in Nd as (Nd & _ & _). replace ((k ++ [y]) ++ r) with (k ++ y :: r) by (by rewrite <- app_assoc). rewrite rev_app_distr. cbn [rev app loose_left].
      destruct (k ++ y :: r) eqn:E; [apply app_eq_nil in E as [_ [=]]|]. rewrite <- E. replace (length k + 1 - S (length bs)) with (length k - length bs) by lia. apply (IH k (y :: r) q Nd). lia.
Qed.
Lemma left_none {I} bs : forall (lf lb : list I), lf = [] \/ lb = [] -> loose_left lf lb bs = (lf, lb).
Proof. induction bs as [|b bs IH]; intros lf lb H; [done|]. cbn [loose_left]. destruct lf, lb; try (by apply IH; eauto). destruct H; done. Qed.
Lemma left_front {I} n : forall (lf lb : list I), lb <> [] -> loose_left lf lb (repeat true n) = (drop n lf, lb).
Proof. induction n as [|n IH]; intros lf lb N; [done|]. cbn [repeat loose_left]. destruct lf as [|x lf]; [by rewrite left_none by eauto|]. destruct lb as [|y lb]; [done|]. cbn [drop]. by apply IH. Qed.
Lemma left_back {I} n : forall (lf lb : list I), lf <> [] -> loose_left lf lb (repeat false n) = (lf, drop n lb).
Proof. induction n as [|n IH]; intros lf lb N; [done|]. cbn [repeat loose_left]. destruct lf as [|x lf]; [done|]. destruct lb as [|y lb]; [by rewrite left_none by eauto|]. cbn [drop]. by apply IH. Qed.
Lemma hint_front {I} `{EqDecision I} n (l q : list I) : NoDup l -> bounds (loose_hint (loose_left l (rev l ++ q) (repeat true n))) (length l - n).
Proof.
  intros Nd. destruct (decide (n < length l)) as [L|L].
  - pose proof (hint_open (repeat true n) l [] q Nd) as H. rewrite app_nil_r, repeat_length in H. by apply H.
  - destruct (decide (rev l ++ q = [])) as [E|N].
    + apply app_eq_nil in E as [E ->]. rewrite left_none by (right; rewrite E; done). destruct l as [|x l]; [|apply (f_equal length) in E; rewrite rev_length in E; done].
      split; simpl; lia.
    + rewrite left_front by done. rewrite drop_ge by lia. cbn. split; simpl; lia.
Qed.
Lemma hint_back {I} `{EqDecision I} n (l r : list I) : NoDup l -> bounds (loose_hint (loose_left (l ++ r) (rev l) (repeat false n))) (length l - n).
Proof.
  intros Nd. destruct (decide (n < length l)) as [L|L].
  - pose proof (hint_open (repeat false n) l r [] Nd) as H. rewrite app_nil_r, repeat_length in H. by apply H.
  - destruct (decide (l ++ r = [])) as [E|N].
    + apply app_eq_nil in E as [-> ->]. rewrite left_none by (by left). split; simpl; lia.
    + rewrite left_back by done. rewrite (drop_ge (rev l)) by (rewrite rev_length; lia). destruct (l ++ r); cbn; split; simpl; lia.
Qed.

Section Hinted.
Context {T : Type}.
Implicit Types (h : heap T) (K : forest).

Lemma hinted_ssib h st lf lb : st = Ret (at_both lf lb) -> chain (fun x => Ret (next_sibling_link h x)) lf -> chain (prev_sibling_link h) lb ->
  hinted st (ssib_next h) (ssib_next_back h) ssib_size_hint lf lb.
Proof.
  intros -> A B. exists (at_both lf lb). split; [done|]. intros bs. eexists. split; [eapply loose_after; [done|done| | |exact A|exact B]; done|].
  destruct (loose_left lf lb bs) as [[|x lf'] [|y lb']]; done.
Qed.
Lemma siblings_hinted h K p l1 c l2 : rep h K -> wf K -> K !! p = Some (l1 ++ c :: l2) ->
  hinted (children_stable_it h p) (ssib_next h) (ssib_next_back h) ssib_size_hint (l1 ++ c :: l2) (rev (l1 ++ c :: l2)) /\
  hinted (siblings_stable_it h c) (ssib_next h) (ssib_next_back h) ssib_size_hint (l1 ++ c :: l2) (rev (l1 ++ c :: l2)) /\
  hinted (following_siblings_or_self_stable_it h c) (ssib_next h) (ssib_next_back h) ssib_size_hint (c :: l2) (rev (l1 ++ c :: l2)) /\
  hinted (following_siblings_stable_it h c) (ssib_next h) (ssib_next_back h) ssib_size_hint l2 (rev (l1 ++ c :: l2)) /\
  hinted (preceding_siblings_or_self_stable_it h c) (ssib_next h) (ssib_next_back h) ssib_size_hint (l1 ++ c :: l2) (c :: rev l1) /\
  hinted (preceding_siblings_stable_it h c) (ssib_next h) (ssib_next_back h) ssib_size_hint (tail (l1 ++ c :: l2)) (c :: rev l1).
Proof.
  intros Hr Hw Hp. pose proof (split_child_of _ _ _ _ _ Hp) as Hc.
  assert ((l1 ++ c :: l2) !! length l1 = Some c) as Hi by (by rewrite lookup_app_r, Nat.sub_diag).
  destruct (sibling_facts h K p _ _ _ Hr Hw Hp Hi) as (_ & _ & _ & _ & _ & _ & Hf & Hl & _).
  assert (C1 : chain (fun x => Ret (next_sibling_link h x)) (l1 ++ c :: l2)) by (exact (sib_chain h K p [] _ Hr Hp)).
  assert (C2 : chain (prev_sibling_link h) (rev (l1 ++ c :: l2))). { apply (sib_chain_back h K p _ [] Hr Hw). by rewrite app_nil_r. }
  assert (C3 : chain (fun x => Ret (next_sibling_link h x)) (c :: l2)) by (exact (sib_chain h K p l1 _ Hr Hp)).
  assert (C4 : chain (prev_sibling_link h) (c :: rev l1)).
  { replace (c :: rev l1) with (rev (l1 ++ [c])) by (by rewrite rev_app_distr). apply (sib_chain_back h K p _ l2 Hr Hw). by rewrite <- app_assoc. }
  assert (F : following_siblings_or_self_stable_it h c = Ret (at_both (c :: l2) (rev (l1 ++ c :: l2)))).
  { unfold following_siblings_or_self_stable_it. rewrite Hl. destruct (rev_cons_both c l1 l2) as [q E]. rewrite E. cbn. f_equal. f_equal. f_equal. rewrite last_app_cons. done. }
  assert (P : preceding_siblings_or_self_stable_it h c = Ret (at_both (l1 ++ c :: l2) (c :: rev l1))).
  { unfold preceding_siblings_or_self_stable_it. rewrite Hf. by destruct l1. }
  assert (N : rev (l1 ++ c :: l2) <> []) by (destruct (rev_cons_both c l1 l2) as [q ->]; done).
  split; [|split; [|split; [|split; [|split]]]]; apply hinted_ssib; try done.
  - exact (both_full h K p _ Hr Hw Hp).
  - unfold siblings_stable_it. rewrite (parent_link_child _ _ _ _ Hr Hc). exact (both_full h K p _ Hr Hw Hp).
  - unfold following_siblings_stable_it. rewrite F. cbn [mbind run_bind]. by rewrite (skip_both h (c :: l2) _ C3 N).
  - by destruct C3.
  - unfold preceding_siblings_stable_it. rewrite P. cbn [mbind run_bind]. by rewrite (skip_both h (l1 ++ c :: l2) _ C1).
  - destruct l1; [by destruct C3|by destruct C1].
Qed.
Lemma root_siblings_hinted h K x : rep h K -> wf K -> is_top K x ->
  hinted (siblings_stable_it h x) (ssib_next h) (ssib_next_back h) ssib_size_hint [x] [x] /\
  hinted (following_siblings_or_self_stable_it h x) (ssib_next h) (ssib_next_back h) ssib_size_hint [x] [x] /\
  hinted (following_siblings_stable_it h x) (ssib_next h) (ssib_next_back h) ssib_size_hint [] [x] /\
  hinted (preceding_siblings_or_self_stable_it h x) (ssib_next h) (ssib_next_back h) ssib_size_hint [x] [x] /\
  hinted (preceding_siblings_stable_it h x) (ssib_next h) (ssib_next_back h) ssib_size_hint [] [x].
Proof.
  intros Hr Hw Ht.
  assert (C1 : chain (fun z => Ret (next_sibling_link h z)) [x]). { split; [|done]. unfold next_sibling_link. by rewrite (fnext_top _ _ _ Hr Ht). }
  assert (C2 : chain (prev_sibling_link h) [x]). { split; [|done]. exact (prev_sibling_top _ _ _ Hr Ht). }
  destruct (top_facts h K x Hr Hw Ht) as (_ & _ & _ & _ & _ & _ & _ & Hf & Hl & _).
  assert (F : following_siblings_or_self_stable_it h x = Ret (at_both [x] [x])) by (unfold following_siblings_or_self_stable_it; by rewrite Hl).
  assert (P : preceding_siblings_or_self_stable_it h x = Ret (at_both [x] [x])) by (unfold preceding_siblings_or_self_stable_it; by rewrite Hf).
  split; [|split; [|split; [|split]]]; apply hinted_ssib; try done.
  - unfold siblings_stable_it. by rewrite (parent_link_top _ _ _ Hr Ht).
  - unfold following_siblings_stable_it. rewrite F. cbn [mbind run_bind]. by rewrite (skip_both h [x] [x] C1).
  - unfold preceding_siblings_stable_it. rewrite P. cbn [mbind run_bind]. by rewrite (skip_both h [x] [x] C1).
Qed.
Lemma dfs_hinted h K r t x e1 e2 b1 b2 : rep h K -> wf K -> is_top K r -> shape K r t ->
  dfs_events t = e1 ++ Open x :: e2 -> dfs_events t = b1 ++ Close x :: b2 ->
  hinted (Ret (sdfs_start (Some x))) (sdfs_next h) (sdfs_next_back h) sdfs_size_hint (Open x :: e2) (Close x :: rev b1).
Proof.
  intros Hr Hw Ht Hs E1 E2. exists (sdfs_start (Some x)). split; [done|]. intros bs.
  eexists. split.
  - change (sdfs_start (Some x)) with (at_both (Open x :: e2) (Close x :: rev b1)). eapply loose_after; [done|done| | |exact (event_chain h K r t e1 _ Hr Hw Ht Hs E1)|]; [done|done|].
    replace (Close x :: rev b1) with (rev (b1 ++ [Close x])) by (by rewrite rev_app_distr).
    apply (event_chain_back h K r t _ b2 Hr Hw Ht Hs). by rewrite <- app_assoc.
  - destruct (loose_left _ _ bs) as [[|a lf'] [|y lb']]; done.
Qed.
End Hinted.
