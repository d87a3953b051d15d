(** * LooseFacts: the stable iterators are two cursors that do not watch each other. *)
From Verif Require Import IterSpec LooseSpec Spec HeapFacts SpecFacts NavFacts NavFacts2 EditFacts2 EditFacts3 RoseFacts AdjFacts IterFacts TravFacts TravFacts2 TravFacts3 TravFacts4 TravFacts5.
From Coq Require Import Lia.

(** ** Chains *)
Fixpoint chain {I} (f : I -> run (option I)) (l : list I) : Prop :=
  match l with [] => True | x :: l' => f x = Ret (head l') /\ chain f l' end.
Definition at_both {I} (lf lb : list I) : option (I * I) := match lf, lb with x :: _, y :: _ => Some (x, y) | _, _ => None end.
Lemma loose_sched {I} (f g : I -> run (option I)) (nf nb : option (I * I) -> run (option I * option (I * I))) :
  nf None = Ret (None, None) -> nb None = Ret (None, None) ->
  (forall x y, nf (Some (x, y)) = (r ← f x; Ret (Some x, option_map (fun z => (z, y)) r))) ->
  (forall x y, nb (Some (x, y)) = (r ← g y; Ret (Some y, option_map (fun z => (x, z)) r))) ->
  forall bs lf lb, chain f lf -> chain g lb -> sched nf nb (at_both lf lb) bs = Ret (loose lf lb bs).
Proof.
  intros N1 N2 F B. induction bs as [|b bs IH]; intros lf lb Cf Cb; [done|].
  assert (D : forall k m, at_both k m = None -> chain f k -> chain g m -> (match k, m with x :: _, y :: _ => false | _, _ => true end) = true ->
    sched nf nb (at_both k m) (b :: bs) = Ret (None :: loose k m bs)).
  { intros k m E Ck Cm _. rewrite E. simpl. assert ((if b then nf None else nb None) = Ret (None, None)) as -> by (by destruct b). cbn [mbind run_bind].
    rewrite <- E, (IH k m Ck Cm). done. }
  destruct lf as [|x lf]; [by rewrite D|]. destruct lb as [|y lb]; [by rewrite D|]. clear D. simpl in Cf, Cb. destruct Cf as [Ef Cf], Cb as [Eb Cb].
  cbn [sched loose at_both]. destruct b.
  - rewrite F, Ef. cbn [mbind run_bind]. replace (option_map (fun z => (z, y)) (head lf)) with (at_both lf (y :: lb)) by (by destruct lf).
    rewrite (IH lf (y :: lb)); [done|done|by split].
  - rewrite B, Eb. cbn [mbind run_bind]. replace (option_map (fun z => (x, z)) (head lb)) with (at_both (x :: lf) lb) by (by destruct lb).
    rewrite (IH (x :: lf) lb); [done|by split|done].
Qed.

(** Until they meet they share the sequence properly. *)
Lemma loose_deque {I} bs : forall (l r q : list I), length bs <= length l -> loose (l ++ r) (rev l ++ q) bs = deque l bs.
Proof.
  induction bs as [|b bs IH]; intros l r q L; [done|]. simpl in L. destruct b.
  - destruct l as [|x l]; simpl in L; [lia|]. cbn [loose deque head tail app]. rewrite <- (IH l r (x :: q)) by lia.
    replace (rev (x :: l) ++ q) with (rev l ++ x :: q) by (simpl; by rewrite <- app_assoc).
    by destruct (rev l ++ x :: q) eqn:E; [apply app_eq_nil in E as [_ [=]]|].
  - destruct (list_snoc_inv l) as [->|(k & y & ->)]; [simpl in L; lia|]. rewrite app_length in L. simpl in L. cbn [loose deque].
    rewrite last_snoc, app_length, Nat.add_1_r. simpl. rewrite Nat.sub_0_r, take_app. rewrite <- (IH k (y :: r) q) by lia.
    replace ((k ++ [y]) ++ r) with (k ++ y :: r) by (by rewrite <- app_assoc). rewrite rev_app_distr. simpl.
    by destruct (k ++ y :: r) eqn:E; [apply app_eq_nil in E as [_ [=]]|].
Qed.

Lemma loose_front {I} n : forall (lf lb : list I) bs, n <= length lf -> lb <> [] -> loose lf lb (repeat true n ++ bs) = map Some (take n lf) ++ loose (drop n lf) lb bs.
Proof. induction n as [|n IH]; intros lf lb bs L N; [done|]. destruct lf as [|x lf]; simpl in L; [lia|]. destruct lb as [|y lb]; [done|]. simpl. rewrite IH by (done || lia). done. Qed.
Lemma loose_back {I} n : forall (lf lb : list I) bs, n <= length lb -> lf <> [] -> loose lf lb (repeat false n ++ bs) = map Some (take n lb) ++ loose lf (drop n lb) bs.
Proof. induction n as [|n IH]; intros lf lb bs L N; [done|]. destruct lb as [|y lb]; simpl in L; [lia|]. destruct lf as [|x lf]; [done|]. simpl. rewrite IH by (done || lia). done. Qed.
Lemma loose_met {I} (l : list I) n m (b : bool) : 0 < n -> 0 < m -> n + m = length l ->
  last (loose l (rev l) (repeat true n ++ repeat false m ++ [b])) = Some (if b then l !! n else l !! (n - 1)).
Proof.
  intros Hn Hm E. destruct (decide (l = [])) as [->|Nl]; [simpl in E; lia|].
  assert (Nd : drop n l <> []) by (intros F; apply (f_equal length) in F; rewrite drop_length in F; simpl in F; lia).
  rewrite loose_front; [|lia|]; [|intros F; apply (f_equal length) in F; rewrite rev_length in F; destruct l; simpl in F; [done|lia]].
  rewrite loose_back; [|rewrite rev_length; lia|exact Nd]. destruct (drop n l) as [|x q] eqn:E1; [done|].
  assert (l !! n = Some x) as X. { replace n with (n + 0) by lia. rewrite <- lookup_drop, E1. done. }
  assert (exists y k, drop m (rev l) = y :: k /\ l !! (n - 1) = Some y) as (y & k & E2 & Y).
  { destruct (drop m (rev l)) as [|y k] eqn:E2; [apply (f_equal length) in E2; rewrite drop_length, rev_length in E2; simpl in E2; lia|].
    exists y, k. split; [done|]. assert (rev l !! m = Some y) as Ym. { replace m with (m + 0) by lia. rewrite <- lookup_drop, E2. done. }
    rewrite rev_alt in Ym. change (rev_append l []) with (reverse l) in Ym. apply reverse_lookup_Some in Ym as [Ym _]. by replace (n - 1) with (length l - S m) by lia. }
  rewrite E2. cbn [loose]. rewrite app_assoc. destruct b; cbn [loose]; rewrite last_snoc; congruence.
Qed.

Section Loose.
Context {T : Type}.
Implicit Types (h : heap T) (K : forest).

Lemma ssib_loose h lf lb bs : chain (fun x => Ret (next_sibling_link h x)) lf -> chain (prev_sibling_link h) lb ->
  sched (ssib_next h) (ssib_next_back h) (at_both lf lb) bs = Ret (loose lf lb bs).
Proof. intros A B. eapply loose_sched; [done|done| | |exact A|exact B]; done. Qed.
Lemma sdfs_loose h lf lb bs : chain (fun e => Ret (dft_next h e)) lf -> chain (dft_prev h) lb ->
  sched (sdfs_next h) (sdfs_next_back h) (at_both lf lb) bs = Ret (loose lf lb bs).
Proof. intros A B. eapply loose_sched; [done|done| | |exact A|exact B]; done. Qed.

Lemma sib_chain h K p l1 l2 : rep h K -> K !! p = Some (l1 ++ l2) -> chain (fun x => Ret (next_sibling_link h x)) l2.
Proof.
  intros Hr. revert l1. induction l2 as [|c l2 IH]; intros l1 Hp; [done|]. split.
  - unfold next_sibling_link. by rewrite (fnext_split _ _ _ _ _ _ Hr Hp).
  - apply (IH (l1 ++ [c])). by rewrite <- app_assoc.
Qed.
Lemma sib_chain_back h K p l1 l2 : rep h K -> wf K -> K !! p = Some (l1 ++ l2) -> chain (prev_sibling_link h) (rev l1).
Proof.
  intros Hr Hw. revert l2. induction l1 as [|c l1 IH] using rev_ind; intros l2 Hp; [done|]. rewrite rev_app_distr. simpl. rewrite <- app_assoc in Hp. split.
  - rewrite (prev_sibling_split _ _ _ _ _ _ Hr Hw Hp). f_equal. by rewrite head_rev.
  - exact (IH _ Hp).
Qed.
Lemma event_chain h K r t l1 l2 : rep h K -> wf K -> is_top K r -> shape K r t -> dfs_events t = l1 ++ l2 -> chain (fun e => Ret (dft_next h e)) l2.
Proof.
  intros Hr Hw Ht Hs. pose proof (shape_adj _ _ _ _ Hr Hw Hs) as Ha. pose proof (last_events t) as Hl. rewrite (shape_root _ _ _ Hs) in Hl.
  revert l1. induction l2 as [|e l2 IH]; intros l1 E; [done|]. split; [|apply (IH (l1 ++ [e])); by rewrite <- app_assoc].
  f_equal. destruct l2 as [|b l2].
  - rewrite E, last_snoc in Hl. injection Hl as ->. simpl. unfold next_sibling_link. by rewrite (fnext_top _ _ _ Hr Ht), (parent_link_top _ _ _ Hr Ht).
  - rewrite E, adj_app in Ha. destruct Ha as (_ & Ha & _). rewrite adj_cons in Ha. destruct Ha as [Hab _]. destruct (Hab b eq_refl) as [Hn _]. by rewrite dft_next_g, Hn.
Qed.
Lemma event_chain_back h K r t l1 l2 : rep h K -> wf K -> is_top K r -> shape K r t -> dfs_events t = l1 ++ l2 -> chain (dft_prev h) (rev l1).
Proof.
  intros Hr Hw Ht Hs. pose proof (shape_adj _ _ _ _ Hr Hw Hs) as Ha. pose proof (head_events t) as Hl. rewrite (shape_root _ _ _ Hs) in Hl.
  pose proof (fun e => shape_events_dom _ _ _ e Hw Hs) as Hd.
  revert l2. induction l1 as [|e l1 IH] using rev_ind; intros l2 E; [done|]. rewrite rev_app_distr. rewrite <- app_assoc in E. simpl. split; [|exact (IH _ E)].
  destruct (list_snoc_inv l1) as [->|(l' & b & ->)].
  - rewrite E in Hl. injection Hl as ->. simpl. rewrite (prev_sibling_top _ _ _ Hr Ht). cbn. by rewrite (parent_link_top _ _ _ Hr Ht).
  - rewrite rev_app_distr. simpl. rewrite E, adj_app in Ha. destruct Ha as (_ & _ & Hab).
    destruct (Hab b e) as [_ Hn]; [by rewrite last_snoc|done|].
    rewrite (dft_prev_g _ _ _ Hr Hw) by (apply Hd; rewrite E; clear; set_solver). by rewrite Hn.
Qed.

(** ** The constructors *)
Lemma loosely_ssib h st lf lb : st = Ret (at_both lf lb) -> chain (fun x => Ret (next_sibling_link h x)) lf -> chain (prev_sibling_link h) lb ->
  loosely st (ssib_next h) (ssib_next_back h) lf lb.
Proof. intros -> A B. exists (at_both lf lb). split; [done|]. intros bs. by apply ssib_loose. Qed.
Lemma skip_both h lf lb : chain (fun x => Ret (next_sibling_link h x)) lf -> lb <> [] -> skip1 (ssib_next h) (at_both lf lb) = Ret (at_both (tail lf) lb).
Proof.
  intros A N. destruct lb as [|y lb]; [done|]. destruct lf as [|x lf]; [done|]. simpl. unfold skip1, ssib_next. destruct A as [A _]. injection A as ->. cbn. by destruct lf.
Qed.
Lemma rev_cons_both (c : nid) l1 l2 : exists q, rev (l1 ++ c :: l2) = default c (last (c :: l2)) :: q.
Proof.
  destruct (list_snoc_inv (l1 ++ c :: l2)) as [E|(k & y & E)]; [by destruct l1|]. exists (rev k). rewrite E, rev_app_distr. simpl. f_equal.
  apply (f_equal last) in E. rewrite last_snoc in E. rewrite last_app_cons in E. by rewrite E.
Qed.
Lemma both_full h K p ks : rep h K -> wf K -> K !! p = Some ks -> children_stable_it h p = Ret (at_both ks (rev ks)).
Proof.
  intros Hr Hw Hp. unfold children_stable_it. rewrite (first_last_rep h K p ks Hr Hw Hp). f_equal. destruct ks as [|c ks]; [done|].
  destruct (rev_cons_both c [] ks) as [q E]. cbn [app] in E. rewrite E. cbn [at_both]. f_equal. f_equal. by destruct ks.
Qed.

Lemma siblings_loose h K p l1 c l2 : rep h K -> wf K -> K !! p = Some (l1 ++ c :: l2) ->
  loosely (children_stable_it h p) (ssib_next h) (ssib_next_back h) (l1 ++ c :: l2) (rev (l1 ++ c :: l2)) /\
  loosely (siblings_stable_it h c) (ssib_next h) (ssib_next_back h) (l1 ++ c :: l2) (rev (l1 ++ c :: l2)) /\
  loosely (following_siblings_or_self_stable_it h c) (ssib_next h) (ssib_next_back h) (c :: l2) (rev (l1 ++ c :: l2)) /\
  loosely (following_siblings_stable_it h c) (ssib_next h) (ssib_next_back h) l2 (rev (l1 ++ c :: l2)) /\
  loosely (preceding_siblings_or_self_stable_it h c) (ssib_next h) (ssib_next_back h) (l1 ++ c :: l2) (c :: rev l1) /\
  loosely (preceding_siblings_stable_it h c) (ssib_next h) (ssib_next_back h) (tail (l1 ++ c :: l2)) (c :: rev l1).
Proof.
  intros Hr Hw Hp. pose proof (split_child_of _ _ _ _ _ Hp) as Hc.
  assert ((l1 ++ c :: l2) !! length l1 = Some c) as Hi by (by rewrite lookup_app_r, Nat.sub_diag).
  destruct (sibling_facts h K p _ _ _ Hr Hw Hp Hi) as (_ & _ & _ & _ & _ & _ & Hf & Hl & _).
  assert (C1 : chain (fun x => Ret (next_sibling_link h x)) (l1 ++ c :: l2)) by (exact (sib_chain h K p [] _ Hr Hp)).
  assert (C2 : chain (prev_sibling_link h) (rev (l1 ++ c :: l2))). { apply (sib_chain_back h K p _ [] Hr Hw). by rewrite app_nil_r. }
  assert (C3 : chain (fun x => Ret (next_sibling_link h x)) (c :: l2)) by (exact (sib_chain h K p l1 _ Hr Hp)).
  assert (C4 : chain (prev_sibling_link h) (c :: rev l1)).
  { replace (c :: rev l1) with (rev (l1 ++ [c])) by (by rewrite rev_app_distr). apply (sib_chain_back h K p _ l2 Hr Hw). by rewrite <- app_assoc. }
  assert (F : following_siblings_or_self_stable_it h c = Ret (at_both (c :: l2) (rev (l1 ++ c :: l2)))).
  { unfold following_siblings_or_self_stable_it. rewrite Hl. destruct (rev_cons_both c l1 l2) as [q E]. rewrite E. cbn. f_equal. f_equal. f_equal. rewrite last_app_cons. done. }
  assert (P : preceding_siblings_or_self_stable_it h c = Ret (at_both (l1 ++ c :: l2) (c :: rev l1))).
  { unfold preceding_siblings_or_self_stable_it. rewrite Hf. by destruct l1. }
  assert (N : rev (l1 ++ c :: l2) <> []) by (destruct (rev_cons_both c l1 l2) as [q ->]; done).
  split; [|split; [|split; [|split; [|split]]]]; apply loosely_ssib; try done.
  - exact (both_full h K p _ Hr Hw Hp).
  - unfold siblings_stable_it. rewrite (parent_link_child _ _ _ _ Hr Hc). exact (both_full h K p _ Hr Hw Hp).
  - unfold following_siblings_stable_it. rewrite F. cbn [mbind run_bind]. by rewrite (skip_both h (c :: l2) _ C3 N).
  - by destruct C3.
  - unfold preceding_siblings_stable_it. rewrite P. cbn [mbind run_bind]. by rewrite (skip_both h (l1 ++ c :: l2) _ C1).
  - destruct l1; [by destruct C3|by destruct C1].
Qed.
Lemma root_siblings_loose h K x : rep h K -> wf K -> is_top K x ->
  loosely (siblings_stable_it h x) (ssib_next h) (ssib_next_back h) [x] [x] /\
  loosely (following_siblings_or_self_stable_it h x) (ssib_next h) (ssib_next_back h) [x] [x] /\
  loosely (following_siblings_stable_it h x) (ssib_next h) (ssib_next_back h) [] [x] /\
  loosely (preceding_siblings_or_self_stable_it h x) (ssib_next h) (ssib_next_back h) [x] [x] /\
  loosely (preceding_siblings_stable_it h x) (ssib_next h) (ssib_next_back h) [] [x].
Proof.
  intros Hr Hw Ht.
  assert (C1 : chain (fun z => Ret (next_sibling_link h z)) [x]). { split; [|done]. unfold next_sibling_link. by rewrite (fnext_top _ _ _ Hr Ht). }
  assert (C2 : chain (prev_sibling_link h) [x]). { split; [|done]. exact (prev_sibling_top _ _ _ Hr Ht). }
  destruct (top_facts h K x Hr Hw Ht) as (_ & _ & _ & _ & _ & _ & _ & Hf & Hl & _).
  assert (F : following_siblings_or_self_stable_it h x = Ret (at_both [x] [x])) by (unfold following_siblings_or_self_stable_it; by rewrite Hl).
  assert (P : preceding_siblings_or_self_stable_it h x = Ret (at_both [x] [x])) by (unfold preceding_siblings_or_self_stable_it; by rewrite Hf).
  split; [|split; [|split; [|split]]]; apply loosely_ssib; try done.
  - unfold siblings_stable_it. by rewrite (parent_link_top _ _ _ Hr Ht).
  - unfold following_siblings_stable_it. rewrite F. cbn [mbind run_bind]. by rewrite (skip_both h [x] [x] C1).
  - unfold preceding_siblings_stable_it. rewrite P. cbn [mbind run_bind]. by rewrite (skip_both h [x] [x] C1).
Qed.
Lemma dfs_loose h K r t x e1 e2 b1 b2 : rep h K -> wf K -> is_top K r -> shape K r t ->
  dfs_events t = e1 ++ Open x :: e2 -> dfs_events t = b1 ++ Close x :: b2 ->
  loosely (Ret (sdfs_start (Some x))) (sdfs_next h) (sdfs_next_back h) (Open x :: e2) (Close x :: rev b1).
Proof.
  intros Hr Hw Ht Hs E1 E2. exists (sdfs_start (Some x)). split; [done|]. intros bs.
  apply (sdfs_loose h (Open x :: e2) (Close x :: rev b1)).
  - exact (event_chain h K r t e1 _ Hr Hw Ht Hs E1).
  - replace (Close x :: rev b1) with (rev (b1 ++ [Close x])) by (by rewrite rev_app_distr).
    apply (event_chain_back h K r t _ b2 Hr Hw Ht Hs). by rewrite <- app_assoc.
Qed.
End Loose.
