(** * PropFused: the iterators are fused (C55). *)
From Verif Require Import Traverse Serial HIter HIter2 OwnFacts2 Serial2 FusedSpec Demo.

Lemma fused_1 {H S I : Type} (n : H -> S -> run (option I * S)) hint e :
  (forall h st st', n h st = Ret (None, st') -> st' = e) -> (forall h, n h e = Ret (None, e)) -> hint e = Ret (0, Some 0) -> fused [n] hint.
Proof.
  intros N Z Hh m h st st' [-> |F%elem_of_nil]%elem_of_cons E; [|done]. pose proof (N _ _ _ E) as ->. split; [|done].
  intros m2 h2 [-> |F%elem_of_nil]%elem_of_cons; [apply Z|done].
Qed.
Lemma fused_2 {H S I : Type} (n k : H -> S -> run (option I * S)) hint e :
  (forall h st st', n h st = Ret (None, st') \/ k h st = Ret (None, st') -> st' = e) -> (forall h, n h e = Ret (None, e)) -> (forall h, k h e = Ret (None, e)) ->
  hint e = Ret (0, Some 0) -> fused [n; k] hint.
Proof.
  intros N Z Y Hh m h st st' Hm E. assert (st' = e) as ->.
  { apply (N h st). set_unfold in Hm. destruct Hm as [-> |[-> |[]]]; [by left|by right]. }
  split; [|done]. intros m2 h2 Hm2. set_unfold in Hm2. destruct Hm2 as [-> |[-> |[]]]; [apply Z|apply Y].
Qed.
Lemma fused_h1 {H S I : Type} (n : H -> S -> run (H * option I * S)) (e : S -> Prop) :
  (forall h h' st st', n h st = Ret (h', None, st') -> e st') -> (forall h st, e st -> n h st = Ret (h, None, st)) -> fused_h [n].
Proof.
  intros N Z m h h' st st' [-> |F%elem_of_nil]%elem_of_cons E; [|done]. intros m2 h2 [-> |F%elem_of_nil]%elem_of_cons; [|done]. exact (Z _ _ (N _ _ _ _ E)).
Qed.
Lemma fused_h2 {H S I : Type} (n k : H -> S -> run (H * option I * S)) (e : S) :
  (forall h h' st st', n h st = Ret (h', None, st') \/ k h st = Ret (h', None, st') -> st' = e) -> (forall h, n h e = Ret (h, None, e)) ->
  (forall h, k h e = Ret (h, None, e)) -> fused_h [n; k].
Proof.
  intros N Z Y m h h' st st' Hm E. assert (st' = e) as ->.
  { apply (N h h' st). set_unfold in Hm. destruct Hm as [-> |[-> |[]]]; [by left|by right]. }
  intros m2 h2 Hm2. set_unfold in Hm2. destruct Hm2 as [-> |[-> |[]]]; [apply Z|apply Y].
Qed.
Lemma abf_none {T} (fuel : nat) : forall (h : heap T) q d st, abf_loop fuel h q d = Ret (None, st) -> abf_queue st = [].
Proof.
  induction fuel as [|f IH]; intros h q d st; [done|]. cbn [abf_loop]. destruct q as [|[x|] q]; [intros [= <-]; done| |].
  - destruct (children_stable_it h x) as [z| |]; cbn [mbind run_bind]; [|done|done]. match goal with |- context [collect_it ?a ?b ?c] => destruct (collect_it a b c) end; cbn [mbind run_bind]; done.
  - destruct q; [intros [= <-]; done|]. apply IH.
Qed.
Lemma habf_none {T} (fuel : nat) : forall (s : sys T) q d s' st, habf_loop fuel s q d = Ret (s', None, st) -> habf_queue st = [].
Proof.
  induction fuel as [|f IH]; intros s q d s' st; [done|]. cbn [habf_loop]. destruct q as [|[x|] q]; [intros [= _ <-]; done| |].
  - destruct (hchildren_stable s x) as [[s1 st1]| |]; cbn [mbind run_bind]; [|done|done]. destruct (hss_collect _ _ _) as [[s2 cs]| |]; cbn [mbind run_bind]; done.
  - destruct q; [intros [= _ <-]; done|]. apply IH.
Qed.
Lemma nbf_none {T} (h : heap T) st st' : nbf_next h st = Ret (None, st') -> nbf_root st' = None.
Proof.
  unfold nbf_next. destruct (nbf_root st) as [r|] eqn:Er; [|intros [= <-]; done].
  destruct (find_at_depth _ _ (nbf_depth st) (nbf_inner st)) as [[o inner]| |]; cbn [mbind run_bind]; [|discriminate|discriminate]. destruct o; [discriminate|].
  destruct (find_at_depth _ _ _ _) as [[o inner2]| |]; cbn [mbind run_bind]; [|discriminate|discriminate]. destruct o; [discriminate|]. intros [= <-]. done.
Qed.
Lemma hnbf_none {T} (s : sys T) st s' st' : hnbf_next s st = Ret (s', None, st') -> hnbf_root st' = None.
Proof.
  unfold hnbf_next. destruct (hnbf_root st) as [r|] eqn:Er; [|intros [= _ <-]; done].
  destruct (h_find _ _ _ _) as [[[s1 o] inner]| |]; cbn [mbind run_bind]; [|discriminate|discriminate]. destruct o; [discriminate|].
  destruct (h_clone s1 r) as [[s2 c]| |]; cbn [mbind run_bind]; [|discriminate|discriminate].
  destruct (hsh_start s2 c) as [[s3 i2]| |]; cbn [mbind run_bind]; [|discriminate|discriminate].
  destruct (h_drops s3 _) as [s4| |]; cbn [mbind run_bind]; [|discriminate|discriminate].
  destruct (h_find _ _ _ _) as [[[s5 o] i3]| |]; cbn [mbind run_bind]; [|discriminate|discriminate]. destruct o; [discriminate|].
  destruct (h_drop s5 r) as [s6| |]; cbn [mbind run_bind]; [|discriminate|discriminate]. intros [= _ <-]. reflexivity.
Qed.

(** For every heap, at every state of the iterator: once [next] or [next_back] has returned [None], both return [None] for ever, the state of the iterator
    does not change any more, and [size_hint] says (0, Some 0).  All the types with [FusedIterator], the internal [DepthFirstLinkTraverser] among them,
    and the two without it: [AllocatingBreadthFirstTraverser] and [TreeSerializeIter] (which has only the default [size_hint], (0, None): left out here). *)
Theorem C55_fused : forall T : Type,
  fused [@link_dfs_next T] (fun st => Ret (link_dfs_size_hint st)) /\ fused [@dfs_next T] (fun st => Ret (dfs_size_hint st)) /\
  fused [@rdfs_next T] (fun st => Ret (rdfs_size_hint st)) /\
  fused [@sdfs_next T; @sdfs_next_back T] (fun st => Ret (sdfs_size_hint st)) /\
  (forall max, fused [fun h => @sh_next T h max; fun h => @sh_next_back T h max] sh_size_hint) /\
  fused [@anc_next T] (fun st => Ret (opt_size_hint st)) /\ fused [@sib_next T] (fun st => Ret (opt_size_hint st)) /\ fused [@rsib_next T] (fun st => Ret (opt_size_hint st)) /\
  fused [@ssib_next T; @ssib_next_back T] (fun st => Ret (ssib_size_hint st)) /\
  fused [@nbf_next T] (fun st => Ret (nbf_size_hint st)) /\ fused [@abf_next T] (fun st => Ret (abf_size_hint st)) /\
  fused [@ser_next T] (fun _ => Ret (0, Some 0)).
Proof.
  intros T.
  split; [eapply (fused_1 _ _ None); [|done|done]; intros h [[e x]|] st'; cbn; [case_decide; intros [= <-]; done|intros [= <-]; done]|].
  split; [eapply (fused_1 _ _ None); [|done|done]; intros h [[e x]|] st'; cbn; [done|intros [= <-]; done]|].
  split; [eapply (fused_1 _ _ None); [|done|done]; intros h [[e x]|] st'; cbn; [|intros [= <-]; done]; case_decide; [done|]; destruct (dft_prev h e); done|].
  split; [eapply (fused_2 _ _ _ None); [|done|done|done]; intros h [[e x]|] st' [E|E]; cbn in E; try (injection E as <-; done); try done; by destruct (dft_prev h x)|].
  split; [intros max; eapply (fused_2 _ _ _ None); [|done|done|done]; intros h [[e x]|] st' [E|E]; cbn -[sh_forward sh_backward] in E;
    try (injection E as <-; done); [by destruct (sh_forward _ _ _)|by destruct (sh_backward _ _ _)]|].
  split; [eapply (fused_1 _ _ None); [|done|done]; intros h [x|] st'; cbn; [done|intros [= <-]; done]|].
  split; [eapply (fused_1 _ _ None); [|done|done]; intros h [x|] st'; cbn; [done|intros [= <-]; done]|].
  split; [eapply (fused_1 _ _ None); [|done|done]; intros h [x|] st'; cbn -[prev_sibling_link]; [by destruct (prev_sibling_link h x)|intros [= <-]; done]|].
  split; [eapply (fused_2 _ _ _ None); [|done|done|done]; intros h [[e x]|] st' [E|E]; cbn -[prev_sibling_link] in E; try (injection E as <-; done); try done;
    by destruct (prev_sibling_link h x)|].
  split; [|split].
  - intros m h st st' [-> |F%elem_of_nil]%elem_of_cons E; [|done]. apply nbf_none in E. split; [|by unfold nbf_size_hint; rewrite E].
    intros m2 h2 [-> |F%elem_of_nil]%elem_of_cons; [|done]. unfold nbf_next. by rewrite E.
  - intros m h st st' [-> |F%elem_of_nil]%elem_of_cons E; [|done]. apply abf_none in E. destruct st' as [q d]. cbn in E. subst q. split; [|done].
    intros m2 h2 [-> |F%elem_of_nil]%elem_of_cons; done.
  - eapply (fused_1 _ _ None); [|done|done]. intros h [[e x]|] st'; [|intros [= <-]; done]. unfold ser_next. cbn -[close_run try_borrow].
    destruct e as [y|y]; [by destruct (try_borrow h y)|]. by destruct (close_run _ _ _ _) as [[? ?]| |].
Qed.
Print Assumptions C55_fused.

(** The same of the iterators with the handles they own, in every state of the program: a call after the end changes nothing at all. *)
Theorem C55_fused_handles : forall T : Type,
  fused_h [@hdfs_next T] /\ fused_h [@hrdfs_next T] /\ (forall v, fused_h [@hsib_next T v]) /\ fused_h [@hss_next T; @hss_next_back T] /\
  fused_h [@hsdfs_next T; @hsdfs_next_back T] /\ (forall max, fused_h [@hsh_next T max; @hsh_next_back T max]) /\ fused_h [@hnbf_next T] /\ fused_h [@habf_next T].
Proof.
  intros T.
  split; [apply (fused_h1 _ (fun st => st = None)); [intros s s' st st' E; exact (proj1 (end_dfs _ _ _ _ (or_introl E)))|intros s st ->; reflexivity]|].
  split; [apply (fused_h1 _ (fun st => st = None)); [intros s s' st st' E; exact (proj1 (end_dfs _ _ _ _ (or_intror E)))|intros s st ->; reflexivity]|].
  split; [intros v; apply (fused_h1 _ (fun st => st = None)); [intros s s' st st' E; exact (proj1 (end_sib _ _ _ _ _ E))|intros s st ->; reflexivity]|].
  split; [apply (fused_h2 _ _ None); [intros s s' st st' E; exact (proj1 (end_pair _ _ _ _ _ _ _ E))|reflexivity|reflexivity]|].
  split; [apply (fused_h2 _ _ None); [intros s s' st st' E; exact (proj1 (end_pair _ _ _ _ _ _ _ E))|reflexivity|reflexivity]|].
  split; [intros max; apply (fused_h2 _ _ None); [intros s s' st st' E; exact (proj1 (end_sh _ _ _ _ _ E))|reflexivity|reflexivity]|].
  split; [apply (fused_h1 _ (fun st => hnbf_root st = None)); [intros s s' st st' E; exact (hnbf_none _ _ _ _ E)|]|].
  - intros s st E. unfold hnbf_next. rewrite E. reflexivity.
  - apply (fused_h1 _ (fun st => habf_queue st = [])); [intros s s' st st' E; exact (habf_none _ _ _ _ _ _ E)|].
    intros s [q d] E. cbn in E. subst q. reflexivity.
Qed.
Print Assumptions C55_fused_handles.

(** In the demo state: the children of 8 run out from the back after one item; the breadth-first traversal below 14 after one. *)
Definition fused_run : run (list (option nid) * list (option (nid * nat)) * list (nat * option nat)) :=
  let h := s_nodes demo in
  st0 ← children_stable_it h 8;
  '(a, st1) ← ssib_next_back h st0;
  '(b, st2) ← ssib_next_back h st1;
  '(c, st3) ← ssib_next h st2;
  '(d, q1) ← nbf_next h (mkNbf (sh_start (Some 14)) (Some 14) 0);
  '(e, q2) ← nbf_next h q1;
  '(f, q3) ← nbf_next h q2;
  Ret ([a; b; c], [d; e; f], [ssib_size_hint st0; ssib_size_hint st2; nbf_size_hint q1; nbf_size_hint q2]).
Example C55_nonvacuous :
  fused_run = Ret ([Some 14; None; None], [Some (14, 0); None; None], [(1, Some 1); (0, Some 0); (0, None); (0, Some 0)]).
Proof. vm_compute. reflexivity. Qed.
