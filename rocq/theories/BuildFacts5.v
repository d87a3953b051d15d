(** * BuildFacts5: building from events, cloning. *)
From Verif Require Import SerialSpec NavFacts SpecFacts RoseFacts EqFacts SerFacts BracketFacts ApiFacts ApiFacts2 ApiFacts3 ApiFacts6 ApiFacts7 ApiFacts8 BuildFacts BuildFacts2 BuildFacts3 BuildFacts4 Spec.

Section Build5.
Context {T : Type}.
Local Notation grew := (@BuildFacts.grew T [] (Lent 0)).
Local Notation phase := (@BuildFacts3.phase T [] (Lent 0)).
Implicit Types (s : sys T) (K : forest) (td : rose T) (hm : gmap nat handle) (b : builder) (es : list (event T)).

Lemma started_top s K s1 n t : started s K s1 n t -> is_top (<[n := []]> K) n /\ wf (<[n := []]> K).
Proof.
  intros St. assert (wf K) as Hw by apply (st_stores _ _ _ _ _ St). split.
  - split; [rewrite lookup_insert; eauto|]. intros q (ks & Hk & Hin). destruct (decide (q = n)) as [->|Hne].
    + rewrite lookup_insert in Hk. injection Hk as <-. set_solver.
    + rewrite lookup_insert_ne in Hk by done. destruct (wf_dom K Hw q n) as [? E]; [by exists ks|]. rewrite (st_new _ _ _ _ _ St) in E. done.
  - by apply (wf_new K n Hw (st_new _ _ _ _ _ St)).
Qed.

Lemma push_new s K es : reach s -> stores s K ->
  exists s' b' o, b_push_all s b_new es = Ret (s', b', o) /\
  ((s' = s /\ b' = b_new /\ ((o = None /\ expand es = []) \/ (o = Some RootNotOpened /\ exists l, expand es = None :: l))) \/
   (exists s1 n t p, started s K s1 n t /\
      match o with
      | None => phase (s_hands s) s1 (<[n := []]> K) n p (expand es) s' b'
      | Some x => x = RootClosed /\ (exists pre', phase (s_hands s) s1 (<[n := []]> K) n p pre' s' b') /\
          exists td post, post <> [] /\ expand es = brackets td ++ post
      end)).
Proof.
  intros R Hst. induction es as [|e es IH].
  - exists s, b_new, None. split; [done|]. left. split; [done|]. split; [done|]. by left.
  - destruct e as [d|[|j]].
    + destruct (start_ok s K d R Hst) as (s1 & p & c & n & t & E & St & Hh & G).
      destruct (started_top _ _ _ _ _ St) as [Htop Hw].
      destruct (push_all_ok (ts0 := []) (b0 := Lent 0) (s_hands s) s1 (<[n := []]> K) n p Hw) with (es := es) (pre := [Some d]) (s := s1) (b := mkBuilder (Some p) (Some c)) as (s2 & b2 & o & E2 & Ho).
      { rewrite lookup_insert; eauto. }
      { eapply (ph_open _ _ _ _ _ s1 _ _ _ 0); [exact G|exact Hh|constructor|done]. }
      { by left. }
      exists s2, b2, o. split. { cbn [b_push_all b_push]. rewrite E. exact E2. }
      right. exists s1, n, t, p. done.
    + destruct IH as (s' & b' & o & E & H). exists s', b', o. done.
    + exists s, b_new, (Some RootNotOpened). split; [done|]. left. split; [done|]. split; [done|]. right. split; [done|].
      exists (replicate j None ++ expand es). done.
Qed.

Theorem build_ok s es : reach s -> exists s' r, build s es = Ret (s', r) /\
  match r with
  | inl i => exists k td, denotes es k td /\ builds s s' i td
  | inr RootNotOpened => unaffected s s' /\ (expand es = [] \/ exists l, expand es = None :: l)
  | inr RootClosed => unaffected s s' /\ exists td post, post <> [] /\ expand es = brackets td ++ post
  | inr BorrowData => False
  end.
Proof.
  intros R. destruct (reach_stores s R) as [K Hst].
  assert (same_view s s) as Vss by (constructor; done).
  destruct (push_new s K es R Hst) as (s' & b' & o & E & [(-> & -> & H)|(s1 & n & t & p & St & H)]); unfold build; rewrite E; cbn [mbind run_bind].
  - destruct H as [(-> & H)|(-> & H)].
    + exists s, (inr RootNotOpened). split; [done|]. split; [done|]. by left.
    + exists s, (inr RootNotOpened). split; [done|]. split; [done|]. by right.
  - destruct (started_top _ _ _ _ _ St) as [Htop Hw]. destruct o as [x|].
    + destruct H as (-> & [pre' Hph] & Hbad). destruct (drop_new_ok _ _ _ _ _ _ _ _ _ St Hph Htop) as (s3 & E3 & Hu).
      exists s3, (inr RootClosed). cbn [b_end]. rewrite E3. done.
    + destruct (finish_ok _ _ _ _ _ _ _ _ (proj2 (started_top _ _ _ _ _ St)) H) as (s3 & K' & t0 & td & k & E3 & G & Hp & Hh & Hd).
      exists s3, (inl p). split; [exact E3|]. exists k, td. split; [exact Hd|]. by eapply grew_builds.
Qed.

(** The answer only depends on the events. *)
Lemma events_exclusive es :
  (forall k td, denotes es k td -> (forall k' td', denotes es k' td' -> k' = k /\ td' = td) /\ expand es <> [] /\ (forall l, expand es <> None :: l) /\
     forall td' post, expand es = brackets td' ++ post -> post = []) /\
  (forall td post, expand es = brackets td ++ post -> expand es <> [] /\ forall l, expand es <> None :: l).
Proof.
  split.
  - intros k td H. split; [intros k' td' H'; by destruct (brackets_closes _ _ _ _ _ H' H)|].
    unfold denotes in H. split; [|split].
    + intros E. rewrite E in H. destruct td, k; done.
    + intros l E. rewrite E in H. by destruct td.
    + intros td' post E. rewrite E, <-(app_nil_r (brackets td)), <-app_assoc in H. apply brackets_parse in H as [_ H].
      by apply app_eq_nil in H as [-> _].
  - intros td post ->. destruct td; done.
Qed.

(** ** Reading while building *)
Lemma push_all_app s b es1 es2 : b_push_all s b (es1 ++ es2) =
  ('(s1, b1, r) ← b_push_all s b es1; match r with None => b_push_all s1 b1 es2 | Some e => Ret (s1, b1, Some e) end).
Proof.
  revert s b. induction es1 as [|e es1 IH]; intros s b; [done|]. cbn [b_push_all app].
  destruct (b_push s b e) as [[[s1 b1] [r|]]| |]; cbn [mbind run_bind]; [done| |done|done]. apply IH.
Qed.

(** The source tree [t] at [x] is still stored, with the data it had in [h]. *)
Definition source (h : heap T) (x : nid) (t : rose nid) s : Prop :=
  exists K, stores s K /\ shape K x t /\
    forall y, y ∈ rose_nodes t -> exists nd nd', h !! y = Some nd /\ s_nodes s !! y = Some nd' /\ n_data nd' = n_data nd /\ n_lend nd' = n_lend nd.

Lemma reads_source h x t s e o : source h x t s -> (forall a, e = EOpen a -> a ∈ rose_nodes t) -> reads (s_nodes s) e o -> reads h e o.
Proof.
  intros (K & _ & _ & Hs) Hin. destruct e as [a|n]; [|done]. simpl.
  destruct (Hs a (Hin a eq_refl)) as (nd & nd' & E1 & E2 & Hd & Hm'). assert (n_mut nd' = n_mut nd) as Hm by (unfold n_mut; by rewrite Hm'). clear Hm'.
  destruct o as [[d|n]|]; [|done|].
  - intros [(nd1 & E & Ed) Hb]. split.
    + exists nd. split; [done|]. congruence.
    + intros (nd2 & E3 & E4). apply Hb. exists nd'. split; [done|]. congruence.
  - intros (nd2 & E3 & E4). exists nd. split; [done|]. congruence.
Qed.

Lemma group_opens (l : list (dft nid)) e : e ∈ group l -> forall a, e = EOpen a -> Open a ∈ l.
Proof.
  induction l as [|[b|b] l IH]; simpl; intros He a ->; [by apply elem_of_nil in He|..].
  - apply elem_of_cons in He as [He|He]; [injection He as ->; apply elem_of_cons; by left|]. apply elem_of_cons. right. by apply IH.
  - apply elem_of_cons. right. apply IH; [|done]. destruct (group l) as [|[c|n] r].
    + apply elem_of_cons in He as [He|He]; [done|]. by apply elem_of_nil in He.
    + apply elem_of_cons in He as [He|He]; [done|]. done.
    + apply elem_of_cons in He as [He|He]; [done|]. apply elem_of_cons. by right.
Qed.
Lemma dfs_open_node (t : rose nid) a : Open a ∈ dfs_events t -> a ∈ rose_nodes t.
Proof.
  induction t as [x ts IH] using rose_ind2. simpl. rewrite elem_of_cons, elem_of_app, elem_of_list_singleton.
  intros [H|[H|H]]; [|apply elem_of_cons; right|done].
  - injection H as ->. apply elem_of_cons. by left.
  - clear -IH H. induction IH as [|t ts Ht IHs IHt]; simpl in *; [by apply elem_of_nil in H|].
    apply elem_of_app in H as [H|H]; apply elem_of_app; [left; by apply Ht|right; by apply IHt].
Qed.

(** What folding the events of [t] into the builder does: pushing the events
    read from the original data, up to the first one that cannot be read. *)
Lemma fold_push h x t : forall fuel l pre es (rest : bool) s b,
  dfs_events t = pre ++ l -> length l < fuel ->
  (exists items, Forall2 (reads h) (group l) items /\ if rest then exists tl, items = map Some es ++ None :: tl else items = map Some es) ->
  (forall es1 es2 s1 b1, es = es1 ++ es2 -> b_push_all s b es1 = Ret (s1, b1, None) -> source h x t s1) ->
  fold_events fuel s b (at_ x l) =
    ('(s1, b1, r) ← b_push_all s b es; Ret (s1, b1, match r with None => if rest then Some BorrowData else None | Some e => Some e end)).
Proof.
  induction fuel as [|f IH]; intros l pre es rest s b Hpre Hlen (items & Hit & Hes) Hinv; [lia|].
  pose proof (Hinv [] es s b eq_refl eq_refl) as Hsrc. pose proof Hsrc as (K & [Hrep Hw] & Hsh & _).
  pose proof (ser_next_at (s_nodes s) K x t pre l Hrep Hw Hsh Hpre) as Hn.
  cbn [fold_events]. destruct (group l) as [|e r] eqn:Eg.
  - destruct Hn as [-> Hn]. rewrite Hn. cbn [mbind run_bind]. apply Forall2_nil_inv_l in Hit as ->.
    destruct es as [|e es]; [|destruct rest; [by destruct Hes|done]].
    destruct rest; [by destruct Hes|]. done.
  - destruct Hn as (pre' & l' & o & Hpre' & Hg' & Hlt & Hrd & Hn). rewrite Hn. cbn [mbind run_bind].
    apply Forall2_cons_inv_l in Hit as (o' & items' & Hrd' & Hit' & ->).
    assert (o = o') as <-.
    { apply (reads_source h x t s e o Hsrc) in Hrd.
      - clear -Hrd Hrd'. destruct e as [a|n]; simpl in Hrd, Hrd'; [|congruence].
        destruct o as [[d|]|], o' as [[d'|]|]; try done.
        + destruct Hrd as [(nd & E1 & E2) _], Hrd' as [(nd' & E1' & E2') _]. congruence.
        + by destruct Hrd as [_ Hb].
        + by destruct Hrd' as [_ Hb].
      - intros a ->. apply dfs_open_node. rewrite Hpre. apply elem_of_app. right.
        eapply group_opens; [rewrite Eg; apply elem_of_cons; by left|done]. }
    destruct es as [|ev es]; simpl in Hes.
    + destruct rest; [|done]. destruct Hes as [tl Hes]. injection Hes as -> ->. done.
    + assert (o = Some ev /\ if rest then exists tl, items' = map Some es ++ None :: tl else items' = map Some es) as [-> Hes'].
      { destruct rest; [destruct Hes as [tl Hes]|]; injection Hes as -> ->; eauto. }
      cbn [b_push_all]. destruct (b_push s b ev) as [[[s1 b1] [er|]]| |] eqn:Eb; cbn [mbind run_bind]; try done.
      apply (IH l' pre' es rest s1 b1 Hpre'); [lia|exists items'; by rewrite Hg'|].
      intros es1 es2 s2 b2 -> E2. apply (Hinv (ev :: es1) es2 s2 b2); [done|]. cbn [b_push_all]. rewrite Eb. exact E2.
Qed.

(** The items read from a subtree, up to the first unreadable one. *)
Lemma items_split {A} (items : list (option A)) :
  exists (xs : list A) (rest : bool), (if rest then exists tl, items = map Some xs ++ None :: tl else items = map Some xs).
Proof.
  induction items as [|[a|] items (es & rest & IH)].
  - by exists [], false.
  - exists (a :: es), rest. destruct rest; simpl; [destruct IH as [tl ->]; by exists tl|by rewrite IH].
  - exists [], true. by exists items.
Qed.
End Build5.
