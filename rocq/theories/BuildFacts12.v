(** * BuildFacts12: [TreeBuilder::with_root] on an arbitrary node. *)
From Verif Require Import SerialSpec NavFacts SpecFacts RoseFacts EqFacts BracketFacts ApiFacts ApiFacts2 ApiFacts3 ApiFacts6 ApiFacts7 ApiFacts8 BuildFacts BuildFacts2 BuildFacts3 BuildFacts4 Spec.

Section Build12.
Context {T : Type}.
Implicit Types (s : sys T) (K : forest) (td : rose T) (hm : gmap nat handle) (es : list (event T)).

Lemma rose_rel_ne {A B} (R R' : A -> B -> Prop) ts us : Forall2 (rose_rel R) ts us ->
  (forall t a d, t ∈ ts -> a ∈ rose_nodes t -> R a d -> R' a d) -> Forall2 (rose_rel R') ts us.
Proof.
  induction 1 as [|t u ts us H _ IH]; intros HR; constructor.
  - eapply rose_rel_mono_in; [exact H|]. intros a d Ha. apply (HR t); [apply elem_of_cons; by left|done].
  - apply IH. intros t' a d Ht. apply (HR t'). apply elem_of_cons. by right.
Qed.

Lemma grew_appends ts0 b0 hm s K x s0 s' K' t0 td : stores s K -> shape K x (Rose x ts0) ->
  same_view s s0 -> (forall j hd, s_hands s !! j = Some hd -> hm !! j = Some hd \/ hand_target hd = x) ->
  @grew T ts0 b0 hm s0 K x s' K' t0 td ->
  exists d us, td = Rose d us /\ payload s x = Some (d, b0) /\ appends s K x us s'.
Proof.
  intros Hst Hsh V Hhm G. pose proof (g_shape _ _ _ _ _ _ _ _ G) as Hs. pose proof (g_data _ _ _ _ _ _ _ _ G) as Hd.
  assert (wf K') as Hw' by apply (g_stores _ _ _ _ _ _ _ _ G).
  assert (is_Some (K !! x)) as HKx by apply (g_root _ _ _ _ _ _ _ _ G).
  destruct t0 as [r ts]. pose proof (full_root ts0 K' x _ Hs) as Er. simpl in Er. subst r. simpl in Hs.
  destruct td as [d us]. inversion Hd as [a b0' ts' us' Ha Hrest]; subst. rewrite decide_True in Ha by done.
  inversion Hsh as [? ? Hks Hks2]; subst. inversion Hs as [? ? Hks' Hks2']; subst.
  rewrite map_app in Hks'. apply Forall_app in Hks2' as [_ Hks2'].
  assert (Forall2 (shape K') (map rose_root ts) ts) as Hnew.
  { clear -Hks2'. induction Hks2'; constructor; done. }
  set (ns := map rose_root ts) in *. set (ks := map rose_root ts0) in *.
  assert (forall t (y : nid), t ∈ ts -> y ∈ rose_nodes t -> y <> x /\ K !! y = None /\ unknown s y) as Hfresh.
  { intros t y Ht Hy.
    assert (y ∈ rose_nodes (Rose x ts)) as Hin.
    { simpl. apply elem_of_cons. right. apply elem_of_concat_map. by exists t. }
    assert (y <> x) as Hne.
    { intros ->. apply elem_of_list_lookup in Ht as [i Hi]. destruct (Forall2_lookup_r _ _ _ _ _ Hnew Hi) as (n & Hn & Hsn).
      apply (shape_nodes K' n t x Hsn) in Hy. apply (no_cycle K' x n Hw'); [|exact Hy].
      exists (ks ++ ns). split; [done|]. apply elem_of_app. right. by eapply elem_of_list_lookup_2. }
    split; [exact Hne|]. destruct (g_new _ _ _ _ _ _ _ _ G y Hin) as [?|Hn]; [done|]. split; [exact Hn|].
    destruct (g_unk _ _ _ _ _ _ _ _ G y Hin) as [?|Hu]; [done|]. intros j hd Hj.
    destruct (Hhm j hd Hj) as [Hj'|Hx]; [by apply (Hu j)|]. by rewrite Hx. }
  exists d, us. split; [done|]. split.
  { rewrite <-(sv_payload _ _ V), <-(g_payload _ _ _ _ _ _ _ _ G x HKx). exact Ha. }
  constructor.
  - exact (g_reach _ _ _ _ _ _ _ _ G).
  - exists ks, ns, ts, K'. split; [done|]. split; [exact (g_stores _ _ _ _ _ _ _ _ G)|]. split; [done|]. split; [done|]. split; [|split; [|split]].
    + eapply rose_rel_ne; [exact Hrest|]. intros t a d' Ht Hat H. simpl in H. rewrite decide_False in H; [exact H|]. by eapply Hfresh.
    + intros t y Ht Hy. destruct (Hfresh t y Ht Hy) as (_ & H1 & H2). split; [done|]. split; [done|].
      rewrite (grew_tree _ _ _ _ _ _ _ _ y G); [|simpl; apply elem_of_cons; right; apply elem_of_concat_map; by exists t].
      rewrite (g_tree _ _ _ _ _ _ _ _ G x HKx). apply (sv_tree _ _ V).
    + exact (g_old _ _ _ _ _ _ _ _ G).
    + intros y. split.
      * intros Hy. destruct (g_all _ _ _ _ _ _ _ _ G y Hy) as [H|H]; [by left|]. simpl in H. apply elem_of_cons in H as [->|H]; [by left|right].
        apply elem_of_concat_map in H as (t & Ht & H). by exists t.
      * intros [H|(t & Ht & Hy)]; [by eapply grew_alive|]. eapply grew_node; [exact G|]. simpl. apply elem_of_cons. right.
        apply elem_of_concat_map. by exists t.
  - intros y Hy. rewrite (g_payload _ _ _ _ _ _ _ _ G y Hy), (g_tree _ _ _ _ _ _ _ _ G y Hy). split; [apply (sv_payload _ _ V)|apply (sv_tree _ _ V)].
  - intros u. rewrite (g_trees _ _ _ _ _ _ _ _ G u). by apply view_alive.
Qed.

Lemma with_root_start s K i x ts0 d b0 : reach s -> stores s K -> s_hands s !! i = Some (HNode Hot x) -> shape K x (Rose x ts0) ->
  payload s x = Some (d, b0) ->
  exists s1 p, b_with_root s i = Ret (s1, mkBuilder (Some p) (Some i)) /\ same_view s s1 /\
    s_hands s !! p = None /\ held s1 (delete i (s_hands s)) p i x x /\
    @grew T ts0 b0 (delete i (s_hands s)) s1 K x s1 K (Rose x []) (Rose d []).
Proof.
  intros R Hst Hi Hsh Hp.
  destruct (reach_effect s _ (OpPlain i) R Hst ltac:(exact Logic.I)) as (s1 & r & E & R1 & Ef); [exists Hot, x; split; [done|exact Hi]|exact (fun F => F)|].
  destruct Ef as [(k & x' & p & Hx' & _ & -> & (V & Hf & Hh))|[[]|[]]]. assert (x' = x) as -> by congruence.
  exists s1, p. split; [unfold b_with_root, call_hand; rewrite E; done|]. split; [exact V|]. split; [exact Hf|].
  assert (p <> i) as Hpi by (intros ->; congruence).
  assert (is_Some (K !! x)) as HKx by (inversion Hsh; subst; eauto).
  split.
  - split; [|split; [by rewrite lookup_delete_ne|split; [apply lookup_delete|done]]].
    rewrite Hh. rewrite insert_commute by done. by rewrite insert_delete.
  - constructor.
    + exact R1.
    + by apply V.
    + simpl. by rewrite app_nil_r.
    + constructor; [|constructor]. rewrite decide_True by done. by rewrite (sv_payload _ _ V).
    + exact HKx.
    + done.
    + intros y Hy. left. simpl in Hy. set_solver.
    + by left.
    + done.
    + done.
    + intros y Hy. left. simpl in Hy. set_solver.
    + done.
Qed.

(** Everything the builder of [x] can do until it leaves the subtree of [x]. *)
Theorem with_root_ok s K i x d b0 es : reach s -> stores s K -> s_hands s !! i = Some (HNode Hot x) -> payload s x = Some (d, b0) ->
  (is_top K x \/ exists post td, Some d :: expand es ++ post = brackets td) ->
  exists s1 b1 s2 b2 o, b_with_root s i = Ret (s1, b1) /\ b_push_all s1 b1 es = Ret (s2, b2, o) /\
    match o with
    | None => exists k us, Some d :: expand es ++ replicate k None = brackets (Rose d us) /\
        exists s3 p, b_finish s2 b2 = Ret (s3, inl p) /\ appends s K x us s3 /\ s_hands s !! p = None /\
          s_hands s3 = <[p := HNode Plain x]> (delete i (s_hands s))
    | Some e => e = RootClosed /\ exists us post, post <> [] /\ Some d :: expand es = brackets (Rose d us) ++ post /\ appends s K x us s2
    end.
Proof.
  intros R Hst Hi Hp Hok.
  destruct (handle_tree s K i Hot x R Hst Hi) as (_ & _ & _ & _ & _ & _ & HKx).
  assert (wf K) as Hw by apply Hst.
  destruct (shape_exists K x Hw HKx) as [t Hsh]. assert (rose_root t = x) as Er by (inversion Hsh; done).
  destruct t as [x' ts0]. simpl in Er. subst x'.
  destruct (with_root_start s K i x ts0 d b0 R Hst Hi Hsh Hp) as (s1 & p & E1 & V & Hf & Hh & G).
  assert (forall j hd, s_hands s !! j = Some hd -> delete i (s_hands s) !! j = Some hd \/ hand_target hd = x) as Hhm.
  { intros j hd Hj. destruct (decide (j = i)) as [->|Hne]; [right|left; by rewrite lookup_delete_ne]. assert (hd = HNode Hot x) as -> by congruence. done. }
  destruct (push_all_strong (ts0 := ts0) (b0 := b0) (delete i (s_hands s)) s1 K x p Hw HKx es [Some d] s1 (mkBuilder (Some p) (Some i))) as (s2 & b2 & o & E2 & Ho).
  { eapply (ph_open _ _ _ _ _ s1 _ _ _ 0); [exact G|exact Hh|constructor|done]. }
  { destruct Hok as [?|(post & td & Hok)]; [by left|right]. exists td, post. simpl. exact Hok. }
  exists s1, (mkBuilder (Some p) (Some i)), s2, b2, o. split; [exact E1|]. split; [exact E2|]. destruct o as [e|].
  - destruct Ho as (-> & _ & td & post & Hne & Heq & K2 & t2 & G2). split; [done|].
    destruct (grew_appends _ _ _ _ _ _ _ _ _ _ _ Hst Hsh V Hhm G2) as (d' & us & -> & Hp' & A).
    assert (d' = d) as -> by congruence. by exists us, post.
  - destruct (finish_ok _ _ _ _ _ _ _ _ Hw Ho) as (s3 & K3 & t3 & td & k & E3 & G3 & Hpf & Hh3 & Hk).
    destruct (grew_appends _ _ _ _ _ _ _ _ _ _ _ Hst Hsh V Hhm G3) as (d' & us & -> & Hp' & A).
    assert (d' = d) as -> by congruence.
    exists k, us. split; [simpl in Hk; simpl; congruence|].
    exists s3, p. split; [exact E3|]. split; [exact A|]. split; [exact Hf|exact Hh3].
Qed.
End Build12.
