(** * BuildFacts10: collecting depth-first events; the macros. *)
From Verif Require Import SerialSpec Serial2 NavFacts SpecFacts RoseFacts IterFacts TravFacts EqFacts SerFacts BracketFacts ApiFacts ApiFacts2 ApiFacts3 ApiFacts6 ApiFacts7 ApiFacts8 BuildFacts BuildFacts2 BuildFacts3 BuildFacts4 BuildFacts5 BuildFacts6 BuildFacts8 Spec.

Section Build10.
Context {T : Type}.
Local Notation grew := (@BuildFacts.grew T [] (Lent 0)).
Local Notation phase := (@BuildFacts3.phase T [] (Lent 0)).
Implicit Types (s : sys T) (K : forest) (td : rose T) (hm : gmap nat handle).

(** ** Depth-first events *)
Definition single {A} (e : dft A) : event A := match e with Open a => EOpen a | Close _ => EClose 1 end.
Lemma expand_single {A} (l : list (dft A)) : expand (map single l) = map bracket_of l.
Proof. induction l as [|[a|a] l IH]; [done|..]; simpl; unfold expand in *; simpl; by rewrite IH. Qed.
Lemma single_open {A} (l : list (dft A)) a : EOpen a ∈ map single l <-> Open a ∈ l.
Proof.
  induction l as [|[b|b] l IH]; simpl; [by rewrite !elem_of_nil|..]; rewrite !elem_of_cons, IH.
  - split; intros [H|H]; auto; injection H as ->; auto.
  - split; intros [H|H]; auto; done.
Qed.

Lemma dft_event_reads h K x (t : rose nid) (e : dft nid) : rep (T := T) h K -> wf K -> shape K x t -> e ∈ dfs_events t ->
  exists o, dft_event h e = Ret o /\ reads h (single e) o.
Proof.
  intros Hr Hw Hs He. destruct e as [a|a].
  - destruct (try_borrow_spec h a) as (o & Eo & Ho).
    { apply (rep_dom h K Hr). exact (shape_events_dom K x t (Open a) Hw Hs He). }
    exists (option_map EOpen o). unfold dft_event. rewrite Eo. split; [done|]. by destruct o.
  - by exists (Some (EClose 1)).
Qed.

Lemma dfts_push h x t : forall fuel l pre es (rest : bool) s b,
  dfs_events t = pre ++ l -> length l < fuel ->
  (exists items, Forall2 (reads h) (map single l) items /\ if rest then exists tl, items = map Some es ++ None :: tl else items = map Some es) ->
  (forall es1 es2 s1 b1, es = es1 ++ es2 -> b_push_all s b es1 = Ret (s1, b1, None) -> source h x t s1) ->
  push_dfts fuel s b (at_ x l) =
    ('(s1, b1, r) ← b_push_all s b es; Ret (s1, b1, match r with None => if rest then Some BorrowData else None | Some e => Some e end)).
Proof.
  induction fuel as [|f IH]; intros l pre es rest s b Hpre Hlen (items & Hit & Hes) Hinv; [lia|].
  pose proof (Hinv [] es s b eq_refl eq_refl) as Hsrc. pose proof Hsrc as (K & [Hrep Hw] & Hsh & _).
  cbn [push_dfts]. rewrite (dfs_next_at (s_nodes s) K x t pre l Hrep Hw Hsh Hpre). cbn [mbind run_bind].
  destruct l as [|e l]; cbn [head tail].
  - apply Forall2_nil_inv_l in Hit as ->.
    destruct es as [|ev es]; [|destruct rest; [by destruct Hes|done]].
    destruct rest; [by destruct Hes|]. done.
  - assert (e ∈ dfs_events t) as He by (rewrite Hpre; apply elem_of_app; right; apply elem_of_cons; by left).
    destruct (dft_event_reads (s_nodes s) K x t e Hrep Hw Hsh He) as (o & Eo & Hrd). rewrite Eo. cbn [mbind run_bind].
    cbn [map] in Hit. apply Forall2_cons_inv_l in Hit as (o' & items' & Hrd' & Hit' & ->).
    assert (o = o') as <-.
    { apply (reads_source h x t s _ o Hsrc) in Hrd.
      - clear -Hrd Hrd'. destruct e as [a|n]; simpl in Hrd, Hrd'; [|congruence].
        destruct o as [[d|]|], o' as [[d'|]|]; try done.
        + destruct Hrd as [(nd & E1 & E2) _], Hrd' as [(nd' & E1' & E2') _]. congruence.
        + by destruct Hrd as [_ Hb].
        + by destruct Hrd' as [_ Hb].
      - intros a Ea. apply dfs_open_node. destruct e; simpl in Ea; [by injection Ea as ->|done]. }
    destruct es as [|ev es]; simpl in Hes.
    + destruct rest; [|done]. destruct Hes as [tl Hes]. injection Hes as -> ->. done.
    + assert (o = Some ev /\ if rest then exists tl, items' = map Some es ++ None :: tl else items' = map Some es) as [-> Hes'].
      { destruct rest; [destruct Hes as [tl Hes]|]; injection Hes as -> ->; eauto. }
      cbn [b_push_all]. destruct (b_push s b ev) as [[[s1 b1] [er|]]| |] eqn:Eb; cbn [mbind run_bind]; try done.
      apply (IH l (pre ++ [e]) es rest s1 b1); [by rewrite <-app_assoc|simpl in Hlen; lia|by exists items'|].
      intros es1 es2 s2 b2 -> E2. apply (Hinv (ev :: es1) es2 s2 b2); [done|]. cbn [b_push_all]. rewrite Eb. exact E2.
Qed.

Lemma dfts_events h K x t : rep (T := T) h K -> wf K -> shape K x t ->
  exists items es (rest : bool) es0 td, Forall2 (reads h) (map single (dfs_events t)) items /\
    (if rest then exists tl, items = map Some es ++ None :: tl else items = map Some es) /\
    data_tree h t td /\ expand es0 = brackets td /\ (exists es', es0 = es ++ es') /\
    (if rest then exists y, y ∈ rose_nodes t /\ borrowed h y else es0 = es /\ forall y, y ∈ rose_nodes t -> ~ borrowed h y).
Proof.
  intros Hrep Hw Hs.
  assert (exists items, Forall2 (reads h) (map single (dfs_events t)) items) as [items Hit].
  { assert (forall l, (forall e, e ∈ l -> e ∈ dfs_events t) -> exists items, Forall2 (reads h) (map single l) items) as H; [|by apply H].
    induction l as [|e l IH]; intros Hl; [exists []; constructor|]. destruct IH as [items Hi]; [intros e' He'; apply Hl, elem_of_cons; by right|].
    destruct (dft_event_reads h K x t e Hrep Hw Hs) as (o & _ & Ho); [apply Hl, elem_of_cons; by left|].
    exists (o :: items). by constructor. }
  destruct (items_split items) as (es & rest & Hes).
  destruct (raw_exists h (map single (dfs_events t))) as [es0 Hraw].
  { intros a Ha. apply single_open, dfs_open_node in Ha.
    apply (rep_dom _ _ Hrep). apply (shape_nodes K x t a Hs) in Ha. eapply below_dom; [done| |exact Ha]. inversion Hs; subst. eauto. }
  pose proof (expand_raw h _ _ Hraw) as Hx. rewrite expand_single, <-brackets_events, <-(app_nil_r (brackets t)) in Hx.
  apply brackets_rel in Hx as (td & l' & Hx & Htd & Hl'). apply Forall2_nil_inv_l in Hl' as ->. rewrite app_nil_r in Hx.
  exists items, es, rest, es0, td. split; [done|]. split; [done|]. split; [done|]. split; [done|].
  destruct rest.
  - destruct Hes as [tl Hes]. destruct (reads_raw h _ es es0 items Hraw _ Hes Hit) as (es' & -> & _ & Hb).
    split; [by exists es'|]. destruct (Hb tl eq_refl) as (a & Ha & Hba). exists a. split; [|done]. by apply dfs_open_node, single_open.
  - destruct (reads_raw h _ es es0 items Hraw [] ltac:(by rewrite app_nil_r) Hit) as (es' & -> & Hnil & _).
    split; [by exists es'|]. rewrite (Hnil eq_refl), app_nil_r. split; [done|]. intros y Hy. subst items.
    eapply reads_all_readable; [exact Hit|]. by apply single_open, node_dfs_open.
Qed.

Theorem collect_dfts_ok s K x t : reach s -> stores s K -> shape K x t -> exists s' o, collect_dfts s x = Ret (s', o) /\
  match o with
  | inl i => (forall y, y ∈ rose_nodes t -> ~ borrowed (s_nodes s) y) /\ exists td, data_tree (s_nodes s) t td /\ builds s s' i td
  | inr e => e = BorrowData /\ (exists y, y ∈ rose_nodes t /\ borrowed (s_nodes s) y) /\ unaffected s s'
  end.
Proof.
  intros R Hst Hs. pose proof Hst as [Hrep Hw].
  destruct (dfts_events (s_nodes s) K x t Hrep Hw Hs) as (items & es & rest & es0 & td & Hit & Hes & Htd & Hx & [es' He0] & Hrest).
  assert (forall y, y ∈ rose_nodes t -> is_Some (K !! y)) as HinK.
  { intros y Hy. apply (shape_nodes K x t y Hs) in Hy. eapply below_dom; [done| |exact Hy]. inversion Hs; subst. eauto. }
  assert (forall s1 n tt p pre s2 b2, started s K s1 n tt -> phase (s_hands s) s1 (<[n := []]> K) n p pre s2 b2 -> source (s_nodes s) x t s2) as Hsrc.
  { intros s1 n tt p pre s2 b2 St Hph. destruct (phase_grew _ _ _ _ _ _ _ _ Hph) as (K2 & t2 & td2 & G).
    destruct (started_top _ _ _ _ _ St) as [_ Hw0].
    assert (forall y, y ∈ rose_nodes t -> y <> n) as Hne.
    { intros y Hy ->. destruct (HinK n Hy). rewrite (st_new _ _ _ _ _ St) in *. done. }
    eapply grew_source; [exact G| |exact Hw0|exact Hne|].
    - eapply shape_agree; [exact Hs|]. intros y Hy. rewrite lookup_insert_ne; [done|]. intros E. by apply (Hne y Hy).
    - intros y Hy. rewrite (proj1 (st_old _ _ _ _ _ St y (Hne y Hy))). done. }
  assert (source (s_nodes s) x t s) as Hsrc0.
  { exists K. split; [done|]. split; [done|]. intros y Hy.
    destruct (proj2 (alive_known s K y Hst) (HinK y Hy)) as [nd Hnd]. by exists nd, nd. }
  assert (push_dfts (dfs_fuel (s_nodes s)) s b_new (at_ x (dfs_events t)) =
    ('(s1, b1, r) ← b_push_all s b_new es; Ret (s1, b1, match r with None => if rest then Some BorrowData else None | Some e => Some e end))) as Ef.
  { apply (dfts_push (s_nodes s) x t _ _ []); [done|by eapply fold_fuel|exists items; done|].
    intros es1 es2 s1 b1 _ E1. destruct (push_new s K es1 R Hst) as (s2 & b2 & o & E2 & H).
    rewrite E2 in E1. injection E1 as -> -> ->. destruct H as [(-> & _)|(s3 & n & tt & p & St & H)]; [done|]. by eapply Hsrc. }
  assert (dfs_start (Some x) = at_ x (dfs_events t)) as Est by (inversion Hs; subst; done).
  unfold collect_dfts. rewrite Est, Ef.
  destruct (push_new s K es R Hst) as (s1 & b1 & o & E1 & H). rewrite E1. cbn [mbind run_bind].
  assert (forall td' post, expand es = brackets td' ++ post -> post = []) as Hpost.
  { intros td' post E. rewrite He0 in Hx. unfold expand in Hx, E. rewrite map_app, concat_app, E, <-(app_nil_r (brackets td)), <-app_assoc in Hx.
    apply brackets_parse in Hx as [_ Hx]. by apply app_eq_nil in Hx as [-> _]. }
  assert (forall l, expand es <> None :: l) as Hnone.
  { intros l E. rewrite He0 in Hx. unfold expand in Hx, E. rewrite map_app, concat_app, E in Hx. by destruct td. }
  assert (same_view s s) as Vss by (constructor; done).
  destruct H as [(-> & -> & [(-> & He)|(-> & l & He)])|(s2 & n & tt & p & St & H)].
  - destruct rest.
    + exists s, (inr BorrowData). split; [done|]. split; [done|]. split; [done|]. split; [exact R|done].
    + exfalso. destruct Hrest as [-> _]. rewrite He in Hx. by destruct td.
  - by apply Hnone in He.
  - destruct (started_top _ _ _ _ _ St) as [Htop _]. destruct o as [e|].
    + destruct H as (_ & _ & td' & post & Hne & E). by apply Hpost in E.
    + destruct rest.
      * destruct (drop_new_ok _ _ _ _ _ _ _ _ _ St H Htop) as (s3 & E3 & Hu). exists s3, (inr BorrowData). cbn [b_end]. rewrite E3. done.
      * destruct (finish_ok _ _ _ _ _ _ _ _ (proj2 (started_top _ _ _ _ _ St)) H) as (s3 & K' & t0 & td' & k & E3 & G & Hp & Hh & Hd).
        exists s3, (inl p). cbn [b_end]. rewrite E3. split; [done|]. destruct Hrest as [-> Hnb]. split; [done|].
        exists td. split; [done|]. rewrite Hx in Hd. rewrite <-(app_nil_r (brackets td')) in Hd. apply brackets_parse in Hd as [-> _].
        by eapply grew_builds.
Qed.
End Build10.
