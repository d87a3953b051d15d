(** * BuildFacts6: cloning a subtree. *)
From Verif Require Import SerialSpec NavFacts SpecFacts RoseFacts EqFacts TdFacts2 TravFacts4 SerFacts BracketFacts ApiFacts ApiFacts2 ApiFacts3 ApiFacts6 ApiFacts7 ApiFacts8 BuildFacts BuildFacts2 BuildFacts3 BuildFacts4 BuildFacts5 Spec.

(** Pointwise relation of brackets. *)
Definition opt_rel {A B} (R : A -> B -> Prop) (a : option A) (b : option B) : Prop :=
  match a, b with Some a, Some b => R a b | None, None => True | _, _ => False end.

Lemma brackets_rel {A B} (R : A -> B -> Prop) : forall t (l : list (option B)) (r : list (option A)), Forall2 (opt_rel R) (brackets t ++ r) l ->
  exists u l', l = brackets u ++ l' /\ rose_rel R t u /\ Forall2 (opt_rel R) r l'.
Proof.
  induction t as [a ts IH] using rose_ind2. intros l r H. simpl in H.
  apply Forall2_cons_inv_l in H as ([b|] & l1 & Hab & H & ->); [|done]. rewrite <-app_assoc in H.
  assert (exists us l2, l1 = concat (map brackets us) ++ l2 /\ Forall2 (rose_rel R) ts us /\ Forall2 (opt_rel R) ([None] ++ r) l2) as (us & l2 & -> & Hf & H2).
  { clear Hab. revert l1 H. induction IH as [|t ts Ht IHs IHt]; intros l1 H; simpl in H.
    - by exists [], l1.
    - rewrite <-app_assoc in H. apply Ht in H as (u & l' & -> & Hu & H). apply IHt in H as (us & l2 & -> & Hf & H).
      exists (u :: us), l2. simpl. rewrite <-app_assoc. split; [done|]. split; [by constructor|done]. }
  apply Forall2_cons_inv_l in H2 as ([|] & l' & Hn & H2 & ->); [done|].
  exists (Rose b us), l'. split; [simpl; by rewrite <-app_assoc|]. split; [by constructor|done].
Qed.

Section Build6.
Context {T : Type}.
Local Notation grew := (@BuildFacts.grew T [] (Lent 0)).
Local Notation phase := (@BuildFacts3.phase T [] (Lent 0)).
Implicit Types (s : sys T) (K : forest) (td : rose T) (hm : gmap nat handle) (b : builder) (es : list (event T)).

(** The event with the data, borrowed or not. *)
Definition raw (h : heap T) (e : event nid) (e' : event T) : Prop :=
  match e, e' with EOpen x, EOpen d => data_is h x d | EClose n, EClose m => n = m | _, _ => False end.

Lemma expand_raw h gs es : Forall2 (raw h) gs es -> Forall2 (opt_rel (data_is h)) (expand gs) (expand es).
Proof.
  induction 1 as [|[x|n] [d|m] gs es H Hf IH]; [constructor| |done|done|]; simpl in H.
  - unfold expand in *. simpl. by constructor.
  - subst m. unfold expand in *. simpl. apply Forall2_app; [|done]. clear. induction n; simpl; by constructor.
Qed.

Lemma raw_exists h gs : (forall a, EOpen a ∈ gs -> is_Some (h !! a)) -> exists es, Forall2 (raw h) gs es.
Proof.
  induction gs as [|[a|n] gs IH]; intros H.
  - by exists [].
  - destruct (H a) as [nd Hnd]; [apply elem_of_cons; by left|].
    destruct IH as [es IH]; [intros c Hc; apply H; apply elem_of_cons; by right|].
    exists (EOpen (n_data nd) :: es). constructor; [by exists nd|done].
  - destruct IH as [es IH]; [intros c Hc; apply H; apply elem_of_cons; by right|].
    exists (EClose n :: es). by constructor.
Qed.

Lemma reads_raw h gs es es0 items : Forall2 (raw h) gs es0 -> forall tl, items = map Some es ++ tl -> Forall2 (reads h) gs items ->
  exists es', es0 = es ++ es' /\ (tl = [] -> es' = []) /\ (forall tl', tl = None :: tl' -> exists a, EOpen a ∈ gs /\ borrowed h a).
Proof.
  intros Hraw. revert es items. induction Hraw as [|g e gs es0 Hg Hraw IH]; intros es items tl -> Hrd.
  - apply Forall2_nil_inv_l in Hrd. apply app_eq_nil in Hrd as [Hes ->]. destruct es; [|done]. exists []. done.
  - apply Forall2_cons_inv_l in Hrd as (o & items' & Ho & Hrd & E).
    destruct es as [|e1 es]; simpl in E.
    + exists (e :: es0). split; [done|]. split; [by intros ->|]. intros tl' ->. injection E as <- <-.
      destruct g as [a|n]; [|done]. exists a. split; [apply elem_of_cons; by left|done].
    + injection E as <- <-. destruct (IH es (map Some es ++ tl) tl eq_refl Hrd) as (es' & -> & H1 & H2).
      exists es'. split; [|split; [done|]].
      * simpl. f_equal. destruct g as [a|n], e as [d|m]; try done; simpl in *.
        -- destruct e1 as [d1|]; [|done]. destruct Hg as (nd & E1 & E2), Ho as [(nd' & E1' & E2') _]. congruence.
        -- congruence.
      * intros tl' Htl. destruct (H2 tl' Htl) as (a & Ha & Hb). exists a. split; [apply elem_of_cons; by right|done].
Qed.

Lemma reads_all_readable h gs es : Forall2 (reads h) gs (map Some es) -> forall a, EOpen a ∈ gs -> ~ borrowed h a.
Proof.
  intros H. remember (map Some es) as items eqn:E. revert es E.
  induction H as [|g o gs items Ho Hf IH]; intros es E a Ha; [by apply elem_of_nil in Ha|].
  destruct es as [|e es]; [done|]. simpl in E. injection E as -> ->.
  apply elem_of_cons in Ha as [<-|Ha]; [|by eapply IH]. simpl in Ho. destruct e; [|done]. apply Ho.
Qed.

Lemma open_in_group (l : list (dft nid)) a : Open a ∈ l -> EOpen a ∈ group l.
Proof.
  induction l as [|[b|b] l IH]; simpl; intros H; [by apply elem_of_nil in H|..]; apply elem_of_cons in H as [H|H].
  - injection H as ->. apply elem_of_cons. by left.
  - apply elem_of_cons. right. by apply IH.
  - done.
  - apply IH in H. destruct (group l) as [|[c|n] r]; [by apply elem_of_nil in H|apply elem_of_cons; by right|].
    apply elem_of_cons in H as [H|H]; [done|]. apply elem_of_cons. by right.
Qed.
Lemma node_dfs_open (t : rose nid) a : a ∈ rose_nodes t -> Open a ∈ dfs_events t.
Proof.
  induction t as [x ts IH] using rose_ind2. simpl. rewrite !elem_of_cons, elem_of_app.
  intros [->|H]; [by left|right; left]. clear -IH H. induction IH as [|t ts Ht IHs IHt]; simpl in *; [by apply elem_of_nil in H|].
  apply elem_of_app in H as [H|H]; apply elem_of_app; [left; by apply Ht|right; by apply IHt].
Qed.

(** Everything about the events of a stored subtree. *)
Lemma subtree_events h K x t : rep h K -> wf K -> shape K x t ->
  exists items es (rest : bool) es0 td, Forall2 (reads h) (group (dfs_events t)) items /\
    (if rest then exists tl, items = map Some es ++ None :: tl else items = map Some es) /\
    data_tree h t td /\ expand es0 = brackets td /\ (exists es', es0 = es ++ es') /\
    (if rest then exists y, y ∈ rose_nodes t /\ borrowed h y else es0 = es /\ forall y, y ∈ rose_nodes t -> ~ borrowed h y).
Proof.
  intros Hrep Hw Hs. destruct (ser_enum h K x t Hrep Hw Hs) as (items & _ & Hit).
  destruct (items_split items) as (es & rest & Hes).
  destruct (raw_exists h (group (dfs_events t))) as [es0 Hraw].
  { intros a Ha. pose proof (group_opens _ _ Ha a eq_refl) as Ho. apply dfs_open_node in Ho.
    apply (rep_dom _ _ Hrep). apply (shape_nodes K x t a Hs) in Ho. eapply below_dom; [done| |exact Ho]. inversion Hs; subst. eauto. }
  pose proof (expand_raw h _ _ Hraw) as Hx. rewrite expand_group, <-brackets_events, <-(app_nil_r (brackets t)) in Hx.
  apply brackets_rel in Hx as (td & l' & Hx & Htd & Hl'). apply Forall2_nil_inv_l in Hl' as ->. rewrite app_nil_r in Hx.
  exists items, es, rest, es0, td. split; [done|]. split; [done|]. split; [done|]. split; [done|].
  destruct rest.
  - destruct Hes as [tl Hes]. destruct (reads_raw h _ es es0 items Hraw _ Hes Hit) as (es' & -> & _ & Hb).
    split; [by exists es'|]. destruct (Hb tl eq_refl) as (a & Ha & Hba). exists a. split; [|done]. apply dfs_open_node. by eapply group_opens.
  - destruct (reads_raw h _ es es0 items Hraw [] ltac:(by rewrite app_nil_r) Hit) as (es' & -> & Hnil & _).
    split; [by exists es'|]. rewrite (Hnil eq_refl), app_nil_r. split; [done|]. intros y Hy. subst items.
    eapply reads_all_readable; [exact Hit|]. by apply open_in_group, node_dfs_open.
Qed.

(** The source is untouched while a tree grows elsewhere. *)
Lemma grew_source hm s0 K0 r s K t0 td h x t : grew hm s0 K0 r s K t0 td -> shape K0 x t -> wf K0 -> (forall y, y ∈ rose_nodes t -> y <> r) ->
  (forall y, y ∈ rose_nodes t -> payload s0 y = (fun nd => (n_data nd, n_lend nd)) <$> h !! y) -> source h x t s.
Proof.
  intros G Hs Hw Hne Hp.
  assert (forall y, y ∈ rose_nodes t -> is_Some (K0 !! y)) as Hin.
  { intros y Hy. apply (shape_nodes K0 x t y Hs) in Hy. eapply below_dom; [done| |exact Hy]. inversion Hs; subst. eauto. }
  exists K. split; [exact (g_stores _ _ _ _ _ _ _ _ G)|]. split.
  - eapply shape_agree; [exact Hs|]. intros y Hy. apply (g_old _ _ _ _ _ _ _ _ G); auto.
  - intros y Hy. pose proof (g_payload _ _ _ _ _ _ _ _ G y (Hin y Hy)) as E. rewrite (Hp y Hy) in E. unfold payload in E.
    assert (is_Some (s_nodes s !! y)) as [nd' Hnd'].
    { apply (alive_known s K y (g_stores _ _ _ _ _ _ _ _ G)). eapply grew_alive; [exact G|auto]. }
    rewrite Hnd' in E. simpl in E. destruct (h !! y) as [nd|]; [|done]. simpl in E. injection E as E1 E2. by exists nd, nd'.
Qed.

Lemma fold_fuel s K x t : stores s K -> shape K x t -> length (dfs_events t) < dfs_fuel (s_nodes s).
Proof. intros [Hr Hw] Hs. pose proof (nodes_length_le _ _ _ _ Hr Hw Hs). rewrite dfs_events_length. unfold dfs_fuel. lia. Qed.

Theorem clone_ok s K x t : reach s -> stores s K -> shape K x t -> exists s' o, clone_subtree s x = Ret (s', o) /\
  match o with
  | Some i => (forall y, y ∈ rose_nodes t -> ~ borrowed (s_nodes s) y) /\ exists td, data_tree (s_nodes s) t td /\ builds s s' i td
  | None => (exists y, y ∈ rose_nodes t /\ borrowed (s_nodes s) y) /\ unaffected s s'
  end.
Proof.
  intros R Hst Hs. pose proof Hst as [Hrep Hw].
  destruct (subtree_events (s_nodes s) K x t Hrep Hw Hs) as (items & es & rest & es0 & td & Hit & Hes & Htd & Hx & [es' He0] & Hrest).
  assert (forall y, y ∈ rose_nodes t -> is_Some (K !! y)) as HinK.
  { intros y Hy. apply (shape_nodes K x t y Hs) in Hy. eapply below_dom; [done| |exact Hy]. inversion Hs; subst. eauto. }
  assert (forall s1 n tt p pre s2 b2, started s K s1 n tt -> phase (s_hands s) s1 (<[n := []]> K) n p pre s2 b2 -> source (s_nodes s) x t s2) as Hsrc.
  { intros s1 n tt p pre s2 b2 St Hph. destruct (phase_grew _ _ _ _ _ _ _ _ Hph) as (K2 & t2 & td2 & G).
    destruct (started_top _ _ _ _ _ St) as [_ Hw0].
    assert (forall y, y ∈ rose_nodes t -> y <> n) as Hne.
    { intros y Hy ->. destruct (HinK n Hy). rewrite (st_new _ _ _ _ _ St) in *. done. }
    eapply grew_source; [exact G| |exact Hw0|exact Hne|].
    - eapply shape_agree; [exact Hs|]. intros y Hy. rewrite lookup_insert_ne; [done|]. intros E. by apply (Hne y Hy).
    - intros y Hy. rewrite (proj1 (st_old _ _ _ _ _ St y (Hne y Hy))). done. }
  assert (source (s_nodes s) x t s) as Hsrc0.
  { exists K. split; [done|]. split; [done|]. intros y Hy.
    destruct (proj2 (alive_known s K y Hst) (HinK y Hy)) as [nd Hnd]. by exists nd, nd. }
  assert (fold_events (dfs_fuel (s_nodes s)) s b_new (at_ x (dfs_events t)) =
    ('(s1, b1, r) ← b_push_all s b_new es; Ret (s1, b1, match r with None => if rest then Some BorrowData else None | Some e => Some e end))) as Ef.
  { apply (fold_push (s_nodes s) x t _ _ []); [done|by eapply fold_fuel|exists items; done|].
    intros es1 es2 s1 b1 _ E1. destruct (push_new s K es1 R Hst) as (s2 & b2 & o & E2 & H).
    rewrite E2 in E1. injection E1 as -> -> ->. destruct H as [(-> & _)|(s3 & n & tt & p & St & H)]; [done|]. by eapply Hsrc. }
  assert (dfs_start (Some x) = at_ x (dfs_events t)) as Est by (inversion Hs; subst; done).
  unfold clone_subtree. rewrite Est, Ef.
  destruct (push_new s K es R Hst) as (s1 & b1 & o & E1 & H). rewrite E1. cbn [mbind run_bind].
  assert (forall td' post, expand es = brackets td' ++ post -> post = []) as Hpost.
  { intros td' post E. rewrite He0 in Hx. unfold expand in Hx, E. rewrite map_app, concat_app, E, <-(app_nil_r (brackets td)), <-app_assoc in Hx.
    apply brackets_parse in Hx as [_ Hx]. by apply app_eq_nil in Hx as [-> _]. }
  assert (forall l, expand es <> None :: l) as Hnone.
  { intros l E. rewrite He0 in Hx. unfold expand in Hx, E. rewrite map_app, concat_app, E in Hx. by destruct td. }
  assert (same_view s s) as Vss by (constructor; done).
  destruct H as [(-> & -> & [(-> & He)|(-> & l & He)])|(s2 & n & tt & p & St & H)].
  - destruct rest.
    + exists s, None. split; [done|]. split; [done|]. split; [exact R|done].
    + exfalso. destruct Hrest as [-> _]. rewrite He in Hx. by destruct td.
  - by apply Hnone in He.
  - destruct (started_top _ _ _ _ _ St) as [Htop _]. destruct o as [e|].
    + destruct H as (_ & _ & td' & post & Hne & E). by apply Hpost in E.
    + destruct rest.
      * destruct (drop_new_ok _ _ _ _ _ _ _ _ _ St H Htop) as (s3 & E3 & Hu). exists s3, None. cbn [b_end]. rewrite E3. done.
      * destruct (finish_ok _ _ _ _ _ _ _ _ (proj2 (started_top _ _ _ _ _ St)) H) as (s3 & K' & t0 & td' & k & E3 & G & Hp & Hh & Hd).
        exists s3, (Some p). cbn [b_end]. rewrite E3. split; [done|]. destruct Hrest as [-> Hnb]. split; [done|].
        exists td. split; [done|]. rewrite Hx in Hd. rewrite <-(app_nil_r (brackets td')) in Hd. apply brackets_parse in Hd as [-> _].
        by eapply grew_builds.
Qed.
End Build6.
