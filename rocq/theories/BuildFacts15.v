(** * BuildFacts15: copying a subtree to a place inside itself. *)
From Verif Require Import SerialSpec NavFacts SpecFacts RoseFacts AdjFacts IterFacts TravFacts TravFacts4 TdFacts2 EqFacts SerFacts BracketFacts ApiFacts ApiFacts2 ApiFacts3 ApiFacts6 ApiFacts7 ApiFacts8 EveryFacts BuildFacts BuildFacts2 BuildFacts3 BuildFacts4 BuildFacts5 BuildFacts6 BuildFacts7 BuildFacts13 BuildFacts14 Spec.

(** ** Removing a leaf *)
Fixpoint uproot (n : nid) (t : rose nid) : rose nid :=
  match t with Rose y ts => Rose y (concat (map (fun u => if decide (rose_root u = n) then [] else [uproot n u]) ts)) end.
Definition not_at (n : nid) (e : dft nid) : Prop := ev_val e <> n.
Global Instance not_at_dec n e : Decision (not_at n e).
Proof. unfold not_at. apply _. Defined.

Lemma uproot_root n t : rose_root (uproot n t) = rose_root t.
Proof. by destruct t. Qed.
Lemma uproot_events (K : forest) n : K !! n = Some [] -> forall t y, shape K y t -> y <> n -> dfs_events (uproot n t) = filter (not_at n) (dfs_events t).
Proof.
  intros Hn. induction t as [z ts IH] using rose_ind2. intros y Hs Hy. inversion Hs as [? ? Hz Hts E1]; subst y ts0 x.
  cbn [uproot dfs_events]. rewrite filter_cons_True by done. f_equal. rewrite filter_app. f_equal.
  - clear Hs Hz Hy. induction IH as [|t ts Ht IHs IHt]; [done|]. apply Forall_cons in Hts as [Hk Hks]. cbn [map concat].
    rewrite filter_app, map_app, concat_app, (IHt Hks). f_equal. destruct (decide (rose_root t = n)) as [E|Hne].
    + destruct t as [w us]. cbn [rose_root] in E, Hk. subst w. inversion Hk as [? ? Hz _ E1]. subst x ts0. rewrite Hn in Hz. injection Hz as Hz. destruct us; [|done].
      simpl. rewrite !filter_cons_False; [done|..]; intros F; by apply F.
    + cbn [map concat]. rewrite app_nil_r. by apply (Ht _ Hk).
  - by rewrite filter_cons_True.
Qed.
Lemma uproot_shape (K K' : forest) n : (forall y ks, y <> n -> K !! y = Some ks -> K' !! y = Some (filter (fun z => z <> n) ks)) ->
  forall t y, shape K y t -> y <> n -> shape K' y (uproot n t).
Proof.
  intros Hag. induction t as [z ts IH] using rose_ind2. intros y Hs Hy. inversion Hs as [? ? Hz Hts E1]; subst y ts0 x. cbn [uproot].
  constructor.
  - rewrite (Hag z _ Hy Hz). f_equal. clear. induction ts as [|t ts IH]; [done|]. cbn [map concat].
    destruct (decide (rose_root t = n)) as [E|E].
    + rewrite filter_cons_False by (intros F; by apply F). done.
    + rewrite filter_cons_True by done. simpl. by rewrite uproot_root, IH.
  - clear Hs Hz Hy. induction IH as [|t ts Ht IHs IHt]; [constructor|]. apply Forall_cons in Hts as [Hk Hks]. cbn [map concat].
    apply Forall_app. split; [|by apply IHt]. destruct (decide (rose_root t = n)); [constructor|]. constructor; [|constructor].
    rewrite uproot_root. by apply Ht.
Qed.

Lemma filter_id (n : nid) (l : list nid) : n ∉ l -> filter (fun z => z <> n) l = l.
Proof. induction l as [|a l IH]; intros H; [done|]. apply not_elem_of_cons in H as [H1 H2]. rewrite filter_cons_True by done. by rewrite IH. Qed.
Lemma filter_ins_before (s n : nid) (l : list nid) : n ∉ l -> filter (fun z => z <> n) (ins_before s n l) = l.
Proof.
  induction l as [|a l IH]; intros H; [done|]. apply not_elem_of_cons in H as [H1 H2]. simpl. destruct (decide (a = s)).
  - rewrite filter_cons_False by (intros F; by apply F). rewrite filter_cons_True by done. by rewrite filter_id.
  - rewrite filter_cons_True by done. by rewrite IH.
Qed.
Lemma filter_ins_after (s n : nid) (l : list nid) : n ∉ l -> filter (fun z => z <> n) (ins_after s n l) = l.
Proof.
  induction l as [|a l IH]; intros H; [done|]. apply not_elem_of_cons in H as [H1 H2]. simpl. destruct (decide (a = s)).
  - rewrite filter_cons_True by done. rewrite filter_cons_False by (intros F; by apply F). by rewrite filter_id.
  - rewrite filter_cons_True by done. by rewrite IH.
Qed.
Lemma attach_filter (K : forest) n dest K1 : wf K -> K !! n = None -> attached (<[n := []]> K) n dest K1 ->
  forall y ks, y <> n -> K1 !! y = Some ks -> K !! y = Some (filter (fun z => z <> n) ks).
Proof.
  intros Hw Hn Ha y ks Hy Hk.
  assert (forall z l, K !! z = Some l -> n ∉ l) as Hno.
  { intros z l Hl Hin. destruct (wf_dom K Hw z n) as [? ?]; [by exists l|congruence]. }
  assert (forall p ks0 ks', (<[n := []]> K : forest) !! p = Some ks0 -> K1 = <[p := ks']> (<[n := []]> K) ->
    (n ∉ ks0 -> filter (fun z => z <> n) ks' = ks0) -> K !! y = Some (filter (fun z => z <> n) ks)) as Hall.
  { intros p ks0 ks' Hp -> Hf. destruct (decide (y = p)) as [->|Hyp].
    - rewrite lookup_insert in Hk. injection Hk as <-. rewrite lookup_insert_ne in Hp by done. rewrite Hf; [done|by eapply Hno].
    - rewrite lookup_insert_ne in Hk by done. rewrite lookup_insert_ne in Hk by done. rewrite filter_id; [done|by eapply Hno]. }
  inversion Ha as [p ks0 Hp|p ks0 Hp|s p ks0 Hp Hs|s p ks0 Hp Hs]; subst; (eapply Hall; [exact Hp|reflexivity|]); intros Hin.
  - rewrite filter_cons_False by (intros F; by apply F). by apply filter_id.
  - rewrite filter_app, filter_cons_False by (intros F; by apply F). rewrite filter_nil, app_nil_r. by apply filter_id.
  - by apply filter_ins_before.
  - by apply filter_ins_after.
Qed.

Lemma filter_others n (l : list (dft nid)) : (forall e, e ∈ l -> ev_val e <> n) -> filter (not_at n) l = l.
Proof. induction l as [|e l IH]; intros H; [done|]. rewrite filter_cons_True by (apply H; left). f_equal. apply IH. intros e' He'. apply H. by right. Qed.

(** The events with and without the leaf. *)
Lemma without_leaf (K K1 : forest) x t t1 n dest P Q : wf K -> wf K1 -> K !! n = None -> x <> n -> attached (<[n := []]> K) n dest K1 -> K1 !! n = Some [] ->
  shape K x t -> shape K1 x t1 -> dfs_events t1 = P ++ Open n :: Close n :: Q -> dfs_events t = P ++ Q /\ forall e, e ∈ P ++ Q -> ev_val e <> n.
Proof.
  intros Hw Hw1 Hn Hx Ha Hn1 Hs Hs1 He.
  assert (t = uproot n t1) as ->.
  { eapply shape_unique; [exact Hs|]. eapply uproot_shape; [|exact Hs1|done]. by eapply attach_filter. }
  rewrite (uproot_events K1 n Hn1 t1 x Hs1 Hx), He.
  pose proof (shape_events_nodup K1 x t1 Hw1 Hs1) as Hnd. rewrite He in Hnd. apply NoDup_app in Hnd as (Hnd1 & Hnd2 & Hnd3).
  apply NoDup_cons in Hnd3 as [Hn2 Hnd3]. apply NoDup_cons in Hnd3 as [Hn3 _].
  assert (forall e, e ∈ P -> ev_val e <> n) as HP by (intros [a|a] Ha'; simpl; intros ->; apply (Hnd2 _ Ha'); [left|right; left]).
  assert (forall e, e ∈ Q -> ev_val e <> n) as HQ by (intros [a|a] Ha'; simpl; intros ->; [apply Hn2; by right|by apply Hn3]).
  split.
  - rewrite filter_app, !filter_cons_False by (intros F; by apply F). by rewrite !filter_others.
  - intros e E. apply elem_of_app in E as [E|E]; auto.
Qed.

(** ** Opened nodes in document order *)
Lemma omap_concat {A B} (f : A -> option B) (ls : list (list A)) : omap f (concat ls) = concat (map (omap f) ls).
Proof. induction ls as [|l ls IH]; [done|]. simpl. by rewrite omap_app, IH. Qed.
Lemma events_preorder {A} (t : rose A) : omap into_open (dfs_events t) = rose_nodes t.
Proof.
  induction t as [x ts IH] using rose_ind2. cbn [dfs_events rose_nodes]. change (omap into_open (Open x :: concat (map dfs_events ts) ++ [Close x])) with (x :: omap into_open (concat (map dfs_events ts) ++ [Close x])).
  rewrite omap_app. change (omap into_open [Close x]) with (@nil A). rewrite app_nil_r, omap_concat, map_map. f_equal. f_equal.
  induction IH as [|t ts Ht IHs IHt]; [done|]. simpl. by rewrite Ht, IHt.
Qed.
Lemma elem_opens (l : list (dft nid)) a : a ∈ omap into_open l <-> Open a ∈ l.
Proof.
  rewrite elem_of_list_omap. split.
  - intros ([b|b] & Hb & E); simpl in E; [injection E as <-; done|done].
  - intros H. by exists (Open a).
Qed.

Section Build15.
Context {T : Type}.
Local Notation grew := (@BuildFacts.grew T [] (Lent 0)).
Local Notation phase := (@BuildFacts3.phase T [] (Lent 0)).
Implicit Types (s : sys T) (K : forest) (td : rose T) (hm : gmap nat handle) (b : builder) (es : list (event T)) (h : heap T).

Lemma borrowed_dec h x : {borrowed h x} + {~ borrowed h x}.
Proof.
  destruct (h !! x) as [nd|] eqn:E; [|right; intros (nd & E' & _); congruence].
  destruct (n_mut nd) eqn:Em; [left; by exists nd|right; intros (nd' & E' & H'); congruence].
Qed.
Lemma first_borrowed h (D : list (dft nid)) : (forall a, Open a ∈ D -> ~ borrowed h a) \/
  exists D1 z D2, D = D1 ++ Open z :: D2 /\ borrowed h z /\ forall a, Open a ∈ D1 -> ~ borrowed h a.
Proof.
  induction D as [|e D IH]; [left; intros a Ha; by apply elem_of_nil in Ha|].
  assert ((exists z, e = Open z /\ borrowed h z) \/ forall z, e = Open z -> ~ borrowed h z) as [(z & -> & Hz)|Hz].
  { destruct e as [z|z]; [|by right]. destruct (borrowed_dec h z); [left; eauto|right; by intros ? [= <-]]. }
  - right. exists [], z, D. split; [done|]. split; [done|]. intros a Ha. by apply elem_of_nil in Ha.
  - destruct IH as [IH|(D1 & z & D2 & -> & Hb & IH)].
    + left. intros a Ha. apply elem_of_cons in Ha as [Ha|Ha]; [by apply Hz|by apply IH].
    + right. exists (e :: D1), z, D2. split; [done|]. split; [done|]. intros a Ha. apply elem_of_cons in Ha as [Ha|Ha]; [by apply Hz|by apply IH].
Qed.
Lemma items_exist h gs : (forall a, EOpen a ∈ gs -> is_Some (h !! a)) -> exists items, Forall2 (reads h) gs items.
Proof.
  induction gs as [|[a|n] gs IH]; intros H.
  - exists []. constructor.
  - destruct IH as [items IH]; [intros c Hc; apply H; by right|]. destruct (try_borrow_spec h a) as (o & _ & Ho); [apply H; left|].
    exists (option_map EOpen o :: items). constructor; [|done]. by destruct o.
  - destruct IH as [items IH]; [intros c Hc; apply H; by right|]. exists (Some (EClose n) :: items). by constructor.
Qed.
Lemma group_snoc (D : list (dft nid)) z : group (D ++ [Open z]) = group D ++ [EOpen z].
Proof.
  induction D as [|[a|a] D IH]; [done|simpl; by rewrite IH|]. simpl. rewrite IH. destruct (group D) as [|[b|m] r]; done.
Qed.

(** ** Reading a fixed part of a growing subtree *)
Definition around h (x : nid) (L : list (dft nid)) (ends : bool) s : Prop :=
  exists K t pre tl, stores s K /\ shape K x t /\ dfs_events t = pre ++ L ++ tl /\ (ends = true -> tl = []) /\
    (forall a, Open a ∈ L -> exists nd nd', h !! a = Some nd /\ s_nodes s !! a = Some nd' /\ n_data nd' = n_data nd /\ n_lend nd' = n_lend nd).

Lemma reads_around h x L ends s e o : around h x L ends s -> (forall a, e = EOpen a -> Open a ∈ L) -> reads (s_nodes s) e o -> reads h e o.
Proof.
  intros (K & t & pre & tl & _ & _ & _ & _ & Hd) He. destruct e as [a|n]; [|done]. specialize (He a eq_refl).
  destruct (Hd a He) as (nd & nd' & E1 & E2 & E3 & E4). simpl. destruct o as [[d|]|]; [|done|].
  - intros [(n1 & H1 & H2) Hb]. assert (n1 = nd') as -> by congruence. split; [exists nd; split; congruence|].
    intros (n2 & H3 & H4). apply Hb. exists nd'. split; [done|]. unfold n_mut in *. assert (n2 = nd) as -> by congruence. by rewrite E4.
  - intros (n1 & H1 & H2). exists nd. split; [done|]. unfold n_mut in *. assert (n1 = nd') as -> by congruence. by rewrite <-E4.
Qed.
Lemma reads_fun h e o o' : reads h e o -> reads h e o' -> o = o'.
Proof.
  intros Hrd Hrd'. destruct e as [a|n]; simpl in Hrd, Hrd'; [|congruence].
  destruct o as [[d|]|], o' as [[d'|]|]; try done.
  - destruct Hrd as [(nd & E1 & E2) _], Hrd' as [(nd' & E1' & E2') _]. congruence.
  - by destruct Hrd as [_ Hb].
  - by destruct Hrd' as [_ Hb].
Qed.

Lemma fold_push2 h x L (ends rest : bool) : (ends = false -> rest = true /\ exists L' z, L = L' ++ [Open z]) ->
  forall fuel l mid es s b, L = mid ++ l -> length l < fuel ->
  (exists items, Forall2 (reads h) (group l) items /\ if rest then exists tl, items = map Some es ++ None :: tl else items = map Some es) ->
  (forall es1 es2 s1 b1, es = es1 ++ es2 -> b_push_all s b es1 = Ret (s1, b1, None) -> around h x L ends s1) ->
  fold_events fuel s b (at_ x l) =
    ('(s1, b1, r) ← b_push_all s b es; Ret (s1, b1, match r with None => if rest then Some BorrowData else None | Some e => Some e end)).
Proof.
  intros Hends. induction fuel as [|f IH]; intros l mid es s b EL Hlen (items & Hit & Hes) Hinv; [lia|].
  pose proof (Hinv [] es s b eq_refl eq_refl) as Har. pose proof Har as (K & t & pre & tl & [Hrep Hw] & Hsh & Ht & Htl & _).
  assert (dfs_events t = (pre ++ mid) ++ l ++ tl) as Ht' by (rewrite Ht, EL, <-!app_assoc; done).
  (* the next state of the reader, when it is needed *)
  assert (forall e l', group l = e :: group l' -> (exists m2, l = m2 ++ l' /\ m2 <> []) -> forall o, reads (s_nodes s) e o ->
    ser_next (s_nodes s) (at_ x l) = Ret (Some o, at_ x (l' ++ tl)) -> (forall a, e = EOpen a -> Open a ∈ L) ->
    fold_events (S f) s b (at_ x l) =
    ('(s1, b1, r) ← b_push_all s b es; Ret (s1, b1, match r with None => if rest then Some BorrowData else None | Some e => Some e end))) as Hgo.
  { intros e l' Eg (m2 & Em & Hm2) o Hrd Es Hin. cbn [fold_events]. rewrite Es. cbn [mbind run_bind]. rewrite Eg in Hit.
    apply Forall2_cons_inv_l in Hit as (o' & items' & Hrd' & Hit' & ->).
    assert (o = o') as <- by (eapply reads_fun; [|exact Hrd']; by eapply reads_around).
    destruct es as [|ev es]; simpl in Hes.
    - destruct rest; [|done]. destruct Hes as [tl' Hes]. injection Hes as -> ->. done.
    - assert (o = Some ev /\ if rest then exists tl, items' = map Some es ++ None :: tl else items' = map Some es) as [-> Hes'].
      { destruct rest; [destruct Hes as [tl' Hes]|]; injection Hes as -> ->; eauto. }
      cbn [b_push_all]. destruct (b_push s b ev) as [[[s1 b1] [er|]]| |] eqn:Eb; cbn [mbind run_bind]; try done.
      assert (at_ x (l' ++ tl) = at_ x l') as ->.
      { destruct l' as [|e' l']; [|done]. destruct ends; [by rewrite Htl|]. exfalso. destruct (Hends eq_refl) as [-> _].
        simpl in Hit'. apply Forall2_nil_inv_l in Hit' as ->. destruct Hes' as [tl' Hes']. symmetry in Hes'. by apply app_eq_nil in Hes' as [_ ?]. }
      apply (IH l' (mid ++ m2) es s1 b1); [by rewrite EL, Em, <-app_assoc| |exists items'; done|].
      + rewrite Em, app_length in Hlen. destruct m2; [done|]. simpl in Hlen. lia.
      + intros es1 es2 s2 b2 -> E2. apply (Hinv (ev :: es1) es2 s2 b2); [done|]. cbn [b_push_all]. rewrite Eb. exact E2. }
  destruct l as [|[a|a] l].
  - simpl in Hit. apply Forall2_nil_inv_l in Hit as ->.
    destruct rest; [destruct Hes as [? Hes]; symmetry in Hes; by apply app_eq_nil in Hes as [_ ?]|].
    destruct es; [|done]. done.
  - destruct (ser_open (s_nodes s) K x t _ a _ Hrep Hw Hsh Ht') as (o & Ho & Es).
    refine (Hgo (EOpen a) l eq_refl (ex_intro _ [Open a] (conj eq_refl _)) o Ho Es _); [done|].
    intros ? [= <-]. rewrite EL. apply elem_of_app. right. left.
  - destruct (closes_split (Close a :: l)) as (cs & r & E & Hc & Hrr).
    assert (cs <> []) as Hne by (intros ->; simpl in E; subst r; done).
    assert (match r ++ tl with Close _ :: _ => False | _ => True end) as Hrr'.
    { destruct r as [|e r]; [|exact Hrr]. simpl. destruct ends; [by rewrite Htl|]. exfalso. destruct (Hends eq_refl) as [_ (L' & z & EL')].
      rewrite app_nil_r in E. rewrite E in EL. rewrite EL' in EL. destruct (exists_last Hne) as (cs0 & e0 & ->). rewrite app_assoc in EL.
      apply app_inj_tail in EL as [_ <-]. apply Forall_app in Hc as [_ Hc]. inversion Hc as [|? ? [? ?]]. done. }
    rewrite E in Ht'. rewrite <-(app_assoc cs r tl) in Ht'.
    pose proof (ser_close (s_nodes s) K x t _ cs _ Hrep Hw Hsh Ht' Hc Hne Hrr') as Es.
    refine (Hgo (EClose (length cs)) r _ _ (Some (EClose (length cs))) _ _ _).
    + rewrite E. by apply group_closes.
    + by exists cs.
    + reflexivity.
    + rewrite E. rewrite <-Es. f_equal. destruct cs; [done|]. done.
    + done.
Qed.
End Build15.
