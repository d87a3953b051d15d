(** * EditFacts3: interrupting nodes and replacement by children. *)
From Verif Require Import Heap Edit Spec HeapFacts SpecFacts NavFacts EditFacts EditFacts2.

Section Facts.
Context {T : Type}.
Implicit Types (h : heap T) (K : forest).

(** Changing several child lists at once. *)
Lemma rep_local h h' K K' :
  rep h K ->
  (forall x, is_Some (h' !! x) <-> is_Some (K' !! x)) ->
  (forall x ks, K' !! x = Some ks ->
     (K !! x = Some ks /\ ffirst h' x = ffirst h x /\ fnch h' x = fnch h x /\
      forall c, c ∈ ks -> fparent h' c = fparent h c /\ fprev h' c = fprev h c /\ fnext h' c = fnext h c)
     \/ (ffirst h' x = head ks /\ fnch h' x = length ks /\ chain h' x (default x (last ks)) ks None)) ->
  (forall x, is_top K' x -> fparent h' x = None /\ fnext h' x = None /\ fprev h' x = Some x) ->
  rep h' K'.
Proof.
  intros Hr Hd Hl Ht. split; try done.
  - intros x ks Hx. destruct (Hl _ _ Hx) as [(H & -> & _)|(H & _)]; [|done]. eapply rep_first; eauto.
  - intros x ks Hx. destruct (Hl _ _ Hx) as [(H & _ & -> & _)|(_ & H & _)]; [|done]. eapply rep_nch; eauto.
  - intros x ks Hx. apply linked_chain. destruct (Hl _ _ Hx) as [(H & _ & _ & Hc)|(_ & _ & H)]; [|done].
    eapply chain_frame; [exact Hc|]. eapply rep_chain; eauto.
Qed.

(** ** The reparenting loop *)
Lemma chain_reparent h h' p q pv l nx :
  (forall c, c ∈ l -> fparent h' c = Some q /\ fprev h' c = fprev h c /\ fnext h' c = fnext h c) ->
  chain h p pv l nx -> chain h' q pv l nx.
Proof.
  revert pv. induction l as [|c l IH]; intros pv Hf; [done|].
  rewrite !chain_cons. intros (H1 & H2 & H3 & H4).
  destruct (Hf c) as (E1 & E2 & E3); [ls|].
  rewrite E2, E3. split_and!; try done. apply IH; [|done]. intros d Hd. apply Hf. ls.
Qed.

Lemma reparent_ok l : forall fuel h p pv p0,
  chain h p0 pv l None -> NoDup l -> (forall c, c ∈ l -> alive h c = true) -> length l <= fuel ->
  exists h', reparent_chain fuel h (head l) p = Ret h' /\
    (forall x, fparent h' x = if decide (x ∈ l) then Some p else fparent h x) /\
    (forall x, fprev h' x = fprev h x /\ fnext h' x = fnext h x /\ ffirst h' x = ffirst h x /\
               fnch h' x = fnch h x /\ alive h' x = alive h x /\ fmeta h' x = fmeta h x).
Proof.
  induction l as [|c l IH]; intros fuel h p pv p0 Hc Hnd Ha Hf.
  - exists h. split; [by destruct fuel|]. split; [|done].
    intros x. by rewrite decide_False by ls.
  - destruct fuel as [|fuel]; [simpl in Hf; lia|]. cbn.
    rewrite chain_cons in Hc. destruct Hc as (C1 & C2 & C3 & C4).
    apply NoDup_cons in Hnd as [Hcl Hnd].
    assert (alive h c = true) as Hac by (apply Ha; ls).
    unfold next_sibling_link. rewrite fnext_set_parent, C3, hd_or_None.
    destruct (IH fuel (set_parent h c (Some p)) p c p0) as (h' & E & Hp & Ho).
    + eapply chain_frame; [|exact C4]. intros d Hd. assert (d <> c) by ls. hs; done.
    + done.
    + intros d Hd. hs. apply Ha. ls.
    + simpl in Hf. lia.
    + exists h'. split; [done|]. split.
      * intros x. rewrite Hp, fparent_set_parent, Hac.
        repeat case_decide; try done; ls.
      * intros x. destruct (Ho x) as (-> & -> & -> & -> & -> & ->). hs; done.
Qed.

Lemma rep_dom_alive h K x : rep h K -> (alive h x = true <-> is_Some (K !! x)).
Proof. intros Hr. rewrite alive_spec. apply (rep_dom _ _ Hr). Qed.

Lemma alive_dom' h' K' : (forall x, alive h' x = true <-> is_Some (K' !! x)) ->
  forall x, is_Some (h' !! x) <-> is_Some (K' !! x).
Proof. intros H x. rewrite <-alive_spec. apply H. Qed.

Lemma children_length_le h K p ks : rep h K -> wf K -> K !! p = Some ks -> length ks <= size h.
Proof.
  intros Hr Hw Hp. rewrite (rep_size _ _ Hr). apply NoDup_dom_length; [eapply wf_nodup; eauto|].
  intros c Hc. eapply wf_dom; [done|]. eapply child_intro; eauto.
Qed.

Lemma is_Some_insert (K : forest) i l x : is_Some (<[i := l]> K !! x) <-> x = i \/ is_Some (K !! x).
Proof.
  destruct (decide (x = i)) as [->|].
  - rewrite lookup_insert. naive_solver eauto.
  - rewrite lookup_insert_ne by done. naive_solver.
Qed.

(** ** [create_as_interrupting_child] *)
Lemma interrupt_child_ok h K this ks n :
  rep h K -> wf K -> K !! this = Some ks -> is_top K n -> K !! n = Some [] -> n <> this ->
  exists h', interrupt_child h this n = Ret h' /\
    rep h' (<[this := [n]]> (<[n := ks]> K)) /\ same_meta h h'.
Proof.
  intros Hr Hw Hks Hn Hnk Hne.
  destruct (attach_facts _ _ _ _ _ Hr Hw Hks Hn) as (Han & Hat & Hnks & Hnd & Hk & Hc & Hka & Hoth & Hnx).
  pose proof (rep_top _ _ Hr _ Hn) as (Hn1 & Hn2 & Hn3).
  unfold interrupt_child. rewrite (rep_first _ _ Hr _ _ Hks).
  set (h3 := set_first (set_parent (set_first h this (Some n)) n (Some this)) n (head ks)).
  destruct (reparent_ok ks (walk_fuel h3) h3 n (default this (last ks)) this) as (h4 & E & Hp & Ho).
  { eapply chain_frame; [|exact Hc]. intros c Hcin. assert (c <> n) by ls. unfold h3. hs; done. }
  { done. }
  { intros c Hcin. unfold h3. hs. auto. }
  { unfold walk_fuel. assert (size h3 = size h) as ->.
    { rewrite <-!size_dom. f_equal. apply set_eq. intros x. rewrite !elem_of_dom, <-!alive_spec. unfold h3. by hs. }
    pose proof (children_length_le _ _ _ _ Hr Hw Hks). lia. }
  rewrite E. cbn. eexists; split; [done|].
  assert (forall x, alive h4 x = alive h x) as Ha4.
  { intros x. destruct (Ho x) as (_ & _ & _ & _ & -> & _). unfold h3. by hs. }
  split.
  2: { intros x. hs. destruct (Ho x) as (_ & _ & _ & _ & _ & ->). unfold h3. by hs. }
  eapply rep_local; [exact Hr| | |].
  - apply alive_dom'. intros x. hs. rewrite Ha4, !is_Some_insert.
    rewrite (rep_dom_alive _ _ x Hr). naive_solver eauto.
  - intros x l Hx. destruct (decide (x = this)) as [->|Hxt].
    { rewrite lookup_insert in Hx. simplify_eq. right. hs. rewrite Ha4, Hat.
      destruct (Ho this) as (_ & _ & -> & _). destruct (Ho n) as (O1 & O2 & _).
      rewrite chain_cons. hs. rewrite Hp, O1, O2, decide_False by done. unfold h3. hs.
      rewrite ?Hat, ?Han. simpl. done. }
    rewrite lookup_insert_ne in Hx by done. destruct (decide (x = n)) as [->|Hxn].
    { rewrite lookup_insert in Hx. simplify_eq. right. hs. rewrite Ha4, Han.
      destruct (Ho n) as (_ & _ & -> & _). destruct (Ho this) as (_ & _ & _ & -> & _).
      unfold h3. hs. rewrite Han. split_and!; [done|done|].
      destruct l as [|f m]; [done|]. rewrite (last_default_cons f f) in *. simpl default in *.
      eapply chain_reparent; [|exact Hc]. intros c Hcin. hs. rewrite Hp.
      destruct (Ho c) as (-> & -> & _). rewrite decide_True by done. unfold h3. hs; done. }
    rewrite lookup_insert_ne in Hx by done. left. split; [done|].
    hs. destruct (Ho x) as (_ & _ & -> & -> & _). unfold h3. hs. split_and!; try done.
    intros c Hcin. destruct (Hoth x c) as [Hcn Hck]; [done|eapply child_intro; eauto|].
    hs. rewrite Hp, decide_False by done. destruct (Ho c) as (-> & -> & _). unfold h3. hs; done.
  - intros x [Hx1 Hx2].
    assert (x <> n) as Hxn. { intros ->. apply (Hx2 this), child_of_insert. left. ls. }
    assert (x ∉ ks) as Hxk. { intros Hin. apply (Hx2 n), child_of_insert. right. split; [done|]. apply child_of_insert. by left. }
    hs. rewrite Hp, decide_False by done. destruct (Ho x) as (-> & -> & _). unfold h3. hs.
    apply (rep_top _ _ Hr). split.
    + rewrite !is_Some_insert in Hx1. naive_solver eauto.
    + intros q Hq. destruct (decide (q = this)) as [->|].
      * destruct Hq as (? & ? & ?). simplify_eq.
      * apply (Hx2 q), child_of_insert. right. split; [done|]. apply child_of_insert. right. split; [|done].
        intros ->. destruct Hq as (? & ? & ?). simplify_eq. ls.
Qed.

Lemma interrupt_child_wf K this ks n :
  wf K -> K !! this = Some ks -> is_top K n -> K !! n = Some [] -> n <> this ->
  wf (<[this := [n]]> (<[n := ks]> K)).
Proof.
  intros Hw Hks Hn Hnk Hne.
  assert (n ∉ ks) as Hnks. { intros ?. destruct Hn as [_ Hn]. apply (Hn this). eapply child_intro; eauto. }
  assert (forall x c, child_of (<[this := [n]]> (<[n := ks]> K)) x c <->
    (x = this /\ c = n) \/ (x = n /\ c ∈ ks) \/ (x <> this /\ x <> n /\ child_of K x c)) as Hch.
  { intros x c. rewrite !child_of_insert. rewrite elem_of_list_singleton. naive_solver. }
  split.
  - intros x c. rewrite Hch, !is_Some_insert. intros [[-> ->]|[[-> Hc]|(? & ? & Hc)]].
    + right; by left.
    + right; right. eapply wf_dom; [done|]. eapply child_intro; [exact Hks|done].
    + right; right. eapply wf_dom; eauto.
  - intros x l. destruct (decide (x = this)) as [->|].
    { rewrite lookup_insert. intros [= <-]. apply NoDup_singleton. }
    rewrite lookup_insert_ne by done. destruct (decide (x = n)) as [->|].
    { rewrite lookup_insert. intros [= <-]. eapply wf_nodup; eauto. }
    rewrite lookup_insert_ne by done. eapply wf_nodup; eauto.
  - assert (forall x, x <> this -> child_of K x n -> False) as Hnn. { intros x _ H. destruct Hn as [_ Hn]. by apply (Hn x). }
    assert (forall x c, c ∈ ks -> child_of K x c -> x = this) as Hu.
    { intros x c Hc Hx. eapply wf_uniq; [done|done|]. eapply child_intro; [exact Hks|done]. }
    intros x y c. rewrite !Hch.
    intros [[-> ->]|[[-> Hc]|(? & ? & Hc)]] [[-> E]|[[-> Hc']|(? & ? & Hc')]]; subst; try done.
    + exfalso. eauto.
    + exfalso. eauto.
    + exfalso. eauto.
    + exfalso. eauto.
    + eapply wf_uniq; eauto.
  - assert (forall x, x <> n -> Acc (fun c p => child_of (<[this := [n]]> (<[n := ks]> K)) p c) x) as HA.
    { intros x. pose proof (wf_acyclic _ Hw x) as Hacc. induction Hacc as [x _ IH]. intros Hx.
      constructor. intros c. rewrite Hch. intros [[-> ->]|[[-> Hc]|(? & ? & Hc)]]; [|done|].
      - constructor. intros d. rewrite Hch. intros [[-> ->]|[[_ Hd]|(? & ? & Hd)]]; [done| |done].
        apply IH; [eapply child_intro; [exact Hks|done]|]. ls.
      - apply IH; [done|]. intros ->. destruct Hn as [_ Hn]. by apply (Hn x). }
    intros x. destruct (decide (x = n)) as [->|]; [|auto].
    constructor. intros d. rewrite Hch. intros [[-> ->]|[[_ Hd]|(? & ? & Hd)]]; [done| |done].
    apply HA. ls.
Qed.

(** ** [create_as_interrupting_parent] *)
Lemma interrupt_parent_root_ok h K this n :
  rep h K -> wf K -> is_top K this -> is_top K n -> K !! n = Some [] -> n <> this ->
  exists h', interrupt_parent h this n = Ret (h', true) /\
    rep h' (<[n := [this]]> K) /\ wf (<[n := [this]]> K) /\ same_meta h h'.
Proof.
  intros Hr Hw Ht Hn Hnk Hne. unfold interrupt_parent. rewrite (parent_link_top _ _ _ Hr Ht).
  eexists; split; [done|].
  destruct (attach_facts _ _ _ _ _ Hr Hw Hnk Ht) as (Hat & Han & _ & _ & Hk & _ & _ & Hoth & Hnx).
  pose proof (rep_top _ _ Hr _ Hn) as (Hn1 & Hn2 & Hn3).
  pose proof (rep_top _ _ Hr _ Ht) as (Ht1 & Ht2 & Ht3).
  split; [|split; [|intros x; hs; done]].
  - eapply rep_update; [done|eauto| | | | | | |].
    + apply alive_dom. intros x. hs; done.
    + intros x Hx. hs; done.
    + intros x c Hx Hxc. destruct (Hoth _ _ Hx Hxc) as [? _].
      assert (c <> n) by (intros ->; destruct Hn as [_ Hn]; by apply (Hn x)). hs; done.
    + hs. by rewrite Han.
    + hs. rewrite Han. simpl in *. lia.
    + rewrite chain_cons. simpl. hs. rewrite Hat, Ht2, Ht3. done.
    + intros x Hx. destruct (top_update _ _ _ _ _ Hnk Hx) as [Hx1 Hx2]. assert (x <> this) by ls.
      hs.
      * rewrite Han. done.
      * apply (rep_top _ _ Hr), Hx2. ls.
  - eapply wf_attach; [done|done|exact Ht| |done].
    intros Hb. destruct (below_parent_inv _ _ _ Hb) as [->|(q & Hq & _)]; [done|].
    destruct Hn as [_ Hn]. by apply (Hn q).
Qed.

Lemma interrupt_parent_child_ok h K p ks this n :
  rep h K -> wf K -> K !! p = Some ks -> this ∈ ks -> is_top K n -> K !! n = Some [] ->
  exists h', interrupt_parent h this n = Ret (h', false) /\
    rep h' (<[n := [this]]> (<[p := subst_child this n ks]> K)) /\
    wf (<[n := [this]]> (<[p := subst_child this n ks]> K)) /\ same_meta h h'.
Proof.
  intros Hr Hw Hp Hin Hn Hnk.
  apply elem_of_list_split in Hin as (l1 & l2 & ->).
  pose proof (split_child_of _ _ _ _ _ Hp) as Hpt.
  pose proof (wf_nodup _ Hw _ _ Hp) as Hnd.
  assert (this ∉ l1 /\ this ∉ l2) as [Hl1 Hl2].
  { apply NoDup_app in Hnd as (_ & Hd & Hnd). apply NoDup_cons in Hnd as [? _]. split; [|done]. ls. }
  assert (n <> this) as Hnt. { intros ->. destruct Hn as [_ Hn]. by apply (Hn p). }
  assert (n <> p) as Hnp. { intros ->. rewrite Hnk in Hp. by destruct l1. }
  unfold interrupt_parent. rewrite (parent_link_child _ _ _ _ Hr Hpt).
  unfold next_sibling_link. rewrite (fnext_split _ _ _ _ _ _ Hr Hp).
  unfold subst_child. rewrite splice_split by done. simpl app.
  set (K1 := <[p := l1 ++ this :: n :: l2]> K).
  assert (~ below K n p) as Hnbp.
  { intros Hb. destruct (below_child_inv _ _ _ Hb) as [->|(c & (ks & Hc1 & Hc2) & _)]; [done|].
    rewrite Hnk in Hc1. simplify_eq. by apply elem_of_nil in Hc2. }
  assert (wf K1) as Hw1.
  { eapply wf_attach; [done|exact Hp|exact Hn|done|].
    rewrite <-!Permutation_middle. apply Permutation_swap. }
  assert (exists h1, match head l2 with
           | Some next_s => insert_between h n p this next_s
           | None => '(h', r) ← insert_as_last_child_of h n true p;
                     match (r : hres unit) with HOk _ => Ret h' | HErr _ => Panic end
           end = Ret h1 /\ rep h1 K1 /\ same_meta h h1) as (h1 & E1 & Hr1 & Hm1).
  { destruct l2 as [|b l2]; cbn [head].
    - destruct (insert_last_ok _ _ _ _ _ Hr Hw Hp Hn) as (h1 & E & Hr1 & Hm). rewrite E. cbn.
      exists h1. unfold K1. rewrite <-app_assoc in Hr1. done.
    - destruct (insert_between_ok _ _ _ _ _ _ _ _ Hr Hw Hp Hn) as (h1 & E & Hr1 & Hm).
      exists h1. done. }
  rewrite E1. cbn.
  assert (K1 !! p = Some (l1 ++ this :: n :: l2)) as HK1p by (unfold K1; by rewrite lookup_insert).
  assert (n ∉ l1 ++ this :: l2) as Hnn. { intros Hin. destruct Hn as [_ Hn]. apply (Hn p). eapply child_intro; eauto. }
  destruct (move_ok h1 K1 this (LastChildOf n) (<[n := [this]]> (<[p := l1 ++ n :: l2]> K))) as (h2 & E2 & Hr2 & Hw2 & Hm2).
  - done.
  - done.
  - exists (<[p := l1 ++ n :: l2]> K). split.
    + exists p, (l1 ++ this :: n :: l2). split_and!; [done|ls|]. unfold K1.
      rewrite without_split by ls. by rewrite insert_insert.
    + apply (att_last _ _ n []). rewrite lookup_insert_ne by done. done.
  - intros (q & ks & Hq & Hlast & _).
    assert (q = p) as ->. { eapply (wf_uniq _ Hw1 q p this); [|eapply child_intro; [exact HK1p|ls]].
      eapply child_intro; [done|]. by apply elem_of_last. }
    rewrite HK1p in Hq. simplify_eq. rewrite last_app_cons, last_cons_cons in Hlast.
    apply elem_of_last in Hlast. ls.
  - simpl. intros Hb. destruct (below_parent_inv _ _ _ Hb) as [->|(q & Hq & Hbq)]; [done|].
    assert (q = p) as ->. { eapply (wf_uniq _ Hw1 q p n); [done|]. eapply child_intro; [exact HK1p|ls]. }
    eapply (no_cycle K1 p this); [done| |done]. eapply child_intro; [exact HK1p|ls].
  - rewrite E2. cbn. exists h2. split_and!; try done. by eapply same_meta_trans.
Qed.

(** ** [try_replace_with_children] *)

(** Relinking the two ends of a chain. *)
Lemma chain_relink h h' p pv nx pv' nx' l :
  NoDup l -> chain h p pv l nx ->
  (forall c, c ∈ l -> fparent h' c = Some p) ->
  (forall c, c ∈ l -> fprev h' c = if decide (head l = Some c) then Some pv' else fprev h c) ->
  (forall c, c ∈ l -> fnext h' c = if decide (last l = Some c) then nx' else fnext h c) ->
  chain h' p pv' l nx'.
Proof.
  intros Hnd Hc Hp Hv Hn. rewrite chain_linked_aux in Hc |- *. intros i c Hi.
  destruct (Hc _ _ Hi) as (C1 & C2 & C3).
  assert (c ∈ l) as Hin by (eapply elem_of_list_lookup_2; eauto).
  rewrite Hp, Hv, Hn by done. split_and!; [done| |].
  - destruct (l !! S i) as [d|] eqn:Ed.
    + rewrite decide_False; [done|]. rewrite last_lookup. intros E.
      assert (i = pred (length l)) as -> by (eapply NoDup_lookup; eauto).
      apply lookup_lt_Some in Ed. lia.
    + rewrite decide_True; [done|]. rewrite last_lookup.
      apply lookup_ge_None in Ed. apply lookup_lt_Some in Hi as Hi'.
      by replace (pred (length l)) with i by lia.
  - rewrite head_lookup. destruct i as [|i].
    + by rewrite decide_True.
    + rewrite decide_False; [done|]. intros E.
      assert (0 = S i) by (eapply NoDup_lookup; eauto). lia.
Qed.

Lemma replace_wf K p l1 this l2 cs :
  wf K -> K !! p = Some (l1 ++ this :: l2) -> K !! this = Some cs ->
  wf (<[this := []]> (<[p := l1 ++ cs ++ l2]> K)) /\ is_top (<[this := []]> (<[p := l1 ++ cs ++ l2]> K)) this.
Proof.
  intros Hw Hp Ht. set (K' := <[this := []]> (<[p := l1 ++ cs ++ l2]> K)).
  pose proof (split_child_of _ _ _ _ _ Hp) as Hpt.
  assert (this <> p) as Hne by (intros ->; eapply child_irrefl; eauto).
  pose proof (wf_nodup _ Hw _ _ Hp) as Hnd. apply NoDup_app in Hnd as (Hnd1 & Hdis & Hnd2).
  apply NoDup_cons in Hnd2 as [Htl2 Hnd2].
  assert (this ∉ l1) as Htl1 by ls.
  assert (forall c, c ∈ cs -> child_of K this c) as Hcs by (intros; eapply child_intro; eauto).
  assert (forall c, c ∈ l1 ++ this :: l2 -> child_of K p c) as Hks by (intros; eapply child_intro; eauto).
  assert (forall c, c ∈ cs -> c ∉ l1 ++ this :: l2) as Hdj.
  { intros c Hc Hc'. apply Hne. eapply wf_uniq; eauto. }
  assert (forall x c, child_of K' x c <->
     (x = p /\ c ∈ l1 ++ cs ++ l2) \/ (x <> p /\ x <> this /\ child_of K x c)) as Hch.
  { intros x c. unfold K'. rewrite !child_of_insert. rewrite elem_of_nil. naive_solver. }
  split; [split|].
  - intros x c. rewrite Hch. unfold K'. rewrite !is_Some_insert. intros [[-> Hc]|(? & ? & Hc)].
    + right. right. rewrite !elem_of_app in Hc.
      destruct Hc as [Hc|[Hc|Hc]]; eapply wf_dom; eauto; apply Hks; ls.
    + right. right. eapply wf_dom; eauto.
  - intros x l. unfold K'. destruct (decide (x = this)) as [->|].
    { rewrite lookup_insert. intros [= <-]. constructor. }
    rewrite lookup_insert_ne by done. destruct (decide (x = p)) as [->|].
    { rewrite lookup_insert. intros [= <-]. rewrite !NoDup_app. split_and!; try done.
      - intros c Hc. rewrite elem_of_app. intros [H|H]; [apply (Hdj c H); ls|]. apply (Hdis c Hc). ls.
      - eapply wf_nodup; eauto.
      - intros c Hc H. apply (Hdj c Hc). ls. }
    rewrite lookup_insert_ne by done. eapply wf_nodup; eauto.
  - assert (forall x c, x <> p -> x <> this -> child_of K x c -> c ∉ l1 ++ cs ++ l2) as Hu.
    { intros x c Hx Hx' Hc Hin. rewrite !elem_of_app in Hin. destruct Hin as [H|[H|H]].
      - apply Hx. eapply wf_uniq; eauto. apply Hks. ls.
      - apply Hx'. eapply wf_uniq; eauto.
      - apply Hx. eapply wf_uniq; eauto. apply Hks. ls. }
    intros x y c. rewrite !Hch. intros [[-> Hc]|(? & ? & Hc)] [[-> Hc']|(? & ? & Hc')]; try done.
    + exfalso. eapply Hu; [| |exact Hc'|exact Hc]; done.
    + exfalso. eapply Hu; [| |exact Hc|exact Hc']; done.
    + eapply wf_uniq; eauto.
  - intros x.
    cut (Acc (fun c p0 => child_of K' p0 c) x /\
         forall c, child_of K x c -> Acc (fun c p0 => child_of K' p0 c) c); [naive_solver|].
    pose proof (wf_acyclic _ Hw x) as Hacc. induction Hacc as [x _ IH]. split.
    + constructor. intros c. rewrite Hch. intros [[-> Hc]|(? & ? & Hc)].
      * rewrite !elem_of_app in Hc. destruct Hc as [Hc|[Hc|Hc]].
        -- apply IH. apply Hks. ls.
        -- destruct (IH this Hpt) as [_ H]. apply H. auto.
        -- apply IH. apply Hks. ls.
      * by apply IH.
    + intros c Hc. by apply IH.
  - split; [unfold K'; rewrite lookup_insert; eauto|].
    intros x. rewrite Hch. intros [[-> Hc]|(? & ? & Hc)].
    + rewrite !elem_of_app in Hc. destruct Hc as [Hc|[Hc|Hc]]; [done| |done].
      apply (child_irrefl K this Hw). auto.
    + apply H. eapply wf_uniq; eauto.
Qed.

End Facts.
