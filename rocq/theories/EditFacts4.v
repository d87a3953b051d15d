(** * EditFacts4: [try_replace_with_children]. *)
From Verif Require Import Heap Edit Spec HeapFacts SpecFacts NavFacts EditFacts EditFacts2 EditFacts3.

Section Facts.
Context {T : Type}.
Implicit Types (h : heap T) (K : forest).

(** The heap after the sibling lists have been spliced, before the counters and
    the final disconnection. *)
Record spliced h (p this : nid) (new : list nid) (h1 : heap T) : Prop := {
  sp_alive : forall x, alive h1 x = alive h x;
  sp_meta : same_meta h h1;
  sp_nch : forall x, fnch h1 x = fnch h x;
  sp_first : forall x, ffirst h1 x = if decide (x = p) then head new else ffirst h x;
  sp_chain : chain h1 p (default p (last new)) new None;
  sp_other : forall c, c ∉ new -> c <> this ->
    fparent h1 c = fparent h c /\ fprev h1 c = fprev h c /\ fnext h1 c = fnext h c;
}.

Lemma splice_tail h K p l1 this l2 cs h1 :
  rep h K -> wf K -> K !! p = Some (l1 ++ this :: l2) -> K !! this = Some cs ->
  spliced h p this (l1 ++ cs ++ l2) h1 ->
  exists h2,
    (_ ← assertb (Nat.ltb 0 (fnch h1 p));
     h2 ← num_children_sub h1 p 1;
     Ret (num_children_add h2 p (fnch h2 this))) = Ret h2 /\
    rep (disconnect h2 this) (<[this := []]> (<[p := l1 ++ cs ++ l2]> K)) /\
    same_meta h (disconnect h2 this).
Proof.
  intros Hr Hw Hp Ht [Sa Sm Sn Sf Sc So].
  pose proof (split_child_of _ _ _ _ _ Hp) as Hpt.
  assert (this <> p) as Hne by (intros ->; eapply child_irrefl; eauto).
  destruct (replace_wf _ _ _ _ _ _ Hw Hp Ht) as [Hw' Htop'].
  assert (this ∉ l1 ++ cs ++ l2) as Htn.
  { intros Hin. destruct Htop' as [_ H]. apply (H p), child_of_insert. right. split; [done|].
    apply child_of_insert. by left. }
  assert (alive h p = true) as Hap by (eapply rep_alive; eauto).
  assert (alive h this = true) as Hat by (eapply rep_alive; eauto).
  pose proof (rep_nch _ _ Hr _ _ Hp) as Hkp. rewrite app_length in Hkp. simpl in Hkp.
  pose proof (rep_nch _ _ Hr _ _ Ht) as Hkt.
  unfold num_children_sub. rewrite Sn.
  replace (Nat.ltb 0 (fnch h p)) with true by (symmetry; apply Nat.ltb_lt; lia).
  replace (Nat.leb 1 (fnch h p)) with true by (symmetry; apply Nat.leb_le; lia). cbn -[Nat.sub].
  eexists; split; [done|]. unfold disconnect. split.
  2: { intros x. hs; rewrite Sm; done. }
  eapply rep_local; [exact Hr| | |].
  - apply alive_dom'. intros x. hs; rewrite Sa, (rep_dom_alive _ _ x Hr), !is_Some_insert. naive_solver eauto.
  - intros x ks Hx. destruct (decide (x = this)) as [->|Hxt].
    { rewrite lookup_insert in Hx. simplify_eq. right. hs; rewrite Sa, Hat; done. }
    rewrite lookup_insert_ne in Hx by done. destruct (decide (x = p)) as [->|Hxp].
    { rewrite lookup_insert in Hx. simplify_eq. right. split_and!.
      - hs; rewrite Sf, decide_True by done; done.
      - hs; rewrite Sa, Sn, Hap, !app_length; lia.
      - eapply chain_frame; [|exact Sc]. intros c Hc. assert (c <> this) by ls. hs; done. }
    rewrite lookup_insert_ne in Hx by done. left. split_and!; [done| | |].
    + hs; rewrite Sf, decide_False by done; done.
    + hs; by rewrite Sn.
    + intros c Hc.
      assert (child_of K x c) as Hxc by (eapply child_intro; eauto).
      assert (c <> this) by (intros ->; apply Hxp; exact (wf_uniq _ Hw _ _ _ Hxc Hpt)).
      assert (c ∉ l1 ++ cs ++ l2).
      { intros Hin. apply Hxp. eapply (wf_uniq _ Hw' x p c); apply child_of_insert; right; (split; [done|]); apply child_of_insert; [right|left]; done. }
      hs; by apply So.
  - intros x Hx. destruct (decide (x = this)) as [->|Hxt].
    { hs; rewrite Sa, Hat; done. }
    assert (x ∉ l1 ++ cs ++ l2) as Hxn.
    { intros Hin. destruct Hx as [_ Hx]. apply (Hx p), child_of_insert. right. split; [done|].
      apply child_of_insert. by left. }
    hs. destruct (So x Hxn Hxt) as (-> & -> & ->).
    apply (rep_top _ _ Hr). destruct Hx as [Hx1 Hx2]. split.
    + rewrite !is_Some_insert in Hx1. naive_solver eauto.
    + intros q Hq. destruct (decide (q = p)) as [->|].
      * destruct Hq as (ks & E & Hin). rewrite Hp in E. simplify_eq. ls.
      * destruct (decide (q = this)) as [->|].
        -- destruct Hq as (ks & E & Hin). rewrite Ht in E. simplify_eq. ls.
        -- apply (Hx2 q), child_of_insert. right. split; [done|]. apply child_of_insert. by right.
Qed.

(** In every branch but one the siblings are spliced correctly. *)
Lemma replace_nonroot_ok h K p l1 this l2 cs :
  rep h K -> wf K -> K !! p = Some (l1 ++ this :: l2) -> K !! this = Some cs ->
  (l1 = [] \/ l2 <> [] \/ cs <> []) ->
  exists h2, replace_with_children_nonroot h this p = Ret h2 /\
    rep (disconnect h2 this) (<[this := []]> (<[p := l1 ++ cs ++ l2]> K)) /\
    same_meta h (disconnect h2 this).
Proof.
  intros Hr Hw Hp Ht Hside.
  pose proof (split_child_of _ _ _ _ _ Hp) as Hpt.
  assert (this <> p) as Hne by (intros ->; eapply child_irrefl; eauto).
  pose proof (wf_nodup _ Hw _ _ Ht) as Hndc.
  pose proof (wf_nodup _ Hw _ _ Hp) as Hnd. apply NoDup_app in Hnd as (Hnd1 & Hdis & Hnd2).
  apply NoDup_cons in Hnd2 as [Htl2 Hnd2].
  assert (this ∉ l1) as Htl1 by ls.
  assert (forall c, c ∈ cs -> alive h c = true) as Hac.
  { intros c Hc. eapply rep_child_alive; [done|done|]. eapply child_intro; [exact Ht|done]. }
  assert (forall c, c ∈ l1 ++ this :: l2 -> alive h c = true) as Hak.
  { intros c Hc. eapply rep_child_alive; [done|done|]. eapply child_intro; [exact Hp|done]. }
  assert (forall c, c ∈ cs -> c ∉ l1 ++ this :: l2) as Hdj.
  { intros c Hc Hc'. apply Hne. eapply (wf_uniq _ Hw _ _ c); eapply child_intro; eauto. }
  assert (this ∉ cs) as Htc. { intros Hin. eapply (child_irrefl K this Hw). eapply child_intro; eauto. }
  pose proof (rep_chain _ _ _ _ Hr Hp) as Cp. pose proof (rep_chain _ _ _ _ Hr Ht) as Ct.
  assert (alive h p = true) as Hap by (eapply rep_alive; eauto).
  unfold replace_with_children_nonroot.
  rewrite (first_child_rep _ _ _ _ Hr Ht).
  destruct (reparent_ok cs (walk_fuel h) h p (default this (last cs)) this) as (h0 & E & Hpar & Ho); try done.
  { unfold walk_fuel. pose proof (children_length_le _ _ _ _ Hr Hw Ht). lia. }
  rewrite E. cbn.
  assert (forall x, fprev h0 x = fprev h x) as Ov by (intros x; apply Ho).
  assert (forall x, fnext h0 x = fnext h x) as On by (intros x; apply Ho).
  assert (forall x, ffirst h0 x = ffirst h x) as Of by (intros x; apply Ho).
  assert (forall x, fnch h0 x = fnch h x) as Ok by (intros x; apply Ho).
  assert (forall x, alive h0 x = alive h x) as Oa by (intros x; apply Ho).
  assert (forall x, fmeta h0 x = fmeta h x) as Om by (intros x; apply Ho).
  assert (forall x, upgrade h0 x = upgrade h x) as Ou.
  { intros [x|]; simpl; [by rewrite Oa|done]. }
  assert (forall x, prev_sibling_cyclic_link h0 x = prev_sibling_cyclic_link h x) as Oc.
  { intros x. unfold prev_sibling_cyclic_link. by rewrite Ov, Ou. }
  assert (prev_sibling_link h0 this = Ret (last l1)) as ->.
  { rewrite <-(prev_sibling_split _ _ _ _ _ _ Hr Hw Hp). unfold prev_sibling_link. rewrite Oc.
    destruct (prev_sibling_cyclic_link h this); cbn; by rewrite ?On. }
  unfold next_sibling_link. rewrite On, (fnext_split _ _ _ _ _ _ Hr Hp). cbn.
  rewrite chain_app, chain_cons in Cp. destruct Cp as (C1 & _ & _ & _ & C2).
  pose proof (rep_first _ _ Hr _ _ Hp) as Hfp.
  assert (forall c, c ∈ l1 -> fparent h c = Some p) as Hpl1.
  { intros c Hc. eapply fparent_child; [done|]. eapply child_intro; [exact Hp|ls]. }
  assert (forall c, c ∈ l2 -> fparent h c = Some p) as Hpl2.
  { intros c Hc. eapply fparent_child; [done|]. eapply child_intro; [exact Hp|ls]. }
  (* it suffices to produce a spliced heap *)
  match goal with |- exists h2, (?m ≫= _) = _ /\ _ =>
    cut (exists h1, m = Ret h1 /\ spliced h p this (l1 ++ cs ++ l2) h1) end.
  { intros (h1 & -> & Hsp). cbn.
    exact (splice_tail _ _ _ _ _ _ _ _ Hr Hw Hp Ht Hsp). }
  destruct cs as [|f m].
  - (* no children *)
    simpl. destruct l2 as [|b l2].
    + (* last sibling: must be the only one *)
      destruct l1 as [|x l1]; [|naive_solver]. simpl.
      eexists; split; [done|]. split.
      * intros x. by hs.
      * intros x. by hs.
      * intros x. by hs.
      * intros x. hs; rewrite ?Oa, ?Hap, ?Of; done.
      * done.
      * intros c _ Hc. hs; rewrite Hpar, decide_False by ls; by rewrite Ov, On.
    + assert (alive h b = true) as Hab by (apply Hak; ls).
      apply NoDup_cons in Hnd2 as [Hbl2 Hnd2].
      rewrite chain_cons in C2. destruct C2 as (B1 & B2 & B3 & C2).
      destruct (list_snoc_inv l1) as [->|(l1' & a & ->)].
      * (* first sibling *)
        simpl. unfold last_child_link_weak, first_child_link. rewrite Of, Hfp. simpl.
        eexists; split; [done|].
        destruct (rep_split _ _ _ [] this (b :: l2) Hr Hp) as (_ & _ & Htv).
        rewrite Ov, Htv. simpl.
        split.
        -- intros x. by hs.
        -- intros x. by hs.
        -- intros x. by hs.
        -- intros x. hs; rewrite ?Oa, ?Hap, ?Of; done.
        -- rewrite chain_cons. rewrite (last_default_cons b b). simpl default. split_and!.
           ++ hs; by rewrite Hpar, decide_False by ls.
           ++ hs; by rewrite Oa, Hab.
           ++ hs; by rewrite On.
           ++ eapply chain_frame; [|exact C2]. intros c Hc. assert (c <> b) by ls.
              hs; rewrite Hpar, decide_False by ls; by rewrite Ov, On.
        -- intros c Hc Hct. assert (c <> b) by ls. hs; rewrite Hpar, decide_False by ls; by rewrite Ov, On.
      * (* middle *)
        assert (alive h a = true) as Haa by (apply Hak; ls).
        rewrite last_snoc. simpl. eexists; split; [done|].
        rewrite chain_app, chain_cons in C1. destruct C1 as (C1 & A1 & A2 & A3 & _).
        apply NoDup_app in Hnd1 as (Hnd1 & Hd1 & _).
        split.
        -- intros x. by hs.
        -- intros x. by hs.
        -- intros x. by hs.
        -- intros x. hs; rewrite ?Of, ?Hfp; try by destruct l1'.
        -- assert (a <> b) by ls. rewrite !chain_app, !chain_cons. rewrite last_snoc, last_app_cons. simpl default.
           rewrite (last_default_cons b b). simpl default.
           rewrite !last_app_cons, last_cons_cons in C1, A2.
           rewrite (last_default_cons b b) in C1, A2. simpl default in *.
           split_and!.
           ++ eapply chain_frame; [|exact C1]. intros c Hc. assert (c <> a) by ls. assert (c <> b) by ls.
              hs; rewrite Hpar, decide_False by ls; by rewrite Ov, On.
           ++ hs; rewrite Hpar, decide_False by ls; done.
           ++ hs; by rewrite Ov.
           ++ hs; by rewrite Oa, Haa.
           ++ done.
           ++ hs; rewrite Hpar, decide_False by ls; done.
           ++ hs; by rewrite Oa, Hab.
           ++ hs; by rewrite On.
           ++ eapply chain_frame; [|exact C2]. intros c Hc. assert (c <> a) by ls. assert (c <> b) by ls.
              hs; rewrite Hpar, decide_False by ls; by rewrite Ov, On.
        -- intros c Hc Hct. assert (c <> b) by ls. assert (c <> a) by ls. hs; rewrite Hpar, decide_False by ls; by rewrite Ov, On.
  - (* some children f :: m, the last of them z *)
    cbn [head]. rewrite Oc, (psc_split _ _ _ [] f m Hr Hw Ht). cbn.
    set (z := default f (last m)).
    assert (last (f :: m) = Some z) as Hz by (unfold z; by rewrite (last_default_cons f f)).
    assert (z ∈ f :: m) as Hzin by (by apply elem_of_last).
    assert (alive h z = true) as Haz by auto.
    assert (alive h f = true) as Haf by (apply Hac; ls).
    rewrite Hz in Ct. simpl in Ct.
    assert (fprev h f = Some z) as Hfv. { rewrite chain_cons in Ct. apply Ct. }
    destruct (list_snoc_inv l1) as [->|(l1' & a & ->)].
    + (* first sibling *)
      cbn [last]. destruct l2 as [|b l2]; cbn [head].
      * (* only sibling *)
        eexists; split; [done|]. rewrite app_nil_r. simpl app. split.
        -- intros x. by hs.
        -- intros x. by hs.
        -- intros x. by hs.
        -- intros x. hs; rewrite ?Oa, ?Hap, ?Of; done.
        -- rewrite Hz. simpl default. eapply chain_reparent; [|exact Ct].
           intros c Hc. hs; rewrite Hpar, decide_True by done; by rewrite Ov, On.
        -- intros c Hc Hct. hs; rewrite Hpar, decide_False by done; by rewrite Ov, On.
      * assert (alive h b = true) as Hab by (apply Hak; ls).
        assert (b ∉ f :: m) as Hbc. { intros Hin. apply (Hdj b Hin). ls. }
        assert (f <> b) by ls. assert (z <> b) by ls.
        unfold last_child_link_weak, first_child_link. rewrite ffirst_cas, Of, Hfp. cbn [head app].
        eexists; split; [done|].
        destruct (rep_split _ _ _ [] this (b :: l2) Hr Hp) as (_ & _ & Htv).
        assert (this <> b) by ls.
        rewrite fprev_cas, decide_False by done. rewrite Ov, Htv. simpl default.
        apply NoDup_cons in Hnd2 as [Hbl2 Hnd2].
        rewrite chain_cons in C2. destruct C2 as (B1 & B2 & B3 & C2).
        rewrite (last_default_cons b b). simpl default.
        set (w := default b (last l2)).
        split.
        -- intros x. by hs.
        -- intros x. by hs.
        -- intros x. by hs.
        -- intros x. hs; rewrite ?Oa, ?Hap, ?Of; done.
        -- rewrite app_comm_cons, chain_app, (chain_cons _ _ _ b). rewrite last_app_cons, Hz.
           rewrite (last_default_cons b b). simpl default. fold w. split_and!.
           ++ eapply (chain_relink h0); [done| | | |].
              ** eapply chain_reparent; [|exact Ct]. intros c Hc. rewrite Hpar, decide_True by done. by rewrite Ov, On.
              ** intros c Hc. hs; rewrite Hpar, decide_True by done; done.
              ** intros c Hc. assert (c <> b) by ls. simpl head. hs; rewrite ?Oa, ?Haf; try done.
              ** intros c Hc. assert (c <> b) by ls. rewrite Hz. hs; rewrite ?Oa, ?Haz; try done.
           ++ hs; rewrite Hpar, decide_False by ls; done.
           ++ hs; by rewrite Oa, Hab.
           ++ hs; by rewrite On.
           ++ eapply chain_frame; [|exact C2]. intros c Hc.
              assert (c ∉ f :: m) by (intros Hin; apply (Hdj c Hin); ls).
              assert (c <> b) by ls. assert (c <> f) by ls. assert (c <> z) by ls.
              hs; rewrite Hpar, decide_False by ls; by rewrite Ov, On.
        -- intros c Hc Hct. assert (c <> b) by ls. assert (c <> f) by ls. assert (c <> z) by ls.
           hs; rewrite Hpar, decide_False by ls; by rewrite Ov, On.
    + (* some previous sibling a *)
      assert (alive h a = true) as Haa by (apply Hak; ls).
      assert (a ∉ f :: m) as Hafm. { intros Hin. apply (Hdj a Hin). ls. }
      assert (f <> a) by ls. assert (z <> a) by ls.
      assert (forall c, c ∈ l1' -> c ∉ f :: m) as Hl1c. { intros c Hc Hin. apply (Hdj c Hin). ls. }
      assert (forall c, c ∈ l2 -> c ∉ f :: m) as Hl2c. { intros c Hc Hin. apply (Hdj c Hin). ls. }
      rewrite last_snoc.
      pose proof Hnd1 as Hnd1'.
      apply NoDup_app in Hnd1 as (Hnd1 & Hd1 & _).
      destruct l2 as [|b l2]; cbn [head].
      * (* last sibling: the first sibling's cyclic link is updated *)
        unfold first_child_link. rewrite ffirst_cas, Of, Hfp.
        set (g := match l1' with [] => a | x :: _ => x end).
        assert (head ((l1' ++ [a]) ++ [this]) = Some g) as -> by (by destruct l1').
        assert (g ∈ l1' ++ [a]) as Hg by (unfold g; destruct l1'; ls).
        assert (alive h g = true) as Hag by (apply Hak; ls).
        assert (g ∉ f :: m) as Hgc. { intros Hin. apply (Hdj g Hin). ls. }
        assert (g <> f) by (intros ->; apply Hgc; by left).
        assert (g <> z) by (intros E0; apply Hgc; by rewrite E0).
        eexists; split; [done|].
        rewrite last_app_cons in C1. simpl in C1.
        rewrite app_nil_r. split.
        -- intros x. by hs.
        -- intros x. by hs.
        -- intros x. by hs.
        -- intros x. hs; rewrite ?Of, ?Hfp; try by destruct l1'.
        -- rewrite chain_app. rewrite last_snoc, last_app_cons, Hz. simpl default. split.
           ++ eapply (chain_relink h); [done|exact C1| | |].
              ** intros c Hc. hs; rewrite Hpar, decide_False by ls; auto.
              ** intros c Hc. assert (c <> f) by ls.
                 assert (head (l1' ++ [a]) = Some g) as -> by (by destruct l1').
                 hs; rewrite ?Oa, ?Hag, ?Ov; done.
              ** intros c Hc. assert (c <> z) by ls. rewrite last_snoc. hs; rewrite ?Oa, ?Haa, ?On; done.
           ++ eapply (chain_relink h0); [done| | | |].
              ** eapply chain_reparent; [|exact Ct]. intros c Hc. rewrite Hpar, decide_True by done. by rewrite Ov, On.
              ** intros c Hc. hs; rewrite Hpar, decide_True by done; done.
              ** intros c Hc. assert (c <> g) by (intros ->; done).
                 simpl head. hs; rewrite ?Oa, ?Haf; try done.
              ** intros c Hc. assert (c <> a) by ls. rewrite Hz. hs; rewrite ?Oa, ?On; try done.
                 simplify_eq. rewrite chain_linked_aux in Ct. rewrite last_lookup in Hz.
                 destruct (Ct _ _ Hz) as (_ & -> & _). simpl length. simpl pred.
                 rewrite lookup_ge_None_2 by (simpl; lia). done.
        -- intros c Hc Hct. assert (c <> a) by ls. assert (c <> f) by ls. assert (c <> g) by ls.
           hs; rewrite Hpar, decide_False by ls; by rewrite Ov, On.
      * (* both *)
        assert (alive h b = true) as Hab by (apply Hak; ls).
        assert (b ∉ f :: m) as Hbc by (apply Hl2c; ls).
        assert (f <> b) by ls. assert (z <> b) by ls. assert (a <> b) by ls.
        eexists; split; [done|].
        apply NoDup_cons in Hnd2 as [Hbl2 Hnd2].
        rewrite chain_cons in C2. destruct C2 as (B1 & B2 & B3 & C2).
        rewrite last_app_cons, last_cons_cons, (last_default_cons b b) in C1. simpl default in C1.
        set (w := default b (last l2)) in *.
        split.
        -- intros x. by hs.
        -- intros x. by hs.
        -- intros x. by hs.
        -- intros x. hs; rewrite ?Of, ?Hfp; try by destruct l1'.
        -- rewrite (chain_app _ _ _ (l1' ++ [a])). rewrite (app_comm_cons m), (chain_app _ _ _ (f :: m)), (chain_cons _ _ _ b). rewrite last_snoc, <-app_comm_cons.
           rewrite last_app_cons, app_comm_cons, last_app_cons, Hz.
           rewrite (last_default_cons b b). simpl default. fold w. split_and!.
           ++ eapply (chain_relink h); [done|exact C1| | |].
              ** intros c Hc. hs; rewrite Hpar, decide_False by ls; auto.
              ** intros c Hc. assert (c <> f) by ls. assert (c <> b) by ls.
                 hs; rewrite Ov; try done.
                 rewrite chain_linked_aux in C1. rewrite head_lookup in *.
                 match goal with Hh : _ !! 0 = Some c |- _ => by destruct (C1 _ _ Hh) as (_ & _ & ->) end.
              ** intros c Hc. assert (c <> z) by ls. rewrite last_snoc. hs; rewrite ?Oa, ?Haa, ?On; done.
           ++ eapply (chain_relink h0); [done| | | |].
              ** eapply chain_reparent; [|exact Ct]. intros c Hc. rewrite Hpar, decide_True by done. by rewrite Ov, On.
              ** intros c Hc. hs; rewrite Hpar, decide_True by done; done.
              ** intros c Hc. assert (c <> b) by ls.
                 simpl head. hs; rewrite ?Oa, ?Haf; try done.
              ** intros c Hc. assert (c <> a) by ls. rewrite Hz. hs; rewrite ?Oa, ?On, ?Haz; try done.
           ++ hs; rewrite Hpar, decide_False by ls; done.
           ++ hs; by rewrite Oa, Hab.
           ++ hs; by rewrite On.
           ++ eapply chain_frame; [|exact C2]. intros c Hc.
              assert (c ∉ f :: m) by (apply Hl2c; ls).
              assert (c <> b) by ls. assert (c <> f) by ls. assert (c <> z) by ls. assert (c <> a) by ls.
              hs; rewrite Hpar, decide_False by ls; by rewrite Ov, On.
        -- intros c Hc Hct. assert (c <> a) by ls. assert (c <> f) by ls. assert (c <> b) by ls. assert (c <> z) by ls.
           hs; rewrite Hpar, decide_False by ls; by rewrite Ov, On.
Qed.

End Facts.
