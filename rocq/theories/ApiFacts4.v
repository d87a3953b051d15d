(** * ApiFacts4: what no call does. *)
From Verif Require Import Heap Edit System SysSpec CardFacts HeapFacts SpecFacts NavFacts NavFacts2 EditFacts EditFacts2 EditFacts3 EditFacts4 EditFacts5 IterSpec RoseFacts AdjFacts TravFacts TdFacts TdFacts2 SysFacts SysFacts2 SysFacts3 SysFacts4 SysFacts5 SysFacts6 SysFacts7 SysFacts8 SysFacts9 SysFacts10 SysFacts11 SysFacts12 SysFacts13 SysFacts14 SysFacts15 ApiSpec ApiFacts ApiFacts2 ApiFacts3 Spec.

Section ApiFacts4.
Context {T : Type}.
Implicit Types (h : heap T) (s : sys T) (hm : gmap nat handle).

(** How one call may change the world, coarsely: the identities of [s] are
    untouched outside some trees, or a whole tree disappears. *)
Lemma payload_alive s y : is_Some (payload s y) <-> is_Some (s_nodes s !! y).
Proof. unfold payload. by rewrite fmap_is_Some. Qed.
Lemma stores_alive s K y : stores s K -> is_Some (s_nodes s !! y) <-> is_Some (K !! y).
Proof. intros [R _]. apply (rep_dom _ _ R). Qed.
Lemma tree_alive_node s y t : tree_of s y = Some t -> is_Some (s_nodes s !! y).
Proof. unfold tree_of. destruct (n_memb s y) eqn:E; [|done]. intros _. by eapply n_memb_alive. Qed.
Lemma payload_none s s' y : payload s' y = payload s y -> s_nodes s' !! y = None -> s_nodes s !! y = None.
Proof. unfold payload. intros E Hn. rewrite Hn in E. by destruct (s_nodes s !! y). Qed.
Lemma alive_payload s s' y : payload s' y = payload s y -> is_Some (s_nodes s' !! y) <-> is_Some (s_nodes s !! y).
Proof. intros E. by rewrite <-!payload_alive, E. Qed.

Lemma same_view_alive s s' y : same_view s s' -> is_Some (s_nodes s' !! y) <-> is_Some (s_nodes s !! y).
Proof. intros V. apply alive_payload. by apply V. Qed.
Lemma same_view_forest s s' K K' : same_view s s' -> stores s K -> stores s' K' -> K' = K.
Proof. intros V H H'. apply (stores_unique s'); [exact H'|]. by apply V. Qed.

(** Everything that can happen to a node in one call. *)
Record evolves s (K : forest) s' (K' : forest) (t0 : tid -> Prop) (y : nid) : Prop := {
  ev_payload : is_Some (s_nodes s !! y) -> is_Some (s_nodes s' !! y) -> payload s' y = payload s y;
  ev_kids : forall t, tree_of s y = Some t -> ~ t0 t -> is_Some (s_nodes s' !! y) -> K' !! y = K !! y /\ tree_of s' y = Some t;
  ev_freed : is_Some (s_nodes s !! y) -> s_nodes s' !! y = None ->
    exists t, tree_of s y = Some t /\ ~ tree_held s' (s_hands s') t /\ s_trees s' !! t = None;
  ev_came : forall t, tree_of s' y = Some t -> is_Some (s_trees s !! t) -> ~ t0 t -> tree_of s y = Some t;
}.

Lemma evolves_view s K s' K' t0 y : same_view s s' -> stores s K -> stores s' K' -> evolves s K s' K' t0 y.
Proof.
  intros V H H'. pose proof (same_view_forest s s' K K' V H H') as ->. split.
  - intros _ _. apply V.
  - intros t Et _ _. split; [done|]. by rewrite (sv_tree _ _ V).
  - intros Hy Hn. exfalso. apply (same_view_alive s s' y V) in Hy. rewrite Hn in Hy. by destruct Hy.
  - intros t Et _ _. by rewrite <- (sv_tree _ _ V).
Qed.

Lemma evolves_drops s K s' K' t0 y i t : inv s K -> stores s' K' -> drops s K i t s' -> evolves s K s' K' t0 y.
Proof.
  intros I H' (Eh & [[_ V]|(Hnh & (K1 & HK1 & Hs1) & Hgone & Hsame & Htr & Htro)]).
  - apply evolves_view; [exact V|by apply inv_stores|exact H'].
  - assert (K' = K1) as -> by (by apply (stores_unique s')).
    assert (forall z, tree_of s z <> Some t -> tree_of s' z = tree_of s z /\ payload s' z = payload s z) as Hz.
    { intros z Hz. unfold tree_of, n_memb, payload. by rewrite (Hsame z Hz). }
    assert (forall z, tree_of s z = Some t -> tree_of s' z = None) as Hz2.
    { intros z Hz2. unfold tree_of, n_memb. by rewrite (Hgone z Hz2). }
    split.
    + intros _ Hy'. apply Hz. intros e. apply Hgone in e. rewrite e in Hy'. by destruct Hy'.
    + intros u Eu _ Hy'. assert (tree_of s y <> Some t) as Hn. { intros e. apply Hgone in e. rewrite e in Hy'. by destruct Hy'. }
      split; [by apply HK1|]. by rewrite (proj1 (Hz y Hn)).
    + intros Hy Hn. exists t. destruct (decide (tree_of s y = Some t)) as [e|Hne].
      * split; [exact e|]. split; [|exact Htr]. intros [[j Hj]|(j & k & z & Hj & Ez)].
        -- apply Hnh. left. eauto.
        -- destruct (decide (tree_of s z = Some t)) as [e2|Hne2]; [rewrite (Hz2 z e2) in Ez; done|].
           rewrite (proj1 (Hz z Hne2)) in Ez. done.
      * rewrite (Hsame y Hne) in Hn. rewrite Hn in Hy. by destruct Hy.
    + intros u Eu Hu _. destruct (decide (tree_of s y = Some t)) as [e|Hne]; [by rewrite (Hz2 y e) in Eu|].
      by rewrite <- (proj1 (Hz y Hne)).
Qed.

Lemma evolves_adds s K s' K' (t0 : tid -> Prop) y tx n d k i : stores s K -> adds s s' K' tx n d k i -> t0 tx ->
  (forall z, z <> n -> tree_of s z <> Some tx -> K' !! z = K !! z) -> evolves s K s' K' t0 y.
Proof.
  intros H A Ht0 HK. split.
  - intros Hy _. apply (ad_payload_other _ _ _ _ _ _ _ _ A). intros e. rewrite e, (ad_new _ _ _ _ _ _ _ _ A) in Hy. by destruct Hy.
  - intros t Et Hn Hy'. assert (y <> n) as Hne.
    { intros e. apply tree_alive_node in Et. rewrite e, (ad_new _ _ _ _ _ _ _ _ A) in Et. by destruct Et. }
    split; [apply HK; [done|]; intros e; apply Hn; congruence|]. rewrite (ad_tree_other _ _ _ _ _ _ _ _ A); done.
  - intros Hy Hn. exfalso. assert (y <> n) as Hne. { intros e. rewrite e, (ad_new _ _ _ _ _ _ _ _ A) in Hy. by destruct Hy. }
    apply payload_none with (s := s) in Hn; [|by apply (ad_payload_other _ _ _ _ _ _ _ _ A)]. rewrite Hn in Hy. by destruct Hy.
  - intros t Et Htr Hn. destruct (decide (y = n)) as [e|Hne].
    + exfalso. subst y. rewrite (ad_tree _ _ _ _ _ _ _ _ A) in Et. congruence.
    + by rewrite <- (ad_tree_other _ _ _ _ _ _ _ _ A y Hne).
Qed.

Lemma below_in_tree s K K1 x y tx : inv s K -> tree_of s x = Some tx ->
  (forall p c, child_of K1 p c -> child_of K p c) -> below K1 x y -> tree_of s y = Some tx.
Proof.
  intros I Et Hsub Hb. induction Hb as [|p c Hb IH Hc]; [exact Et|]. rewrite (s_child _ _ (i_s _ _ I) p c); [exact IH|]. by apply Hsub.
Qed.

Lemma evolves_carries s K K1 s' K2 K' (t0 : tid -> Prop) y x tx t' : inv s K -> inv s' K' -> tree_of s x = Some tx ->
  (forall z, below K1 x z -> tree_of s z = Some tx) -> (forall z, is_Some (K1 !! z) <-> is_Some (K !! z)) ->
  carries s K1 x tx t' s' K2 -> (forall z, is_Some (K' !! z) <-> is_Some (K2 !! z)) -> t0 tx -> (is_Some (s_trees s !! t') -> t0 t') ->
  (forall z t, tree_of s z = Some t -> ~ t0 t -> is_Some (K2 !! z) -> K' !! z = K !! z) -> evolves s K s' K' t0 y.
Proof.
  intros I I' Et Hbel Hdom C Hdom2 H0 H0' HK. split.
  - intros _ Hy'. by apply C.
  - intros t Ety Hn Hy'. assert (tree_of s' y = tree_of s y) as e.
    { apply C; [|exact Hy']. intros Hb. apply Hbel in Hb. apply Hn. congruence. }
    split; [|congruence]. apply (HK y t Ety Hn). apply Hdom2. by apply (inv_alive s' K').
  - intros Hy Hn. destruct (cy_rest _ _ _ _ _ _ _ C) as [(_ & _ & ->)|(Hnh & Htr & Honly)].
    + exfalso. apply (inv_alive s K y I) in Hy. apply Hdom, Hdom2, (inv_alive s' K' y I') in Hy. rewrite Hn in Hy. by destruct Hy.
    + exists tx. split; [|by split]. destruct (decide (tree_of s y = Some tx)) as [e|Hne]; [exact e|]. exfalso.
      pose proof (proj1 (Honly y) (or_intror Hne)) as e. apply (inv_alive s K y I) in Hy. apply Hdom in Hy. rewrite <- e in Hy.
      apply Hdom2, (inv_alive s' K' y I') in Hy. rewrite Hn in Hy. by destruct Hy.
  - intros t Ety Htr Hn. assert (~ below K1 x y) as Hnb.
    { intros Hb. rewrite (cy_in _ _ _ _ _ _ _ C y Hb) in Ety. apply Hn. assert (t = t') as -> by congruence. by apply H0'. }
    rewrite <- (cy_out _ _ _ _ _ _ _ C y Hnb); [done|]. by eapply tree_alive_node.
Qed.

Lemma child_tree s K p c t : inv s K -> child_of K p c -> tree_of s c = Some t -> tree_of s p = Some t.
Proof. intros I Hc Et. by rewrite <- (s_child _ _ (i_s _ _ I) p c Hc). Qed.

Lemma splits_evolves s K K1 s' K2 K' (t0 : tid -> Prop) y x tx t' : inv s K -> inv s' K' -> stores s' K' -> tree_of s x = Some tx ->
  (forall z, below K1 x z -> tree_of s z = Some tx) -> (forall z, is_Some (K1 !! z) <-> is_Some (K !! z)) ->
  splits s K1 x tx t' s' K2 -> t0 tx ->
  (forall z t, tree_of s z = Some t -> t <> tx -> K1 !! z = K !! z) -> evolves s K s' K' t0 y.
Proof.
  intros I I' Hst' Et Hbel Hdom S H0 HK. assert (K' = K2) as ->. { apply (stores_unique s'); [done|apply S]. }
  eapply (evolves_carries s K K1 s' K2 K2 t0 y x tx t'); [exact I|exact I'|exact Et|exact Hbel|exact Hdom|exact (sp_carries _ _ _ _ _ _ _ S)|done|exact H0|..].
  - intros [tr Htr]. exfalso. pose proof (sp_new _ _ _ _ _ _ _ S). congruence.
  - intros z t Ez Hn Hz. assert (t <> tx) as Hne by congruence. rewrite <- (HK z t Ez Hne).
    destruct (cy_rest _ _ _ _ _ _ _ (sp_carries _ _ _ _ _ _ _ S)) as [(_ & _ & ->)|(_ & _ & Honly)]; [done|].
    apply Honly. right. congruence.
Qed.

Theorem step_evolves s K o s' r K' : reach s -> stores s K -> safe s K o -> step s o = Ret (s', r) -> stores s' K' ->
  ~ writes_data o -> forall y, evolves s K s' K' (touches s o) y.
Proof.
  intros H Hst Hs E Hst' Hwd y. destruct (reach_safe_step s K o s' r H Hst Hs E) as [H' [[_ ->]|[Hw Ef]]].
  { apply evolves_view; [|done|done]. split; done. }
  pose proof (reach_stores_inv s K H Hst) as I. pose proof (reach_stores_inv s' K' H' Hst') as I'.
  assert (forall j hd, gives s s' j hd -> evolves s K s' K' (touches s o) y) as Hg. { intros j hd (V & _). by apply evolves_view. }
  assert (forall i j hd, exchanges s s' i j hd -> evolves s K s' K' (touches s o) y) as Hx. { intros i j hd (V & _). by apply evolves_view. }
  assert (s' = s -> evolves s K s' K' (touches s o) y) as Hsame. { intros ->. apply evolves_view; [|done|done]. split; done. }
  assert (forall i t, drops s K i t s' -> evolves s K s' K' (touches s o) y) as Hd. { intros i t D. by eapply evolves_drops. }
  destruct o as [d|i|i|v i|i|i|k i|k i|i j|i|i|i|i|a d ad|a d|a d|a|a|a ad j|i|i d|i b];
    destruct Ef as [Ef|[Ef|Ef]]; simpl in Ef; try (by destruct Ef).
  - (* new tree *)
    destruct Ef as (n & t & i & -> & Ht & _ & _ & Hn & Hi & Hh & Hst2 & Hp & Et & Ho & Htr).
    assert (K' = <[n := []]> K) as -> by (by apply (stores_unique s')). split.
    + intros Hy _. apply Ho. intros ->. rewrite Hn in Hy. by destruct Hy.
    + intros u Eu _ _. assert (y <> n) as Hne. { intros ->. apply tree_alive_node in Eu. rewrite Hn in Eu. by destruct Eu. }
      split; [by rewrite lookup_insert_ne|]. rewrite (proj2 (Ho y Hne)). done.
    + intros Hy Hyn. exfalso. assert (y <> n) as Hne. { intros ->. rewrite Hn in Hy. by destruct Hy. }
      apply payload_none with (s := s) in Hyn; [|by apply Ho]. rewrite Hyn in Hy. by destruct Hy.
    + intros u Eu Hu _. destruct (decide (y = n)) as [->|Hne]; [|by rewrite <- (proj2 (Ho y Hne))].
      exfalso. rewrite Et in Eu. assert (u = t) as -> by congruence. rewrite Ht in Hu. by destruct Hu.
  - destruct Ef as (hd & j & _ & _ & G). by eapply Hg.
  - destruct Ef as (hd & _ & _ & G). destruct hd as [k x|t|t|t|x|t].
    + destruct G as (t & _ & D). by eapply Hd.
    + by eapply Hd.
    + destruct G as [V _]. by apply evolves_view.
    + destruct G as [V _]. by apply evolves_view.
    + destruct G as [V _]. by apply evolves_view.
    + destruct G as [V _]. by apply evolves_view.
  - destruct Ef as (k & x & [z|] & _ & _ & G); [destruct G as (j & _ & G); by eapply Hg|]. destruct G as [_ ->]. by apply Hsame.
  - destruct Ef as (k & x & t & j & _ & _ & _ & G). by eapply Hg.
  - destruct Ef as (t & z & j & _ & _ & _ & _ & G). by eapply Hg.
  - destruct Ef as (t & _ & _ & [(_ & j & _ & G)|(_ & _ & ->)]); [by eapply Hg|by apply Hsame].
  - destruct Ef as (x & t & _ & _ & _ & [(_ & j & _ & G)|(_ & _ & D)]); [by eapply Hx|by eapply Hd].
  - destruct Ef as (k & x & t & m & _ & _ & _ & _ & _ & G). by eapply Hx.
  - destruct Ef as (k & x & j & _ & _ & _ & G). by eapply Hg.
  - destruct Ef as (k & x & t & j & _ & _ & _ & _ & G). by eapply Hg.
  - destruct Ef as (j & _ & [(x & _ & G)|(t & _ & G)]); by eapply Hg.
  - destruct Ef as [(x & _ & [(_ & j & _ & G)|(_ & _ & ->)])|(t & _ & [(_ & j & _ & G)|(_ & _ & ->)])];
      [by eapply Hg|by apply Hsame|by eapply Hg|by apply Hsame].
  - (* create *)
    destruct Ef as (k & x & t & Hr & Et & [(_ & n & i & K2 & -> & At & A)|(_ & -> & En & Etr & Eh)]).
    + assert (K' = K2) as ->. { apply (stores_unique s'); [done|apply A]. }
      eapply evolves_adds; [done|exact A|exists k, x; done|]. intros z Hz Hzt.
      assert (wf (<[n := []]> K)) as Wn.
      { assert (K !! n = None) as HKn. { destruct (K !! n) eqn:e; [|done]. exfalso. by apply (fresh_not s K n n _ Hst (ad_new _ _ _ _ _ _ _ _ A) e). }
        apply wf_new; [apply Hst|done]. }
      destruct (attached_perm _ _ _ _ Wn At) as (p & ks & ks' & Hp & Hk & -> & _).
      assert (p <> n) as Hpn.
      { intros ->. destruct ad; simpl in Hp.
        - subst x. apply tree_alive_node in Et. rewrite (ad_new _ _ _ _ _ _ _ _ A) in Et. by destruct Et.
        - subst x. apply tree_alive_node in Et. rewrite (ad_new _ _ _ _ _ _ _ _ A) in Et. by destruct Et.
        - destruct Hp as (ks2 & Hp & Hin). rewrite lookup_insert in Hp. inversion Hp. subst. by apply elem_of_nil in Hin.
        - destruct Hp as (ks2 & Hp & Hin). rewrite lookup_insert in Hp. inversion Hp. subst. by apply elem_of_nil in Hin. }
      assert (tree_of s p = Some t) as Ep.
      { destruct ad; simpl in Hp; [by subst|by subst|..];
          (apply (child_tree s K p x t I); [|exact Et]; destruct Hp as (ks2 & Hp & Hin); rewrite lookup_insert_ne in Hp by done; by exists ks2). }
      rewrite lookup_insert_ne; [by rewrite lookup_insert_ne|]. intros ->. by apply Hzt.
    + apply evolves_view; [|done|done]. split.
      * intros K2 [A B]. split; [by rewrite En|done].
      * intros z. unfold tree_of, n_memb. by rewrite En.
      * intros z. unfold payload. by rewrite En.
      * intros u. by rewrite Etr.
  - (* interrupting parent *)
    destruct Ef as (k & x & t & n & i & Hr & Et & -> & [[Htop A]|(p & ks & Hp & Hin & A)]).
    + assert (K' = <[n := [x]]> K) as ->. { apply (stores_unique s'); [done|apply A]. }
      eapply evolves_adds; [done|exact A|exists k, x; done|]. intros z Hz Hzt. by rewrite lookup_insert_ne.
    + assert (K' = <[n := [x]]> (<[p := subst_child x n ks]> K)) as ->. { apply (stores_unique s'); [done|apply A]. }
      eapply evolves_adds; [done|exact A|exists k, x; done|]. intros z Hz Hzt. rewrite lookup_insert_ne by done.
      assert (tree_of s p = Some t) as Ep. { apply (child_tree s K p x t I); [|exact Et]. by exists ks. }
      rewrite lookup_insert_ne; [done|]. intros ->. by apply Hzt.
  - (* interrupting child *)
    destruct Ef as (k & x & t & n & i & ks & Hr & Et & -> & Hx2 & A).
    assert (K' = <[x := [n]]> (<[n := ks]> K)) as ->. { apply (stores_unique s'); [done|apply A]. }
    eapply evolves_adds; [done|exact A|exists k, x; done|]. intros z Hz Hzt. rewrite lookup_insert_ne; [by rewrite lookup_insert_ne|].
    intros ->. by apply Hzt.
  - (* replace *)
    destruct Ef as (k & x & t & cs & Hr & Et & Hcs & [(p & ks & t' & K2 & Hp & Hin & -> & S)|[(Htop & c & t' & K2 & -> & -> & S & _)|[(_ & _ & _ & ->)|(_ & _ & _ & ->)]]]).
    + assert (tree_of s p = Some t) as Ep. { apply (child_tree s K p x t I); [|exact Et]. by exists ks. }
      eapply (splits_evolves s K _ s' K2 K'); [done|done|done|exact Et|..|exact S|exists k, x; done|].
      * intros z Hb. destruct (below_inv_l _ _ _ Hb) as [<-|(q & (ks2 & Hq & Hin2) & _)]; [exact Et|].
        rewrite lookup_insert in Hq. inversion Hq. subst. by apply elem_of_nil in Hin2.
      * intros z. rewrite lookup_insert_is_Some'. rewrite lookup_insert_is_Some'. split; [intros [->|[->|?]]; eauto|tauto].
      * intros z u Ez Hne. rewrite lookup_insert_ne; [rewrite lookup_insert_ne; [done|]|]; intros ->; congruence.
    + eapply (splits_evolves s K _ s' K2 K'); [done|done|done|exact Et|..|exact S|exists k, x; done|].
      * intros z Hb. destruct (below_inv_l _ _ _ Hb) as [<-|(q & (ks2 & Hq & Hin2) & _)]; [exact Et|].
        rewrite lookup_insert in Hq. inversion Hq. subst. by apply elem_of_nil in Hin2.
      * intros z. rewrite lookup_insert_is_Some'. split; [intros [->|?]; eauto|tauto].
      * intros z u Ez Hne. rewrite lookup_insert_ne; [done|]. intros ->. congruence.
    + by apply Hsame.
    + by apply Hsame.
  - (* detach *)
    destruct Ef as (k & x & t & Hr & Et & -> & [[_ ->]|(K1 & t' & K2 & Hu & S)]); [by apply Hsame|].
    destruct (unlinked_child K x K1 (proj2 Hst) Hu) as (Hch & Hdom & _).
    eapply (splits_evolves s K K1 s' K2 K'); [done|done|done|exact Et|..|exact S|exists k, x; done|].
    + intros z Hb. eapply (below_in_tree s K K1); [done|exact Et| |exact Hb]. intros p c Hc. by apply Hch.
    + exact Hdom.
    + intros z u Ez Hne. destruct Hu as (q & ks & Hq & Hin & ->). rewrite lookup_insert_ne; [done|]. intros ->.
      assert (tree_of s z = Some t) by (apply (child_tree s K z x t I); [by exists ks|exact Et]). congruence.
  - (* move *)
    destruct Ef as (k & x & z & t & t' & Hr & Hj & Et & Et' & -> & [(_ & _ & ->)|[(<- & K2 & Hm & R)|(Hne & K1 & K2 & K3 & Hu & C & At & Hst3)]]); [by apply Hsame|..].
    + assert (K' = K2) as ->. { apply (stores_unique s'); [done|apply R]. }
      assert (forall z, is_Some (s_nodes s' !! z) <-> is_Some (s_nodes s !! z)) as Hal. { intros w. apply alive_payload, R. }
      split.
      * intros _ _. apply R.
      * intros u Eu Hn _. rewrite (re_tree _ _ _ R). split; [|done].
        destruct Hm as (K1 & Hu & At). destruct (unlinked_wf K x K1 (proj2 Hst) Hu) as [W1 _].
        destruct (attached_perm _ _ _ _ W1 At) as (p & ks & ks' & Hp & Hk & -> & _).
        destruct (unlinked_child K x K1 (proj2 Hst) Hu) as (Hch & Hdom & _).
        assert (u <> t) as Hut. { intros ->. apply Hn. left. exists k, x. done. }
        assert (tree_of s p = Some t) as Ep.
        { destruct ad; simpl in Hp; [by subst|by subst|..]; (apply (child_tree s K p z t I); [|exact Et']; by apply Hch in Hp as [? _]). }
        rewrite lookup_insert_ne by (intros ->; congruence).
        destruct Hu as (q & ks2 & Hq & Hin & ->). rewrite lookup_insert_ne; [done|]. intros ->.
        assert (tree_of s y = Some t) by (apply (child_tree s K y x t I); [by exists ks2|exact Et]). congruence.
      * intros Hy Hn. exfalso. apply Hal in Hy. rewrite Hn in Hy. by destruct Hy.
      * intros u Eu _ _. by rewrite <- (re_tree _ _ _ R).
    + assert (K' = K3) as -> by (by apply (stores_unique s')).
      destruct (apart_child K x K1 (proj2 Hst) Hu) as (Hch & Hdom).
      assert (wf K1) as W1 by (by eapply apart_wf; [apply Hst|exact Hu]).
      assert (exists p ks ks', dest_parent K2 (dest_of ad z) p /\ K2 !! p = Some ks /\ K3 = <[p := ks']> K2) as (p & ks & ks' & Hp & Hk & EK3).
      { inversion At; subst; eexists _, _, _; (split; [|split; [eassumption|reflexivity]]); try done; simpl; eexists; eauto. }
      assert (forall w l, K2 !! w = Some l -> K1 !! w = Some l) as HK12.
      { intros w l Hw2. destruct (cy_rest _ _ _ _ _ _ _ C) as [(_ & _ & <-)|(_ & _ & Honly)]; [done|].
        destruct (decide (K1 !! w = K2 !! w)) as [->|Hne2]; [done|]. exfalso.
        assert (~ (below K1 x w \/ tree_of s w <> Some t)) as Hno. { intros Hb. apply Hne2. symmetry. by apply Honly. }
        rewrite (proj2 (Honly w) Hno) in Hw2. done. }
      assert (tree_of s p = Some t') as Ep.
      { destruct ad; simpl in Hp; [by subst|by subst|..]; (apply (child_tree s K p z t' I); [|exact Et']; destruct Hp as (l & Hl & Hin); apply HK12 in Hl;
          assert (child_of K1 p z) as Hc1 by (by exists l); by apply Hch in Hc1 as [? _]). }
      eapply (evolves_carries s K K1 s' K2 K3); [done|done|exact Et|..|exact C| | | |].
      * intros w Hb. eapply (below_in_tree s K K1); [done|exact Et| |exact Hb]. intros q c Hc. by apply Hch.
      * exact Hdom.
      * intros w. rewrite EK3. rewrite lookup_insert_is_Some'. split; [intros [<-|?]; eauto|tauto].
      * left. exists k, x. done.
      * intros _. right. exists z. done.
      * intros w u Ew Hn [l Hl].
        assert (u <> t) as Hut. { intros ->. apply Hn. left. exists k, x. done. }
        assert (u <> t') as Hut'. { intros ->. apply Hn. right. exists z. done. }
        rewrite EK3. rewrite lookup_insert_ne by (intros ->; congruence).
        rewrite Hl, <- (HK12 w l Hl). destruct Hu as [(q & ks2 & Hq & Hin & ->)|(_ & _ & ->)]; [|done]. rewrite lookup_insert_ne; [done|]. intros ->.
        assert (tree_of s w = Some t) by (apply (child_tree s K w x t I); [by exists ks2|exact Et]). congruence.
  - destruct Ef as (k & x & d & b & _ & _ & -> & _). by apply Hsame.
Qed.
End ApiFacts4.
