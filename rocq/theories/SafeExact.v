(** * SafeExact: the calls excluded by [safe] are exactly those that damage the structure. *)
From Verif Require Import Heap Edit System SysSpec SpecFacts NavFacts EditFacts2 SysFacts5 ApiSpec ApiFacts ApiFacts2 ApiFacts3 ApiFacts6 ApiFacts7 MisledSpec MoveSpec Misled3 Misled6 Misled8 MoveFacts GraftSpec GraftFacts2 GraftFacts4 GraftFacts5 Spec.

Section SafeExact.
Context {T : Type}.
Implicit Types (h : heap T) (s u g : sys T) (K : forest) (x y p f : nid).

Lemma links_unique h h' K K' : rep h K -> rep h' K' -> (forall y, is_Some (h' !! y) <-> is_Some (h !! y)) ->
  (forall y, ffirst h' y = ffirst h y /\ fnext h' y = fnext h y /\ fnch h' y = fnch h y) -> K' = K.
Proof.
  intros R R' Hd Hf. apply map_eq. intros x. destruct (K !! x) as [ks|] eqn:E.
  - assert (is_Some (K' !! x)) as [ks' E']. { apply (rep_dom _ _ R'). apply Hd. apply (rep_dom _ _ R). eauto. }
    rewrite E'. f_equal. pose proof (rep_linked _ _ R _ _ E) as L. pose proof (rep_linked _ _ R' _ _ E') as L'.
    pose proof (rep_first _ _ R _ _ E) as F. pose proof (rep_first _ _ R' _ _ E') as F'. pose proof (rep_nch _ _ R _ _ E) as N. pose proof (rep_nch _ _ R' _ _ E') as N'.
    destruct (Hf x) as (A & _ & C). assert (length ks' = length ks) as Hl by congruence. assert (head ks' = head ks) as Hh by congruence.
    apply list_eq. intros i. induction i as [|i IH].
    + rewrite <- !head_lookup. exact Hh.
    + destruct (ks !! i) as [c|] eqn:Ec.
      * destruct (L _ _ Ec) as (_ & B1 & _). destruct (L' _ _ IH) as (_ & B2 & _). rewrite <- B1, <- B2. apply Hf.
      * apply lookup_ge_None in Ec. rewrite !lookup_ge_None_2 by lia. done.
  - destruct (K' !! x) as [ks'|] eqn:E'; [|done]. exfalso.
    assert (is_Some (K !! x)) as [? ?]; [|congruence]. apply (rep_dom _ _ R). apply Hd. apply (rep_dom _ _ R'). eauto.
Qed.

(** What a stray previous-sibling link does not change. *)
Record sturdy g s' : Prop := {
  sd_dom : forall y, is_Some (s_nodes s' !! y) <-> is_Some (s_nodes g !! y);
  sd_links : forall y, ffirst (s_nodes s') y = ffirst (s_nodes g) y /\ fnext (s_nodes s') y = fnext (s_nodes g) y /\ fnch (s_nodes s') y = fnch (s_nodes g) y;
  sd_tree : forall y, tree_of s' y = tree_of g y;
  sd_trees : s_trees s' = s_trees g;
}.
Lemma misled_sturdy g f x s' : misled g f x s' -> sturdy g s'.
Proof.
  intros [Ht _ _ Hr Hf]. assert (forall y, s_nodes s' !! y = s_nodes g !! y \/ s_nodes s' !! y =
    (fun nd => mkNode (n_data nd) (n_lend nd) (n_parent nd) (n_first nd) (n_next nd) (Some x) (n_nch nd) (n_mem nd)) <$> s_nodes g !! y) as A.
  { intros y. destruct (decide (y = f)) as [->|Hn]; [by right|left; by apply Hr]. }
  split; [| | |exact Ht].
  - intros y. destruct (A y) as [->| ->]; [done|]. by rewrite fmap_is_Some.
  - intros y. unfold ffirst, fnext, fnch. destruct (A y) as [->| ->]; [done|]. by destruct (s_nodes g !! y).
  - intros y. unfold tree_of, n_memb. destruct (A y) as [->| ->]; [done|]. by destruct (s_nodes g !! y).
Qed.
Lemma cut_sturdy K p x g s' : wf K -> child_of K p x -> cut_off K x g s' -> sturdy g s'.
Proof.
  intros W (ks & Hk & Hin) [C1 C2]. destruct (lnf_dec K p ks x W Hk Hin) as [(f & m & -> & _)|Hno].
  - eapply misled_sturdy. by eapply C2.
  - rewrite C1; [by split|]. by eapply not_lnf.
Qed.

Lemma alone_dec s K x : wf K -> is_Some (K !! x) -> alone s K x \/ ~ alone s K x.
Proof.
  intros W Hx. destruct (tree_of s x) as [t|] eqn:Et.
  2:{ left. intros t Ht. congruence. }
  destruct (tree_handle_dec s t) as [[i Hi]|Hno].
  { right. intros A. destruct (A t Et) as [B _]. by apply (B i). }
  assert (forall l : list (nat * handle), Forall (fun kv => forall k y, kv.2 = HNode k y -> tree_of s y = Some t -> below K x y) l \/
    ~ Forall (fun kv => forall k y, kv.2 = HNode k y -> tree_of s y = Some t -> below K x y) l) as D.
  { induction l as [|[i hd] l IH]; [left; constructor|]. destruct IH as [IH|IH].
    2:{ right. intros H. apply IH. by inversion H. }
    assert ((forall k y, hd = HNode k y -> tree_of s y = Some t -> below K x y) \/ ~ (forall k y, hd = HNode k y -> tree_of s y = Some t -> below K x y)) as [D|D].
    { destruct hd as [k y| | | | |]; try (left; intros; discriminate). destruct (decide (tree_of s y = Some t)) as [Ey|Ey].
      - destruct (below_dec K x y W Hx) as [Hb|Hb].
        + left. intros k' y' [= _ <-] _. exact Hb.
        + right. intros H. apply Hb. by eapply H.
      - left. intros k' y' [= _ <-] E. done. }
    - left. by constructor.
    - right. intros H. apply D. by inversion H. }
  destruct (D (map_to_list (s_hands s))) as [A|A].
  - left. intros t' Et'. assert (t' = t) as -> by congruence. split; [exact Hno|]. intros i k y Hi Hy.
    rewrite Forall_forall in A. eapply (A (i, HNode k y)); [by apply elem_of_map_to_list|done|done].
  - right. intros B. apply A. rewrite Forall_forall. intros [i hd] Hi k y E Hy. simpl in E. subst hd. apply elem_of_map_to_list in Hi.
    destruct (B t Et) as [_ B2]. by eapply B2.
Qed.

Lemma bad_detach s K K' a u r k x : reach s -> stores s K -> receiver s a k x -> step s (OpDetach a) = Ret (u, r) ->
  stores u K' -> last_not_first K x -> alone s K x.
Proof.
  intros R Hst Hr E HK' (p & ks & Hk & Hl & Hh). destruct (last_list ks x Hl Hh) as (f & m & ->).
  assert (is_Some (K !! x)) as Hx. { apply (wf_dom _ (proj2 Hst) p). eexists. split; [exact Hk|]. by apply elem_of_last. }
  destruct (alone_dec s K x (proj2 Hst) Hx) as [A|A]; [exact A|exfalso].
  destruct (detach_exact s K a k x p f m R Hst Hr Hk) as (s' & g & t & t' & K2 & E' & _ & _ & _ & _ & _ & _ & B). rewrite E in E'. injection E' as <- _.
  exact (proj2 (B A) K' HK').
Qed.
Lemma bad_replace s K K' a u r k x : reach s -> stores s K -> receiver s a k x -> step s (OpReplace a) = Ret (u, r) ->
  stores u K' -> last_not_first K x -> K !! x = Some [] -> alone s K x.
Proof.
  intros R Hst Hr E HK' (p & ks & Hk & Hl & Hh) H0. destruct (last_list ks x Hl Hh) as (f & m & ->).
  assert (is_Some (K !! x)) as Hx by eauto.
  destruct (alone_dec s K x (proj2 Hst) Hx) as [A|A]; [exact A|exfalso].
  destruct (replace_exact s K a k x p f m R Hst Hr Hk H0) as (s' & g & t & t' & K2 & E' & _ & _ & _ & _ & _ & B). rewrite E in E'. injection E' as <- _.
  exact (proj2 (B A) K' HK').
Qed.

(** A refused move. *)
Lemma bad_no_place s K K' a u r k x ad j y p : reach s -> stores s K -> receiver s a k x -> s_hands s !! j = Some (HNode Hot y) ->
  step s (OpMove a ad j) = Ret (u, r) -> sinv u K' -> child_of K p x -> ~ no_place K x ad y.
Proof.
  intros R Hst Hr Hj E S' Hc Hn. pose proof (reach_stores_inv s K R Hst) as I. pose proof (i_s _ _ I) as S0. pose proof (proj2 Hst) as W.
  destruct (decide (tree_of s x = tree_of s y)) as [Et|Et].
  - destruct (move_same_fails s K a k x ad j y p R Hst Hr Hj Hc Et Hn) as (K1 & g & s' & E' & Hu & Re & Co). rewrite E in E'. injection E' as <- _.
    pose proof (cut_sturdy K p x g u W Hc Co) as D.
    assert (K' = K1) as ->. { apply (links_unique (s_nodes g) (s_nodes u)); [apply Re|exact (s_rep _ _ S')|apply D|apply D]. }
    destruct (unlinked_wf K x K1 W Hu) as [_ Ht]. destruct (s_top _ _ S' x Ht) as (t & tr & A & B & C).
    rewrite (sd_trees _ _ D), (re_trees _ _ _ Re) in B. destruct (s_root _ _ S0 t tr B) as [F _]. rewrite C in F. by apply (proj2 F p).
  - destruct (move_other_fails s K a k x ad j y p R Hst Hr Hj Hc Et Hn) as (K1 & K2 & t & t' & g & s' & E' & Ex & Ey & Hu & Cy & Sg & Ht & Hrt & Co). rewrite E in E'. injection E' as <- _.
    pose proof (cut_sturdy K p x g u W Hc Co) as D.
    assert (K' = K2) as ->. { apply (links_unique (s_nodes g) (s_nodes u)); [apply Sg|exact (s_rep _ _ S')|apply D|apply D]. }
    destruct (s_top _ _ S' x Ht) as (t2 & tr & A & B & C). rewrite (sd_trees _ _ D) in B.
    pose proof (Hrt t2 (mk_is_Some _ _ B)) as F. rewrite B in F. simpl in F. destruct (s_trees s !! t2) as [tr0|] eqn:B0; [|done]. simpl in F. injection F as F.
    destruct (s_root _ _ S0 t2 tr0 B0) as [F0 _]. rewrite <- F, C in F0. by apply (proj2 F0 p).
Qed.
(** A move below itself. *)
Lemma bad_below s K K' a u r k x ad j y p : reach s -> stores s K -> receiver s a k x -> s_hands s !! j = Some (HNode Hot y) ->
  step s (OpMove a ad j) = Ret (u, r) -> sinv u K' -> child_of K p x -> ~ no_place K x ad y -> ~ below K x y.
Proof.
  intros R Hst Hr Hj E S' Hc Hn Hb. pose proof (proj2 Hst) as W.
  destruct (move_below s K a k x ad j y p R Hst Hr Hj Hc Hb Hn) as (K1 & g & s' & q & E' & _ & Re & Co & Hc1 & Hb1). rewrite E in E'. injection E' as <- _.
  pose proof (cut_sturdy K p x g u W Hc Co) as D.
  assert (K' = K1) as ->. { apply (links_unique (s_nodes g) (s_nodes u)); [apply Re|exact (s_rep _ _ S')|apply D|apply D]. }
  exact (no_cycle K1 q x (s_wf _ _ S') Hc1 Hb1).
Qed.
(** The last of several siblings. *)
Lemma bad_last s K K' a u r k x ad j y : reach s -> stores s K -> receiver s a k x -> s_hands s !! j = Some (HNode Hot y) ->
  step s (OpMove a ad j) = Ret (u, r) -> sinv u K' -> ~ below K x y -> has_place K ad y -> last_not_first K x -> alone s K x.
Proof.
  intros R Hst Hr Hj E S' Hb Hp (p & ks & Hk & Hl & Hh). pose proof (proj2 Hst) as W. destruct (last_list ks x Hl Hh) as (f & m & ->).
  assert (is_Some (K !! x)) as Hx. { apply (wf_dom _ W p). eexists. split; [exact Hk|]. by apply elem_of_last. }
  assert (stores u K') as Su by (split; [apply (s_rep _ _ S')|apply (s_wf _ _ S')]).
  destruct (alone_dec s K x W Hx) as [A|A]; [exact A|exfalso].
  destruct (decide (tree_of s x = tree_of s y)) as [Et|Et].
  - destruct (move_same_exact s K a k x ad j y p f m R Hst Hr Hj Hk Et Hb Hp) as (K1 & ks' & Hm & Hk' & _ & B).
    destruct (decide (last ks' = Some x)) as [Hlast|Hlast].
    + pose proof (last_place_dest K x ad y K1 p f m ks' W Hk Hm Hk' Hlast) as Hd.
      destruct (move_last_place s K a k x ad j y p f m R Hst Hr Hj Hk Hd) as (g & s' & E' & Re & Da). rewrite E in E'. injection E' as <- _.
      assert (is_Some (s_nodes g !! x)) as [nd Hnd]. { apply (rep_dom _ _ (proj1 (re_stores _ _ _ Re))). destruct (decide (p = x)) as [->|]; [rewrite lookup_insert; eauto|by rewrite lookup_insert_ne]. }
      pose proof (dg_node _ _ _ _ _ Da) as Dx. rewrite Hnd in Dx. simpl in Dx.
      assert (is_Some (K' !! x)) as Hx'. { apply (rep_dom _ _ (s_rep _ _ S')). rewrite Dx. eauto. }
      destruct (SpecFacts.top_or_child K' x Hx') as [Ht|(q & ks2 & Hq & Hin)].
      * destruct (rep_top _ _ (s_rep _ _ S') x Ht) as (F & _). unfold fparent in F. by rewrite Dx in F.
      * apply elem_of_list_lookup in Hin as [i Hi]. destruct (rep_linked _ _ (s_rep _ _ S') q ks2 Hq i x Hi) as (_ & F & _).
        unfold fnext in F. rewrite Dx in F. simpl in F. symmetry in F. pose proof (NoDup_lookup _ _ _ _ (wf_nodup _ (s_wf _ _ S') q ks2 Hq) Hi F). lia.
    + destruct (B Hlast) as (s' & g & f' & E' & _ & _ & _ & _ & Bad). rewrite E in E'. injection E' as <- _. exact (Bad K' Su).
  - destruct (move_other_exact s K a k x ad j y p f m R Hst Hr Hj Hk Et Hp) as (s' & g & t & t' & K2 & K3 & E' & _ & _ & _ & _ & _ & _ & _ & _ & _ & B). rewrite E in E'. injection E' as <- _.
    exact (proj2 (B A) K' Su).
Qed.
(** A whole tree. *)
Lemma bad_whole s K K' a u r k x ad j y : reach s -> stores s K -> receiver s a k x -> s_hands s !! j = Some (HNode Hot y) ->
  step s (OpMove a ad j) = Ret (u, r) -> sinv u K' -> is_top K x -> tree_of s x <> tree_of s y -> K !! x = Some [] /\ alone s K x /\ has_place K ad y.
Proof.
  intros R Hst Hr Hj E S' Ht Et. pose proof (reach_stores_inv s K R Hst) as I. pose proof (i_s _ _ I) as S0. pose proof (proj2 Hst) as W.
  destruct (receiver_facts s K a k x I Hr) as (i0 & t & Hi0 & Ex & Htt & _ & Hax & _).
  destruct (ApiFacts7.handle_tree s K j Hot y R Hst Hj) as (t' & rc & lk & _ & Ey & _). assert (t <> t') as Htn by congruence.
  assert (is_Some (K !! y)) as Hy. { apply (rep_dom _ _ (proj1 Hst)). eapply handle_alive; [exact I|exact Hj]. }
  assert (forall tr, s_trees s !! t = Some tr -> t_root tr = x) as Hroot.
  { intros tr B. destruct (s_top _ _ S0 x Ht) as (t2 & tr2 & A2 & B2 & C2). assert (t2 = t) as -> by congruence. congruence. }
  assert (has_place K ad y \/ no_place K x ad y) as HP.
  { destruct (has_place_dec K ad y W Hy) as [A|[A B]]; [by left|right; split; [exact B|by right]]. }
  destruct (tree_handle_dec s t) as [[i Hi]|Hno].
  { exfalso. assert (hands_over s K x t' u) as Ho.
    { destruct HP as [HP|HP].
      - destruct (graft_kept s K a k x ad j y t t' i R Hst Hr Hj Ht Ex Ey Htn Hi HP) as (s' & K3 & E' & Ho & _). rewrite E in E'. by injection E' as <- _.
      - destruct (graft_kept_refused s K a k x ad j y t t' i R Hst Hr Hj Ht Ex Ey Htn Hi HP) as (s' & E' & Ho & _). rewrite E in E'. by injection E' as <- _. }
    destruct Htt as [tr B]. pose proof (ho_roots _ _ _ _ _ Ho t) as F. rewrite B in F. simpl in F. rewrite (Hroot tr B) in F.
    destruct (s_trees u !! t) as [tr'|] eqn:B'; [|done]. simpl in F. injection F as F. destruct (s_root _ _ S' t tr' B') as [_ G]. rewrite F in G.
    rewrite (ho_in _ _ _ _ _ Ho x (below_refl _ _)) in G. congruence. }
  assert (held_node s x) as Hh by (exists i0, k; exact Hi0).
  assert (forall z, tree_of s z = Some t -> is_Some (K !! z) -> below K x z) as Hall.
  { intros z Hz Hkz. destruct (top_exists K z W Hkz) as (q & Hq & Hqz). assert (tree_of s z = tree_of s q) as Eq.
    { clear -S0 Hqz. induction Hqz as [|p c Hb IH Hc]; [done|]. rewrite (s_child _ _ S0 p c Hc). exact IH. }
    destruct (s_top _ _ S0 q Hq) as (t2 & tr2 & A2 & B2 & C2). assert (t2 = t) as -> by congruence. rewrite (Hroot tr2 B2) in C2. by subst q. }
  assert (alone s K x) as Ha.
  { intros t2 E2. assert (t2 = t) as -> by congruence. split; [exact Hno|]. intros i k' z Hz Ez. apply Hall; [exact Ez|].
    apply (rep_dom _ _ (proj1 Hst)). eapply handle_alive; [exact I|exact Hz]. }
  destruct HP as [HP|HP].
  - split; [|split; [exact Ha|exact HP]]. destruct (K !! x) as [ks|] eqn:Ekx; [|destruct (proj1 Ht); congruence].
    destruct (graft_lost s K a k x ad j y t t' R Hst Hr Hj Ht Ex Ey Htn Hno HP) as (s' & K2 & K3 & E' & Fa & At & W3 & St). rewrite E in E'. injection E' as <- _.
    f_equal. destruct (Fa x) as (_ & Fa2 & _). specialize (Fa2 (below_refl _ _) Hh).
    assert (K3 !! x = Some []) as E3.
    { assert (y <> x) as Hyx by congruence. destruct ad; simpl in At.
      - apply attached_first in At as (l & _ & ->). by rewrite lookup_insert_ne.
      - apply attached_last in At as (l & _ & ->). by rewrite lookup_insert_ne.
      - apply attached_before in At as (q & l & Hq & Hin & ->). rewrite lookup_insert_ne; [done|]. intros ->. rewrite Fa2 in Hq. injection Hq as <-. by apply elem_of_nil in Hin.
      - apply attached_after in At as (q & l & Hq & Hin & ->). rewrite lookup_insert_ne; [done|]. intros ->. rewrite Fa2 in Hq. injection Hq as <-. by apply elem_of_nil in Hin. }
    destruct (st_links _ _ _ _ _ _ _ St) as (h & Rh & _ & _ & F1 & _). rewrite (rep_first _ _ Rh _ _ E3) in F1. simpl in F1.
    assert (is_Some (K' !! x)) as [ks' E2]. { apply (rep_dom _ _ (s_rep _ _ S')). apply (st_alive _ _ _ _ _ _ _ St). eauto. }
    rewrite (rep_first _ _ (s_rep _ _ S') _ _ E2) in F1. destruct ks' as [|]; [|discriminate F1].
    pose proof (st_stale _ _ _ _ _ _ _ St) as N. rewrite (rep_nch _ _ (s_rep _ _ S') _ _ E2), (rep_nch _ _ (proj1 Hst) _ _ Ekx) in N. by destruct ks.
  - exfalso. destruct (graft_lost_refused s K a k x ad j y t t' R Hst Hr Hj Ht Ex Ey Htn Hno HP) as (s' & K2 & E' & Fa & St). rewrite E in E'. injection E' as <- _.
    destruct (Fa x) as (_ & Fa2 & _). specialize (Fa2 (below_refl _ _) Hh).
    assert (is_top K2 x) as Ht2.
    { split; [eauto|]. intros q (l & Hq & Hin). destruct (below_dec K x q W (proj1 Ht)) as [Hb|Hb].
      - destruct (Fa q) as (_ & G1 & G2). destruct (K2 !! q) eqn:Eq; [|done]. injection Hq as ->.
        destruct (decide (l = [])) as [->|Hl]; [by apply elem_of_nil in Hin|]. apply Hl.
        assert (~ held_node s q) as Hnh. { intros Hhq. pose proof (G1 Hb Hhq) as Z. injection Z as ->. done. }
        pose proof (G2 Hb Hnh) as Z. discriminate Z.
      - destruct (Fa q) as (G0 & _). rewrite (G0 Hb) in Hq. apply (proj2 Ht q). by exists l. }
    destruct (st_links _ _ _ _ _ _ _ St) as (h & Rh & _ & F0 & _). rewrite (proj1 (rep_top _ _ Rh x Ht2)) in F0.
    assert (is_Some (K' !! x)) as Hx'. { apply (rep_dom _ _ (s_rep _ _ S')). apply (st_alive _ _ _ _ _ _ _ St). eauto. }
    assert (is_top K' x) as Ht'.
    { destruct (SpecFacts.top_or_child K' x Hx') as [A|(q & l & Hq & Hin)]; [exact A|]. apply elem_of_list_lookup in Hin as [i Hi].
      destruct (rep_linked _ _ (s_rep _ _ S') q l Hq i x Hi) as (F & _). congruence. }
    destruct (s_top _ _ S' x Ht') as (t2 & tr2 & A2 & B2 & C2). rewrite (st_in _ _ _ _ _ _ _ St x (below_refl _ _) Hh) in A2. injection A2 as <-.
    assert (t' <> t) as Htn' by congruence. pose proof (st_roots _ _ _ _ _ _ _ St t' Htn') as F. rewrite B2 in F. simpl in F.
    destruct (s_trees s !! t') as [tr0|] eqn:B0; [|done]. simpl in F. injection F as F. destruct (s_root _ _ S0 t' tr0 B0) as [_ G]. rewrite <- F, C2 in G. congruence.
Qed.

Lemma safe_exact s K o u r : reach s -> stores s K -> step s o = Ret (u, r) -> (safe s K o <-> exists K', sinv u K').
Proof.
  intros R Hst E. split.
  { intros Hs. pose proof (reach_step s K o u r R Hst Hs E) as Ru. destruct (reach_inv u Ru) as [K' I]. exists K'. exact (i_s _ _ I). }
  intros [K' S']. assert (stores u K') as Su by (split; [apply (s_rep _ _ S')|apply (s_wf _ _ S')]).
  destruct o; try exact Logic.I; simpl.
  - intros k x Hr Hl Hk. by eapply bad_replace.
  - intros k x Hr Hl. by eapply bad_detach.
  - intros k x y Hr Hj. pose proof (proj2 Hst) as W. pose proof (reach_stores_inv s K R Hst) as I.
    assert (is_Some (K !! x)) as Hx. { destruct (receiver_facts s K a k x I Hr) as (i0 & t & Hi0 & _ & _ & _ & Hax & _). by apply (rep_dom _ _ (proj1 Hst)). }
    assert (is_Some (K !! y)) as Hy. { apply (rep_dom _ _ (proj1 Hst)). eapply handle_alive; [exact I|exact Hj]. }
    destruct (SpecFacts.top_or_child K x Hx) as [Ht|[p Hc]].
    + destruct (decide (tree_of s x = tree_of s y)) as [Et|Et]; [left; done|right; right].
      destruct (bad_whole s K K' a u r k x ad j y R Hst Hr Hj E S' Ht Et) as (A & B & C). done.
    + right. left. pose proof (bad_no_place s K K' a u r k x ad j y p R Hst Hr Hj E S' Hc) as Hn.
      pose proof (bad_below s K K' a u r k x ad j y p R Hst Hr Hj E S' Hc Hn) as Hb.
      assert (has_place K ad y) as Hp. { destruct (has_place_dec K ad y W Hy) as [A|[A B]]; [exact A|]. exfalso. apply Hn. split; [exact B|by right]. }
      split; [eauto|]. split; [|split; [exact Hb|exact Hp]]. intros Hl. by eapply bad_last.
Qed.
End SafeExact.

From Verif Require Import SafeSpec.
Section SafeExact2.
Context {T : Type}.
Implicit Types (s u g : sys T) (K : forest) (x y p f : nid).

Lemma whole_alone s K x t : reach s -> stores s K -> is_top K x -> tree_of s x = Some t -> (forall i, s_hands s !! i <> Some (HTree t)) -> alone s K x.
Proof.
  intros R Hst Ht Ex Hno t2 E2. pose proof (reach_stores_inv s K R Hst) as I. pose proof (i_s _ _ I) as S0. assert (t2 = t) as -> by congruence. split; [exact Hno|].
  intros i k z Hz Ez. assert (is_Some (K !! z)) as Hkz. { apply (rep_dom _ _ (proj1 Hst)). eapply handle_alive; [exact I|exact Hz]. }
  destruct (top_exists K z (proj2 Hst) Hkz) as (q & Hq & Hqz). assert (tree_of s z = tree_of s q) as Eq.
  { clear -S0 Hqz. induction Hqz as [|p c Hb IH Hc]; [done|]. rewrite (s_child _ _ S0 p c Hc). exact IH. }
  destruct (s_top _ _ S0 q Hq) as (t2 & tr2 & A2 & B2 & C2). destruct (s_top _ _ S0 x Ht) as (t3 & tr3 & A3 & B3 & C3).
  assert (t2 = t) as -> by congruence. assert (t3 = t) as -> by congruence. assert (q = x) as -> by congruence. exact Hqz.
Qed.

Lemma damaging_not_safe s K o : reach s -> stores s K -> damaging s K o -> ~ safe s K o.
Proof.
  intros R Hst. pose proof (proj2 Hst) as W. destruct o; simpl; try (intros []; fail).
  - intros (k & x & Hr & Hl & H0 & Ha) Hs. apply Ha. by eapply Hs.
  - intros (k & x & Hr & Hl & Ha) Hs. apply Ha. by eapply Hs.
  - intros (k & x & y & Hr & Hj & D) Hs. destruct (Hs k x y Hr Hj) as [[Ht Et]|[([p Hc] & Hl & Hb & Hp)|(Ht & H0 & Et & Ha & Hp)]].
    + destruct D as [([p Hc] & _)|(_ & Et' & _)]; [by apply (proj2 Ht p)|done].
    + destruct D as [(_ & [[D1 D2]|[D|D]])|(Ht & _)]; [by apply D2, Hl|done|done|by apply (proj2 Ht p)].
    + destruct D as [([p Hc] & _)|(_ & _ & [D|[(t & i & E1 & E2)|D]])]; [by apply (proj2 Ht p)|done| |done].
      destruct (Ha t E1) as [B _]. by apply (B i).
Qed.
Lemma undamaging_safe s K o : reach s -> stores s K -> ~ damaging s K o -> safe s K o.
Proof.
  intros R Hst. pose proof (proj2 Hst) as W. pose proof (reach_stores_inv s K R Hst) as I. destruct o; try (intros _; exact Logic.I); simpl; intros D.
  - intros k x Hr Hl H0. destruct (alone_dec s K x W ltac:(eauto)) as [A|A]; [exact A|]. exfalso. apply D. by exists k, x.
  - intros k x Hr Hl. destruct (receiver_facts s K a k x I Hr) as (i0 & t & Hi0 & _ & _ & _ & Hax & _). apply (rep_dom _ _ (proj1 Hst)) in Hax.
    destruct (alone_dec s K x W Hax) as [A|A]; [exact A|]. exfalso. apply D. by exists k, x.
  - intros k x y Hr Hj. destruct (receiver_facts s K a k x I Hr) as (i0 & t & Hi0 & Ex & _ & _ & Hax & _). apply (rep_dom _ _ (proj1 Hst)) in Hax.
    assert (is_Some (K !! y)) as Hy. { apply (rep_dom _ _ (proj1 Hst)). eapply handle_alive; [exact I|exact Hj]. }
    assert (has_place K ad y \/ ~ has_place K ad y) as HP.
    { destruct (has_place_dec K ad y W Hy) as [A|[A B]]; [by left|right]. intros Hp. destruct B as [-> | ->]; destruct Hp as [q Hq]; by apply (proj2 A q). }
    destruct (SpecFacts.top_or_child K x Hax) as [Ht|[p Hc]].
    + destruct (decide (tree_of s x = tree_of s y)) as [Et|Et]; [left; done|right; right].
      assert (forall P : Prop, (P -> K !! x <> Some [] \/ (exists t i, tree_of s x = Some t /\ s_hands s !! i = Some (HTree t)) \/ ~ has_place K ad y) -> ~ P) as N.
      { intros P HPn Hp. apply D. exists k, x, y. split; [exact Hr|]. split; [exact Hj|]. right. split; [exact Ht|]. split; [exact Et|]. exact (HPn Hp). }
      split; [exact Ht|]. split.
      { destruct (decide (K !! x = Some [])) as [A|A]; [exact A|]. exfalso. apply (N _ (fun _ : True => or_introl A) Logic.I). }
      split; [exact Et|]. split.
      { apply (whole_alone s K x t R Hst Ht Ex). intros i Hi. apply (N True); [|exact Logic.I]. intros _. right. left. exists t, i. done. }
      destruct HP as [A|A]; [exact A|]. exfalso. apply (N _ (fun _ : True => or_intror (or_intror A)) Logic.I).
    + right. left. assert (forall P : Prop, (P -> (last_not_first K x /\ ~ alone s K x) \/ below K x y \/ ~ has_place K ad y) -> ~ P) as N.
      { intros P HPn Hp. apply D. exists k, x, y. split; [exact Hr|]. split; [exact Hj|]. left. split; [eauto|]. exact (HPn Hp). }
      split; [eauto|]. split.
      { intros Hl. destruct (alone_dec s K x W Hax) as [A|A]; [exact A|]. exfalso. apply (N _ (fun _ : True => or_introl (conj Hl A)) Logic.I). }
      split; [apply (N _ (fun A => or_intror (or_introl A)))|].
      destruct HP as [A|A]; [exact A|]. exfalso. apply (N _ (fun _ : True => or_intror (or_intror A)) Logic.I).
Qed.

Lemma damage_iff s K o u r : reach s -> stores s K -> step s o = Ret (u, r) -> (undamaged u <-> ~ damaging s K o).
Proof.
  intros R Hst E. split.
  - intros U D. apply (damaging_not_safe s K o R Hst D). by apply (safe_exact s K o u r R Hst E).
  - intros D. apply (safe_exact s K o u r R Hst E). by apply undamaging_safe.
Qed.
Lemma damaging_runs s K o : reach s -> stores s K -> damaging s K o -> exists u r, step s o = Ret (u, r) /\ ~ undamaged u.
Proof.
  intros R Hst D. enough (exists u r, step s o = Ret (u, r)) as (u & r & E).
  { exists u, r. split; [exact E|]. intros U. by apply (damage_iff s K o u r R Hst E). }
  destruct o; simpl in D; try destruct D.
  - destruct H as (x0 & Hr & (p & ks & Hk & Hl & Hh) & H0 & Ha). destruct (last_list ks x0 Hl Hh) as (f & m & ->).
    destruct (replace_exact s K a x x0 p f m R Hst Hr Hk H0) as (s' & g & t & t' & K2 & E' & _). eauto.
  - destruct H as (x0 & Hr & (p & ks & Hk & Hl & Hh) & Ha). destruct (last_list ks x0 Hl Hh) as (f & m & ->).
    destruct (detach_exact s K a x x0 p f m R Hst Hr Hk) as (s' & g & t & t' & K2 & E' & _). eauto.
  - destruct H as (x0 & y & Hr & Hj & _). destruct (move_total s K a x x0 ad j y R Hst Hr Hj) as (s' & r & E & _). eauto.
Qed.
Lemma reach_sound s : reach s <-> sound s.
Proof.
  split.
  - induction 1 as [|s K o s' r R IH Hst Hs E]; [constructor|]. eapply sound_step; [exact IH|exact E|]. by apply (safe_exact s K o s' r R Hst E).
  - induction 1 as [|s o s' r _ IH E U]; [constructor|]. destruct (reach_inv s IH) as [K I]. pose proof (inv_stores _ _ I) as Hst.
    eapply reach_step; [exact IH|exact Hst| |exact E]. by apply (safe_exact s K o s' r IH Hst E).
Qed.
Lemma sound_damage s K o u r : sound s -> stores s K -> step s o = Ret (u, r) -> (undamaged u <-> ~ damaging s K o).
Proof. intros R. apply damage_iff. by apply reach_sound. Qed.
Lemma sound_runs s K o : sound s -> stores s K -> damaging s K o -> exists u r, step s o = Ret (u, r) /\ ~ undamaged u.
Proof. intros R. apply damaging_runs. by apply reach_sound. Qed.
Lemma sound_inv s : sound s -> exists K, inv s K.
Proof. intros R. apply reach_inv. by apply reach_sound. Qed.
End SafeExact2.
