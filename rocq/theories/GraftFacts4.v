(** * GraftFacts4: moves of a whole tree that nothing but node handles keeps. *)
From Verif Require Import Heap Edit System SysSpec CardFacts HeapFacts SpecFacts NavFacts NavFacts2 EditFacts EditFacts2 EditFacts3 EditFacts4 EditFacts5 IterSpec RoseFacts AdjFacts TravFacts TdFacts TdFacts2 SysFacts SysFacts2 SysFacts3 SysFacts4 SysFacts5 SysFacts6 SysFacts7 SysFacts8 SysFacts9 SysFacts10 SysFacts11 SysFacts12 SysFacts13 SysFacts14 SysFacts15 GraftFacts TearFacts GraftFacts3 Garble ApiSpec ApiFacts ApiFacts2 ApiFacts3 ApiFacts4 ApiFacts5 ApiFacts6 MisledSpec Misled Misled2 Misled3 Misled4 Misled5 Misled6 Misled7 Misled8 MoveSpec MoveFacts GraftSpec GraftFacts2 Spec.

Section GraftFacts4.
Context {T : Type}.
Implicit Types (h : heap T) (s : sys T) (K : forest).

Section After.
Variables (s0 : sys T) (K : forest) (x : nid) (ro : rose nid) (t0 t' : tid) (s2 : sys T).
Hypothesis (Hrep : rep (s_nodes s0) K) (Hwf : wf K) (Htop : is_top K x) (Hsh : shape K x ro).
Hypothesis (Hhand : handed s0 x).
Hypothesis (W : wrecked s0 ro t0 t' s2 []).
Notation ns := (rose_nodes ro).
Notation h0 := (s_nodes s0).
Notation h2 := (s_nodes s2).

Lemma x_in : x ∈ ns.
Proof. apply (shape_nodes _ _ _ _ Hsh). constructor. Qed.
Lemma ro_up p c : child_of K p c -> c ∈ ns -> p ∈ ns.
Proof.
  intros Hc Hin. apply (shape_nodes _ _ _ _ Hsh) in Hin. inversion Hin as [|q z Hb Hq]; subst; [exfalso; by apply (proj2 Htop p)|].
  rewrite <-(wf_uniq _ Hwf _ _ _ Hq Hc). by apply (shape_nodes _ _ _ _ Hsh).
Qed.
Lemma ro_down p c : child_of K p c -> p ∈ ns -> c ∈ ns.
Proof. intros Hc Hin. apply (shape_nodes _ _ _ _ Hsh) in Hin. apply (shape_nodes _ _ _ _ Hsh). by econstructor. Qed.

(** Links from outside lead outside. *)
Lemma out_links y z : y ∉ ns -> fparent h0 y = Some z \/ ffirst h0 y = Some z \/ fnext h0 y = Some z \/ fprev h0 y = Some z -> z ∉ ns.
Proof.
  intros Hy Hz Hin. apply Hy.
  assert (is_Some (K !! y)) as HyK.
  { apply (rep_dom _ _ Hrep). unfold fparent, ffirst, fnext, fprev in Hz. destruct (h0 !! y); [eauto|]. by destruct Hz as [?|[?|[?|?]]]. }
  destruct Hz as [Hz|[Hz|Hz]].
  - destruct (SpecFacts.top_or_child K y HyK) as [Ht|[p Hp]].
    + destruct (rep_top _ _ Hrep _ Ht) as (E & _). congruence.
    + rewrite (fparent_child _ _ _ _ Hrep Hp) in Hz. injection Hz as <-. by eapply ro_down.
  - destruct (ffirst_inv _ _ _ _ Hrep Hz) as (ks & Hk & Hi). eapply ro_up; [|exact Hin]. exists ks. split; [done|]. by eapply elem_of_list_lookup_2.
  - destruct (SpecFacts.top_or_child K y HyK) as [Ht|[p Hp]].
    + destruct (rep_top _ _ Hrep _ Ht) as (_ & E1 & E2). destruct Hz as [Hz|Hz]; [congruence|]. rewrite E2 in Hz. injection Hz as <-. done.
    + eapply ro_down; [exact Hp|]. destruct Hp as (ks & Hk & Hyk). apply (ro_up p z); [|exact Hin]. exists ks. split; [done|].
      apply elem_of_list_lookup in Hyk as [i Hi]. destruct (rep_linked _ _ Hrep _ _ Hk i y Hi) as (_ & E1 & E2).
      destruct Hz as [Hz|Hz]; [rewrite E1 in Hz; by eapply elem_of_list_lookup_2|]. rewrite E2 in Hz.
      destruct i; [rewrite last_lookup in Hz; by eapply elem_of_list_lookup_2|by eapply elem_of_list_lookup_2].
Qed.

Definition cl (y : nid) (nd : node T) : node T :=
  if decide (y ∈ ns) then mkNode (n_data nd) (n_lend nd) None None None (Some y) 0 (n_mem nd) else nd.
Definition gg (y : nid) (nd : node T) : node T :=
  if decide (y ∈ ns) then
    match h2 !! y with Some nd' => if decide (y = x) then recount (n_nch nd') nd else nd' | None => nd end
  else nd.
Definition hc : heap T := garble cl h2.
Definition K2 : forest := map_imap (fun y ks => if decide (y ∈ ns) then (if decide (y ∈ handed_list s0 ro) then Some [] else None) else Some ks) K.

Lemma K2_lookup y : K2 !! y = if decide (y ∈ ns) then (if decide (y ∈ handed_list s0 ro) then Some [] else None) else K !! y.
Proof.
  unfold K2. rewrite map_lookup_imap. destruct (K !! y) as [ks|] eqn:E; simpl; [done|]. destruct (decide (y ∈ ns)) as [Hy|]; [|done].
  apply (shape_nodes _ _ _ _ Hsh) in Hy. destruct (below_alive K x y Hwf (proj1 Htop) Hy). congruence.
Qed.
Lemma K2_out y : y ∉ ns -> K2 !! y = K !! y.
Proof. intros Hy. by rewrite K2_lookup, decide_False. Qed.
Lemma K2_held y : y ∈ ns -> handed s0 y -> K2 !! y = Some [].
Proof. intros Hy Hh. rewrite K2_lookup, decide_True by done. rewrite decide_True; [done|]. by apply handed_list_ok. Qed.
Lemma K2_gone y : y ∈ ns -> ~ handed s0 y -> K2 !! y = None.
Proof. intros Hy Hh. rewrite K2_lookup, decide_True by done. rewrite decide_False; [done|]. intros F. by apply handed_list_ok in F as [_ F]. Qed.
Lemma K2_child p c : child_of K2 p c -> child_of K p c /\ p ∉ ns /\ c ∉ ns.
Proof.
  intros (ks & Hk & Hin). rewrite K2_lookup in Hk. destruct (decide (p ∈ ns)) as [Hp|Hp].
  - destruct (decide _); [|done]. injection Hk as <-. by apply elem_of_nil in Hin.
  - assert (child_of K p c) as Hc by (by exists ks). split; [done|]. split; [done|]. intros F. apply Hp. by eapply ro_up.
Qed.
Lemma K2_child_out p c : child_of K p c -> p ∉ ns -> child_of K2 p c.
Proof. intros (ks & Hk & Hin) Hp. exists ks. split; [|done]. by rewrite K2_out. Qed.

Lemma alive2 y : y ∈ ns -> is_Some (h2 !! y) <-> handed s0 y.
Proof.
  intros Hy. split.
  - intros Ha. destruct (handed_dec s0 y) as [|Hn]; [done|]. rewrite (w_gone _ _ _ _ _ _ W y Hy Hn ltac:(apply not_elem_of_nil)) in Ha. by destruct Ha.
  - intros Hh. by destruct (w_fields s0 K x ro t0 t' Hrep Hwf Htop Hsh s2 [] y W Hy (or_introl Hh)) as (_ & _ & _ & ?).
Qed.
Lemma hc_lookup y : hc !! y = cl y <$> h2 !! y.
Proof. apply garble_lookup. Qed.
Lemma hc_out y : y ∉ ns -> hc !! y = h0 !! y.
Proof.
  intros Hy. rewrite hc_lookup, (w_out _ _ _ _ _ _ W y Hy). destruct (h0 !! y); [|done]. simpl. unfold cl. by rewrite decide_False.
Qed.
Lemma K2_wf : wf K2.
Proof.
  split.
  - intros p c Hc. destruct (K2_child p c Hc) as (Hk & _ & Hn). rewrite K2_out by done. by eapply wf_dom.
  - intros p ks Hk. rewrite K2_lookup in Hk. destruct (decide (p ∈ ns)); [|by eapply wf_nodup]. destruct (decide _); [|done]. injection Hk as <-. constructor.
  - intros p q c Hp Hq. apply K2_child in Hp as [Hp _]. apply K2_child in Hq as [Hq _]. by eapply wf_uniq.
  - intros y. pose proof (wf_acyclic _ Hwf y) as A. induction A as [y _ IH]. constructor. intros c Hc. apply K2_child in Hc as [Hc _]. by apply IH.
Qed.
Lemma K2_top_x : is_top K2 x.
Proof.
  split; [rewrite (K2_held x x_in Hhand); eauto|]. intros p Hp. apply K2_child in Hp as [Hp _]. by apply (proj2 Htop p).
Qed.
Lemma K2_top y : y ∉ ns -> is_top K2 y -> is_top K y.
Proof.
  intros Hy [A B]. rewrite K2_out in A by done. split; [done|]. intros p Hp. apply (B p). apply K2_child_out; [done|]. intros F. apply Hy. by eapply ro_down.
Qed.
Lemma K2_top' y : y ∉ ns -> is_top K y -> is_top K2 y.
Proof. intros Hy [A B]. split; [by rewrite K2_out|]. intros p Hp. apply K2_child in Hp as [Hp _]. by apply (B p). Qed.
Lemma hc_in y : y ∈ ns -> is_Some (h2 !! y) -> fparent hc y = None /\ ffirst hc y = None /\ fnext hc y = None /\ fprev hc y = Some y /\ fnch hc y = 0.
Proof.
  intros Hy [nd Hnd]. unfold fparent, ffirst, fnext, fprev, fnch. rewrite hc_lookup, Hnd. simpl. unfold cl. rewrite decide_True by done. done.
Qed.
Lemma hc_fields y : y ∉ ns -> fparent hc y = fparent h0 y /\ ffirst hc y = ffirst h0 y /\ fnext hc y = fnext h0 y /\ fprev hc y = fprev h0 y /\ fnch hc y = fnch h0 y.
Proof. intros Hy. unfold fparent, ffirst, fnext, fprev, fnch. by rewrite hc_out. Qed.

Lemma hc_rep : rep hc K2.
Proof.
  split.
  - intros y. rewrite hc_lookup, fmap_is_Some. destruct (decide (y ∈ ns)) as [Hy|Hy].
    + rewrite (alive2 y Hy). destruct (handed_dec s0 y) as [Hh|Hh]; [rewrite (K2_held y Hy Hh); split; [eauto|done]|].
      rewrite (K2_gone y Hy Hh). split; [done|by intros []].
    + rewrite (w_out _ _ _ _ _ _ W y Hy), K2_out by done. apply (rep_dom _ _ Hrep).
  - intros y ks Hk. destruct (decide (y ∈ ns)) as [Hy|Hy].
    + destruct (handed_dec s0 y) as [Hh|Hh]; [|rewrite (K2_gone y Hy Hh) in Hk; done]. rewrite (K2_held y Hy Hh) in Hk. injection Hk as <-.
      by destruct (hc_in y Hy (proj2 (alive2 y Hy) Hh)) as (_ & -> & _).
    + rewrite K2_out in Hk by done. destruct (hc_fields y Hy) as (_ & -> & _). by apply (rep_first _ _ Hrep).
  - intros y ks Hk. destruct (decide (y ∈ ns)) as [Hy|Hy].
    + destruct (handed_dec s0 y) as [Hh|Hh]; [|rewrite (K2_gone y Hy Hh) in Hk; done]. rewrite (K2_held y Hy Hh) in Hk. injection Hk as <-.
      by destruct (hc_in y Hy (proj2 (alive2 y Hy) Hh)) as (_ & _ & _ & _ & ->).
    + rewrite K2_out in Hk by done. destruct (hc_fields y Hy) as (_ & _ & _ & _ & ->). by apply (rep_nch _ _ Hrep).
  - intros y ks Hk i c Hi. assert (child_of K2 y c) as Hc by (exists ks; split; [done|by eapply elem_of_list_lookup_2]).
    apply K2_child in Hc as (_ & Hy & Hc). rewrite K2_out in Hk by done. destruct (hc_fields c Hc) as (-> & _ & -> & -> & _). by apply (rep_linked _ _ Hrep _ _ Hk).
  - intros y Ht. destruct (decide (y ∈ ns)) as [Hy|Hy].
    + destruct (handed_dec s0 y) as [Hh|Hh]; [|destruct Ht as [A _]; rewrite (K2_gone y Hy Hh) in A; by destruct A].
      by destruct (hc_in y Hy (proj2 (alive2 y Hy) Hh)) as (-> & _ & -> & -> & _).
    + destruct (hc_fields y Hy) as (-> & _ & -> & -> & _). by apply (rep_top _ _ Hrep), K2_top.
Qed.

Lemma kept_fields y : y ∈ ns -> handed s0 y -> exists nd nd0, h2 !! y = Some nd /\ h0 !! y = Some nd0 /\ links nd = links (bare nd0).
Proof.
  intros Hy Hh. pose proof (w_kept _ _ _ _ _ _ W y Hy (or_introl Hh)) as E. destruct (proj2 (alive2 y Hy) Hh) as [nd Hnd]. rewrite Hnd in E.
  destruct (h0 !! y) as [nd0|]; [|done]. cbn [fmap option_fmap option_map] in E. exists nd, nd0. split; [done|]. split; [done|]. exact (Some_inj _ _ E).
Qed.

Lemma gg_hc : garble gg hc = h2.
Proof.
  apply map_eq. intros y. rewrite garble_lookup, hc_lookup. destruct (h2 !! y) as [nd|] eqn:E; [|done]. simpl. f_equal. unfold gg, cl.
  destruct (decide (y ∈ ns)) as [Hy|]; [|done]. rewrite E. destruct (decide (y = x)) as [->|]; [|done].
  destruct (kept_fields x x_in Hhand) as (nd' & nd0 & A & B & C). rewrite E in A. injection A as <-.
  destruct (rep_top _ _ Hrep _ Htop) as (P1 & P2 & P3). unfold fparent, fnext, fprev in P1, P2, P3. rewrite B in P1, P2, P3. simpl in P1, P2, P3.
  unfold links in C. simpl in C. unfold recount. destruct nd as [a1 a2 a3 a4 a5 a6 a7 a8], nd0 as [b1 b2 b3 b4 b5 b6 b7 b8]. simpl in *. congruence.
Qed.

Definition connected (y : nid) : Prop := y ∉ ns \/ y = x.
Lemma gg_tidy y : y ∉ ns -> tidy gg y.
Proof. intros Hy nd. unfold gg. by rewrite decide_False. Qed.
Lemma gg_calm y : connected y -> calm gg y.
Proof.
  intros [Hy| ->]; [left; by apply gg_tidy|]. right. destruct (kept_fields x x_in Hhand) as (nd' & nd0 & A & _). exists (n_nch nd'). intros nd. unfold gg.
  rewrite decide_True by exact x_in. rewrite A. by rewrite decide_True.
Qed.
Lemma connected_roams : roams connected hc.
Proof.
  intros y z [Hy| ->] Hz.
  - left. destruct (hc_fields y Hy) as (E1 & E2 & E3 & E4 & _). rewrite E1, E2, E3, E4 in Hz. by eapply out_links.
  - destruct (hc_in x x_in (proj2 (alive2 x x_in) Hhand)) as (E1 & E2 & E3 & E4 & _). rewrite E1, E2, E3, E4 in Hz.
    destruct Hz as [?|[?|[?|Hz]]]; try done. right. congruence.
Qed.

Lemma place_after ad y : y ∉ ns -> is_Some (K !! y) -> adoptable K ad y ->
  exists K3 h3, attached K2 x (dest_of ad y) K3 /\ insert_orphan h2 x false (dest_of ad y) = Ret (garble gg h3, HOk tt) /\ rep h3 K3 /\ wf K3 /\ same_meta hc h3 /\
    (forall z, is_Some (K3 !! z) <-> is_Some (K2 !! z)).
Proof.
  intros Hy HyK Had.
  assert (adoptable K2 ad y) as Had2.
  { destruct ad; try exact Had; destruct Had as [p Hp]; exists p; (apply K2_child_out; [done|]); intros F; apply Hy; by eapply ro_down. }
  destruct (adoptable_attached K2 ad y x) as [K3 Hatt]; [by rewrite K2_out|done|].
  destruct (attached_child K2 x _ K3 K2_wf Hatt) as (p & Hp & HpK & _ & Hdom).
  assert (p ∉ ns) as Hpn. { destruct ad; simpl in Hp; subst; try done; by apply K2_child in Hp as (_ & Hp & _). }
  assert (~ below K2 x p) as Hnb.
  { intros Hb. assert (forall z, below K2 x z -> z = x) as A.
    { intros z Hz. induction Hz as [|q c _ IH Hc']; [done|]. exfalso. apply K2_child in Hc' as (_ & F & _). apply F. rewrite IH. exact x_in. }
    apply Hpn. rewrite (A p Hb). exact x_in. }
  destruct (insert_orphan_ok hc K2 x (dest_of ad y) K3 p false hc_rep K2_wf K2_top_x Hatt Hp Hnb) as (h3 & E3 & Hr3 & Hw3 & M3).
  exists K3, h3. split; [exact Hatt|]. split; [|done].
  rewrite <-gg_hc. rewrite (gb_insert gg connected gg_calm hc x false (dest_of ad y) connected_roams).
  - unfold after. rewrite E3. reflexivity.
  - by right.
  - rewrite dest_of_anchor. by left.
  - destruct ad; simpl; try (by apply gg_tidy); intros q Hq.
    + simpl in Hp. rewrite (parent_link_child _ _ _ _ hc_rep Hp) in Hq. injection Hq as <-. by apply gg_tidy.
    + simpl in Hp. rewrite (parent_link_child _ _ _ _ hc_rep Hp) in Hq. injection Hq as <-. by apply gg_tidy.
Qed.

Lemma after_meta h3 : same_meta hc h3 -> same_meta h2 (garble gg h3).
Proof.
  intros M y. specialize (M y). unfold fmeta in *. rewrite garble_lookup. rewrite hc_lookup in M. destruct (h2 !! y) as [nd|] eqn:E2, (h3 !! y) as [nd3|] eqn:E3; try done.
  simpl in *. unfold gg. destruct (decide (y ∈ ns)) as [Hy|Hy].
  - rewrite E2. destruct (decide (y = x)); [|done]. simpl. etrans; [exact M|]. unfold cl. by rewrite decide_True by done.
  - etrans; [exact M|]. unfold cl. by rewrite decide_False by done.
Qed.
Lemma below_ns y : below K x y <-> y ∈ ns.
Proof. by rewrite (shape_nodes _ _ _ _ Hsh). Qed.

Lemma after_strands h3 K3 : rep h3 K3 -> same_meta hc h3 -> (forall z, is_Some (K3 !! z) <-> is_Some (K2 !! z)) ->
  strands s0 K x t0 t' K3 (with_nodes s2 (garble gg h3)).
Proof.
  intros R3 M Hdom. pose proof (after_meta h3 M) as M2.
  assert (forall y, y ∈ ns -> handed s0 y -> exists nd3, h3 !! y = Some nd3) as Hal.
  { intros y Hy Hh. destruct (proj2 (rep_dom _ _ R3 y)) as [nd3 ?]; [|by exists nd3]. apply Hdom. rewrite (K2_held y Hy Hh). eauto. }
  split.
  - exact (w_hands _ _ _ _ _ _ W).
  - exact (w_t0 _ _ _ _ _ _ W).
  - exact (w_roots _ _ _ _ _ _ W).
  - intros y. simpl. rewrite garble_lookup, fmap_is_Some. apply (rep_dom _ _ R3).
  - intros y Hy. rewrite relink_payload by done. unfold payload. destruct (decide (y ∈ ns)) as [Hin|Hin].
    + assert (handed s0 y) as Hh. { destruct (handed_dec s0 y) as [|Hn]; [done|]. apply Hdom in Hy. rewrite (K2_gone y Hin Hn) in Hy. by destruct Hy. }
      destruct (kept_fields y Hin Hh) as (nd & nd0 & A & B & C). rewrite A, B. simpl. unfold links in C. simpl in C. congruence.
    + by rewrite (w_out _ _ _ _ _ _ W y Hin).
  - intros y Hy Hh. rewrite relink_tree_of by done. apply below_ns in Hy. by apply (w_tree _ _ _ _ _ _ W).
  - intros y Hy. rewrite relink_tree_of by done. unfold tree_of. rewrite !n_memb_mem. rewrite (w_out _ _ _ _ _ _ W y); [done|]. intros F. by apply Hy, below_ns.
  - exists h3. split; [exact R3|]. split.
    + intros y Hy. simpl. rewrite garble_lookup. rewrite below_ns in Hy. destruct (h3 !! y); [|done]. simpl. by rewrite (gg_tidy y Hy).
    + assert (calm gg x) as Hc by (apply gg_calm; by right). simpl. by rewrite gb_parent, gb_first, gb_next, gb_prev.
  - simpl. unfold fnch. rewrite garble_lookup. destruct (Hal x x_in Hhand) as [nd3 ->]. simpl.
    destruct (kept_fields x x_in Hhand) as (nd & nd0 & A & B & C). unfold gg. rewrite decide_True by exact x_in. rewrite A, B. rewrite decide_True by done. simpl.
    unfold links in C. simpl in C. congruence.
  - intros y Hb Hyx Hh. apply below_ns in Hb. destruct (Hal y Hb Hh) as [nd3 H3]. destruct (kept_fields y Hb Hh) as (nd & nd0 & A & B & C).
    simpl. unfold ffirst, fnext, fparent, fprev, fnch. rewrite garble_lookup, H3. simpl. unfold gg. rewrite decide_True by done. rewrite A, B. rewrite decide_False by done. simpl.
    unfold links in C. simpl in C. split_and!; congruence.
Qed.
Lemma after_apart : falls_apart s0 K x K2.
Proof.
  intros y. rewrite below_ns. split; [apply K2_out|]. split; [apply K2_held|apply K2_gone].
Qed.
Lemma after_self : strands s0 K x t0 t' K2 s2.
Proof.
  pose proof (after_strands hc K2 hc_rep (fun _ => eq_refl) (fun z => iff_refl _)) as S0. rewrite gg_hc in S0. by destruct s2.
Qed.
End After.

Lemma lost_start s K x t0 y t' ro : grafting s K x t0 y t' -> shape K x ro -> (forall i, s_hands s !! i <> Some (HTree t0)) ->
  exists s2, set_subtree_tree s [] x t' = Ret (Some s2) /\ wrecked s ro t0 t' s2 [].
Proof.
  intros G Hro Hno. pose proof (gr_inv _ _ _ _ _ _ G) as H. pose proof (s_wf _ _ (i_s _ _ H)) as Hw. pose proof (s_rep _ _ (i_s _ _ H)) as Hr.
  apply (lost_subtree s K x ro t0 t' Hr Hw (gr_top _ _ _ _ _ _ G) Hro (gr_ne _ _ _ _ _ _ G) (gr_hx _ _ _ _ _ _ G) Hno (gr_src _ _ _ _ _ _ G)).
  - intros z Hz Ht. apply (shape_nodes _ _ _ _ Hro). by apply (gr_below _ _ _ _ _ _ _ G).
  - intros u tr Hu Hut F. apply (shape_nodes _ _ _ _ Hro) in F. apply (gr_below _ _ _ _ _ _ _ G) in F as [_ F].
    destruct (s_root _ _ (i_s _ _ H) _ _ Hu) as [_ E]. rewrite E in F. congruence.
  - by eapply gr_gm.
Qed.

Lemma graft_lost s K a k x ad j y t t' : reach s -> stores s K -> receiver s a k x -> s_hands s !! j = Some (HNode Hot y) -> is_top K x ->
  tree_of s x = Some t -> tree_of s y = Some t' -> t <> t' -> (forall i, s_hands s !! i <> Some (HTree t)) -> has_place K ad y ->
  exists s' K2 K3, step s (OpMove a ad j) = Ret (s', OutUnit) /\ falls_apart s K x K2 /\ attached K2 x (dest_of ad y) K3 /\ wf K3 /\ strands s K x t t' K3 s'.
Proof.
  intros R Hst Hrc Hj Htop Ht Ht' Hne Hno Hpl. pose proof (reach_stores_inv s K R Hst) as H. pose proof (inv_wf s K H) as Hw. pose proof (s_rep _ _ (i_s _ _ H)) as Hr.
  destruct (grafting_intro s K a k x j y t t' H Hrc Hj Htop Ht Ht' Hne) as [G Em].
  destruct (shape_exists K x Hw (proj1 Htop)) as [ro Hro].
  destruct (lost_start s K x t y t' ro G Hro Hno) as (s2 & E2 & W).
  pose proof (gr_hx _ _ _ _ _ _ G) as Hh.
  assert (y ∉ rose_nodes ro) as Hy. { intros F. apply (shape_nodes _ _ _ _ Hro) in F. by apply (gr_out _ _ _ _ _ _ G). }
  assert (is_Some (K !! y)) as HyK. { apply (inv_alive s K y H). by eapply handle_alive. }
  destruct (place_after s K x ro t t' s2 Hr Hw Htop Hro Hh W ad y Hy HyK (adoptable_place _ _ _ Hpl)) as (K3 & h3 & Hatt & E3 & R3 & W3 & M3 & Hdom).
  exists (with_nodes s2 (garble (gg x ro s2) h3)), (K2 s K ro), K3.
  split; [|split; [by eapply after_apart|split; [exact Hatt|split; [exact W3|]]]].
  - assert (move_subtree s x ad y = Ret (with_nodes s2 (garble (gg x ro s2) h3), HOk tt)) as E.
    { rewrite Em. unfold move_to_another_tree. rewrite (root_unlink s K x H Htop). cbn [mbind run_bind].
      replace (with_nodes s (s_nodes s)) with s by (by destruct s). rewrite E2. cbn [mbind run_bind]. rewrite E3. reflexivity. }
    rewrite (move_step_eq s K a k x ad j y _ H Hrc Hj E). reflexivity.
  - eapply after_strands; eassumption.
Qed.
Lemma graft_lost_refused s K a k x ad j y t t' : reach s -> stores s K -> receiver s a k x -> s_hands s !! j = Some (HNode Hot y) -> is_top K x ->
  tree_of s x = Some t -> tree_of s y = Some t' -> t <> t' -> (forall i, s_hands s !! i <> Some (HTree t)) -> no_place K x ad y ->
  exists s' K2, step s (OpMove a ad j) = Ret (s', OutErr SiblingsWithoutParent) /\ falls_apart s K x K2 /\ strands s K x t t' K2 s'.
Proof.
  intros R Hst Hrc Hj Htop Ht Ht' Hne Hno [Had Hyx]. pose proof (reach_stores_inv s K R Hst) as H. pose proof (inv_wf s K H) as Hw. pose proof (s_rep _ _ (i_s _ _ H)) as Hr.
  assert (is_top K y) as Hty by (destruct Hyx as [->|Hyx]; [congruence|exact Hyx]).
  destruct (grafting_intro s K a k x j y t t' H Hrc Hj Htop Ht Ht' Hne) as [G Em].
  destruct (shape_exists K x Hw (proj1 Htop)) as [ro Hro].
  destruct (lost_start s K x t y t' ro G Hro Hno) as (s2 & E2 & W).
  pose proof (gr_hx _ _ _ _ _ _ G) as Hh.
  assert (y ∉ rose_nodes ro) as Hy. { intros F. apply (shape_nodes _ _ _ _ Hro) in F. by apply (gr_out _ _ _ _ _ _ G). }
  exists s2, (K2 s K ro). split; [|split; [by eapply after_apart|by eapply after_self]].
  assert (insert_orphan (s_nodes s2) x false (dest_of ad y) = Ret (s_nodes s2, HErr SiblingsWithoutParent)) as E3.
  { assert (parent_link (s_nodes s2) y = None) as Ep.
    { unfold parent_link, fparent. rewrite (w_out _ _ _ _ _ _ W y Hy). destruct (rep_top _ _ Hr _ Hty) as (E & _). unfold fparent in E. by rewrite E. }
    destruct Had as [-> | ->]; simpl; by rewrite Ep. }
  assert (move_subtree s x ad y = Ret (with_nodes s2 (s_nodes s2), HErr SiblingsWithoutParent)) as E.
  { rewrite Em. unfold move_to_another_tree. rewrite (root_unlink s K x H Htop). cbn [mbind run_bind].
    replace (with_nodes s (s_nodes s)) with s by (by destruct s). rewrite E2. cbn [mbind run_bind]. by rewrite E3. }
  rewrite (move_step_eq s K a k x ad j y _ H Hrc Hj E). simpl. by destruct s2.
Qed.
End GraftFacts4.
