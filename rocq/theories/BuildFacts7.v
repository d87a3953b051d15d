(** * BuildFacts7: cloning a subtree into another place. *)
From Verif Require Import SerialSpec NavFacts SpecFacts RoseFacts EditFacts2 CardFacts EqFacts SerFacts BracketFacts ApiFacts ApiFacts2 ApiFacts3 ApiFacts6 ApiFacts7 ApiFacts8 BuildFacts BuildFacts2 BuildFacts3 BuildFacts4 BuildFacts5 BuildFacts6 Spec.

Section Build7.
Context {T : Type}.
Local Notation grew := (@BuildFacts.grew T [] (Lent 0)).
Local Notation phase := (@BuildFacts3.phase T [] (Lent 0)).
Implicit Types (s : sys T) (K : forest) (td : rose T) (hm : gmap nat handle) (b : builder) (es : list (event T)).

Lemma grafts_view s K n dest t0 td s1 s2 : grafts s K n dest t0 td s1 -> same_view s1 s2 -> reach s2 -> grafts s K n dest t0 td s2.
Proof.
  intros G V R. constructor.
  - exact R.
  - exact (gr_new _ _ _ _ _ _ _ G).
  - destruct (gr_forest _ _ _ _ _ _ _ G) as (K1 & K' & H1 & H2 & H3). exists K1, K'. split; [done|]. split; [by apply V|done].
  - eapply rose_rel_mono; [|exact (gr_data _ _ _ _ _ _ _ G)]. intros a c H. by rewrite (sv_payload _ _ V).
  - intros y Hy. rewrite (sv_tree _ _ V). by apply (gr_tree _ _ _ _ _ _ _ G).
  - intros y Hy. rewrite (sv_tree _ _ V), (sv_payload _ _ V). by apply (gr_old _ _ _ _ _ _ _ G).
  - intros u. rewrite (view_alive _ _ u V). apply (gr_trees _ _ _ _ _ _ _ G).
Qed.

(** A new leaf was attached. *)
Lemma attach_new K n dest K1 : wf K -> K !! n = None -> is_Some (K !! dest_anchor dest) -> attached (<[n := []]> K) n dest K1 ->
  exists p ks', is_Some (K !! p) /\ p <> n /\ dest_parent K dest p /\ K1 = <[p := ks']> (<[n := []]> K) /\ n ∈ ks'.
Proof.
  intros Hw Hn Hd H. destruct (attached_perm _ _ _ _ (wf_new K n Hw Hn) H) as (p & ks & ks' & Hp & Hk & -> & Hperm).
  assert (dest_parent K dest p) as Hp'.
  { destruct dest; simpl in *; try done; destruct Hp as (l & Hl & Hin); exists l; (split; [|done]);
      (destruct (decide (p = n)) as [->|Hne]; [rewrite lookup_insert in Hl; injection Hl as <-; by apply elem_of_nil in Hin|by rewrite lookup_insert_ne in Hl]). }
  assert (is_Some (K !! p)) as Hs.
  { destruct dest; simpl in *; subst; try done; destruct Hp' as (l & Hl & _); eauto. }
  exists p, ks'. split; [done|]. split; [intros ->; rewrite Hn in Hs; by destruct Hs|]. split; [done|]. split; [done|].
  rewrite Hperm. apply elem_of_cons. by left.
Qed.

(** The state in which the copy has been created and the builder set up. *)
Record planted s K s1 K1 (n : nid) (dest : insert_as) (y : nid) : Prop := {
  pl_reach : reach s;
  pl_stores : stores s K;
  pl_new : K !! n = None;
  pl_unk : unknown s n;
  pl_att : attached (<[n := []]> K) n dest K1;
  pl_anchor : dest_anchor dest = y;
  pl_tree : tree_of s1 n = tree_of s y;
  pl_old : forall z, z <> n -> payload s1 z = payload s z /\ tree_of s1 z = tree_of s z;
  pl_trees : forall u : tid, is_Some (s_trees s1 !! u) <-> is_Some (s_trees s !! u);
}.

Lemma planted_facts s K s1 K1 n dest y : planted s K s1 K1 n dest y -> is_Some (K !! y) ->
  exists p ks', is_Some (K !! p) /\ p <> n /\ dest_parent K dest p /\ K1 = <[p := ks']> (<[n := []]> K) /\ n ∈ ks'.
Proof.
  intros P Hy. eapply attach_new; [apply (pl_stores _ _ _ _ _ _ _ P)|exact (pl_new _ _ _ _ _ _ _ P)| |exact (pl_att _ _ _ _ _ _ _ P)].
  by rewrite (pl_anchor _ _ _ _ _ _ _ P).
Qed.

Lemma grew_grafts s K s1 K1 n dest y s2 K' t0 td : planted s K s1 K1 n dest y -> is_Some (K !! y) ->
  grew (s_hands s) s1 K1 n s2 K' t0 td -> grafts s K n dest t0 td s2.
Proof.
  intros P Hy G. destruct (planted_facts _ _ _ _ _ _ _ P Hy) as (p & ks' & Hp & Hpn & Hdp & HK1 & Hin).
  pose proof (pl_new _ _ _ _ _ _ _ P) as Hn.
  assert (forall z, is_Some (K1 !! z) <-> z = n \/ is_Some (K !! z)) as Hdom.
  { intros z. rewrite HK1. destruct (decide (z = p)) as [->|H1]; [rewrite lookup_insert; split; [by right|eauto]|].
    rewrite lookup_insert_ne by done. destruct (decide (z = n)) as [->|H2]; [rewrite lookup_insert; split; [by left|eauto]|].
    rewrite lookup_insert_ne by done. split; [by right|by intros [?|?]]. }
  assert (forall z, is_Some (K !! z) -> z <> n) as Hne by (intros z Hz ->; rewrite Hn in Hz; by destruct Hz).
  assert (n ∈ rose_nodes t0) as Hn0.
  { apply (shape_nodes K' n t0 n (g_shape0 _ _ _ _ _ _ _ _ G)). constructor. }
  constructor.
  - exact (g_reach _ _ _ _ _ _ _ _ G).
  - intros z Hz. split.
    + destruct (g_new _ _ _ _ _ _ _ _ G z Hz) as [->|E]; [done|]. destruct (K !! z) eqn:Ez; [|done].
      destruct (proj2 (Hdom z)) as [? ?]; [right; eauto|congruence].
    + destruct (g_unk _ _ _ _ _ _ _ _ G z Hz) as [->|E]; [exact (pl_unk _ _ _ _ _ _ _ P)|exact E].
  - exists K1, K'. split; [exact (pl_att _ _ _ _ _ _ _ P)|]. split; [exact (g_stores _ _ _ _ _ _ _ _ G)|].
    split; [exact (g_shape0 _ _ _ _ _ _ _ _ G)|]. split.
    + intros z Hz. apply (g_old _ _ _ _ _ _ _ _ G); [apply Hdom; by right|by apply Hne].
    + intros z. split.
      * intros Hz. destruct (g_all _ _ _ _ _ _ _ _ G z Hz) as [H|H]; [|by right].
        apply Hdom in H as [->|H]; [by right|by left].
      * intros [H|H]; [|by eapply grew_node]. eapply grew_alive; [exact G|]. apply Hdom. by right.
  - exact (g_data0 _ _ _ _ _ _ _ _ G).
  - intros z Hz. rewrite (pl_anchor _ _ _ _ _ _ _ P), <-(pl_tree _ _ _ _ _ _ _ P). rewrite (grew_tree _ _ _ _ _ _ _ _ z G Hz).
    apply (g_tree _ _ _ _ _ _ _ _ G). apply Hdom. by left.
  - intros z Hz. assert (is_Some (K1 !! z)) as Hz1 by (apply Hdom; by right).
    rewrite (g_payload _ _ _ _ _ _ _ _ G z Hz1), (g_tree _ _ _ _ _ _ _ _ G z Hz1).
    apply (pl_old _ _ _ _ _ _ _ P). by apply Hne.
  - intros u. rewrite (g_trees _ _ _ _ _ _ _ _ G u). apply (pl_trees _ _ _ _ _ _ _ P).
Qed.

(** Creating the root of the copy and the builder. *)
Lemma plant_ok s K ad j y d : reach s -> stores s K -> s_hands s !! j = Some (HNode Hot y) -> has_place K ad y ->
  exists s1 m s2 b n p K1, step s (OpCreate (ByHot j) d ad) = Ret (s1, OutHandle m) /\ b_with_root s1 m = Ret (s2, b) /\
    stores s1 K1 /\ b = mkBuilder (Some p) (Some m) /\ planted s K s2 K1 n (dest_of ad y) y /\ held s2 (s_hands s) p m n n /\
    (forall z, z <> n -> payload s1 z = payload s z) /\
    grew (s_hands s) s2 K1 n s2 K1 (Rose n []) (Rose d []).
Proof.
  intros R Hst Hj Hpl. destruct (create_effect s K (ByHot j) Hot y d ad R Hst (conj eq_refl Hj)) as (s1 & r & t & E & Et & [(_ & n & m & K1 & -> & Hat & A)|[Hno _]]); [|done].
  assert (reach s1) as R1 by (eapply reach_step; [exact R|exact Hst| |exact E]; exact Logic.I).
  pose proof (ad_hands _ _ _ _ _ _ _ _ A) as Hh1. pose proof (ad_fresh _ _ _ _ _ _ _ _ A) as Hf.
  pose proof (ad_stores _ _ _ _ _ _ _ _ A) as Hst1.
  assert (s_hands s1 !! m = Some (HNode Hot n)) as Hm by (rewrite Hh1; apply lookup_insert).
  destruct (reach_effect s1 _ (OpPlain m) R1 Hst1 ltac:(exact Logic.I)) as (s2 & r2 & E2 & R2 & Ef2); [exists Hot, n; split; [done|exact Hm]|exact (fun F => F)|].
  destruct Ef2 as [(k & x & p & Hmx & _ & -> & (V2 & Hp & Hh2))|[[]|[]]].
  assert (x = n) as -> by congruence.
  destruct (handle_tree s K j Hot y R Hst Hj) as (_ & _ & _ & _ & _ & _ & HKy).
  assert (K !! n = None) as HKn.
  { destruct (K !! n) eqn:En; [|done]. destruct (proj2 (alive_known s K n Hst)) as [? ?]; [eauto|]. rewrite (ad_new _ _ _ _ _ _ _ _ A) in *. done. }
  assert (planted s K s2 K1 n (dest_of ad y) y) as P.
  { constructor.
    - exact R. - exact Hst. - exact HKn. - exact (ad_unknown _ _ _ _ _ _ _ _ A). - exact Hat. - apply dest_of_anchor.
    - rewrite (sv_tree _ _ V2), Et. exact (ad_tree _ _ _ _ _ _ _ _ A).
    - intros z Hz. rewrite (sv_tree _ _ V2), (sv_payload _ _ V2). split; [by apply (ad_payload_other _ _ _ _ _ _ _ _ A)|by apply (ad_tree_other _ _ _ _ _ _ _ _ A)].
    - intros u. rewrite (view_alive _ _ u V2). apply (ad_trees _ _ _ _ _ _ _ _ A). }
  exists s1, m, s2, (mkBuilder (Some p) (Some m)), n, p, K1. split; [exact E|]. split.
  { unfold b_with_root, call_hand. rewrite E2. done. }
  split; [exact Hst1|]. split; [done|]. split; [exact P|].
  assert (p <> m) as Hpm by (intros ->; congruence).
  split.
  { split; [|split; [|done]].
    - rewrite Hh2, Hh1. by apply insert_commute.
    - rewrite Hh1 in Hp. by rewrite lookup_insert_ne in Hp. }
  split; [intros z Hz; by apply (ad_payload_other _ _ _ _ _ _ _ _ A)|].
  destruct (planted_facts _ _ _ _ _ _ _ P HKy) as (q & ks' & Hq & Hqn & Hdp & HK1 & Hin).
  assert (K1 !! n = Some []) as HK1n by (rewrite HK1, lookup_insert_ne by done; apply lookup_insert).
  constructor.
  - exact R2.
  - by apply V2.
  - constructor; [done|constructor].
  - constructor; [|constructor]. rewrite (sv_payload _ _ V2). case_decide; exact (ad_data _ _ _ _ _ _ _ _ A).
  - eauto.
  - done.
  - intros z Hz. left. simpl in Hz. set_solver.
  - by left.
  - done.
  - done.
  - intros z Hz. left. simpl in Hz. set_solver.
  - done.
Qed.

(** A Plain handle becomes Hot again, the tree being hot already. *)
Lemma bundle_hot_ok s K i x j y : reach s -> stores s K -> s_hands s !! i = Some (HNode Plain x) -> s_hands s !! j = Some (HNode Hot y) ->
  tree_of s x = tree_of s y ->
  exists s' k, step s (OpBundle Hot i) = Ret (s', OutHandle k) /\ reach s' /\ exchanges s s' i k (HNode Hot x).
Proof.
  intros R Hst Hi Hj Hxy.
  destruct (reach_effect s K (OpBundle Hot i) R Hst ltac:(exact Logic.I)) as (s2 & r2 & E2 & R2 & Ef2); [split; [done|by exists x]|exact (fun F => F)|].
  destruct Ef2 as [(x' & t & Hix & _ & Et & Hcase)|[[]|[]]]. assert (x' = x) as -> by congruence.
  destruct Hcase as [(_ & k & -> & Hx)|([m Hlo] & _)]; [by exists s2, k|]. exfalso.
  destruct (handle_tree s K i Plain x R Hst Hi) as (t' & _ & _ & _ & Et' & [tr Htr] & _). assert (t' = t) as -> by congruence.
  destruct (lock_count s K t tr R Hst Htr) as (g & p & Hg & Hp & _ & Hz).
  assert (p = S m) as ->.
  { simpl in Hlo. destruct Hp as (a & b & Ha & Hb & ->), Hlo as (a' & b' & Ha' & Hb' & E).
    rewrite <-(card_unique _ _ _ Ha Ha'), <-(card_unique _ _ _ Hb Hb') in E. done. }
  destruct Hz as [->|]; [|done]. destruct Hg as (a & b & Ha & Hb & E).
  assert (b = 0) as -> by lia. destruct Hb as ([|? ?] & _ & Hb & Hl); [|done].
  apply (not_elem_of_nil y). apply Hb. split; [done|]. split; [congruence|]. by exists j.
Qed.

Lemma try_borrow_cases (h : heap T) x nd : h !! x = Some nd -> try_borrow h x = Ret (if n_mut nd then None else Some (n_data nd)).
Proof. intros E. unfold try_borrow. by rewrite E. Qed.

(** What was copied before the first node that could not be read. *)
Definition partial_copy (h : heap T) (t : rose nid) td : Prop :=
  exists ts l k post, data_tree h t ts /\ l ++ post = brackets ts /\ l ++ replicate k None = brackets td.

Theorem clone_insert_ok s K x t ad j y fuel : reach s -> stores s K -> shape K x t -> s_hands s !! j = Some (HNode Hot y) ->
  has_place K ad y -> (forall q, dest_parent K (dest_of ad y) q -> ~ below K x q) -> dfs_fuel (s_nodes s) <= fuel ->
  exists s' r, clone_insert_subtree fuel s x ad j = Ret (s', r) /\
  match r with
  | HOk i => (forall z, z ∈ rose_nodes t -> ~ borrowed (s_nodes s) z) /\ s_hands s !! i = None /\
      exists n t0 td, data_tree (s_nodes s) t td /\ grafts s K n (dest_of ad y) t0 td s' /\ s_hands s' = <[i := HNode Hot n]> (s_hands s)
  | HErr e => e = BorrowNodeData /\ (exists z, z ∈ rose_nodes t /\ borrowed (s_nodes s) z) /\ s_hands s' = s_hands s /\
      ((borrowed (s_nodes s) x /\ s' = s) \/
       (exists n t0 td, partial_copy (s_nodes s) t td /\ grafts s K n (dest_of ad y) t0 td s'))
  end.
Proof.
  intros R Hst Hs Hj Hpl Hdest Hfuel. pose proof Hst as [Hrep Hw].
  assert (forall z, z ∈ rose_nodes t -> is_Some (K !! z)) as HinK.
  { intros z Hz. apply (shape_nodes K x t z Hs) in Hz. eapply below_dom; [done| |exact Hz]. inversion Hs; subst. eauto. }
  assert (x ∈ rose_nodes t) as Hxt by (apply (shape_nodes K x t x Hs); constructor).
  destruct (proj2 (alive_known s K x Hst) (HinK x Hxt)) as [nx Hnx].
  unfold clone_insert_subtree. rewrite (try_borrow_cases _ _ _ Hnx). cbn [mbind run_bind].
  destruct (n_mut nx) eqn:Hmx.
  { exists s, (HErr BorrowNodeData). split; [done|]. split; [done|]. assert (borrowed (s_nodes s) x) as Hb by (by exists nx).
    split; [by exists x|]. split; [done|]. by left. }
  set (d := n_data nx).
  destruct (plant_ok s K ad j y d R Hst Hj Hpl) as (s1 & m & s2 & b & n & p & K1 & E1 & E2 & Hst1 & -> & P & Hh & Hp1 & G).
  destruct (handle_tree s K j Hot y R Hst Hj) as (_ & _ & _ & _ & _ & _ & HKy).
  destruct (planted_facts _ _ _ _ _ _ _ P HKy) as (q & ks' & Hq & Hqn & Hdp & HK1 & Hin).
  pose proof (pl_new _ _ _ _ _ _ _ P) as Hn.
  assert (forall z, z ∈ rose_nodes t -> z <> n) as Hne by (intros z Hz ->; destruct (HinK n Hz); congruence).
  assert (shape K1 x t) as Hs1.
  { eapply shape_agree; [exact Hs|]. intros z Hz. rewrite HK1. rewrite !lookup_insert_ne; [done|..].
    - intros <-. by apply (Hne n Hz).
    - intros <-. apply (Hdest q Hdp). by apply (shape_nodes K x t q Hs). }
  assert (K1 !! n = Some []) as HK1n by (rewrite HK1, lookup_insert_ne by done; apply lookup_insert).
  assert (wf K1) as Hw1 by apply Hst1.
  rewrite E1. cbn [mbind run_bind].
  destruct (subtree_events (s_nodes s) K x t Hrep Hw Hs) as (items & es & rest & es0 & td & Hit & Hes & Htd & Hx & [es' He0] & Hrest).
  assert (dfs_start (Some x) = at_ x (dfs_events t)) as Est by (inversion Hs; subst; done).
  pose proof (ser_next_at (s_nodes s1) K1 x t [] (dfs_events t) (proj1 Hst1) Hw1 Hs1 eq_refl) as Hnx1.
  assert (exists gr, group (dfs_events t) = EOpen x :: gr) as [gr Hgr] by (inversion Hs; subst; simpl; eauto).
  rewrite Hgr in Hnx1, Hit. destruct Hnx1 as (pre' & l' & o & Hpre' & Hg' & Hlt & Hrd & Hnx1).
  rewrite Est, Hnx1. cbn [mbind run_bind]. rewrite E2. cbn [mbind run_bind].
  apply Forall2_cons_inv_l in Hit as (o0 & items' & Ho0 & Hit & ->).
  assert (o0 = Some (EOpen d)) as ->.
  { simpl in Ho0. destruct o0 as [[d0|]|]; [|done|].
    - destruct Ho0 as [(nd & En & Ed) _]. unfold d. congruence.
    - destruct Ho0 as (nd & En & Eb). congruence. }
  assert (exists es1, es = EOpen d :: es1 /\ if rest then exists tl, items' = map Some es1 ++ None :: tl else items' = map Some es1) as (es1 & -> & Hes1).
  { destruct es as [|e es1]; simpl in Hes.
    - destruct rest; [destruct Hes as [tl Hes]|]; done.
    - exists es1. destruct rest; [destruct Hes as [tl Hes]|]; injection Hes as <- ->; eauto. }
  assert (phase (s_hands s) s2 K1 n p [Some d] s2 (mkBuilder (Some p) (Some m))) as Hph0.
  { eapply (ph_open _ _ _ _ _ s2 _ _ _ 0); [exact G|exact Hh|constructor|done]. }
  assert (exists post, ([Some d] ++ expand es1) ++ post = brackets td) as [post Hpost].
  { exists (expand es'). rewrite <-Hx, He0. unfold expand. simpl. rewrite map_app, concat_app. done. }
  assert (forall es2 es3, es1 = es2 ++ es3 -> exists post, ([Some d] ++ expand es2) ++ post = brackets td) as Hprefix.
  { intros es2 es3 ->. exists (expand es3 ++ post). rewrite <-Hpost. unfold expand. rewrite map_app, concat_app, <-!app_assoc. done. }
  assert (forall pre s3 b3, phase (s_hands s) s2 K1 n p pre s3 b3 -> source (s_nodes s) x t s3) as Hsrc.
  { intros pre s3 b3 Hph. destruct (phase_grew _ _ _ _ _ _ _ _ Hph) as (K3 & t3 & td3 & G3).
    eapply grew_source; [exact G3|exact Hs1|exact Hw1|exact Hne|].
    intros z Hz. rewrite (proj1 (pl_old _ _ _ _ _ _ _ P z (Hne z Hz))). done. }
  rewrite (fold_push (s_nodes s) x t fuel l' pre' es1 rest s2 _ Hpre').
  2:{ pose proof (fold_fuel s K x t Hst Hs). lia. }
  2:{ exists items'. rewrite Hg'. done. }
  2:{ intros es2 es3 s3 b3 He E3. destruct (Hprefix es2 es3 He) as [post2 Hp2].
      destruct (push_all_ok (ts0 := []) (b0 := Lent 0) (s_hands s) s2 K1 n p Hw1 (ex_intro _ _ HK1n) es2 _ _ _ Hph0 (or_intror (ex_intro _ td (ex_intro _ post2 Hp2)))) as (s4 & b4 & o4 & E4 & H4).
      rewrite E4 in E3. injection E3 as -> -> ->. by eapply Hsrc. }
  destruct (push_all_ok (ts0 := []) (b0 := Lent 0) (s_hands s) s2 K1 n p Hw1 (ex_intro _ _ HK1n) es1 _ _ _ Hph0 (or_intror (ex_intro _ td (ex_intro _ post Hpost)))) as (s3 & b3 & o3 & E3 & H3).
  rewrite E3. cbn [mbind run_bind].
  destruct o3 as [e|].
  { exfalso. destruct H3 as (_ & _ & td' & post' & Hpn & E). rewrite E, <-(app_nil_r (brackets td)), <-app_assoc in Hpost.
    apply brackets_parse in Hpost as [_ Hpost]. apply app_eq_nil in Hpost as [-> _]. done. }
  destruct rest; cbn [b_end].
  - assert (exists s4 K4 t4 td4 k, b_drop s3 b3 = Ret s4 /\ grew (s_hands s) s2 K1 n s4 K4 t4 td4 /\ s_hands s4 = s_hands s /\
      ([Some d] ++ expand es1) ++ replicate k None = brackets td4) as (s4 & K4 & t4 & td4 & k & E4 & G4 & Hh4 & Hk4).
    { assert (forall K' t0 td0 cur c s3, grew (s_hands s) s2 K1 n s3 K' t0 td0 -> held s3 (s_hands s) p c n cur -> tree_of s3 cur = tree_of s3 n ->
        exists s4, b_drop s3 (mkBuilder (Some p) (Some c)) = Ret s4 /\ grew (s_hands s) s2 K1 n s4 K' t0 td0 /\ s_hands s4 = s_hands s) as Hdrop.
      { intros K' t0 td0 cur c s5 G5 Hh5 Ht5.
        assert (tree_of s5 y = tree_of s5 n) as Hyn.
        { assert (is_Some (K1 !! y)) as HK1y.
          { rewrite HK1. destruct (decide (y = q)) as [->|]; [rewrite lookup_insert; eauto|]. rewrite lookup_insert_ne by done.
            destruct (decide (y = n)) as [->|]; [rewrite lookup_insert; eauto|]. by rewrite lookup_insert_ne. }
          rewrite (g_tree _ _ _ _ _ _ _ _ G5 y HK1y), (g_tree _ _ _ _ _ _ _ _ G5 n) by eauto.
          assert (y <> n) as Hyn by (intros ->; rewrite Hn in HKy; by destruct HKy).
          by rewrite (proj2 (pl_old _ _ _ _ _ _ _ P y Hyn)), (pl_tree _ _ _ _ _ _ _ P). }
        pose proof (held_old _ _ _ _ _ _ Hh5 j _ Hj) as Hj5.
        assert (j <> p /\ j <> c) as [Hjp Hjc] by (destruct Hh5 as (_ & H1 & H2 & _); split; congruence).
        destruct (drop_held s5 K' p j Plain Hot n y (g_reach _ _ _ _ _ _ _ _ G5) (g_stores _ _ _ _ _ _ _ _ G5) (held_p _ _ _ _ _ _ Hh5) Hj5 Hjp) as (s6 & E6 & R6 & V6 & Hh6); [done|].
        pose proof (grew_view _ _ _ _ _ _ _ _ s6 G5 V6 R6) as G6.
        assert (p <> c) as Hpc by (by destruct Hh5 as (_ & _ & _ & ?)).
        destruct (drop_held s6 K' c j Hot Hot cur y R6 (g_stores _ _ _ _ _ _ _ _ G6)) as (s7 & E7 & R7 & V7 & Hh7).
        { rewrite Hh6, lookup_delete_ne by done. by eapply held_c. }
        { rewrite Hh6, lookup_delete_ne by done. done. }
        { done. }
        { rewrite !(sv_tree _ _ V6). congruence. }
        exists s7. unfold b_drop. cbn [b_root b_cur drop_opt]. rewrite E6. cbn [mbind run_bind]. rewrite E7. split; [done|].
        split; [by eapply grew_view|]. destruct Hh5 as (Hh5 & H1 & H2 & _). rewrite Hh7, Hh6, Hh5.
        rewrite delete_insert_ne by done. rewrite (delete_insert (s_hands s)) by done. by apply delete_insert. }
      inversion H3 as [s3' K' t0 td0 k cur c pre0 G3 Hh3 Hr3 Hb3|s3' K' t0 td0 pre0 G3 Hh3 Hp3 Htop|s3' K' t0 td0 c q' pre0 G3 Hh3 Hq3 Hb3]; subst.
      - destruct (Hdrop _ _ _ cur c s3 G3 Hh3) as (s4 & E4 & G4 & Hh4); [apply (grew_tree _ _ _ _ _ _ _ _ cur G3); by eapply rpath_node|].
        exists s4, K', t0, td0, (S k). done.
      - exfalso. apply (proj2 Htop q). exists ks'. split; [apply lookup_insert|done].
      - destruct (Hdrop _ _ _ q' c s3 G3 Hh3) as (s4 & E4 & G4 & Hh4).
        { eapply parent_tree; [exact (g_reach _ _ _ _ _ _ _ _ G3)|exact (g_stores _ _ _ _ _ _ _ _ G3)|]. by eapply grew_child. }
        exists s4, K', t0, td0, 0. split; [done|]. split; [done|]. split; [done|]. by rewrite app_nil_r. }
    rewrite E4. cbn [mbind run_bind]. exists s4, (HErr BorrowNodeData). split; [done|]. split; [done|]. split; [done|]. split; [done|].
    right. exists n, t4, td4. split; [|by eapply grew_grafts]. exists td, ([Some d] ++ expand es1), k, post. done.
  - destruct (finish_ok _ _ _ _ _ _ _ _ Hw1 H3) as (s4 & K4 & t4 & td4 & k & E4 & G4 & Hp4 & Hh4 & Hk4).
    rewrite E4. cbn [mbind run_bind].
    assert (tree_of s4 n = tree_of s4 y) as Hny.
    { pose proof (grew_grafts _ _ _ _ _ _ _ _ _ _ _ P HKy G4) as Gr. rewrite (gr_tree _ _ _ _ _ _ _ Gr n).
      - rewrite dest_of_anchor. symmetry. by apply (gr_old _ _ _ _ _ _ _ Gr).
      - apply (shape_nodes K4 n t4 n (g_shape0 _ _ _ _ _ _ _ _ G4)). constructor. }
    destruct (bundle_hot_ok s4 K4 p n j y (g_reach _ _ _ _ _ _ _ _ G4) (g_stores _ _ _ _ _ _ _ _ G4)) as (s5 & i & E5 & R5 & V5 & Hi5 & Hh5).
    { rewrite Hh4. apply lookup_insert. } { rewrite Hh4. by rewrite lookup_insert_ne by congruence. } { done. }
    unfold call_hand. rewrite E5. cbn [mbind run_bind]. exists s5, (HOk i). split; [done|]. destruct Hrest as [Hee Hnb]. split; [done|].
    split. { rewrite Hh4 in Hi5. apply lookup_insert_None in Hi5 as [? _]. done. }
    exists n, t4, td4. split; [|split].
    + subst es0. assert (td4 = td) as ->; [|done]. change ([Some d] ++ expand es1) with (expand (EOpen d :: es1)) in Hk4. rewrite Hx in Hk4.
      rewrite <-(app_nil_r (brackets td4)) in Hk4. by apply brackets_parse in Hk4 as [-> _].
    + eapply grafts_view; [by eapply grew_grafts|exact V5|exact R5].
    + rewrite Hh5, Hh4. f_equal. by apply delete_insert.
Qed.
End Build7.
