(** * BuildFacts16: copying a subtree to a place inside itself, exactly. *)
From Verif Require Import SerialSpec NavFacts SpecFacts RoseFacts AdjFacts IterFacts TravFacts TravFacts4 TdFacts2 EqFacts SerFacts BracketFacts ApiFacts ApiFacts2 ApiFacts3 ApiFacts6 ApiFacts7 ApiFacts8 EveryFacts BuildFacts BuildFacts2 BuildFacts3 BuildFacts4 BuildFacts5 BuildFacts6 BuildFacts7 BuildFacts13 BuildFacts14 BuildFacts15 Spec.

Section Build16.
Context {T : Type}.
Local Notation grew := (@BuildFacts.grew T [] (Lent 0)).
Local Notation phase := (@BuildFacts3.phase T [] (Lent 0)).
Implicit Types (s : sys T) (K : forest) (td : rose T) (hm : gmap nat handle) (b : builder) (es : list (event T)) (h : heap T).

(** ** The two ways a copy ends *)
Section End.
Context (s : sys T) (K : forest) (j : nat) (y n : nid) (p : nat) (s2 : sys T) (K1 : forest) (dest : insert_as) (pre : list (option T)) (s3 : sys T) (b3 : builder).
Context (P : planted s K s2 K1 n dest y) (HKy : is_Some (K !! y)) (Hj : s_hands s !! j = Some (HNode Hot y)) (Hw1 : wf K1) (H3 : phase (s_hands s) s2 K1 n p pre s3 b3).

Lemma insert_fails : exists s4 t4 td4 k, b_drop s3 b3 = Ret s4 /\ grafts s K n dest t4 td4 s4 /\ s_hands s4 = s_hands s /\ pre ++ replicate k None = brackets td4.
Proof.
  destruct (planted_facts _ _ _ _ _ _ _ P HKy) as (q & ks' & Hq & Hqn & Hdp & HK1 & Hin).
  pose proof (pl_new _ _ _ _ _ _ _ P) as Hn.
  assert (K1 !! n = Some []) as HK1n by (rewrite HK1, lookup_insert_ne by done; apply lookup_insert).
  assert (forall K' t0 td0 cur c s3, grew (s_hands s) s2 K1 n s3 K' t0 td0 -> held s3 (s_hands s) p c n cur -> tree_of s3 cur = tree_of s3 n ->
    exists s4, b_drop s3 (mkBuilder (Some p) (Some c)) = Ret s4 /\ grew (s_hands s) s2 K1 n s4 K' t0 td0 /\ s_hands s4 = s_hands s) as Hdrop.
  { intros K' t0 td0 cur c s5 G5 Hh5 Ht5.
    assert (tree_of s5 y = tree_of s5 n) as Hyn.
    { assert (is_Some (K1 !! y)) as HK1y.
      { rewrite HK1. destruct (decide (y = q)) as [->|]; [rewrite lookup_insert; eauto|]. rewrite lookup_insert_ne by done.
        destruct (decide (y = n)) as [->|]; [rewrite lookup_insert; eauto|]. by rewrite lookup_insert_ne. }
      rewrite (g_tree _ _ _ _ _ _ _ _ G5 y HK1y), (g_tree _ _ _ _ _ _ _ _ G5 n) by eauto.
      assert (y <> n) as Hyn by (intros ->; rewrite Hn in HKy; by destruct HKy).
      by rewrite (proj2 (pl_old _ _ _ _ _ _ _ P y Hyn)), (pl_tree _ _ _ _ _ _ _ P). }
    pose proof (held_old _ _ _ _ _ _ Hh5 j _ Hj) as Hj5.
    assert (j <> p /\ j <> c) as [Hjp Hjc] by (destruct Hh5 as (_ & H1 & H2 & _); split; congruence).
    destruct (drop_held s5 K' p j Plain Hot n y (g_reach _ _ _ _ _ _ _ _ G5) (g_stores _ _ _ _ _ _ _ _ G5) (held_p _ _ _ _ _ _ Hh5) Hj5 Hjp) as (s6 & E6 & R6 & V6 & Hh6); [done|].
    pose proof (grew_view _ _ _ _ _ _ _ _ s6 G5 V6 R6) as G6.
    assert (p <> c) as Hpc by (by destruct Hh5 as (_ & _ & _ & ?)).
    destruct (drop_held s6 K' c j Hot Hot cur y R6 (g_stores _ _ _ _ _ _ _ _ G6)) as (s7 & E7 & R7 & V7 & Hh7).
    { rewrite Hh6, lookup_delete_ne by done. by eapply held_c. }
    { rewrite Hh6, lookup_delete_ne by done. done. }
    { done. }
    { rewrite !(sv_tree _ _ V6). congruence. }
    exists s7. unfold b_drop. cbn [b_root b_cur drop_opt]. rewrite E6. cbn [mbind run_bind]. rewrite E7. split; [done|].
    split; [by eapply grew_view|]. destruct Hh5 as (Hh5 & H1 & H2 & _). rewrite Hh7, Hh6, Hh5.
    rewrite delete_insert_ne by done. rewrite (delete_insert (s_hands s)) by done. by apply delete_insert. }
  inversion H3 as [s3' K' t0 td0 k cur c pre0 G3 Hh3 Hr3 Hb3|s3' K' t0 td0 pre0 G3 Hh3 Hp3 Htop|s3' K' t0 td0 c q' pre0 G3 Hh3 Hq3 Hb3]; subst.
  - destruct (Hdrop _ _ _ cur c s3 G3 Hh3) as (s4 & E4 & G4 & Hh4); [apply (grew_tree _ _ _ _ _ _ _ _ cur G3); by eapply rpath_node|].
    exists s4, t0, td0, (S k). split; [exact E4|]. split; [by eapply grew_grafts|]. split; [exact Hh4|exact Hb3].
  - exfalso. apply (proj2 Htop q). exists ks'. split; [apply lookup_insert|done].
  - destruct (Hdrop _ _ _ q' c s3 G3 Hh3) as (s4 & E4 & G4 & Hh4).
    { eapply parent_tree; [exact (g_reach _ _ _ _ _ _ _ _ G3)|exact (g_stores _ _ _ _ _ _ _ _ G3)|]. by eapply grew_child. }
    exists s4, t0, td0, 0. split; [exact E4|]. split; [by eapply grew_grafts|]. split; [exact Hh4|]. by rewrite app_nil_r.
Qed.

Lemma insert_ends : exists s4 s5 t4 td4 k i, b_finish s3 b3 = Ret (s4, inl p) /\ call_hand s4 (OpBundle Hot p) = Ret (s5, i) /\
  grafts s K n dest t4 td4 s5 /\ s_hands s !! i = None /\ s_hands s5 = <[i := HNode Hot n]> (s_hands s) /\ pre ++ replicate k None = brackets td4.
Proof.
  destruct (finish_ok _ _ _ _ _ _ _ _ Hw1 H3) as (s4 & K4 & t4 & td4 & k & E4 & G4 & Hp4 & Hh4 & Hk4).
  pose proof (grew_grafts _ _ _ _ _ _ _ _ _ _ _ P HKy G4) as Gr.
  assert (tree_of s4 n = tree_of s4 y) as Hny.
  { rewrite (gr_tree _ _ _ _ _ _ _ Gr n).
    - rewrite (pl_anchor _ _ _ _ _ _ _ P). symmetry. by apply (gr_old _ _ _ _ _ _ _ Gr).
    - apply (shape_nodes K4 n t4 n (g_shape0 _ _ _ _ _ _ _ _ G4)). constructor. }
  destruct (bundle_hot_ok s4 K4 p n j y (g_reach _ _ _ _ _ _ _ _ G4) (g_stores _ _ _ _ _ _ _ _ G4)) as (s5 & i & E5 & R5 & V5 & Hi5 & Hh5).
  { rewrite Hh4. apply lookup_insert. } { rewrite Hh4. by rewrite lookup_insert_ne by congruence. } { done. }
  exists s4, s5, t4, td4, k, i. split; [exact E4|]. split; [unfold call_hand; rewrite E5; done|].
  split; [by eapply grafts_view|]. split; [rewrite Hh4 in Hi5; apply lookup_insert_None in Hi5 as [? _]; done|].
  split; [|done]. rewrite Hh5, Hh4. f_equal. by apply delete_insert.
Qed.
End End.

Lemma below_more (K K1 : forest) a : (forall p c, child_of K p c -> child_of K1 p c) -> forall c, below K a c -> below K1 a c.
Proof. intros H c. induction 1 as [|p c Hb IH Hc]; [constructor|]. econstructor; [exact IH|by apply H]. Qed.

Lemma payload_nodes s s' (a : nid) : is_Some (s_nodes s !! a) -> payload s' a = payload s a ->
  exists nd nd', s_nodes s !! a = Some nd /\ s_nodes s' !! a = Some nd' /\ n_data nd' = n_data nd /\ n_lend nd' = n_lend nd.
Proof.
  intros [nd E] Hp. unfold payload in Hp. rewrite E in Hp. simpl in Hp. destruct (s_nodes s' !! a) as [nd'|] eqn:E'; [|done].
  simpl in Hp. injection Hp as H1 H2. by exists nd, nd'.
Qed.
Lemma unborrowed_payload s (a : nid) : is_Some (s_nodes s !! a) -> ~ borrowed (s_nodes s) a -> exists d l, payload s a = Some (d, Lent l).
Proof.
  intros [nd E] Hb. unfold payload. rewrite E. simpl. destruct (n_lend nd) as [l|] eqn:El; [by exists (n_data nd), l|].
  exfalso. apply Hb. exists nd. split; [done|]. unfold n_mut. by rewrite El.
Qed.
Lemma brackets_map_fun h (l : list (dft nid)) (m m' : list (option T)) : Forall2 (opt_rel (data_is h)) (map bracket_of l) m -> Forall2 (opt_rel (data_is h)) (map bracket_of l) m' -> m = m'.
Proof.
  intros H. revert m'. induction H as [|a c l' m Hac H IH]; intros m' H'; [by apply Forall2_nil_inv_l in H' as ->|].
  apply Forall2_cons_inv_l in H' as (c' & m2 & Hac' & H' & ->). rewrite (IH _ H'). f_equal.
  destruct a as [a|], c as [c|], c' as [c'|]; try done. destruct Hac as (nd & E1 & <-), Hac' as (nd' & E2 & <-). congruence.
Qed.

Theorem clone_inside s K x t ad j y fuel : reach s -> stores s K -> shape K x t -> s_hands s !! j = Some (HNode Hot y) ->
  has_place K ad y -> (forall q, dest_parent K (dest_of ad y) q -> below K x q) -> S (S (dfs_fuel (s_nodes s))) <= fuel ->
  exists l, comes_before K x (dest_of ad y) l /\
    ((l = [x] /\ exists s' r, clone_insert_subtree fuel s x ad j = Ret (s', r) /\
        match r with
        | HOk i => (forall z, z ∈ rose_nodes t -> ~ borrowed (s_nodes s) z) /\ s_hands s !! i = None /\
            exists n t0 d us, data_tree (s_nodes s) t (Rose d us) /\ grafts s K n (dest_of ad y) t0 (Rose d (Rose d [] :: us)) s' /\
              s_hands s' = <[i := HNode Hot n]> (s_hands s)
        | HErr e => e = BorrowNodeData /\ (exists z, z ∈ rose_nodes t /\ borrowed (s_nodes s) z) /\ s_hands s' = s_hands s /\
            ((borrowed (s_nodes s) x /\ s' = s) \/
             (exists n t0 d us td, data_tree (s_nodes s) t (Rose d us) /\ breaks_off (Rose d (Rose d [] :: us)) td /\ grafts s K n (dest_of ad y) t0 td s'))
        end) \/
     (l <> [x] /\ (exists z, z ∈ l /\ borrowed (s_nodes s) z) /\
        exists s', clone_insert_subtree fuel s x ad j = Ret (s', HErr BorrowNodeData) /\ s_hands s' = s_hands s /\
          ((borrowed (s_nodes s) x /\ s' = s) \/
           (exists n t0 ts td, data_tree (s_nodes s) t ts /\ breaks_off ts td /\ grafts s K n (dest_of ad y) t0 td s'))) \/
     (l <> [x] /\ (forall z, z ∈ l -> ~ borrowed (s_nodes s) z) /\ forall fuel', clone_insert_subtree fuel' s x ad j = NoFuel)).
Proof.
  intros R Hst Hs Hj Hpl Hdest Hfuel. pose proof Hst as [Hrep Hw].
  assert (forall z, z ∈ rose_nodes t -> is_Some (K !! z)) as HinK.
  { intros z Hz. apply (shape_nodes K x t z Hs) in Hz. eapply below_dom; [done| |exact Hz]. inversion Hs; subst. eauto. }
  assert (forall z, z ∈ rose_nodes t -> is_Some (s_nodes s !! z)) as HinH by (intros z Hz; apply (alive_known s K z Hst); auto).
  assert (x ∈ rose_nodes t) as Hxt by (apply (shape_nodes K x t x Hs); constructor).
  destruct (HinH x Hxt) as [nx Hnx]. set (d := n_data nx).
  destruct (plant_ok s K ad j y d R Hst Hj Hpl) as (s1 & m & s2 & b & n & p & K1 & E1 & E2 & Hst1 & -> & PL & Hh & Hp1 & G).
  destruct (handle_tree s K j Hot y R Hst Hj) as (_ & _ & _ & _ & _ & _ & HKy).
  destruct (planted_facts _ _ _ _ _ _ _ PL HKy) as (q & ks' & Hq & Hqn & Hdp & HK1 & Hin).
  pose proof (pl_new _ _ _ _ _ _ _ PL) as Hn. pose proof (pl_att _ _ _ _ _ _ _ PL) as Hatt.
  assert (forall z, z ∈ rose_nodes t -> z <> n) as Hne by (intros z Hz ->; destruct (HinK n Hz); congruence).
  assert (K1 !! n = Some []) as HK1n by (rewrite HK1, lookup_insert_ne by done; apply lookup_insert).
  assert (wf K1) as Hw1 by apply Hst1.
  (* the place among the events *)
  assert (is_Some (K1 !! x)) as HK1x.
  { rewrite HK1. destruct (decide (x = q)) as [->|]; [rewrite lookup_insert; eauto|]. rewrite !lookup_insert_ne; [by apply HinK|intros E; by apply (Hne x Hxt)|done]. }
  destruct (shape_exists K1 x Hw1 HK1x) as [t1 Hs1].
  assert (below K1 x n) as Hbn.
  { eapply below_step; [|exists ks'; split; [rewrite HK1; apply lookup_insert|exact Hin]].
    assert (forall pp c, child_of K pp c -> child_of K1 pp c) as Hmono.
    { destruct (attached_shape _ _ _ _ Hatt) as (p0 & ks0 & ks1 & _ & Hk0 & HK1' & Hperm).
      intros pp c (l & Hl & Hc). assert (pp <> n) as Hpn by (intros ->; congruence).
      destruct (decide (pp = p0)) as [->|Hpp].
      - rewrite lookup_insert_ne in Hk0 by done. rewrite Hl in Hk0. injection Hk0 as <-. exists ks1. rewrite HK1', lookup_insert. split; [done|]. rewrite Hperm. by right.
      - exists l. rewrite HK1', !lookup_insert_ne by done. done. }
    eapply below_more; [exact Hmono|]. by apply Hdest. }
  destruct (leaf_events K1 n HK1n t1 x Hs1) as (P & Q & Hev); [by apply (shape_nodes K1 x t1 n Hs1)|].
  assert (exists D, P = Open x :: D) as [D ->].
  { destruct t1 as [z us]. inversion Hs1 as [? ? Hz _ E0]. subst z ts x0. destruct P as [|e P]; simpl in Hev; injection Hev as <- Hev; [by destruct (Hne x Hxt)|eauto]. }
  destruct (without_leaf K K1 x t t1 n _ _ Q Hw Hw1 Hn (Hne x Hxt) Hatt HK1n Hs Hs1 Hev) as [Hevt Hnot].
  set (l := omap into_open (Open x :: D)).
  assert (comes_before K x (dest_of ad y) l) as Hcb.
  { exists n, K1, t1, (omap into_open Q). split; [done|]. split; [done|]. split; [done|].
    rewrite <-events_preorder, Hev, omap_app. done. }
  assert (forall z, z ∈ l <-> z = x \/ Open z ∈ D) as Hl.
  { intros z. unfold l. rewrite elem_opens, elem_of_cons. split; (intros [E|E]; [left|by right]); congruence. }
  assert (forall a, Open a ∈ D ++ Q -> a ∈ rose_nodes t) as HDQ.
  { intros a Ha. apply dfs_open_node. rewrite Hevt. cbn [app]. by right. }
  assert (forall a, a ∈ rose_nodes t -> a = x \/ Open a ∈ D ++ Q) as HDQ'.
  { intros a Ha. apply node_dfs_open in Ha. rewrite Hevt in Ha. cbn [app] in Ha. apply elem_of_cons in Ha as [Ha|Ha]; [left; congruence|by right]. }
  assert (l = [x] <-> D = []) as Hfirst.
  { split; [|by intros ->]. intros E. destruct D as [|e D]; [done|]. exfalso.
    assert (exists a, e = Open a) as [a ->].
    { destruct e as [a|a]; [by exists a|]. exfalso. destruct (events_prefix t1 (Open x :: [Close a]) (D ++ Open n :: Close n :: Q)) as [_ H]; [by rewrite Hev|].
      specialize (H ltac:(done)). simpl in H. assert (D ++ Open n :: Close n :: Q <> []) as HH by (by destruct D). specialize (H HH). lia. }
    unfold l in E. simpl in E. done. }
  exists l. split; [exact Hcb|].
  assert (forall a, Open a ∈ D -> is_Some (K1 !! a)) as HDK1.
  { intros a Ha. apply (shape_events_dom K1 x t1 (Open a) Hw1 Hs1). rewrite Hev. apply elem_of_app. left. by right. }
  assert (forall a, a ∈ rose_nodes t -> payload s2 a = payload s a) as Hpay by (intros a Ha; apply (pl_old _ _ _ _ _ _ _ PL); auto).
  destruct (n_mut nx) eqn:Hmx.
  { assert (borrowed (s_nodes s) x) as Hb by (by exists nx).
    assert (forall f, clone_insert_subtree f s x ad j = Ret (s, HErr BorrowNodeData)) as Ec.
    { intros f. unfold clone_insert_subtree. rewrite (try_borrow_cases _ _ _ Hnx), Hmx. done. }
    destruct (decide (D = [])) as [HD|HD].
    - left. split; [by apply Hfirst|]. exists s, (HErr BorrowNodeData). split; [apply Ec|]. split; [done|]. split; [by exists x|]. split; [done|]. by left.
    - right. left. split; [by intros E; apply HD, Hfirst|]. split; [exists x; split; [apply Hl; by left|done]|].
      exists s. split; [apply Ec|]. split; [done|]. by left. }
  assert (~ borrowed (s_nodes s) x) as Hxb by (intros (nd & E & Hm); congruence).
  (* the start *)
  assert (forall f, clone_insert_subtree f s x ad j =
    (r ← fold_events f s2 (mkBuilder (Some p) (Some m)) (at_ x (D ++ Open n :: Close n :: Q));
     '(s3, res) ← b_end r;
     match res with
     | inl i => '(s4, k) ← call_hand s3 (OpBundle Hot i); Ret (s4, HOk k)
     | inr BorrowData => Ret (s3, HErr BorrowNodeData)
     | inr _ => Panic
     end)) as Estart.
  { intros f. unfold clone_insert_subtree. rewrite (try_borrow_cases _ _ _ Hnx), Hmx. cbn [mbind run_bind]. fold d. rewrite E1. cbn [mbind run_bind].
    assert (dfs_start (Some x) = at_ x (Open x :: D ++ Open n :: Close n :: Q)) as Est by done.
    destruct (ser_open (s_nodes s1) K1 x t1 [] x (D ++ Open n :: Close n :: Q) (proj1 Hst1) Hw1 Hs1 Hev) as (o & _ & Es).
    rewrite Est, Es. cbn [mbind run_bind]. rewrite E2. done. }
  assert (phase (s_hands s) s2 K1 n p [Some d] s2 (mkBuilder (Some p) (Some m))) as Hph0.
  { eapply (ph_open _ _ _ _ _ s2 _ _ _ 0); [exact G|exact Hh|constructor|done]. }
  assert (forall pre s3 b3, phase (s_hands s) s2 K1 n p pre s3 b3 -> exists K3 t3 td3 t', grew (s_hands s) s2 K1 n s3 K3 t3 td3 /\
    shape K3 x t' /\ dfs_events t' = (Open x :: D) ++ dfs_events t3 ++ Q /\ (forall a, a ∈ rose_nodes t -> payload s3 a = payload s a)) as Hgrown.
  { intros pre s3 b3 Hph. destruct (phase_grew _ _ _ _ _ _ _ _ Hph) as (K3 & t3 & td3 & G3). exists K3, t3, td3.
    destruct (plant_ok2 K1 K3 x t1 n t3 (Open x :: D) Q Hw1 Hs1 HK1n Hev (g_shape0 _ _ _ _ _ _ _ _ G3)) as (t' & Hs' & He').
    { intros z Hz Hzn. by apply (g_old _ _ _ _ _ _ _ _ G3). }
    exists t'. split; [exact G3|]. split; [exact Hs'|]. split; [exact He'|]. intros a Ha. rewrite <-(Hpay a Ha). apply (g_payload _ _ _ _ _ _ _ _ G3).
    apply (shape_events_dom K1 x t1 (Open a) Hw1 Hs1). rewrite Hev. destruct (HDQ' a Ha) as [->|HH]; [by left|].
    cbn [app]. right. apply elem_of_app in HH as [HH|HH]; apply elem_of_app; [by left|right]. by do 2 right. }
  (* the data of the source *)
  destruct (raw_exists (s_nodes s) (group (dfs_events t))) as [es0 Hraw].
  { intros a Ha. apply HinH. apply dfs_open_node. by eapply group_opens. }
  pose proof (expand_raw (s_nodes s) _ _ Hraw) as Hx. rewrite expand_group in Hx. pose proof Hx as Hx2.
  rewrite <-brackets_events, <-(app_nil_r (brackets t)) in Hx.
  apply brackets_rel in Hx as (ts & l' & Hx & Hts & Hl'). apply Forall2_nil_inv_l in Hl' as ->. rewrite app_nil_r in Hx. rewrite Hx in Hx2. clear Hx Hraw es0.
  rewrite Hevt in Hx2. cbn [app map] in Hx2.
  apply Forall2_cons_inv_l in Hx2 as (o & bt & Ho & Hbt & Ebt). destruct o as [d0|]; [|done].
  assert (d0 = d) as ->. { simpl in Ho. destruct Ho as (nd & E & <-). unfold d. congruence. }
  destruct ts as [d1 us]. assert (d1 = d) as -> by (simpl in Ebt; by injection Ebt).
  destruct (decide (D = [])) as [->|HD].
  - (* the first place *)
    left. split; [by apply Hfirst|]. clear Hfirst Hcb. clearbody l. clear l Hl.
    rewrite Estart. cbn [app] in *. destruct fuel as [|f]; [lia|].
    cbn [fold_events].
    destruct (ser_open (s_nodes s2) K1 x t1 [Open x] n (Close n :: Q) (proj1 (g_stores _ _ _ _ _ _ _ _ G)) Hw1 Hs1 Hev) as (o & Ho2 & Es).
    assert (payload s2 n = Some (d, Lent 0)) as Hdn' by (pose proof (g_data0 _ _ _ _ _ _ _ _ G) as Hdn; inversion Hdn; assumption).
    rewrite (readable_ev s2 n d 0 Hdn' o Ho2) in Es. rewrite Es. cbn [mbind run_bind].
    set (full_copy := Rose d (Rose d [] :: us)).
    assert (brackets full_copy = [Some d] ++ [Some d] ++ None :: bt) as Hfc.
    { unfold full_copy. cbn [brackets map concat app]. simpl in Ebt. injection Ebt as <-. done. }
    destruct (push_ok (ts0 := []) (b0 := Lent 0) (s_hands s) s2 K1 n p [Some d] s2 _ (EOpen d) Hw1 (ex_intro _ _ HK1n) Hph0) as (s3 & b3 & o3 & E3 & H3).
    { right. exists full_copy, (None :: bt). rewrite Hfc. done. }
    rewrite E3. cbn [mbind run_bind].
    destruct o3 as [e|].
    { exfalso. destruct H3 as (_ & _ & td' & post' & Hpn & E & _). cbn [app step_brackets] in E.
      assert (brackets td' ++ post' ++ None :: bt = brackets full_copy ++ []) as EE by (rewrite app_assoc, <-E, Hfc, app_nil_r; done).
      apply brackets_parse in EE as [_ EE]. apply app_eq_nil in EE as [_ ?]. done. }
    set (L := Close n :: Q).
    assert (forall a, EOpen a ∈ group L -> a ∈ rose_nodes t) as HLt.
    { intros a Ha. pose proof (group_opens _ _ Ha a eq_refl) as HH. unfold L in HH. apply elem_of_cons in HH as [HH|HH]; [done|]. by apply HDQ. }
    destruct (raw_exists (s_nodes s) (group L)) as [es0 Hraw]; [intros a Ha; apply HinH; auto|].
    assert (expand es0 = None :: bt) as Hes0.
    { pose proof (expand_raw (s_nodes s) _ _ Hraw) as HH. rewrite expand_group in HH. unfold L in HH. cbn [map bracket_of into_open] in HH.
      apply Forall2_cons_inv_l in HH as ([?|] & bt' & Hnone & HH & ->); [done|]. f_equal. by eapply brackets_map_fun. }
    destruct (items_exist (s_nodes s) (group L)) as [items Hit]; [intros a Ha; apply HinH; auto|].
    destruct (items_split items) as (es & rest & Hes).
    assert (exists es', es0 = es ++ es' /\ if rest then exists a, a ∈ rose_nodes t /\ borrowed (s_nodes s) a else es' = [] /\ forall a, a ∈ rose_nodes t -> ~ borrowed (s_nodes s) a) as (es' & He0 & Hrest).
    { destruct rest.
      - destruct Hes as [tl Hes]. destruct (reads_raw (s_nodes s) _ es es0 items Hraw _ Hes Hit) as (es' & -> & _ & Hb). exists es'. split; [done|].
        destruct (Hb tl eq_refl) as (a & Ha & Hba). eauto.
      - destruct (reads_raw (s_nodes s) _ es es0 items Hraw [] ltac:(by rewrite app_nil_r) Hit) as (es' & -> & Hnil & _). exists es'. split; [done|].
        split; [auto|]. intros a Ha. subst items. destruct (HDQ' a Ha) as [->|HH]; [done|].
        eapply reads_all_readable; [exact Hit|]. apply open_in_group. by right. }
    assert (forall es2 es3, es = es2 ++ es3 -> exists td post, (([Some d] ++ [Some d]) ++ expand es2) ++ post = brackets td) as Hprefix.
    { intros es2 es3 E. exists full_copy, (expand (es3 ++ es')). rewrite Hfc, <-Hes0, He0, E. unfold expand. rewrite !map_app, !concat_app, <-!app_assoc. done. }
    cbn [step_brackets] in H3.
    rewrite (fold_push2 (s_nodes s) x L true rest ltac:(done) f L [] es s3 b3 eq_refl).
    2:{ pose proof (fold_fuel s K x t Hst Hs) as Hff. rewrite Hevt in Hff. unfold L. simpl in *. lia. }
    2:{ exists items. done. }
    2:{ intros es2 es3 s4 b4 He E4.
        destruct (push_all_ok (ts0 := []) (b0 := Lent 0) (s_hands s) s2 K1 n p Hw1 (ex_intro _ _ HK1n) es2 _ _ _ H3 (or_intror (Hprefix es2 es3 He))) as (s5 & b5 & o5 & E5 & H5).
        rewrite E5 in E4. injection E4 as -> -> ->.
        destruct (Hgrown _ _ _ H5) as (K3 & t3 & td3 & t' & G3 & Hs' & He' & Hpay').
        assert (exists Z, dfs_events t3 = Z ++ [Close n]) as [Z HZ].
        { pose proof (g_shape0 _ _ _ _ _ _ _ _ G3) as HH. destruct t3 as [z us3]. inversion HH; subst. by exists (Open z :: concat (map dfs_events us3)). }
        exists K3, t', (Open x :: Z), []. split; [exact (g_stores _ _ _ _ _ _ _ _ G3)|]. split; [exact Hs'|].
        split; [rewrite He', HZ; unfold L; rewrite app_nil_r; cbn [app]; by rewrite <-app_assoc|]. split; [done|].
        intros a Ha. unfold L in Ha. apply elem_of_cons in Ha as [Ha|Ha]; [done|]. apply payload_nodes; [apply HinH; by apply HDQ|apply Hpay'; by apply HDQ]. }
    destruct (push_all_ok (ts0 := []) (b0 := Lent 0) (s_hands s) s2 K1 n p Hw1 (ex_intro _ _ HK1n) es _ _ _ H3 (or_intror (Hprefix es [] (eq_sym (app_nil_r es))))) as (s4 & b4 & o4 & E4 & H4).
    rewrite E4. cbn [mbind run_bind].
    destruct o4 as [e|].
    { exfalso. destruct H4 as (_ & _ & td' & post' & Hpn & E).
      destruct (Hprefix es [] (eq_sym (app_nil_r es))) as (td2 & post & HH). rewrite E in HH.
      assert (brackets td' ++ post' ++ post = brackets td2 ++ []) as EE by (rewrite app_nil_r, <-HH, <-app_assoc; done).
      apply brackets_parse in EE as [_ EE]. apply app_eq_nil in EE as [EE _]. by apply Hpn. }
    destruct rest; cbn [b_end].
    + destruct (insert_fails s K j y n p s2 K1 _ _ s4 b4 PL HKy Hj Hw1 H4) as (s5 & t5 & td5 & k & E5 & Gr & Hh5 & Hk5).
      rewrite E5. cbn [mbind run_bind]. exists s5, (HErr BorrowNodeData). split; [done|]. split; [done|]. split; [exact Hrest|]. split; [exact Hh5|].
      right. exists n, t5, d, us, td5. split; [exact Hts|]. split; [|exact Gr].
      exists (([Some d] ++ [Some d]) ++ expand es), k, (expand es'). split; [|exact Hk5]. fold full_copy. rewrite Hfc, <-Hes0, He0. unfold expand. rewrite map_app, concat_app, <-!app_assoc. done.
    + destruct (insert_ends s K j y n p s2 K1 _ _ s4 b4 PL HKy Hj Hw1 H4) as (s5 & s6 & t5 & td5 & k & i & E5 & E6 & Gr & Hi & Hh6 & Hk5).
      rewrite E5. cbn [mbind run_bind]. rewrite E6. cbn [mbind run_bind]. exists s6, (HOk i). split; [done|]. destruct Hrest as [-> Hnb]. rewrite app_nil_r in He0. subst es0.
      split; [exact Hnb|]. split; [exact Hi|]. exists n, t5, d, us. split; [exact Hts|]. split; [|exact Hh6].
      assert (td5 = full_copy) as Etd; [|unfold full_copy in Etd; rewrite Etd in Gr; exact Gr]. rewrite Hes0 in Hk5. change (([Some d] ++ [Some d]) ++ None :: bt) with ([Some d] ++ [Some d] ++ None :: bt) in Hk5.
      rewrite <-Hfc in Hk5. rewrite <-(app_nil_r (brackets td5)) in Hk5. apply brackets_parse in Hk5 as [-> _]. done.
  - right. destruct (first_borrowed (s_nodes s) D) as [Hnb|(D1 & z & D2 & ED & Hbz & Hnb)].
    + (* no end *)
      right. split; [by intros E; apply HD, Hfirst|]. split; [intros a Ha; apply Hl in Ha as [->|Ha]; [done|by apply Hnb]|].
      intros f. rewrite Estart.
      assert (at_ x (D ++ Open n :: Close n :: Q) = at_ x (drop (length (@nil (dft nid))) (D ++ Open n :: []))) as Eat by (destruct D; done).
      assert (forall a, Open a ∈ D -> exists d l, payload s2 a = Some (d, Lent l)) as HDp.
      { intros a Ha. assert (a ∈ rose_nodes t) as Hat by (apply HDQ, elem_of_app; by left). rewrite (Hpay a Hat). apply unborrowed_payload; [by apply HinH|by apply Hnb]. }
      assert (all_close [Close n]) as Hcn by (constructor; [by exists n|constructor]).
      pose proof (never (s_hands s) s2 K1 n x p t1 D Q Hw1 Hs1 HK1n Hev HD HDp f s2 K1 (Rose n []) (Rose d []) 0 n m [] [Close n] G Hh (rpath_0 n []) eq_refl eq_refl Hcn eq_refl) as Hnever.
      rewrite Eat, Hnever. done.
    + (* an error *)
      left. split; [by intros E; apply HD, Hfirst|].
      assert (Open z ∈ D) as HzD by (rewrite ED; apply elem_of_app; right; left).
      split; [exists z; split; [apply Hl; by right|done]|].
      rewrite Estart. set (L := D1 ++ [Open z]).
      assert (D = L ++ D2) as EL by (unfold L; by rewrite <-app_assoc).
      assert (forall a, Open a ∈ L -> a ∈ rose_nodes t) as HLt by (intros a Ha; apply HDQ; rewrite EL; apply elem_of_app; left; apply elem_of_app; by left).
      assert (forall a, EOpen a ∈ group D1 -> a ∈ rose_nodes t) as HD1t.
      { intros a Ha. apply HLt. unfold L. apply elem_of_app. left. by eapply group_opens. }
      destruct (raw_exists (s_nodes s) (group D1)) as [es0 Hraw]; [intros a Ha; apply HinH; auto|].
      assert (exists post, expand es0 ++ post = bt) as [post Hpost].
      { pose proof (expand_raw (s_nodes s) _ _ Hraw) as HH. rewrite expand_group in HH.
        assert (exists (b1 b2 : list (option T)), bt = b1 ++ b2 /\ Forall2 (opt_rel (data_is (s_nodes s))) (map bracket_of D1) b1) as (b1 & b2 & -> & Hb1).
        { rewrite EL in Hbt. unfold L in Hbt. rewrite <-!app_assoc, map_app in Hbt. apply Forall2_app_inv_l in Hbt as (b1 & b2 & HH1 & _ & ->). eauto. }
        exists b2. f_equal. by eapply brackets_map_fun. }
      assert (Forall2 (reads (s_nodes s)) (group D1) (map Some es0)) as Hit.
      { assert (forall a, EOpen a ∈ group D1 -> ~ borrowed (s_nodes s) a) as HH by (intros a Ha; apply Hnb; by eapply group_opens).
        clear -Hraw HH. induction Hraw as [|g e gs es0 Hg Hraw IH]; [constructor|]. cbn [map]. constructor.
        - destruct g as [a|k], e as [e|k']; try done; simpl in *; [|by subst]. split; [done|]. apply HH. left.
        - apply IH. intros a Ha. apply HH. by right. }
      assert (forall es2 es3, es0 = es2 ++ es3 -> exists td post, ([Some d] ++ expand es2) ++ post = brackets td) as Hprefix.
      { intros es2 es3 E. exists (Rose d us), (expand es3 ++ post). rewrite Ebt, <-Hpost, E. unfold expand. rewrite map_app, concat_app, <-!app_assoc. done. }
      assert (at_ x (D ++ Open n :: Close n :: Q) = at_ x L) as Eat by (rewrite EL, <-app_assoc; apply at_app; unfold L; by destruct D1).
      rewrite Eat, (fold_push2 (s_nodes s) x L false true) with (mid := []) (es := es0).
      2:{ intros _. split; [done|]. unfold L. eauto. }
      2:{ done. }
      2:{ pose proof (fold_fuel s K x t Hst Hs) as Hff. rewrite Hevt, EL in Hff. rewrite !app_length in Hff. cbn [length] in Hff. rewrite !app_length in Hff. lia. }
      2:{ exists (map Some es0 ++ [None]). unfold L. rewrite group_snoc. split; [|by exists []]. apply Forall2_app; [exact Hit|]. constructor; [exact Hbz|constructor]. }
      2:{ intros es2 es3 s4 b4 He E4.
          destruct (push_all_ok (ts0 := []) (b0 := Lent 0) (s_hands s) s2 K1 n p Hw1 (ex_intro _ _ HK1n) es2 _ _ _ Hph0 (or_intror (Hprefix es2 es3 He))) as (s5 & b5 & o5 & E5 & H5).
          rewrite E5 in E4. injection E4 as -> -> ->.
          destruct (Hgrown _ _ _ H5) as (K3 & t3 & td3 & t' & G3 & Hs' & He' & Hpay').
          exists K3, t', [Open x], (D2 ++ dfs_events t3 ++ Q). split; [exact (g_stores _ _ _ _ _ _ _ _ G3)|]. split; [exact Hs'|].
          split; [rewrite He', EL; cbn [app]; by rewrite <-app_assoc|]. split; [done|].
          intros a Ha. apply payload_nodes; [apply HinH; by apply HLt|apply Hpay'; by apply HLt]. }
      destruct (push_all_ok (ts0 := []) (b0 := Lent 0) (s_hands s) s2 K1 n p Hw1 (ex_intro _ _ HK1n) es0 _ _ _ Hph0 (or_intror (Hprefix es0 [] (eq_sym (app_nil_r es0))))) as (s4 & b4 & o4 & E4 & H4).
      rewrite E4. cbn [mbind run_bind].
      destruct o4 as [e|].
      { exfalso. destruct H4 as (_ & _ & td' & post' & Hpn & E).
        destruct (Hprefix es0 [] (eq_sym (app_nil_r es0))) as (td2 & post2 & HH). rewrite E in HH.
        assert (brackets td' ++ post' ++ post2 = brackets td2 ++ []) as EE by (rewrite app_nil_r, <-HH, <-app_assoc; done).
        apply brackets_parse in EE as [_ EE]. apply app_eq_nil in EE as [EE _]. by apply Hpn. }
      cbn [b_end].
      destruct (insert_fails s K j y n p s2 K1 _ _ s4 b4 PL HKy Hj Hw1 H4) as (s5 & t5 & td5 & k & E5 & Gr & Hh5 & Hk5).
      rewrite E5. cbn [mbind run_bind]. exists s5. split; [done|]. split; [exact Hh5|]. right. exists n, t5, (Rose d us), td5. split; [exact Hts|]. split; [|exact Gr].
      exists ([Some d] ++ expand es0), k, post. split; [|exact Hk5]. rewrite Ebt, <-Hpost. done.
Qed.

(** No place at the destination: refused, without trace. *)
Theorem clone_no_place s K x t ad j y fuel : reach s -> stores s K -> shape K x t -> s_hands s !! j = Some (HNode Hot y) -> ~ has_place K ad y ->
  exists s' e, clone_insert_subtree fuel s x ad j = Ret (s', HErr e) /\
    (borrowed (s_nodes s) x -> e = BorrowNodeData) /\ (~ borrowed (s_nodes s) x -> e = SiblingsWithoutParent) /\
    s_nodes s' = s_nodes s /\ s_trees s' = s_trees s /\ s_hands s' = s_hands s.
Proof.
  intros R Hst Hs Hj Hno. destruct (proj2 (alive_known s K x Hst)) as [nx Hnx]; [inversion Hs; subst; eauto|].
  unfold clone_insert_subtree. rewrite (try_borrow_cases _ _ _ Hnx). cbn [mbind run_bind]. destruct (n_mut nx) eqn:Hmx.
  - exists s, BorrowNodeData. split; [done|]. split; [done|]. split; [|done]. intros Hb. destruct Hb. by exists nx.
  - destruct (create_effect s K (ByHot j) Hot y (n_data nx) ad R Hst (conj eq_refl Hj)) as (s1 & r & u & E & Et & [(Hpl & _)|(_ & -> & E1 & E2 & E3)]); [done|].
    rewrite E. cbn [mbind run_bind]. exists s1, SiblingsWithoutParent. split; [done|]. split; [|done]. intros (nd & E' & Hm). congruence.
Qed.
End Build16.
