(** * DebugFacts: the [Debug] printers show what they must. *)
From Verif Require Import DebugSpec NavFacts SpecFacts RoseFacts EqFacts TdFacts2 ApiFacts ApiFacts2 ApiFacts3 ApiFacts6 ApiFacts7 ApiFacts8 BuildFacts2 BuildFacts4 CardFacts Spec.
Local Open Scope string_scope. Local Open Scope list_scope.

Section DebugFacts.
Context {T : Type}.
Implicit Types (h : heap T) (s : sys T) (K : forest).

Lemma doc_data_ok h x : is_Some (h !! x) -> exists d, doc_data h x = Ret d /\ shows_data h x d.
Proof.
  intros Hx. destruct (try_borrow_spec h x Hx) as (r & E & Hr). unfold doc_data. rewrite E. cbn [mbind run_bind].
  eexists. split; [done|]. destruct r as [v|]; [left; by exists v|by right].
Qed.

Lemma doc_entries_ok h K : rep h K -> wf K -> forall fuel p ts l1, K !! p = Some (l1 ++ map rose_root ts) ->
  Forall (fun t => shape K (rose_root t) t) ts -> length (concat (map rose_nodes ts)) <= fuel ->
  exists ds, doc_entries fuel h (head (map rose_root ts)) = Ret ds /\ Forall2 (shows h) ts ds.
Proof.
  intros Hr Hw fuel. induction fuel as [|f IH]; intros p ts l1 Hk Hts Hlen.
  - destruct ts as [|[y us] ts]; [|simpl in Hlen; lia]. exists []. split; [done|constructor].
  - destruct ts as [|[c us] ts]; [exists []; split; [done|constructor]|].
    apply Forall_cons in Hts as [Hc Hts]. simpl in Hc. inversion Hc as [? ? Hkc Hus]; subst.
    simpl in Hlen. rewrite app_length in Hlen. simpl in Hk. cbn [map rose_root head doc_entries].
    destruct (doc_data_ok h c) as (d & E1 & Hd). { apply (rep_dom _ _ Hr). eauto. }
    rewrite E1. cbn [mbind run_bind]. rewrite (first_child_rep h K c _ Hr Hkc).
    destruct (IH c us [] Hkc Hus) as (ds & E2 & Hds); [lia|]. rewrite E2. cbn [mbind run_bind].
    unfold next_sibling_link. rewrite (fnext_split h K p l1 c _ Hr Hk).
    destruct (IH p ts (l1 ++ [c])) as (rs & E3 & Hrs); [by rewrite <-app_assoc|done|lia|]. rewrite E3. cbn [mbind run_bind].
    eexists. split; [done|]. constructor; [by constructor|done].
Qed.

Lemma doc_children_ok h K x ts : rep h K -> wf K -> shape K x (Rose x ts) ->
  exists ds, doc_children h x = Ret (DList ds) /\ Forall2 (shows h) ts ds.
Proof.
  intros Hr Hw Hs. pose proof (nodes_length_le _ _ _ _ Hr Hw Hs) as Hl. inversion Hs as [? ? Hk Hts]; subst.
  destruct (doc_entries_ok h K Hr Hw (dfs_fuel h) x ts [] Hk Hts) as (ds & E & Hds).
  { simpl in Hl. unfold dfs_fuel. lia. }
  exists ds. unfold doc_children. rewrite (first_child_rep h K x _ Hr Hk), E. done.
Qed.

Lemma doc_lock_ok s K t : reach s -> stores s K -> is_Some (s_trees s !! t) -> exists d, doc_lock s t = Ret d /\ shows_lock s t d.
Proof.
  intros R Hst [tr Ht]. unfold doc_lock. rewrite Ht. eexists. split; [done|].
  destruct (lock_count s K t tr R Hst Ht) as (g & p & Hg & Hp & E & Hz). exists g, p. rewrite E. done.
Qed.
Lemma doc_tree_local_ok s K t : reach s -> stores s K -> is_Some (s_trees s !! t) -> exists d, doc_tree_local s t = Ret d /\ shows_tree s t d.
Proof.
  intros R Hst Ht. destruct (doc_lock_ok s K t R Hst Ht) as (d & E & Hd). unfold doc_tree_local. rewrite E. cbn [mbind run_bind].
  eexists. split; [done|]. by exists d.
Qed.

Lemma place_cases K x : wf K -> is_Some (K !! x) -> is_top K x \/ exists p l1 l2, K !! p = Some (l1 ++ x :: l2).
Proof.
  intros Hw Hx. destruct (has_place_dec K APreviousSibling x Hw Hx) as [[q (ks & Hk & Hin)]|[Htop _]]; [|by left].
  right. apply elem_of_list_split in Hin as (l1 & l2 & ->). eauto.
Qed.

Lemma wf_place K p ks i q ks' j x : wf K -> K !! p = Some ks -> ks !! i = Some x -> K !! q = Some ks' -> ks' !! j = Some x -> p = q /\ ks = ks' /\ i = j.
Proof.
  intros Hw Hp Hi Hq Hj.
  assert (p = q) as <-. { apply (wf_uniq K Hw p q x); [exists ks|exists ks']; split; try done; by eapply elem_of_list_lookup_2. }
  assert (ks = ks') as <- by congruence. split; [done|]. split; [done|]. eapply NoDup_lookup; [|exact Hi|exact Hj]. by eapply (wf_nodup K Hw).
Qed.

Lemma doc_local_ok s K i k x : reach s -> stores s K -> s_hands s !! i = Some (HNode k x) ->
  exists d, doc_local s k x = Ret d /\ shows_node s K (type_name k) x d.
Proof.
  intros R Hst Hi. pose proof Hst as [Hr Hw].
  destruct (handle_tree s K i k x R Hst Hi) as (t & rc & lk & Hm & Et & Ht & HKx). pose proof HKx as [ks Hks].
  destruct (doc_data_ok (s_nodes s) x) as (dd & E1 & Hd). { by apply (rep_dom _ _ Hr). }
  destruct (doc_tree_local_ok s K t R Hst Ht) as (dt & E2 & Hdt).
  assert (tree_core s x = Ret t) as E3 by (unfold tree_core; by rewrite Hm).
  assert (exists b, has_prev_sibling (s_nodes s) x = Ret b /\
    shows_presence (exists p ks i y, K !! p = Some ks /\ ks !! i = Some y /\ ks !! S i = Some x) (doc_opt b : doc T)) as (b & E4 & Hb).
  { destruct (place_cases K x Hw HKx) as [Htop|(p & l1 & l2 & Hp)].
    - exists false. unfold has_prev_sibling. rewrite (psc_top _ K x Hr Htop). cbn [mbind run_bind]. rewrite (fnext_top _ K x Hr Htop).
      split; [done|]. right. split; [|done]. intros (p & ks' & j & y & Hp & _ & Hy). apply (proj2 Htop p). exists ks'. split; [done|]. by eapply elem_of_list_lookup_2.
    - unfold has_prev_sibling. rewrite (psc_split _ K p l1 x l2 Hr Hw Hp). cbn [mbind run_bind]. rewrite (cyc_next _ K p l1 x l2 Hr Hp).
      assert ((l1 ++ x :: l2) !! length l1 = Some x) as Hx by (by apply list_lookup_middle).
      destruct (last l1) as [y|] eqn:El.
      + exists true. split; [done|]. left. split; [|done]. apply last_Some in El as [l0 ->]. exists p, ((l0 ++ [y]) ++ x :: l2), (length l0), y.
        split; [done|]. rewrite <-app_assoc. simpl. split; [by apply list_lookup_middle|]. rewrite lookup_app_r by lia.
        by replace (S (length l0) - length l0) with 1 by lia.
      + exists false. split; [done|]. right. split; [|done]. apply last_None in El as ->. intros (p' & ks' & j & y & Hp' & _ & Hy).
        destruct (wf_place K p _ 0 p' ks' (S j) x Hw Hp eq_refl Hp' Hy) as (_ & _ & ?). done. }
  assert (shows_presence (exists p ks i y, K !! p = Some ks /\ ks !! i = Some x /\ ks !! S i = Some y)
    (doc_opt (has_next_sibling (s_nodes s) x) : doc T)) as Hn.
  { unfold has_next_sibling. destruct (place_cases K x Hw HKx) as [Htop|(p & l1 & l2 & Hp)].
    - rewrite (fnext_top _ K x Hr Htop). right. split; [|done]. intros (p & ks' & j & y & Hp & Hx & _). apply (proj2 Htop p). exists ks'. split; [done|]. by eapply elem_of_list_lookup_2.
    - rewrite (fnext_split _ K p l1 x l2 Hr Hp). assert ((l1 ++ x :: l2) !! length l1 = Some x) as Hx by (by apply list_lookup_middle).
      assert ((l1 ++ x :: l2) !! S (length l1) = head l2) as Hl.
      { rewrite lookup_app_r by lia. replace (S (length l1) - length l1) with 1 by lia. by destruct l2. }
      destruct (head l2) as [y|].
      + left. split; [|done]. by exists p, (l1 ++ x :: l2), (length l1), y.
      + right. split; [|done]. intros (p' & ks' & j & y & Hp' & Hx' & Hy).
        destruct (wf_place K p _ (length l1) p' ks' j x Hw Hp Hx Hp' Hx') as (_ & <- & <-). congruence. }
  assert (shows_presence (exists p, child_of K p x) (doc_opt (negb (is_root (s_nodes s) x)) : doc T)) as Hpar.
  { destruct (place_cases K x Hw HKx) as [Htop|(p & l1 & l2 & Hp)].
    - rewrite (is_root_top _ K x Hr Htop). right. split; [|done]. intros [p Hp]. by apply (proj2 Htop p).
    - assert (child_of K p x) as Hc by (exists (l1 ++ x :: l2); split; [done|clear; set_solver]).
      rewrite (is_root_child _ K p x Hr Hc). left. split; [by exists p|done]. }
  assert (shows_presence (exists c, child_of K x c) (doc_opt (has_children (s_nodes s) x) : doc T)) as Hch.
  { unfold has_children. rewrite (rep_nch _ _ Hr x ks Hks). destruct ks as [|c ks]; simpl.
    - right. split; [|done]. intros [c (ks' & Hk & Hc)]. assert (ks' = []) as -> by congruence. by apply elem_of_nil in Hc.
    - left. split; [|done]. exists c, (c :: ks). split; [done|]. apply elem_of_cons. by left. }
  unfold doc_local. rewrite E1. cbn [mbind run_bind]. rewrite E4. cbn [mbind run_bind]. rewrite E3. cbn [mbind run_bind]. rewrite E2. cbn [mbind run_bind].
  eexists. split; [done|]. unfold shows_node. eexists _, _, _, _, _, _, t. split; [done|]. done.
Qed.

Lemma doc_subtree_ok s K i k x ts : reach s -> stores s K -> s_hands s !! i = Some (HNode k x) -> shape K x (Rose x ts) ->
  exists t dt dd ds, tree_of s x = Some t /\
    doc_subtree s k x = Ret (DStruct (type_name (subtree_type k)) [("tree", dt); ("data", dd); ("children", DList ds)]) /\
    shows_tree s t dt /\ shows_data (s_nodes s) x dd /\ Forall2 (shows (s_nodes s)) ts ds.
Proof.
  intros R Hst Hi Hs. pose proof Hst as [Hr Hw].
  destruct (handle_tree s K i k x R Hst Hi) as (t & rc & lk & Hm & Et & Ht & HKx).
  destruct (doc_data_ok (s_nodes s) x) as (dd & E1 & Hd). { by apply (rep_dom _ _ Hr). }
  destruct (doc_tree_local_ok s K t R Hst Ht) as (dt & E2 & Hdt).
  destruct (doc_children_ok (s_nodes s) K x ts Hr Hw Hs) as (ds & E4 & Hds).
  exists t, dt, dd, ds. split; [done|]. unfold doc_subtree, tree_core. rewrite Hm. cbn [mbind run_bind]. rewrite E2. cbn [mbind run_bind].
  rewrite E1. cbn [mbind run_bind]. rewrite E4. done.
Qed.

Lemma tree_root_is s K t tr : reach s -> stores s K -> s_trees s !! t = Some tr -> is_top K (t_root tr) /\ tree_of s (t_root tr) = Some t.
Proof. intros R Hst Ht. exact (s_root _ _ (i_s _ _ (reach_stores_inv s K R Hst)) t tr Ht). Qed.

Lemma doc_tree_ok s K i t : reach s -> stores s K -> s_hands s !! i = Some (HTree t) ->
  exists r rt dl dn, is_top K r /\ tree_of s r = Some t /\ shape K r rt /\
    doc_tree s t = Ret (DStruct "Tree" [("lock_manager", dl); ("nodes", dn)]) /\ shows_lock s t dl /\ shows (s_nodes s) rt dn.
Proof.
  intros R Hst Hi. pose proof Hst as [Hr Hw].
  destruct (h_tree _ _ (i_h _ _ (reach_stores_inv s K R Hst)) i t Hi) as [tr Ht].
  destruct (tree_root_is s K t tr R Hst Ht) as [Htop Htr]. destruct (shape_exists K (t_root tr) Hw (proj1 Htop)) as [[y ts] Hs].
  assert (y = t_root tr) as -> by (by inversion Hs).
  destruct (doc_data_ok (s_nodes s) (t_root tr)) as (dd & E1 & Hd). { apply (rep_dom _ _ Hr). exact (proj1 Htop). }
  destruct (doc_lock_ok s K t R Hst ltac:(eauto)) as (dl & E2 & Hdl).
  destruct (doc_children_ok (s_nodes s) K _ ts Hr Hw Hs) as (ds & E4 & Hds).
  eexists _, _, dl, _. split; [exact Htop|]. split; [exact Htr|]. split; [exact Hs|]. unfold doc_tree. rewrite Ht, E2. cbn [mbind run_bind]. rewrite E1. cbn [mbind run_bind].
  rewrite E4. cbn [mbind run_bind]. split; [done|]. split; [done|]. by constructor.
Qed.

(** ** Weak references: the temporary handle leaves no trace *)
Definition plain_like (hd : handle) : Prop := match hd with HNode Plain _ | HTree _ => True | _ => False end.
Lemma holders_gives s s1 j hd k t n : plain_like hd -> k <> Plain -> gives s s1 j hd ->
  holders s1 (s_hands s1) k t n -> holders s (s_hands s) k t n.
Proof.
  intros Hp Hk (V & Hj & Hh) (a & b & Ha & Hb & ->). exists a, b. split; [|split; [|done]].
  - eapply card_ext; [exact Ha|]. intros y. unfold token_holder. rewrite Hh. destruct (decide (y = j)) as [->|Hne].
    + rewrite lookup_insert, Hj. split; intros [_ ?]; [|done]. destruct k; [done|..]; destruct hd as [[]| | | | |]; done.
    + by rewrite lookup_insert_ne.
  - eapply card_ext; [exact Hb|]. intros y. unfold node_holder. rewrite (sv_tree _ _ V), Hh. split; intros (H1 & H2 & i & Hi); (split; [done|split; [done|]]).
    + exists i. destruct (decide (i = j)) as [->|Hne]; [|by rewrite lookup_insert_ne in Hi].
      rewrite lookup_insert in Hi. injection Hi as ->. by destruct k.
    + exists i. rewrite lookup_insert_ne; [done|]. intros ->. congruence.
Qed.
Lemma lock_gives s s1 j hd t d : plain_like hd -> gives s s1 j hd -> shows_lock s1 t d -> shows_lock s t d.
Proof. intros Hp G (g & p & Hg & Hf & Hz & ->). exists g, p. split; [by eapply holders_gives|]. split; [by eapply holders_gives|]. done. Qed.
Lemma tree_gives s s1 j hd t d : plain_like hd -> gives s s1 j hd -> shows_tree s1 t d -> shows_tree s t d.
Proof. intros Hp G (l & Hl & ->). exists l. split; [by eapply lock_gives|done]. Qed.
Lemma data_view s s1 x d : same_view s s1 -> shows_data (s_nodes s1) x d -> shows_data (s_nodes s) x d.
Proof.
  intros V. pose proof (sv_payload _ _ V x) as Hp. unfold payload in Hp.
  assert (forall v, data_is (s_nodes s1) x v -> data_is (s_nodes s) x v) as Hd.
  { intros v (nd & E & <-). rewrite E in Hp. simpl in Hp. destruct (s_nodes s !! x) as [nd'|] eqn:E'; [|done]. simpl in Hp. exists nd'. split; [done|congruence]. }
  assert (borrowed (s_nodes s1) x <-> borrowed (s_nodes s) x) as Hb.
  { split; intros (nd & E & Hm); rewrite E in Hp; simpl in Hp.
    - destruct (s_nodes s !! x) as [nd'|] eqn:E'; [|done]. simpl in Hp. exists nd'. split; [done|]. unfold n_mut in *. injection Hp as _ Hp. first [by rewrite Hp|by rewrite <- Hp].
    - destruct (s_nodes s1 !! x) as [nd'|] eqn:E'; [|done]. simpl in Hp. exists nd'. split; [done|]. unfold n_mut in *. injection Hp as _ Hp. first [by rewrite Hp|by rewrite <- Hp]. }
  intros [(v & [H1 H2] & ->)|[H ->]]; [left; exists v; split; [|done]; split; [by apply Hd|by rewrite <-Hb]|right; split; [by apply Hb|done]].
Qed.
Lemma node_gives s s1 j hd K name x d : plain_like hd -> gives s s1 j hd -> shows_node s1 K name x d -> shows_node s K name x d.
Proof.
  intros Hp G (dd & dp & dprev & dnext & dfirst & dt & t & -> & Hd & H1 & H2 & H3 & H4 & Et & Hdt).
  eexists dd, dp, dprev, dnext, dfirst, dt, t. split; [done|]. split; [eapply data_view; [apply G|exact Hd]|].
  split; [done|]. split; [done|]. split; [done|]. split; [done|]. split; [rewrite <-Et; symmetry; apply G|by eapply tree_gives].
Qed.

(** Upgrading and dropping again. *)
Lemma give_back s s1 K j hd t : reach s -> stores s K -> reach s1 -> gives s s1 j hd -> tree_held s (s_hands s) t ->
  (hd = HTree t \/ exists k x, hd = HNode k x /\ tree_of s x = Some t) ->
  exists s2, step s1 (OpDrop j) = Ret (s2, OutUnit) /\ unaffected s s2.
Proof.
  intros R Hst R1 (V & Hj & Hh) Hheld Hhd. pose proof (sv_stores _ _ V K Hst) as Hst1.
  destruct (drop_api s1 K j hd t R1 Hst1) as (s2 & E & Hh2 & D).
  { rewrite Hh. apply lookup_insert. }
  { destruct Hhd as [->|(k & x & -> & Hx)]; [by left|right; exists k, x; split; [done|]]. by rewrite (sv_tree _ _ V). }
  assert (s_hands s2 = s_hands s) as Hh2'. { rewrite Hh2, Hh. by apply delete_insert. }
  exists s2. split; [done|]. assert (reach s2) as R2 by (eapply reach_step; [exact R1|exact Hst1| |exact E]; exact Logic.I).
  split; [exact R2|]. split; [|done].
  destruct D as [[_ V2]|[Hno _]]; [by eapply view_trans|]. exfalso. apply Hno. rewrite Hh2'.
  destruct Hheld as [H|(i & k & x & Hi & Hx)]; [by left|right; exists i, k, x; split; [done|]]. by rewrite (sv_tree _ _ V).
Qed.

Theorem debug_weak_node s K i x : reach s -> stores s K -> s_hands s !! i = Some (HNodeWeak x) ->
  exists s' d, debug_fmt s i = Ret (s', d) /\ unaffected s s' /\
    ((is_Some (K !! x) /\ exists d', d = DTuple "NodeWeak" d' /\ shows_node s K "Node" x d') \/
     (K !! x = None /\ d = DRaw "NodeWeak(<dropped>)")).
Proof.
  intros R Hst Hi.
  destruct (reach_effect s K (OpUpgrade i) R Hst ltac:(exact Logic.I)) as (s1 & r1 & E1 & R1 & Ef1); [left; by exists x|exact (fun F => F)|].
  destruct Ef1 as [[(x' & Hi' & C)|(t & Hi' & _)]|[[]|[]]]; [|congruence]. assert (x' = x) as -> by congruence.
  unfold debug_fmt. rewrite Hi, E1. cbn [mbind run_bind]. destruct C as [(A & j & -> & G)|(A & -> & ->)].
  - assert (s_hands s1 !! j = Some (HNode Plain x)) as Hj1 by (destruct G as (_ & _ & ->); apply lookup_insert).
    pose proof (sv_stores _ _ (proj1 G) K Hst) as Hst1.
    destruct (doc_local_ok s1 K j Plain x R1 Hst1 Hj1) as (d & E2 & Hd). rewrite E2. cbn [mbind run_bind].
    destruct (proj1 (no_garbage s K R Hst) x) as (t & Et & Ht). { by apply (alive_known s K x Hst). }
    assert (tree_held s (s_hands s) t) as Hheld. { by apply (reach_stores_inv s K R Hst). }
    destruct (give_back s s1 K j (HNode Plain x) t R Hst R1 G Hheld) as (s2 & E3 & Hu); [right; by exists Plain, x|].
    rewrite E3. cbn [mbind run_bind]. exists s2, (DTuple "NodeWeak" d). split; [done|]. split; [done|]. left. split; [done|].
    exists d. split; [done|]. by eapply (node_gives s s1 j (HNode Plain x)).
  - eexists s, _. split; [done|]. split; [|by right]. split; [exact R|]. split; [|done]. constructor; done.
Qed.
Theorem debug_weak_tree s K i t : reach s -> stores s K -> s_hands s !! i = Some (HTreeWeak t) ->
  exists s' d, debug_fmt s i = Ret (s', d) /\ unaffected s s' /\
    ((tree_held s (s_hands s) t /\ shows_tree s t d) \/ (~ tree_held s (s_hands s) t /\ d = DRaw "TreeWeak(<dropped>)")).
Proof.
  intros R Hst Hi.
  destruct (reach_effect s K (OpUpgrade i) R Hst ltac:(exact Logic.I)) as (s1 & r1 & E1 & R1 & Ef1); [right; by exists t|exact (fun F => F)|].
  destruct Ef1 as [[(x' & Hi' & C)|(t' & Hi' & C)]|[[]|[]]]; [congruence|]. assert (t' = t) as -> by congruence.
  unfold debug_fmt. rewrite Hi, E1. cbn [mbind run_bind]. destruct C as [(A & j & -> & G)|(A & -> & ->)].
  - assert (s_hands s1 !! j = Some (HTree t)) as Hj1 by (destruct G as (_ & _ & ->); apply lookup_insert).
    pose proof (sv_stores _ _ (proj1 G) K Hst) as Hst1.
    destruct (doc_tree_local_ok s1 K t R1 Hst1) as (d & E2 & Hd). { exact (h_tree _ _ (i_h _ _ (reach_stores_inv s1 K R1 Hst1)) j t Hj1). }
    rewrite E2. cbn [mbind run_bind].
    destruct (give_back s s1 K j (HTree t) t R Hst R1 G A) as (s2 & E3 & Hu); [by left|].
    rewrite E3. cbn [mbind run_bind]. exists s2, d. split; [done|]. split; [done|]. left. split; [done|].
    by eapply (tree_gives s s1 j (HTree t)).
  - eexists s, _. split; [done|]. split; [|by right]. split; [exact R|]. split; [|done]. constructor; done.
Qed.
End DebugFacts.
