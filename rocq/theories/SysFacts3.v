(** * SysFacts3: destroying trees, dropping and creating node handles. *)
From Verif Require Import Heap System SysSpec CardFacts HeapFacts SpecFacts NavFacts EditFacts EditFacts2 EditFacts3 IterSpec RoseFacts TdFacts TdFacts2 SysFacts SysFacts2 Spec.

Section SysFacts3.
Context {T : Type}.
Implicit Types (h : heap T) (s : sys T) (hm : gmap nat handle).

Lemma tree_referenced_iff s tpins t : tree_referenced s tpins t = true <->
  t ∈ tpins \/ (exists i, s_hands s !! i = Some (HTree t)) \/ (exists x rc lk, n_memb s x = Some (MStrong t rc lk)).
Proof.
  unfold tree_referenced. rewrite !orb_true_iff, !existsb_map_true, bool_decide_eq_true. split.
  - intros [[H|(i & hd & H1 & H2)]|(x & nd & H1 & H2)].
    + by left.
    + right. left. destruct hd; simpl in H2; try done. apply bool_decide_eq_true in H2 as ->. eauto.
    + right. right. simpl in H2. destruct (n_mem nd) as [|u rc lk] eqn:E; [done|].
      apply bool_decide_eq_true in H2 as ->. exists x, rc, lk. unfold n_memb. rewrite H1. simpl. by rewrite E.
  - intros [H|[[i H]|(x & rc & lk & H)]].
    + by left; left.
    + left. right. exists i, (HTree t). split; [done|]. simpl. by apply bool_decide_eq_true.
    + right. unfold n_memb in H. destruct (s_nodes s !! x) as [nd|] eqn:E; [|done]. simpl in H. exists x, nd. split; [done|].
      simpl. simplify_eq. rewrite H. by apply bool_decide_eq_true.
Qed.

(** Under the handle invariant, a tree is referenced iff some handle holds it. *)
Lemma strong_held s hm x t rc lk : hinv s hm -> n_memb s x = Some (MStrong t rc lk) ->
  exists i k, hm !! i = Some (HNode k x).
Proof.
  intros H Hm. destruct (h_strong _ _ H _ _ _ _ Hm) as (_ & Hrc & C & _). destruct rc as [|rc]; [lia|].
  apply card_S in C as (i & k & Hi). eauto.
Qed.

Lemma referenced_held s t : hinv s (s_hands s) -> (tree_referenced s [] t = true <-> tree_held s (s_hands s) t).
Proof.
  intros H. rewrite tree_referenced_iff. unfold tree_held. split.
  - intros [Hn|[Hi|(x & rc & lk & Hm)]]; [by apply elem_of_nil in Hn|by left|].
    right. destruct (strong_held _ _ _ _ _ _ H Hm) as (i & k & Hi). exists i, k, x. split; [done|].
    unfold tree_of. by rewrite Hm.
  - intros [Hi|(i & k & x & Hi & Ht)]; [by right; left|]. right. right.
    destruct (hinv_handle_strong _ _ _ _ _ H Hi) as (t1 & rc & lk & Hm & _ & _ & _ & E).
    assert (t1 = t) as -> by congruence. eauto.
Qed.

Lemma below_list K r : wf K -> is_Some (K !! r) -> exists L, NoDup L /\ forall y, y ∈ L <-> below K r y.
Proof.
  intros Hw Hr. destruct (shape_exists K r Hw Hr) as [ro Hs]. exists (rose_nodes ro).
  split; [by eapply shape_nodup|]. intros y. by eapply shape_nodes.
Qed.

Lemma drop_tree_gen s K t tr pins tpins :
  rep (s_nodes s) K -> wf K -> hinv s (s_hands s) -> s_trees s !! t = Some tr -> is_top K (t_root tr) ->
  (forall y, below K (t_root tr) y -> tree_of s y = Some t) ->
  (forall t2 tr2, s_trees s !! t2 = Some tr2 -> below K (t_root tr) (t_root tr2) -> t2 = t) ->
  tree_referenced s tpins t = false ->
  exists h', drop_tree_if_dead pins tpins s t =
      Ret (mkSys h' (delete t (s_trees s)) (s_hands s) (s_fresh s)) /\
    swept (s_nodes s) h' K (t_root tr) pins /\
    hinv (mkSys h' (delete t (s_trees s)) (s_hands s) (s_fresh s)) (s_hands s) /\
    (forall y, below K (t_root tr) y -> weak_node (s_nodes s) y /\ forall i k, s_hands s !! i <> Some (HNode k y)).
Proof.
  intros Hr Hw H Htr Ht Hall Hroots Href.
  assert (forall y, below K (t_root tr) y -> weak_node (s_nodes s) y /\ forall i k, s_hands s !! i <> Some (HNode k y)) as Hweak.
  { intros y Hy. pose proof (Hall _ Hy) as Hty. assert (is_Some (s_nodes s !! y)) as [nd Hnd].
    { apply (rep_dom _ _ Hr). eapply below_alive; [done|apply Ht|done]. }
    assert (n_memb s y = Some (n_mem nd)) as Hm by (unfold n_memb; by rewrite Hnd).
    destruct (n_mem nd) as [o|u rc lk] eqn:E.
    - split; [exists nd, o; done|]. destruct (h_weak _ _ H _ _ Hm) as [_ Hn]. intros i k Hi. apply (Hn i). by exists k.
    - exfalso. unfold tree_of in Hty. rewrite Hm in Hty. simplify_eq.
      assert (tree_referenced s tpins t = true) as X; [|congruence]. apply tree_referenced_iff. right. right. eauto. }
  destruct (drop_tree_ok s K (t_root tr) t tr pins tpins) as (h' & E & Hsw); try done.
  { intros y Hy. destruct (Hweak y Hy) as [A B]. split_and!; [done|done|]. intros t2 tr2 Ht2 <-. by eapply Hroots. }
  exists h'. split; [done|]. split; [done|]. split; [|done].
  destruct Hsw as (S1 & S2 & S3).
  destruct (below_list K (t_root tr) Hw ltac:(apply Ht)) as (L & _ & HL).
  assert (forall y m, n_memb (mkSys h' (delete t (s_trees s)) (s_hands s) (s_fresh s)) y = Some m -> n_memb s y = Some m) as Hmm.
  { intros y m Hm. unfold n_memb in *. simpl in Hm. destruct (h' !! y) as [nd'|] eqn:Ey; [|done]. simpl in Hm. simplify_eq.
    destruct (decide (y ∈ L)) as [Hy|Hy].
    - apply HL in Hy. destruct (decide (y ∈ pins)) as [Hp|Hp].
      + destruct (S3 _ Hy Hp) as (nd & nd2 & E1 & E2 & _ & _ & E3). rewrite E1. simpl. congruence.
      + rewrite (S2 _ Hy Hp) in Ey. done.
    - rewrite HL in Hy. by rewrite <-(S1 _ Hy), Ey. }
  assert (forall y, ~ below K (t_root tr) y ->
     n_memb (mkSys h' (delete t (s_trees s)) (s_hands s) (s_fresh s)) y = n_memb s y) as Hmo.
  { intros y Hy. unfold n_memb. simpl. by rewrite S1. }
  split.
  - intros x o Hx. apply Hmm in Hx. by apply (h_weak _ _ H).
  - intros x u rc lk Hx. apply Hmm in Hx. destruct (h_strong _ _ H _ _ _ _ Hx) as (A & B). split; [|done].
    simpl. rewrite lookup_delete_ne; [done|]. intros <-.
    assert (tree_referenced s tpins t = true) as X; [|congruence]. apply tree_referenced_iff. right. right. eauto.
  - intros i k x Hi. simpl. destruct (decide (x ∈ L)) as [Hx|Hx].
    + apply HL in Hx. by destruct (proj2 (Hweak x Hx) i k).
    + rewrite HL in Hx. rewrite S1 by done. exact (h_node _ _ H _ _ _ Hi).
  - intros i u Hi. simpl. rewrite lookup_delete_ne; [exact (h_tree _ _ H _ _ Hi)|]. intros <-.
    assert (tree_referenced s tpins t = true) as X; [|congruence]. apply tree_referenced_iff. right. left. eauto.
  - intros u tr1 Hu. simpl in Hu. apply lookup_delete_Some in Hu as [Hne Hu].
    eapply lock_ok_ext; [exact (h_lock _ _ H _ _ Hu)|done|]. intros k x. unfold node_holder.
    split; intros (A & B & i & C); (split_and!; [done| |eauto]).
    + unfold tree_of in *. rewrite Hmo; [done|]. intros Hb. by destruct (proj2 (Hweak x Hb) i k).
    + unfold tree_of in *. rewrite <-Hmo; [done|]. intros Hb. by destruct (proj2 (Hweak x Hb) i k).
Qed.

(** ** Structure with exempted top nodes *)

(** Like [sinv], but the top nodes in [X] need no tree. *)
Record pinv s (K : forest) (X : nid -> Prop) : Prop := {
  p_rep : rep (s_nodes s) K;
  p_wf : wf K;
  p_child : forall p c, child_of K p c -> tree_of s c = tree_of s p;
  p_top : forall x, is_top K x -> X x \/
    exists t tr, tree_of s x = Some t /\ s_trees s !! t = Some tr /\ t_root tr = x;
  p_root : forall t tr, s_trees s !! t = Some tr ->
    is_top K (t_root tr) /\ tree_of s (t_root tr) = Some t;
}.
Definition noX : nid -> Prop := fun _ => False.

Lemma sinv_pinv s K : sinv s K <-> pinv s K noX.
Proof.
  split; intros [H1 H2 H3 H4 H5]; split; try done.
  - intros x Hx. right. by apply H4.
  - intros x Hx. by destruct (H4 x Hx) as [[]|].
Qed.

Lemma framed_pinv s s' K X : pinv s K X -> framed s s' -> pinv s' K X.
Proof.
  intros [H1 H2 H3 H4 H5] F. split.
  - eapply rep_memonly; [done|apply F].
  - done.
  - intros p c Hc. rewrite !(fr_tree _ _ F). by apply H3.
  - intros x Hx. destruct (H4 x Hx) as [|(t & tr & A1 & A2 & A3)]; [by left|right].
    pose proof (fr_root _ _ F t) as E. rewrite A2 in E. destruct (s_trees s' !! t) as [tr'|] eqn:Et; [|done].
    simpl in E. exists t, tr'. rewrite (fr_tree _ _ F). split_and!; congruence.
  - intros t tr Ht. pose proof (fr_root _ _ F t) as E. rewrite Ht in E. destruct (s_trees s !! t) as [tr0|] eqn:Et; [|done].
    simpl in E. simplify_eq. rewrite (fr_tree _ _ F), E. by apply H5.
Qed.

Lemma below_tree s K X a x : pinv s K X -> below K a x -> tree_of s x = tree_of s a.
Proof. intros H. induction 1 as [|p c Hb IH Hc]; [done|]. rewrite (p_child _ _ _ H _ _ Hc). done. Qed.

(** Every node of a consistent state belongs to an existing tree, below its root. *)
Lemma sinv_tree s K x : sinv s K -> is_Some (s_nodes s !! x) ->
  exists t tr, tree_of s x = Some t /\ s_trees s !! t = Some tr /\ below K (t_root tr) x.
Proof.
  intros H Hx. apply (rep_dom _ _ (s_rep _ _ H)) in Hx. destruct (top_exists K x (s_wf _ _ H) Hx) as (r & Hr & Hb).
  destruct (s_top _ _ H r Hr) as (t & tr & A & B & C). exists t, tr. rewrite C. split_and!; try done.
  rewrite <-A. eapply below_tree; [by apply sinv_pinv|done].
Qed.

Lemma sinv_below s K t tr x : sinv s K -> s_trees s !! t = Some tr ->
  (below K (t_root tr) x <-> is_Some (s_nodes s !! x) /\ tree_of s x = Some t).
Proof.
  intros H Htr. destruct (s_root _ _ H _ _ Htr) as [Ht1 Ht2]. split.
  - intros Hb. split.
    + apply (rep_dom _ _ (s_rep _ _ H)). eapply below_alive; [apply H|apply Ht1|done].
    + rewrite <-Ht2. eapply below_tree; [by apply sinv_pinv|done].
  - intros [Hx Ht]. destruct (sinv_tree _ _ _ H Hx) as (t1 & tr1 & A & B & C).
    assert (t1 = t) as -> by congruence. by simplify_eq.
Qed.

(** A node of a consistent state is always referenced. *)
Lemma pinv_referenced s K X pins x : pinv s K X -> is_Some (s_nodes s !! x) -> ~ X x -> referenced s pins x = true.
Proof.
  intros H Hx Hn. apply (rep_dom _ _ (p_rep _ _ _ H)) in Hx. apply referenced_true. right. right.
  destruct (top_or_child K x Hx) as [Ht|(p & ks & Hp & Hin)].
  - right. destruct (p_top _ _ _ H x Ht) as [|(t & tr & _ & A & B)]; [done|]. eauto.
  - left. apply elem_of_list_lookup in Hin as [[|i] Hi].
    + exists p. left. rewrite (rep_first _ _ (p_rep _ _ _ H) _ _ Hp). by rewrite head_lookup.
    + destruct (ks !! i) as [y|] eqn:Ey.
      * exists y. right. destruct (rep_linked _ _ (p_rep _ _ _ H) _ _ Hp _ _ Ey) as (_ & E & _). congruence.
      * apply lookup_ge_None in Ey. apply lookup_lt_Some in Hi. lia.
Qed.

Lemma sweep_pinv s K X (t : tid) tr (L : list nid) h' hm f : pinv s K X -> s_trees s !! t = Some tr ->
  (forall y, y ∈ L <-> below K (t_root tr) y) ->
  (forall y, y ∉ L -> h' !! y = s_nodes s !! y) -> (forall y, y ∈ L -> h' !! y = None) ->
  pinv (mkSys h' (delete t (s_trees s)) hm f) (prune K L) X.
Proof.
  intros H Htr HL Ho Hi. pose proof (p_wf _ _ _ H) as Hw. destruct (p_root _ _ _ H _ _ Htr) as [Ht1 Ht2].
  assert (forall y, y ∉ L -> tree_of (mkSys h' (delete t (s_trees s)) hm f) y = tree_of s y) as Hto.
  { intros y Hy. unfold tree_of, n_memb. simpl. by rewrite Ho. }
  split.
  - eapply prune_rep; [apply H|done|exact Ht1|done|done|done].
  - by eapply prune_wf.
  - intros p c Hc. assert (c ∉ L) as Hcl.
    { intros Hcl. apply HL in Hcl. apply prune_child in Hc as [Hp Hc].
      destruct (below_parent_inv _ _ _ Hcl) as [Er|(q & Hq & Hb)]; [rewrite <-Er in Hc; by apply Ht1 in Hc|].
      apply Hp, HL. by rewrite (wf_uniq _ Hw _ _ _ Hc Hq). }
    apply prune_child in Hc as [Hp Hc]. rewrite !Hto by done. by apply (p_child _ _ _ H).
  - intros x Hx. apply (prune_top K L (t_root tr)) in Hx as [Hxl Hx]; [|done|done|done].
    destruct (p_top _ _ _ H x Hx) as [|(u & tr1 & A & B & C)]; [by left|right].
    exists u, tr1. rewrite Hto by done. split_and!; [done| |done]. simpl. rewrite lookup_delete_ne; [done|].
    intros <-. simplify_eq. apply Hxl, HL. constructor.
  - intros u tr1. simpl. rewrite lookup_delete_Some. intros [Hne Hu]. destruct (p_root _ _ _ H _ _ Hu) as [A B].
    assert (t_root tr1 ∉ L) as Hrl.
    { intros Hl. apply HL in Hl. pose proof (below_tree _ _ _ _ _ H Hl) as E. congruence. }
    split; [by apply (prune_top K L (t_root tr))|]. by rewrite Hto.
Qed.

(** ** Dropping a plain handle *)

(** Nothing but handles, reference counts and lock counts changed. *)
Record quiet s s' : Prop := {
  q_mem : memonly (s_nodes s) (s_nodes s');
  q_tree : forall x, tree_of s' x = tree_of s x;
  q_root : forall t : tid, t_root <$> s_trees s' !! t = t_root <$> s_trees s !! t;
}.

(** The tree [t] and all its nodes are gone; the rest is untouched. *)
Definition freed s s' (K : forest) t (K' : forest) : Prop :=
  exists tr L, s_trees s !! t = Some tr /\ (forall y, y ∈ L <-> below K (t_root tr) y) /\ K' = prune K L /\
    s_trees s' !! t = None /\ (forall u, u <> t -> s_trees s' !! u = s_trees s !! u) /\
    (forall y, y ∈ L -> s_nodes s' !! y = None) /\ (forall y, y ∉ L -> s_nodes s' !! y = s_nodes s !! y).

Lemma framed_quiet s s' : framed s s' -> quiet s s'.
Proof. intros []. by split. Qed.

Lemma tree_held_mono s hm hm' t : (forall i hd, hm !! i = Some hd -> hm' !! i = Some hd) -> tree_held s hm t -> tree_held s hm' t.
Proof. intros H [(i & Hi)|(i & k & x & Hi & Hx)]; [left|right]; eauto 10. Qed.

(** Assembling [inv]. *)
Lemma mk_inv s K hm f : sinv s K -> hinv s hm ->
  (forall t, is_Some (s_trees s !! t) -> tree_held s hm t) -> finv s ->
  (forall i hd, hm !! i = Some hd -> i < f /\ hand_target hd < f) -> s_fresh s <= f ->
  inv (mkSys (s_nodes s) (s_trees s) hm f) K.
Proof.
  intros Hs Hh Hheld [F1 F2 F3 F4] Hhm Hf. split.
  - destruct Hs as [A B C D E]. split; done.
  - destruct Hh as [A B C D E]. split; done.
  - done.
  - split; simpl.
    + intros x Hx. specialize (F1 x Hx). lia.
    + intros t Ht. specialize (F2 t Ht). lia.
    + done.
    + intros x t Ht. specialize (F4 x t Ht). lia.
Qed.

Lemma drop_link_ok s K hm i x t :
  sinv s K -> hinv s hm -> hm !! i = Some (HNode Plain x) -> delete i (s_hands s) = delete i hm ->
  tree_of s x = Some t -> (forall u, is_Some (s_trees s !! u) -> tree_held s hm u) -> finv s ->
  exists s' K', drop_link s i x = Ret s' /\ inv s' K' /\ s_hands s' = delete i (s_hands s) /\ s_fresh s' = s_fresh s /\
    ((tree_held s (delete i hm) t /\ K' = K /\ quiet s s') \/
     (~ tree_held s (delete i hm) t /\ freed s s' K t K')).
Proof.
  intros Hs Hh Hi Ehm Ht Hheld Hf.
  destruct (hinv_handle_strong _ _ _ _ _ Hh Hi) as (t1 & rc & lk & Hm & [tr Htr] & C1 & C2 & E).
  assert (t1 = t) as -> by congruence. clear E.
  destruct (decr_mem_ok _ _ _ _ _ _ _ Hh Hi Hm) as (Hlk & Hh1 & F1).
  assert (is_Some (s_nodes s !! x)) as Hx by (by eapply n_memb_alive).
  set (m := match rc with 0 => MWeak (Some t) | S _ => MStrong t rc lk end) in *.
  set (s1 := put_mem (del_hand s i) x m).
  assert (hinv s1 (s_hands s1)) as Hh1'.
  { unfold s1. simpl. rewrite Ehm. destruct Hh1 as [A1 A2 A3 A4 A5]. split; done. }
  assert (sinv s1 K) as Hs1. { pose proof (framed_sinv _ _ _ Hs F1) as [A B C D E]. split; done. }
  assert (finv s1) as Hf1.
  { destruct (framed_finv _ _ Hf F1) as [A B C D]. split; try done.
    intros j hd Hj. unfold s1 in Hj. simpl in Hj. apply lookup_delete_Some in Hj as [_ Hj]. by apply C. }
  assert (quiet s s1) as Hq by (destruct F1; by split).
  assert (forall u, tree_held s1 (s_hands s1) u <-> tree_held s (delete i hm) u) as Hth.
  { intros u. change (s_hands s1) with (delete i (s_hands s)). rewrite Ehm. unfold tree_held. setoid_rewrite (q_tree _ _ Hq). done. }
  assert (forall u, u <> t -> is_Some (s_trees s1 !! u) -> tree_held s1 (s_hands s1) u) as Hheld1.
  { intros u Hu Hus. apply Hth. destruct (Hheld u Hus) as [(j & Hj)|(j & k & y & Hj & Hy)].
    - left. exists j. rewrite lookup_delete_ne; [done|]. intros <-. congruence.
    - right. exists j, k, y. rewrite lookup_delete_ne; [done|]. intros <-. rewrite Hi in Hj. simplify_eq. }
  assert (tree_referenced s1 [] t = true ->
    exists s' K', release_all s1 [] x = Ret s' /\ inv s' K' /\ s_hands s' = delete i (s_hands s) /\ s_fresh s' = s_fresh s /\
    ((tree_held s (delete i hm) t /\ K' = K /\ quiet s s') \/
     (~ tree_held s (delete i hm) t /\ freed s s' K t K'))) as Hlive.
  { intros Href. apply referenced_held in Href; [|done]. exists s1, K.
    split; [apply release_noop; eapply (pinv_referenced _ _ noX); [by apply sinv_pinv| |by intros []]|].
    { unfold s1, put_mem, set_mem. simpl. rewrite lookup_alter. by destruct Hx as [? ->]. }
    split_and!; [|done|done|].
    - split; try done. intros u Hu. destruct (decide (u = t)) as [->|]; [done|by apply Hheld1].
    - left. rewrite <-Hth. done. }
  unfold drop_link, decr_ref. change (n_memb (del_hand s i) x) with (n_memb s x). rewrite Hm. destruct rc as [|rc].
  - rewrite (Hlk eq_refl). simpl Nat.eqb. cbn [assertb mbind run_bind].
    change (put_mem (del_hand s i) x (MWeak (Some t))) with s1.
    destruct (tree_referenced s1 [] t) eqn:Href.
    { unfold drop_tree_if_dead. change (s_trees s1) with (s_trees s). rewrite Htr, Href. cbn [mbind run_bind]. by apply Hlive. }
    clear Hlive.
    destruct (drop_tree_gen s1 K t tr [x] []) as (h' & E & (S1 & S2 & S3) & Hh2 & Hw2).
    { apply Hs1. } { apply Hs1. } { exact Hh1'. } { exact Htr. } { exact (proj1 (s_root _ _ Hs1 _ _ Htr)). }
    { intros y Hy. apply (sinv_below _ _ _ _ _ Hs1 Htr) in Hy as [_ Hy]. exact Hy. }
    { intros t2 tr2 Ht2 Hb. apply (sinv_below _ _ _ _ _ Hs1 Htr) in Hb as [_ Hb].
      destruct (s_root _ _ Hs1 _ _ Ht2) as [_ E]. congruence. }
    { exact Href. }
    rewrite E. cbn [mbind run_bind]. change (s_trees s1) with (s_trees s). change (s_fresh s1) with (s_fresh s).
    set (s2 := mkSys h' (delete t (s_trees s)) (s_hands s1) (s_fresh s)).
    assert (below K (t_root tr) x) as Hbx. { apply (sinv_below _ _ _ _ _ Hs Htr). done. }
    destruct (S3 x Hbx) as (nd & nd' & E1 & E2 & E3 & E4 & E5); [ls|].
    destruct (below_list K (t_root tr) (s_wf _ _ Hs)) as (L & _ & HL). { apply (s_root _ _ Hs1 _ _ Htr). }
    assert (n_mem nd = MWeak (Some t)) as Ewk.
    { unfold s1, put_mem, set_mem in E1. simpl in E1. rewrite lookup_alter in E1. destruct Hx as [? Hx]. rewrite Hx in E1.
      simpl in E1. by simplify_eq. }
    assert (forall y, y ∉ L -> h' !! y = s_nodes s !! y) as Hout.
    { intros y Hy. assert (y <> x) as Hyx by (intros ->; by apply Hy, HL). rewrite HL in Hy. rewrite S1 by done.
      unfold s1, put_mem, set_mem. simpl. by rewrite lookup_alter_ne. }
    assert (referenced s2 [] x = false) as Hnr.
    { apply not_true_is_false. rewrite referenced_true. intros [X|[(j & k & X)|[(y & X)|(u & tru & X & Y)]]].
      - by apply elem_of_nil in X.
      - by destruct (proj2 (Hw2 x Hbx) j k).
      - destruct (decide (y ∈ L)) as [Hy|Hy].
        + apply HL in Hy. destruct (decide (y = x)) as [->|Hyx].
          * unfold ffirst, fnext in X. simpl in X. rewrite E2 in X. simpl in X. rewrite E3, E4 in X. naive_solver.
          * unfold ffirst, fnext in X. simpl in X. rewrite (S2 y Hy) in X; [simpl in X; naive_solver|]. ls.
        + assert (exists ks, (exists p, below K p y /\ K !! p = Some ks /\ x ∈ ks) \/ (exists p, K !! p = Some ks /\ y ∈ ks /\ x ∈ ks)) as Hc.
          { assert (ffirst (s_nodes s) y = Some x \/ fnext (s_nodes s) y = Some x) as X'.
            { unfold ffirst, fnext in *. simpl in X. by rewrite Hout in X. }
            destruct X' as [X'|X'].
            - destruct (ffirst_inv _ _ _ _ (s_rep _ _ Hs) X') as (ks & A & B). exists ks. left. exists y. split_and!; [constructor|done|]. by eapply elem_of_list_lookup_2.
            - destruct (fnext_inv _ _ _ _ (s_rep _ _ Hs) (s_wf _ _ Hs) X') as (p & ks & j & A & B & C). exists ks. right. exists p.
              split_and!; [done|by eapply elem_of_list_lookup_2|by eapply elem_of_list_lookup_2]. }
          apply Hy, HL. apply (sinv_below _ _ _ _ _ Hs Htr).
          assert (is_Some (s_nodes s !! y)) as Hya.
          { rewrite <-Hout by done. unfold ffirst, fnext in X. simpl in X. destruct (h' !! y); [eauto|simpl in X; naive_solver]. }
          split; [done|]. rewrite <-Ht. destruct Hc as (ks & [(p & A & B & C)|(p & B & A & C)]).
          * assert (tree_of s x = tree_of s p) as Ex. { eapply s_child; [done|]. by exists ks. }
            assert (tree_of s y = tree_of s p) as Ey. { eapply below_tree; [by apply sinv_pinv|done]. }
            congruence.
          * assert (tree_of s x = tree_of s p) as Ex. { eapply s_child; [done|]. by exists ks. }
            assert (tree_of s y = tree_of s p) as Ey. { eapply s_child; [done|]. by exists ks. }
            congruence.
      - simpl in X. apply lookup_delete_Some in X as [Hne X]. destruct (s_root _ _ Hs _ _ X) as [_ Z]. rewrite Y in Z. congruence. }
    rewrite (release_free s2 [] x nd' (Some t) E2 Hnr E3 E4) by congruence.
    set (s3 := with_nodes s2 (delete x (s_nodes s2))).
    assert (forall y, y ∈ L -> s_nodes s3 !! y = None) as Hin.
    { intros y Hy. simpl. destruct (decide (y = x)) as [->|Hyx]; [by rewrite lookup_delete|]. rewrite lookup_delete_ne by done.
      apply S2; [by apply HL|]. ls. }
    assert (forall y, y ∉ L -> s_nodes s3 !! y = s_nodes s !! y) as Hout3.
    { intros y Hy. simpl. rewrite lookup_delete_ne by (intros ->; by apply Hy, HL). by apply Hout. }
    assert (sinv s3 (prune K L)) as Hs3.
    { apply sinv_pinv. exact (sweep_pinv s K noX t tr L (delete x (s_nodes s2)) (s_hands s1) (s_fresh s) (proj1 (sinv_pinv s K) Hs) Htr HL Hout3 Hin). }
    exists s3, (prune K L). split; [done|]. split; [|split_and!; [done|done|]].
    + split; [done| | |].
      * simpl. destruct Hh2 as [A1 A2 A3 A4 A5].
        assert (forall y m0, n_memb s3 y = Some m0 -> n_memb s2 y = Some m0) as Hmm.
        { intros y m0. unfold n_memb. simpl. destruct (decide (y = x)) as [->|]; [by rewrite lookup_delete|by rewrite lookup_delete_ne]. }
        split.
        -- intros y o Hy. by apply A1, Hmm.
        -- intros y u rc1 lk1 Hy. apply A2. by apply Hmm.
        -- intros j k y Hj. simpl. rewrite lookup_delete_ne; [by eapply A3|]. intros <-. by destruct (proj2 (Hw2 x Hbx) j k).
        -- done.
        -- intros u tru Hu. eapply lock_ok_ext; [exact (A5 u tru Hu)|done|]. intros k y. unfold node_holder.
           split; intros (B1 & B2 & j & B3); (split_and!; [done| |eauto]); unfold tree_of, n_memb in *; simpl in *.
           ++ rewrite lookup_delete_ne; [done|]. intros <-. by destruct (proj2 (Hw2 x Hbx) j k).
           ++ rewrite lookup_delete_ne in B2; [done|]. intros <-. by destruct (proj2 (Hw2 x Hbx) j k).
      * intros u Hu. assert (u <> t) as Hut. { intros ->. simpl in Hu. rewrite lookup_delete in Hu. by destruct Hu. }
        simpl in Hu. rewrite lookup_delete_ne in Hu by done. destruct (Hheld1 u Hut Hu) as [(j & Hj)|(j & k & y & Hj & Hy)].
        -- left. by exists j.
        -- right. exists j, k, y. split; [done|]. rewrite <-Hy. rewrite (q_tree _ _ Hq). unfold tree_of, n_memb. rewrite Hout3; [done|].
           intros Hyl. apply HL in Hyl. by destruct (proj2 (Hw2 y Hyl) j k).
      * destruct Hf1 as [A B C D]. split; try done.
        -- intros y Hy. apply A. destruct (decide (y ∈ L)) as [Hyl|Hyl]; [rewrite Hin in Hy by done; by destruct Hy|].
           rewrite Hout3 in Hy by done. unfold s1. simpl. unfold set_mem. destruct (decide (x = y)) as [<-|].
           ++ rewrite lookup_alter. destruct Hy as [? ->]. simpl. eauto.
           ++ by rewrite lookup_alter_ne.
        -- intros u Hu. apply B. simpl in Hu. simpl. destruct Hu as [tru Hu]. apply lookup_delete_Some in Hu as [_ Hu]. eauto.
        -- intros y u Hy. apply (D y u). rewrite (q_tree _ _ Hq). rewrite <-Hy. unfold tree_of, n_memb.
           destruct (decide (y ∈ L)) as [Hyl|Hyl]; [|by rewrite Hout3]. unfold tree_of, n_memb in Hy. rewrite Hin in Hy by done. done.
    + right. split.
      * rewrite <-Hth. rewrite <-referenced_held by done. by rewrite Href.
      * exists tr, L. split_and!; try done. simpl. by rewrite lookup_delete. simpl. intros u Hu. by rewrite lookup_delete_ne.
  - cbn [mbind run_bind]. change (put_mem (del_hand s i) x (MStrong t (S rc) lk)) with s1. apply Hlive.
    apply tree_referenced_iff. right. right. exists x, (S rc), lk. unfold s1. by rewrite n_memb_put, decide_True.
Qed.

End SysFacts3.
