(** * QueryFacts *)
From Verif Require Import EditFacts2 Heap Edit Traverse System HIter SysSpec ApiSpec MisledSpec MoveSpec Serial SerialSpec Api QuerySpec HeapFacts SpecFacts NavFacts NavFacts2 IterSpec TravFacts5
  SysFacts SysFacts4 SysFacts5 SysFacts8 ApiFacts ApiFacts2 ApiFacts3 ApiFacts7 Misled8 MoveFacts GraftFacts5 BuildFacts6 BuildFacts7 BuildFacts16 BuildFacts8 HIterFacts HIterFacts2 Spec.

Section QueryFacts.
Context {T : Type}.
Implicit Types (s : sys T) (K : forest).

Lemma says_decide (P : Prop) `{Decision P} (Q : Prop) : (P <-> Q) -> says (AnsBool (bool_decide P)) Q.
Proof. intros E. eexists. split; [reflexivity|]. rewrite bool_decide_eq_true. exact E. Qed.
Lemma says_bool b (Q : Prop) : (b = true <-> Q) -> says (AnsBool b) Q.
Proof. intros E. by eexists. Qed.

Lemma cons_split (x : nid) (l1 l2 : list nid) : is_Some (l2 !! 0) <-> exists y l', l2 = y :: l'.
Proof. destruct l2; simpl; split; eauto; [intros [? ?]|intros (? & ? & ?)]; done. Qed.

Lemma no_sibling_top K x : is_top K x -> forall p l1 l2, K !! p <> Some (l1 ++ x :: l2).
Proof. intros [_ H] p l1 l2 E. apply (H p). exists (l1 ++ x :: l2). split; [exact E|]. apply elem_of_app. right. left. Qed.

Lemma root_core s K i k x : reach s -> stores s K -> s_hands s !! i = Some (HNode k x) ->
  exists t tr, handle_core s k x = Ret t /\ s_trees s !! t = Some tr /\ (t_root tr = x <-> is_top K x).
Proof.
  intros R Hst Hi. pose proof (reach_stores_inv s K R Hst) as I. destruct (ApiFacts7.handle_tree s K i k x R Hst Hi) as (t & rc & lk & A & B & [tr Htr] & Hx).
  exists t, tr. split.
  { unfold handle_core, link_tree_core, tree_core. rewrite A. by destruct k. }
  split; [exact Htr|]. destruct (s_root _ _ (i_s _ _ I) t tr Htr) as [C D]. split.
  - intros <-. exact C.
  - intros E. destruct (s_top _ _ (i_s _ _ I) x E) as (t2 & tr2 & E1 & E2 & E3). assert (t2 = t) as -> by congruence. congruence.
Qed.

Lemma ask_root_ok s K i k x : reach s -> stores s K -> s_hands s !! i = Some (HNode k x) ->
  exists b, ask_is_root s k x = Ret b /\ (b = true <-> is_top K x).
Proof.
  intros R Hst Hi. destruct (root_core s K i k x R Hst Hi) as (t & tr & E & Htr & Hr).
  destruct (ApiFacts7.handle_tree s K i k x R Hst Hi) as (_ & _ & _ & _ & _ & _ & Hx).
  pose proof (root_iff (s_nodes s) K x (proj1 Hst) (proj2 Hst) Hx) as Hb.
  unfold ask_is_root. rewrite E. cbn [mbind run_bind]. rewrite Htr.
  exists (is_root (s_nodes s) x). split; [|exact Hb].
  enough (bool_decide (t_root tr = x) = is_root (s_nodes s) x) as -> by (by rewrite Bool.eqb_reflx).
  apply Bool.eq_iff_eq_true. rewrite bool_decide_eq_true, Hb. exact Hr.
Qed.

Theorem query_ok s K i k x q : reach s -> stores s K -> s_hands s !! i = Some (HNode k x) -> typed_query s k q ->
  exists a, ask s i q = Ret a /\ answers s K x q a.
Proof.
  intros R Hst Hi Hq. destruct (ApiFacts7.handle_tree s K i k x R Hst Hi) as (t & rc & lk & Hm & Ht & Hta & [ks Hx]).
  pose proof (proj1 Hst) as Hr. pose proof (proj2 Hst) as Hw.
  destruct (children_facts (s_nodes s) K x ks Hr Hw Hx) as (_ & _ & _ & C4 & C5 & C6 & C7).
  destruct (children_its (s_nodes s) K x ks Hr Hw Hx) as (_ & _ & Cc).
  assert (is_Some (K !! x)) as HxS by eauto.
  unfold ask. rewrite Hi. destruct q; cbn [typed_query answers] in *.
  - destruct (ask_root_ok s K i k x R Hst Hi) as (b & E & Hb). exists (AnsBool b). rewrite E. split; [done|]. by apply says_bool.
  - destruct (SpecFacts.top_or_child K x HxS) as [Htop|(p & ls & Hp & Hin)].
    + destruct (top_facts (s_nodes s) K x Hr Hw Htop) as (_ & _ & _ & _ & E & _). exists (AnsBool false). rewrite E. split; [done|].
      apply says_bool. split; [done|]. intros (p & l1 & y & l2 & E'). exfalso. apply (no_sibling_top K x Htop p (l1 ++ [y]) l2). by rewrite <- app_assoc.
    + apply elem_of_list_lookup in Hin as [n Hn]. destruct (sibling_facts (s_nodes s) K p ls n x Hr Hw Hp Hn) as (_ & _ & _ & E & _).
      exists (AnsBool (bool_decide (n <> 0))). rewrite E. split; [done|]. apply says_decide. split.
      * intros Hn0. destruct (split_at ls n x Hn) as (l1 & l2 & -> & Hl). destruct (list_snoc_inv l1) as [->|(l & y & ->)]; [by simpl in Hl|].
        exists p, l, y, l2. by rewrite Hp, <- app_assoc.
      * intros (p' & l1 & y & l2 & E') ->. assert (child_of K p x) as Hc1 by (exists ls; split; [done|by eapply elem_of_list_lookup_2]).
        assert (child_of K p' x) as Hc2 by (exists (l1 ++ y :: x :: l2); split; [done|set_solver]).
        destruct (stores_parent s K x p p' ls (l1 ++ y :: x :: l2) Hst Hp (elem_of_list_lookup_2 _ _ _ Hn) E' ltac:(set_solver)) as [-> E2].
        pose proof (wf_nodup _ Hw _ _ E') as Hnd. subst ls. destruct l1 as [|z l1]; simpl in Hn; injection Hn as ->.
        -- apply NoDup_cons in Hnd as [Hnd _]. apply Hnd. left.
        -- apply NoDup_cons in Hnd as [Hnd _]. apply Hnd. apply elem_of_app. right. right. left.
  - destruct (SpecFacts.top_or_child K x HxS) as [Htop|(p & ls & Hp & Hin)].
    + destruct (top_facts (s_nodes s) K x Hr Hw Htop) as (_ & _ & _ & E & _). exists (AnsBool false). rewrite E. split; [done|].
      apply says_bool. split; [done|]. intros (p & l1 & y & l2 & E'). exfalso. by apply (no_sibling_top K x Htop p l1 (y :: l2)).
    + apply elem_of_list_lookup in Hin as [n Hn]. destruct (sibling_facts (s_nodes s) K p ls n x Hr Hw Hp Hn) as (_ & _ & E & _).
      eexists. split; [rewrite E; reflexivity|]. apply says_decide. split.
      * intros [y Hy]. destruct (split_at ls n x Hn) as (l1 & l2 & -> & Hl). rewrite lookup_app_r in Hy by lia. replace (S n - length l1) with 1 in Hy by lia.
        destruct l2 as [|z l2]; [done|]. by exists p, l1, z, l2.
      * intros (p' & l1 & y & l2 & E').
        destruct (stores_parent s K x p p' ls (l1 ++ x :: y :: l2) Hst Hp (elem_of_list_lookup_2 _ _ _ Hn) E' ltac:(set_solver)) as [-> E2].
        pose proof (wf_nodup _ Hw _ _ E') as Hnd. subst ls.
        assert (n = length l1) as -> by (eapply NoDup_lookup; [exact Hnd|exact Hn|by apply list_lookup_middle]).
        rewrite lookup_app_r by lia. replace (S (length l1) - length l1) with 1 by lia. by eexists.
  - rewrite C5. eexists. split; [reflexivity|]. apply says_decide. split.
    + intros H. destruct ks as [|c ks]; [done|]. exists c, (c :: ks). split; [done|left].
    + intros (c & ls & E & Hc) ->. rewrite Hx in E. injection E as <-. by apply elem_of_nil in Hc.
  - exists (AnsNum (fnch (s_nodes s) x)). split; [done|]. exists ks. split; [done|]. unfold counts. by rewrite C4.
  - rewrite C6. eexists. split; [reflexivity|]. apply says_decide. split.
    + intros H. destruct ks as [|c [|]]; try done. eauto.
    + intros (c & E). rewrite Hx in E. by injection E as ->.
  - rewrite C7. eexists. split; [reflexivity|]. apply says_decide. split.
    + intros H. destruct ks as [|c [|c' ks]]; simpl in H; try lia. eauto.
    + intros (c & c' & ls & E). rewrite Hx in E. injection E as ->. simpl. lia.
  - exists (AnsNum (length ks)). split; [|by exists ks]. unfold ask_count_children. destruct k; [by rewrite C4|by rewrite Cc|by rewrite Cc].
  - destruct (SpecFacts.top_or_child K x HxS) as [Htop|(p & ls & Hp & Hin)].
    + destruct (top_sibling_its (s_nodes s) K x Hr Hw Htop) as (_ & _ & _ & _ & _ & _ & _ & E). rewrite E. exists (AnsNum 0). split; [done|]. by left.
    + apply elem_of_list_split in Hin as (l1 & l2 & ->). destruct (sibling_its (s_nodes s) K p l1 x l2 Hr Hw Hp) as (_ & _ & _ & _ & _ & _ & _ & E).
      rewrite E. eexists. split; [reflexivity|]. right. by exists p, l1, l2.
  - destruct (SpecFacts.top_or_child K x HxS) as [Htop|(p & ls & Hp & Hin)].
    + destruct (top_sibling_its (s_nodes s) K x Hr Hw Htop) as (_ & _ & _ & _ & _ & _ & E & _). rewrite E. exists (AnsNum 0). split; [done|]. by left.
    + apply elem_of_list_split in Hin as (l1 & l2 & ->). destruct (sibling_its (s_nodes s) K p l1 x l2 Hr Hw Hp) as (_ & _ & _ & _ & _ & _ & E & _).
      rewrite E. eexists. split; [reflexivity|]. right. by exists p, l1, l2.
  - destruct (EditFacts2.anc_exists K x Hw HxS) as [l Hl]. destruct (ancestor_its (s_nodes s) K x l Hr Hw HxS Hl) as (_ & _ & E). rewrite E.
    eexists. split; [reflexivity|]. by exists l.
  - destruct Hq as (k' & y & Hj & Hk). rewrite Hj. assert (comparable k k' = true) as -> by (destruct Hk as [->|[-> ->]]; [by destruct k|done]).
    eexists. split; [reflexivity|]. exists k', y. split; [done|]. by apply says_decide.
  - destruct Hq as (u & Hj). rewrite Hj. destruct (queries_ok s K i k x i k x u R Hst Hi Hi) as (-> & _). eexists. split; [reflexivity|]. exists u. split; [done|]. by apply says_decide.
  - destruct Hq as (y & Hj). rewrite Hj. assert (same_kind k k = true) as -> by (by destruct k).
    destruct (queries_ok s K i k x j k y 0 R Hst Hi Hj) as (_ & _ & ->). eexists. split; [reflexivity|]. exists k, y. split; [done|]. apply says_decide.
    destruct (ApiFacts7.handle_tree s K j k y R Hst Hj) as (_ & _ & _ & _ & _ & _ & Hy). by apply same_tree_iff.
  - destruct Hq as (-> & u & Hj). destruct (queries_ok s K i Plain x i Plain x u R Hst Hi Hi) as (_ & E & _).
    exists (AnsBool (bool_decide (tree_of s x = Some u))). split; [destruct Hj as [->| ->]; by rewrite E|]. exists u. split; [done|]. by apply says_decide.
Qed.

Theorem query_ill s i k x q : s_hands s !! i = Some (HNode k x) -> ~ typed_query s k q -> ask s i q = Ret AnsIll.
Proof.
  intros Hi Hq. unfold ask. rewrite Hi. destruct q; cbn [typed_query] in Hq; try (exfalso; by apply Hq).
  - destruct (s_hands s !! j) as [[k' y| | | | |]|] eqn:Hj; try done. destruct (comparable k k') eqn:E; [|done].
    exfalso. apply Hq. exists k', y. split; [done|]. destruct k, k'; try done; auto.
  - destruct (s_hands s !! j) as [[| | | | |]|] eqn:Hj; try done. exfalso. apply Hq. by eexists.
  - destruct (s_hands s !! j) as [[k' y| | | | |]|] eqn:Hj; try done. destruct (same_kind k k') eqn:E; [|done].
    exfalso. apply Hq. exists y. by destruct k, k'.
  - destruct k; [|done|done]. destruct (s_hands s !! j) as [[| | | | |]|] eqn:Hj; try done; exfalso; apply Hq; (split; [done|]; eexists; by auto).
Qed.

Lemma tree_ptr_eq_ok s i j t u : s_hands s !! i = Some (HTree t) -> s_hands s !! j = Some (HTree u) ->
  exists b, tree_ptr_eq s i j = AnsBool b /\ (b = true <-> t = u).
Proof. intros Hi Hj. exists (bool_decide (t = u)). unfold tree_ptr_eq. rewrite Hi, Hj. split; [done|]. apply bool_decide_eq_true. Qed.
Lemma says_fun a a' P : says a P -> says a' P -> a = a'.
Proof. intros (b & -> & H) (b' & -> & H'). f_equal. apply Bool.eq_iff_eq_true. tauto. Qed.

(** The specification determines the answer. *)
Theorem answers_fun s K x q a a' : wf K -> answers s K x q a -> answers s K x q a' -> a = a'.
Proof.
  intros Hw. destruct q; cbn [answers]; unfold counts; try apply says_fun.
  - intros (l & E & ->) (l' & E' & ->). congruence.
  - intros (l & E & ->) (l' & E' & ->). congruence.
  - intros [[H ->]|(p & l1 & l2 & E & ->)] [[H' ->]|(p' & l1' & l2' & E' & ->)]; try done.
    + exfalso. by eapply no_sibling_top.
    + exfalso. by eapply no_sibling_top.
    + destruct (mid_pos K p p' l1 x l2 l1' l2' Hw E E') as (_ & -> & _). done.
  - intros [[H ->]|(p & l1 & l2 & E & ->)] [[H' ->]|(p' & l1' & l2' & E' & ->)]; try done.
    + exfalso. by eapply no_sibling_top.
    + exfalso. by eapply no_sibling_top.
    + destruct (mid_pos K p p' l1 x l2 l1' l2' Hw E E') as (_ & _ & ->). done.
  - intros (l & E & ->) (l' & E' & ->). by rewrite (EditFacts2.anc_det K x l l' Hw E E').
  - intros (k & y & E & H) (k' & y' & E' & H'). rewrite E in E'. injection E' as <- <-. by eapply says_fun.
  - intros (t & E & H) (t' & E' & H'). rewrite E in E'. injection E' as <-. by eapply says_fun.
  - intros (k & y & E & H) (k' & y' & E' & H'). rewrite E in E'. injection E' as <- <-. by eapply says_fun.
  - intros (t & E & H) (t' & E' & H'). assert (t' = t) as -> by (destruct E as [E|E], E' as [E'|E']; congruence). by eapply says_fun.
Qed.

(** ** Two handles *)

Lemma view_trans_ s1 s2 s3 : same_view s1 s2 -> same_view s2 s3 -> same_view s1 s3.
Proof.
  intros A B. constructor.
  - intros K H. apply (sv_stores _ _ B). by apply (sv_stores _ _ A).
  - intros x. by rewrite (sv_tree _ _ B), (sv_tree _ _ A).
  - intros x. by rewrite (sv_payload _ _ B), (sv_payload _ _ A).
  - intros t. by rewrite (sv_trees _ _ B), (sv_trees _ _ A).
Qed.

Lemma nav_hand s K v i k x y : reach s -> stores s K -> s_hands s !! i = Some (HNode k x) -> nav_spec K v x (Some y) ->
  exists s' j, new_node_hand s k y = Ret (s', j) /\ reach s' /\ gives s s' j (HNode k y).
Proof.
  intros R Hst Hi Hv. pose proof (reach_stores_inv s K R Hst) as I.
  destruct (ApiFacts7.handle_tree s K i k x R Hst Hi) as (_ & _ & _ & _ & _ & _ & HxS).
  destruct (nav_ok s K v x I) as (o & E & Ho & _); [by apply (inv_alive _ _ _ I)|].
  rewrite (nav_spec_det K v x o (Some y) (proj2 Hst) Ho Hv) in E. clear o Ho.
  destruct (nav_api s K v i k x R Hst Hi) as (o & Ho & H). rewrite (nav_spec_det K v x o (Some y) (proj2 Hst) Ho Hv) in H. clear o Ho.
  destruct H as (s' & j & H & G). exists s', j.
  assert (reach s') as R' by (eapply reach_step; [exact R|exact Hst| |exact H]; exact Logic.I).
  cbn [step] in H. rewrite Hi, E in H. cbn [mbind run_bind] in H.
  destruct (new_node_hand s k y) as [[s1 j1]| |] eqn:En; [|discriminate H|discriminate H]. cbn [mbind run_bind ret_hand fst snd] in H.
  injection H as <- <-. split; [reflexivity|]. split; [exact R'|exact G].
Qed.

Lemma gives_two_intro s s1 s2 j1 j2 k y z : gives s s1 j1 (HNode k y) -> gives s1 s2 j2 (HNode k z) -> gives_two s s2 j1 j2 k y z.
Proof.
  intros (V1 & N1 & H1) (V2 & N2 & H2). rewrite H1 in N2. apply lookup_insert_None in N2 as [N2 Hne].
  split; [by eapply view_trans_|]. split; [done|]. split; [done|]. split; [done|]. by rewrite H2, H1.
Qed.

Lemma two_ok s K v w i k x y z : reach s -> stores s K -> s_hands s !! i = Some (HNode k x) ->
  nav_spec K v x (Some y) -> nav_spec K w x (Some z) ->
  exists s' j1 j2, two_hands s k y z = Ret (s', Some (j1, j2)) /\ reach s' /\ gives_two s s' j1 j2 k y z.
Proof.
  intros R Hst Hi Hv Hw. destruct (nav_hand s K v i k x y R Hst Hi Hv) as (s1 & j1 & E1 & R1 & G1).
  pose proof G1 as (V1 & N1 & H1).
  assert (s_hands s1 !! i = Some (HNode k x)) as Hi1 by (rewrite H1, lookup_insert_ne; [done|]; intros ->; congruence).
  destruct (nav_hand s1 K w i k x z R1 (sv_stores _ _ V1 K Hst) Hi1 Hw) as (s2 & j2 & E2 & R2 & G2).
  exists s2, j1, j2. unfold two_hands. rewrite E1. cbn [mbind run_bind]. rewrite E2. split; [done|]. split; [done|]. by eapply gives_two_intro.
Qed.

Theorem first_last_child_ok s K i k x ks : reach s -> stores s K -> s_hands s !! i = Some (HNode k x) -> K !! x = Some ks ->
  match head ks, last ks with
  | Some y, Some z => exists s' j1 j2, step_first_last_child s i = Ret (s', Some (j1, j2)) /\ reach s' /\ gives_two s s' j1 j2 k y z
  | _, _ => ks = [] /\ step_first_last_child s i = Ret (s, None)
  end.
Proof.
  intros R Hst Hi Hx. destruct (children_facts (s_nodes s) K x ks (proj1 Hst) (proj2 Hst) Hx) as (_ & _ & E & _).
  unfold step_first_last_child. rewrite Hi, E. cbn [mbind run_bind].
  destruct ks as [|f m]; [done|]. destruct (last (f :: m)) as [z|] eqn:Hl; [|apply last_None in Hl; discriminate Hl].
  cbn [head]. apply (two_ok s K NFirstChild NLastChild i k x f z R Hst Hi); exists (f :: m); by rewrite Hx.
Qed.

Lemma clone_hand s i k x : reach s -> s_hands s !! i = Some (HNode k x) ->
  exists s' j, clone_node s k x = Ret (s', j) /\ reach s' /\ gives s s' j (HNode k x).
Proof.
  intros R Hi. destruct (reach_stores s R) as [K Hst].
  destruct (reach_effect s K (OpClone i) R Hst ltac:(exact Logic.I)) as (s' & r & E & R' & Ef); [by eexists|exact (fun F => F)|].
  destruct Ef as [(hd & j & Hh & -> & G)|[[]|[]]]. rewrite Hi in Hh. injection Hh as <-.
  exists s', j. cbn [step] in E. rewrite Hi in E.
  destruct (clone_node s k x) as [[s1 j1]| |]; [|discriminate E|discriminate E]. cbn [mbind run_bind ret_hand fst snd] in E.
  injection E as <- <-. split; [reflexivity|]. split; [exact R'|exact G].
Qed.

Theorem first_last_sibling_ok s K i k x : reach s -> stores s K -> s_hands s !! i = Some (HNode k x) ->
  exists y z s' j1 j2, step_first_last_sibling s i = Ret (s', Some (j1, j2)) /\ reach s' /\ gives_two s s' j1 j2 k y z /\
    ((is_top K x /\ y = x /\ z = x) \/ exists p ks, K !! p = Some ks /\ x ∈ ks /\ head ks = Some y /\ last ks = Some z).
Proof.
  intros R Hst Hi. destruct (ApiFacts7.handle_tree s K i k x R Hst Hi) as (_ & _ & _ & _ & _ & _ & HxS).
  unfold step_first_last_sibling. rewrite Hi. destruct (SpecFacts.top_or_child K x HxS) as [Htop|(p & ls & Hp & Hin)].
  - rewrite (parent_link_top _ _ _ (proj1 Hst) Htop).
    destruct (clone_hand s i k x R Hi) as (s1 & j1 & E1 & R1 & G1). pose proof G1 as (V1 & N1 & H1).
    assert (s_hands s1 !! i = Some (HNode k x)) as Hi1 by (rewrite H1, lookup_insert_ne; [done|]; intros ->; congruence).
    destruct (clone_hand s1 i k x R1 Hi1) as (s2 & j2 & E2 & R2 & G2).
    exists x, x, s2, j1, j2. rewrite E1. cbn [mbind run_bind]. rewrite E2. split; [done|]. split; [done|]. split; [by eapply gives_two_intro|]. by left.
  - assert (child_of K p x) as Hc by (by exists ls). rewrite (parent_link_child _ _ _ _ (proj1 Hst) Hc).
    pose proof Hin as Hin'. apply elem_of_list_lookup in Hin' as [n Hn].
    destruct (sibling_facts (s_nodes s) K p ls n x (proj1 Hst) (proj2 Hst) Hp Hn) as (_ & _ & _ & _ & _ & _ & _ & _ & E).
    destruct ls as [|f m]; [by apply elem_of_nil in Hin|]. destruct (last (f :: m)) as [z|] eqn:Hl; [|apply last_None in Hl; discriminate Hl].
    rewrite E. cbn [head default mbind run_bind].
    destruct (two_ok s K NFirstSibling NLastSibling i k x f z R Hst Hi) as (s' & j1 & j2 & E' & R' & G).
    { right. by exists p, (f :: m). }
    { right. exists p, (f :: m). by rewrite Hl. }
    exists f, z, s', j1, j2. split; [exact E'|]. split; [done|]. split; [done|]. right. exists p, (f :: m). by rewrite Hl.
Qed.

(** ** Conversions *)

Theorem into_plain_ok s i k x : reach s -> s_hands s !! i = Some (HNode k x) -> k <> Plain ->
  exists s' j, step_into_plain s i = Ret (s', OutHandle j) /\ reach s' /\ exchanges s s' i j (HNode Plain x).
Proof.
  intros R Hi Hk. destruct (reach_stores s R) as [K Hst].
  destruct (reach_effect s K (OpPlain i) R Hst ltac:(exact Logic.I)) as (s1 & r & E & R1 & Ef); [by exists k, x|exact (fun F => F)|].
  destruct Ef as [(k1 & x1 & j & Hi' & _ & -> & G)|[[]|[]]]. rewrite Hi in Hi'. injection Hi' as <- <-.
  pose proof G as (V1 & N1 & H1). assert (i <> j) as Hne by (intros ->; congruence).
  assert (s_hands s1 !! i = Some (HNode k x)) as Hi1 by (by rewrite H1, lookup_insert_ne).
  assert (s_hands s1 !! j = Some (HNode Plain x)) as Hj1 by (by rewrite H1, lookup_insert).
  destruct (h_drop_view s1 i j k Plain x x R1 Hi1 Hne Hj1 eq_refl) as (s2 & E2 & R2 & H2 & V2).
  exists s2, j. unfold step_into_plain. rewrite E. cbn [mbind run_bind].
  unfold h_drop, drop_opt in E2. destruct (step s1 (OpDrop i)) as [[s3 r3]| |]; [|discriminate E2|discriminate E2].
  cbn [mbind run_bind] in E2 |- *. injection E2 as <-. split; [reflexivity|]. split; [exact R2|].
  split; [by eapply view_trans_|]. split; [done|]. rewrite H2, H1. by rewrite delete_insert_ne.
Qed.

Theorem new_hot_tree_ok s K d : reach s -> stores s K ->
  exists s' i (n : nid) (t : tid), step_new_hot_tree s d = Ret (s', OutHandle i) /\ reach s' /\
    s_nodes s !! n = None /\ unknown s n /\ s_trees s !! t = None /\ s_hands s !! i = None /\
    s_hands s' = <[i := HNode Hot n]> (s_hands s) /\ stores s' (<[n := []]> K) /\ payload s' n = Some (d, Lent 0) /\ tree_of s' n = Some t /\
    forall y, y <> n -> payload s' y = payload s y /\ tree_of s' y = tree_of s y.
Proof.
  intros R Hst.
  destruct (reach_effect s K (OpNewTree d) R Hst ltac:(exact Logic.I)) as (s1 & r & E & R1 & Ef); [exact Logic.I|exact (fun F => F)|].
  destruct Ef as [[]|[[]|(n & t & i & -> & Nt & Un & Ut & Nn & Ni & H1 & S1 & P1 & T1 & O1 & _)]].
  assert (s_hands s1 !! i = Some (HNode Plain n)) as Hi1 by (by rewrite H1, lookup_insert).
  destruct (reach_effect s1 _ (OpBundle Hot i) R1 S1 ltac:(exact Logic.I)) as (s2 & r2 & E2 & R2 & Ef2); [by split; [|exists n]|exact (fun F => F)|].
  destruct Ef2 as [(x & t' & Hi & _ & Ht & [(Hl & j & -> & (V & Nj & H2))|(Hl & -> & _)])|[[]|[]]].
  - rewrite Hi1 in Hi. injection Hi as <-. exists s2, j, n, t. unfold step_new_hot_tree. rewrite E. cbn [mbind run_bind]. rewrite E2. cbn [mbind run_bind].
    split; [reflexivity|]. split; [exact R2|]. split; [done|]. split; [done|]. split; [done|].
    rewrite H1 in Nj, H2. apply lookup_insert_None in Nj as [Nj Hne]. split; [exact Nj|]. split; [by rewrite H2, delete_insert|].
    split; [by apply (sv_stores _ _ V)|]. split; [by rewrite (sv_payload _ _ V)|]. split; [by rewrite (sv_tree _ _ V)|].
    intros y Hy. rewrite (sv_payload _ _ V), (sv_tree _ _ V). by apply O1.
  - exfalso. rewrite Hi1 in Hi. injection Hi as <-. assert (t' = t) as -> by congruence.
    destruct Hl as (m & a & b & Ha & Hb & Hab). cbn [opposite] in Ha, Hb.
    destruct a as [|a].
    + destruct b as [|b]; [discriminate Hab|]. destruct Hb as (l & Hnd & Hb & Hlen). destruct l as [|x l]; [discriminate Hlen|].
      destruct (proj1 (Hb x) ltac:(left)) as (_ & Tx & j & Hj). rewrite H1 in Hj. destruct (decide (j = i)) as [->|Hne].
      * rewrite lookup_insert in Hj. discriminate Hj.
      * rewrite lookup_insert_ne in Hj by done. destruct (decide (x = n)) as [->|Hx]; [by apply (Un _ _ Hj)|].
        rewrite (proj2 (O1 x Hx)) in Tx. destruct (ApiFacts7.handle_tree s K j Frozen x R Hst Hj) as (u & _ & _ & _ & Tu & [tr Hu] & _). congruence.
    + destruct Ha as (l & Hnd & Ha & Hlen). destruct l as [|j l]; [discriminate Hlen|].
      destruct (proj1 (Ha j) ltac:(left)) as (_ & Hj). rewrite H1 in Hj. destruct (decide (j = i)) as [->|Hne].
      * rewrite lookup_insert in Hj. discriminate Hj.
      * rewrite lookup_insert_ne in Hj by done. by apply (Ut _ _ Hj).
Qed.

(** ** Panicking variants *)

Lemma expect_ret (r : run (sys T * out T)) s' o : r = Ret (s', o) -> (forall e, o <> OutErr e) -> o <> OutLockErr -> o <> OutBorrowErr -> expect r = Ret (s', o).
Proof. intros -> H1 H2 H3. unfold expect. cbn [mbind run_bind]. destruct o; try done. by destruct (H1 e). Qed.

Theorem pcall_ok s K c : reach s -> stores s K -> well_typed s (try_of c) ->
  ((must_panic s (try_of c) \/ refuses s K c) /\ pstep s c = Panic) \/
  (~ must_panic s (try_of c) /\ ~ refuses s K c /\
   exists s' r, pstep s c = Ret (s', r) /\ step s (try_of c) = Ret (s', r) /\ plain_result c r).
Proof.
  intros R Hst Hwt. pose proof (reach_stores_inv s K R Hst) as I. pose proof (proj2 Hst) as Hw.
  assert (forall a, typed_auth s a -> (exists k x, receiver s a k x) \/ unauthorised s a) as Hauth.
  { intros a Ha. destruct (auth_cases s K a (fun k x => Panic) I Ha) as [(k & x & Hr & _)|[Hu _]]; eauto. }
  destruct c as [a d ad|a|a ad j|i|i d|i|i|i]; cbn [try_of well_typed must_panic refuses plain_result] in *; unfold pstep; cbn [try_of].
  - destruct (Hauth a Hwt) as [(k & x & Hr)|Hu].
    2: { left. split; [by left|]. rewrite (reach_panic s K (OpCreate a d ad) R Hst); [reflexivity| |exact Hu|exact Hwt]. exact Logic.I. }
    destruct (create_effect s K a k x d ad R Hst Hr) as (s' & r & t & E & _ & [(Hp & n & i & K' & -> & _)|(Hp & -> & _)]).
    + right. split; [by eapply receiver_not_unauth|]. split.
      { intros (k' & x' & Hr' & Hn). destruct (receiver_unique _ _ _ _ _ _ Hr Hr') as [-> ->]. done. }
      exists s', (OutHandle i). split; [by apply expect_ret|]. eauto.
    + left. split; [right; by exists k, x|]. by rewrite E.
  - destruct (Hauth a Hwt) as [(k & x & Hr)|Hu].
    2: { left. split; [by left|]. rewrite (reach_panic s K (OpReplace a) R Hst); [reflexivity| |exact Hu|exact Hwt].
         intros k x Hr. destruct (receiver_not_unauth _ _ _ _ Hr Hu). }
    destruct (receiver_facts s K a k x I Hr) as (_ & _ & _ & _ & _ & _ & Hxa & _). apply (inv_alive _ _ _ I) in Hxa. destruct Hxa as [cs Hx].
    destruct (replace_api s K a k x cs R Hst Hr Hx) as (A & B & C & D).
    destruct (SpecFacts.top_or_child K x ltac:(by eauto)) as [Htop|(p & ls & Hp & Hin)].
    + destruct cs as [|c [|c' cs]].
      * left. split; [right; exists k, x, []; by split_and!|]. by rewrite (C Htop eq_refl).
      * right. split; [by eapply receiver_not_unauth|]. split.
        { intros (k' & x' & cs' & Hr' & _ & Hx' & Hl). destruct (receiver_unique _ _ _ _ _ _ Hr Hr') as [-> ->].
          rewrite Hx in Hx'. injection Hx' as <-. by apply Hl. }
        destruct (B c Htop eq_refl) as (s' & _ & _ & _ & E & _). exists s', OutUnit. split; [by apply expect_ret|]. by split.
      * left. split; [right; exists k, x, (c :: c' :: cs); by split_and!|]. rewrite (D Htop); [done|simpl; lia].
    + right. split; [by eapply receiver_not_unauth|]. split.
      { intros (k' & x' & cs' & Hr' & Ht & _). destruct (receiver_unique _ _ _ _ _ _ Hr Hr') as [-> ->]. apply (proj2 Ht p). by exists ls. }
      assert (exists s', step s (OpReplace a) = Ret (s', OutUnit)) as [s' E].
      { destruct (lnf_dec K p ls x Hw Hp Hin) as [(f & m & -> & Hl)|Hnl].
        - destruct cs as [|c cs].
          + destruct (replace_exact s K a k x p f m R Hst Hr Hp Hx) as (s' & _ & _ & _ & _ & E & _). eauto.
          + destruct (A p _ Hp Hin) as (s' & _ & _ & _ & E & _); [done|]. eauto.
        - destruct (A p _ Hp Hin) as (s' & _ & _ & _ & E & _); [|by eauto]. intros H. by destruct (not_lnf K p ls x Hw Hp Hin Hnl). }
      exists s', OutUnit. split; [by apply expect_ret|]. by split.
  - destruct Hwt as [Hta [y Hj]]. destruct (Hauth a Hta) as [(k & x & Hr)|Hu].
    2: { left. split; [left; by split; [|exists y]|].
         rewrite (reach_panic s K (OpMove a ad j) R Hst); [reflexivity| |by split; [|exists y]|by split; [|exists y]].
         intros k x y' Hr. destruct (receiver_not_unauth _ _ _ _ Hr Hu). }
    assert (~ (unauthorised s a /\ exists y, s_hands s !! j = Some (HNode Hot y))) as Hnu by (intros [Hu _]; by eapply receiver_not_unauth).
    destruct (move_total s K a k x ad j y R Hst Hr Hj) as (s' & r & E & [[Hn ->]|[Hn ->]]).
    + left. split; [right; by exists k, x, y|]. by rewrite E.
    + right. split; [exact Hnu|]. split.
      { intros (k' & x' & y' & Hr' & Hj' & F). destruct (receiver_unique _ _ _ _ _ _ Hr Hr') as [-> ->]. rewrite Hj in Hj'. injection Hj' as <-. by apply Hn. }
      exists s', OutUnit. split; [by apply expect_ret|]. by split.
  - destruct (reach_effect s K (OpGet i) R Hst ltac:(exact Logic.I) Hwt ltac:(exact (fun F => F))) as (s' & r & E & _ & [[]|[(k & x & d & l & Hi & Hp & -> & [[-> ->]|[Hl ->]])|[]]]).
    + left. split; [right; by exists k, x, d|]. by rewrite E.
    + right. split; [exact (fun F => F)|]. split.
      { intros (k' & x' & d' & Hi' & H). rewrite Hi in Hi'. injection Hi' as <- <-. rewrite Hp in H. by injection H as _ ->. }
      exists s, (OutData d). split; [by apply expect_ret|]. eauto.
  - destruct (reach_effect s K (OpSet i d) R Hst ltac:(exact Logic.I) Hwt ltac:(exact (fun F => F))) as (s' & r & E & _ & [[]|[(k & x & d0 & l & Hi & Hp & [(Hl & -> & ->)|(-> & -> & _)])|[]]]).
    + left. split; [right; by exists k, x, d0, l|]. by rewrite E.
    + right. split; [exact (fun F => F)|]. split.
      { intros (k' & x' & d' & l' & Hi' & H & Hl). rewrite Hi in Hi'. injection Hi' as <- <-. rewrite Hp in H. by injection H as _ <-. }
      exists s', OutUnit. split; [by apply expect_ret|]. by split.
  - destruct (reach_effect s K (OpBorrow i TakeRef) R Hst ltac:(exact Logic.I) Hwt ltac:(exact (fun F => F))) as (s' & r & E & _ & [[]|[(k & x & d0 & l & Hi & Hp & [(Hl & -> & ->)|(l' & (n & -> & ->) & -> & _)])|[]]]).
    + left. split; [right; exists k, x, d0; split; [done|]; destruct l as [n|]; [|done]; destruct (Hl (Lent (S n))); by exists n|]. by rewrite E.
    + right. split; [exact (fun F => F)|]. split.
      { intros (k' & x' & d' & Hi' & H). rewrite Hi in Hi'. injection Hi' as <- <-. rewrite Hp in H. discriminate H. }
      exists s', OutUnit. split; [by apply expect_ret|]. by split.
  - destruct (reach_effect s K (OpBorrow i TakeMut) R Hst ltac:(exact Logic.I) Hwt ltac:(exact (fun F => F))) as (s' & r & E & _ & [[]|[(k & x & d0 & l & Hi & Hp & [(Hl & -> & ->)|(l' & (-> & ->) & -> & _)])|[]]]).
    + left. split; [right; exists k, x, d0, l; split; [done|]; split; [done|]; intros ->; by apply (Hl LentMut)|]. by rewrite E.
    + right. split; [exact (fun F => F)|]. split.
      { intros (k' & x' & d' & l' & Hi' & H & Hl). rewrite Hi in Hi'. injection Hi' as <- <-. rewrite Hp in H. by injection H as _ <-. }
      exists s', OutUnit. split; [by apply expect_ret|]. by split.
  - destruct (reach_effect s K (OpClone i) R Hst ltac:(exact Logic.I) Hwt ltac:(exact (fun F => F))) as (s' & r & E & _ & [(hd & j & Hi & -> & _)|[[]|[]]]).
    right. split; [exact (fun F => F)|]. split; [exact (fun F => F)|]. exists s', (OutHandle j). split; [by apply expect_ret|]. eauto.
Qed.

Theorem pclone_ok s K x t : reach s -> stores s K -> shape K x t ->
  ((exists y, y ∈ rose_nodes t /\ borrowed (s_nodes s) y) /\ pclone_subtree s x = Panic) \/
  ((forall y, y ∈ rose_nodes t -> ~ borrowed (s_nodes s) y) /\
   exists s' i td, pclone_subtree s x = Ret (s', i) /\ data_tree (s_nodes s) t td /\ builds s s' i td).
Proof.
  intros R Hst Hs. destruct (clone_ok s K x t R Hst Hs) as (s' & o & E & H). unfold pclone_subtree. rewrite E. unfold expect_some. cbn [mbind run_bind].
  destruct o as [i|].
  - destruct H as (Hb & td & Htd & B). right. split; [exact Hb|]. exists s', i, td. split; [reflexivity|]. by split.
  - destruct H as [Hb _]. by left.
Qed.

Theorem pclone_tree_ok s K x t : reach s -> stores s K -> shape K x t ->
  ((exists y, y ∈ rose_nodes t /\ borrowed (s_nodes s) y) /\ pclone_tree s x = Panic) \/
  ((forall y, y ∈ rose_nodes t -> ~ borrowed (s_nodes s) y) /\
   exists s' i td, pclone_tree s x = Ret (s', i) /\ data_tree (s_nodes s) t td /\ builds_as (fun _ u => HTree u) s s' i td).
Proof.
  intros R Hst Hs. destruct (clone_tree_ok s K x t R Hst Hs) as (s' & o & E & H). unfold pclone_tree. rewrite E. unfold expect_some. cbn [mbind run_bind].
  destruct o as [i|].
  - destruct H as (Hb & td & Htd & B). right. split; [exact Hb|]. exists s', i, td. split; [reflexivity|]. by split.
  - destruct H as [Hb _]. by left.
Qed.

Theorem pclone_insert_ok s K x t ad j y fuel : reach s -> stores s K -> shape K x t -> s_hands s !! j = Some (HNode Hot y) ->
  has_place K ad y -> (forall q, dest_parent K (dest_of ad y) q -> ~ below K x q) -> dfs_fuel (s_nodes s) <= fuel ->
  ((exists z, z ∈ rose_nodes t /\ borrowed (s_nodes s) z) /\ pclone_insert_subtree fuel s x ad j = Panic) \/
  ((forall z, z ∈ rose_nodes t -> ~ borrowed (s_nodes s) z) /\
   exists s' i n t0 td, pclone_insert_subtree fuel s x ad j = Ret (s', i) /\ s_hands s !! i = None /\ data_tree (s_nodes s) t td /\
     grafts s K n (dest_of ad y) t0 td s' /\ s_hands s' = <[i := HNode Hot n]> (s_hands s)).
Proof.
  intros R Hst Hs Hj Hp Hd Hf. destruct (clone_insert_ok s K x t ad j y fuel R Hst Hs Hj Hp Hd Hf) as (s' & r & E & H).
  unfold pclone_insert_subtree. rewrite E. unfold expect_hres. cbn [mbind run_bind]. destruct r as [i|e].
  - destruct H as (Hb & Hi & n & t0 & td & Htd & G & Hh). right. split; [exact Hb|]. exists s', i, n, t0, td. split; [reflexivity|]. by split_and!.
  - destruct H as (_ & Hb & _). by left.
Qed.

Theorem pclone_inside_ok s K x t ad j y fuel : reach s -> stores s K -> shape K x t -> s_hands s !! j = Some (HNode Hot y) ->
  has_place K ad y -> (forall q, dest_parent K (dest_of ad y) q -> below K x q) -> S (S (dfs_fuel (s_nodes s))) <= fuel ->
  exists l, comes_before K x (dest_of ad y) l /\
    ((l = [x] /\
      (((exists z, z ∈ rose_nodes t /\ borrowed (s_nodes s) z) /\ pclone_insert_subtree fuel s x ad j = Panic) \/
       ((forall z, z ∈ rose_nodes t -> ~ borrowed (s_nodes s) z) /\
        exists s' i n t0 d us, pclone_insert_subtree fuel s x ad j = Ret (s', i) /\ s_hands s !! i = None /\ data_tree (s_nodes s) t (Rose d us) /\
          grafts s K n (dest_of ad y) t0 (Rose d (Rose d [] :: us)) s' /\ s_hands s' = <[i := HNode Hot n]> (s_hands s)))) \/
     (l <> [x] /\
      (((exists z, z ∈ l /\ borrowed (s_nodes s) z) /\ pclone_insert_subtree fuel s x ad j = Panic) \/
       ((forall z, z ∈ l -> ~ borrowed (s_nodes s) z) /\ forall fuel', pclone_insert_subtree fuel' s x ad j = NoFuel)))).
Proof.
  intros R Hst Hs Hj Hp Hd Hf. destruct (clone_inside s K x t ad j y fuel R Hst Hs Hj Hp Hd Hf) as (l & Hl & H).
  exists l. split; [exact Hl|]. destruct H as [(E0 & s' & r & E & H)|[(E0 & Hz & s' & E & _)|(E0 & Hz & E)]].
  - left. split; [exact E0|]. unfold pclone_insert_subtree. rewrite E. unfold expect_hres. cbn [mbind run_bind]. destruct r as [i|e].
    + destruct H as (Hb & Hi & n & t0 & d & us & Htd & G & Hh). right. split; [exact Hb|]. exists s', i, n, t0, d, us. split; [reflexivity|]. by split_and!.
    + destruct H as (_ & Hb & _). by left.
  - right. split; [exact E0|]. left. split; [exact Hz|]. unfold pclone_insert_subtree. rewrite E. reflexivity.
  - right. split; [exact E0|]. right. split; [exact Hz|]. intros f. unfold pclone_insert_subtree. rewrite E. reflexivity.
Qed.
Theorem pclone_no_place s K x t ad j y fuel : reach s -> stores s K -> shape K x t -> s_hands s !! j = Some (HNode Hot y) -> ~ has_place K ad y ->
  pclone_insert_subtree fuel s x ad j = Panic.
Proof.
  intros R Hst Hs Hj Hno. destruct (clone_no_place s K x t ad j y fuel R Hst Hs Hj Hno) as (s' & e & E & _).
  unfold pclone_insert_subtree. rewrite E. reflexivity.
Qed.

(** ** A refused move leaves a node on which [is_root] panics *)

Lemma core_tree_of s k x t : handle_core s k x = Ret t -> tree_of s x = Some t.
Proof.
  unfold handle_core, link_tree_core, tree_core, tree_of. destruct k, (n_memb s x) as [[[u|]|u rc lk]|]; try done;
    try (destruct (tree_alive s u)); try done; by intros [= ->].
Qed.

Lemma cut_off_frame K p x g s' : child_of K p x -> wf K -> cut_off K x g s' ->
  s_trees s' = s_trees g /\ s_hands s' = s_hands g /\ (forall y, tree_of s' y = tree_of g y) /\ is_root (s_nodes s') x = is_root (s_nodes g) x.
Proof.
  intros (ks & Hp & Hx) Hw C. destruct (lnf_dec K p ks x Hw Hp Hx) as [(f & m & -> & Hl)|Hnl].
  2: { rewrite (co_sound _ _ _ _ C (not_lnf K p ks x Hw Hp Hx Hnl)). done. }
  pose proof (co_misled _ _ _ _ C p f m Hp) as M.
  assert (forall y, n_mem <$> s_nodes s' !! y = n_mem <$> s_nodes g !! y) as Hm.
  { intros y. destruct (decide (y = f)) as [->|Hy]; [|by rewrite (ml_rest _ _ _ _ M y Hy)].
    rewrite (ml_node _ _ _ _ M). by destruct (s_nodes g !! f). }
  assert (forall y, n_parent <$> s_nodes s' !! y = n_parent <$> s_nodes g !! y) as Hpp.
  { intros y. destruct (decide (y = f)) as [->|Hy]; [|by rewrite (ml_rest _ _ _ _ M y Hy)].
    rewrite (ml_node _ _ _ _ M). by destruct (s_nodes g !! f). }
  split; [by apply M|]. split; [by apply M|]. split.
  - intros y. unfold tree_of, n_memb. by rewrite Hm.
  - assert (forall y, alive (s_nodes s') y = alive (s_nodes g) y) as Ha.
    { intros y. unfold alive. pose proof (Hm y). by destruct (s_nodes s' !! y), (s_nodes g !! y). }
    unfold is_root, upgrade, fparent. pose proof (Hpp x) as E.
    destruct (s_nodes s' !! x) as [a|], (s_nodes g !! x) as [b|]; try done. simpl in E |- *. injection E as ->.
    destruct (n_parent b); [|done]. by rewrite Ha.
Qed.

Lemma root_panics s k x i : s_hands s !! i = Some (HNode k x) -> is_root (s_nodes s) x = true ->
  (forall t tr, tree_of s x = Some t -> s_trees s !! t = Some tr -> t_root tr <> x) -> ask s i QIsRoot = Panic.
Proof.
  intros Hi Hr Hn. unfold ask. rewrite Hi. unfold ask_is_root. destruct (handle_core s k x) as [t| |] eqn:E; [|done|].
  - cbn [mbind run_bind]. destruct (s_trees s !! t) as [tr|] eqn:Et; [|done]. rewrite Hr, bool_decide_eq_false_2; [done|].
    apply (Hn t tr); [by apply (core_tree_of s k)|done].
  - exfalso. revert E. unfold handle_core, link_tree_core, tree_core. destruct k, (n_memb s x) as [[[u|]|u rc lk]|]; try done. by destruct (tree_alive s u).
Qed.

Theorem refused_root s K a k x ad j y p : reach s -> stores s K -> receiver s a k x -> s_hands s !! j = Some (HNode Hot y) ->
  child_of K p x -> no_place K x ad y ->
  exists s', step s (OpMove a ad j) = Ret (s', OutErr SiblingsWithoutParent) /\
    forall i k', s_hands s !! i = Some (HNode k' x) -> s_hands s' !! i = Some (HNode k' x) /\ ask s' i QIsRoot = Panic.
Proof.
  intros R Hst Hr Hj Hp Hn. pose proof (reach_stores_inv s K R Hst) as I. pose proof (proj2 Hst) as Hw.
  assert (forall t tr, s_trees s !! t = Some tr -> t_root tr <> x) as Hroot.
  { intros t tr Ht <-. destruct (s_root _ _ (i_s _ _ I) t tr Ht) as [[_ H] _]. by apply (H p). }
  destruct (decide (tree_of s x = tree_of s y)) as [Et|Et].
  - destruct (move_same_fails s K a k x ad j y p R Hst Hr Hj Hp Et Hn) as (K1 & g & s' & E & Hu & Hre & C).
    exists s'. split; [exact E|]. intros i k' Hi. destruct (cut_off_frame K p x g s' Hp Hw C) as (A1 & A2 & A3 & A4).
    destruct Hre as [St H1 _ H3 H4]. split; [by rewrite A2, H1|]. apply (root_panics s' k' x i); [by rewrite A2, H1| |].
    + rewrite A4. apply (is_root_top _ _ _ (proj1 St)). by apply (EditFacts2.unlinked_wf K x K1 Hw Hu).
    + intros t tr _ Ht. rewrite A1, H4 in Ht. by eapply Hroot.
  - destruct (move_other_fails s K a k x ad j y p R Hst Hr Hj Hp Et Hn) as (K1 & K2 & t & t' & g & s' & E & _ & _ & Hu & Cy & St & Htop & Hrt & C).
    exists s'. split; [exact E|]. intros i k' Hi. destruct (cut_off_frame K p x g s' Hp Hw C) as (A1 & A2 & A3 & A4).
    pose proof (cy_hands _ _ _ _ _ _ _ Cy) as H1. split; [by rewrite A2, H1|]. apply (root_panics s' k' x i); [by rewrite A2, H1| |].
    + rewrite A4. by apply (is_root_top _ _ _ (proj1 St)).
    + intros u tr _ Hu'. rewrite A1 in Hu'. pose proof (Hrt u ltac:(by eexists)) as F. rewrite Hu' in F. simpl in F.
      destruct (s_trees s !! u) as [tr2|] eqn:E2; [|done]. injection F as F. rewrite F. by eapply Hroot.
Qed.
End QueryFacts.
