(** * SysFacts8: the operations creating nodes and trees, and data access. *)
From Verif Require Import Heap Edit System SysSpec CardFacts HeapFacts SpecFacts NavFacts NavFacts2 EditFacts EditFacts2 EditFacts3 IterSpec RoseFacts TdFacts TdFacts2 SysFacts SysFacts2 SysFacts3 SysFacts4 SysFacts5 SysFacts6 SysFacts7 Spec.

Section SysFacts8.
Context {T : Type}.
Implicit Types (h : heap T) (s : sys T) (hm : gmap nat handle).

(** The same state seen through another handle table. *)
Lemma tree_held_relabel s hm (i : nat) k x t : (exists k0, hm !! i = Some (HNode k0 x)) ->
  tree_held s hm t -> tree_held s (<[i := HNode k x]> hm) t.
Proof.
  intros [k0 Hi] [(j & Hj)|(j & k1 & y & Hj & Hy)].
  - left. exists j. rewrite lookup_insert_ne; [done|]. intros <-. congruence.
  - right. destruct (decide (j = i)) as [->|].
    + exists i, k, x. rewrite lookup_insert. split; [done|]. congruence.
    + exists j, k1, y. by rewrite lookup_insert_ne.
Qed.

Lemma upgrade_ok s K (i : nat) (n : nid) k : inv s K -> s_hands s !! i = Some (HNode Plain n) ->
  (k = Plain \/ exists j x, s_hands s !! j = Some (HNode k x) /\ tree_of s x = tree_of s n) ->
  exists s', upgrade_new s i n k = Ret s' /\ inv s' K /\ quiet s s' /\ s_hands s' = <[i := HNode k n]> (s_hands s) /\ s_fresh s' = s_fresh s.
Proof.
  intros H Hi Hk. unfold upgrade_new, acquire_expect.
  destruct (handle_tree s K i _ n H Hi) as (t & tr & Ht & Htr & _).
  assert (exists s1, acquire s k n = Ret (Some s1) /\ hinv s1 (<[i := HNode k n]> (s_hands s)) /\ framed s s1) as (s1 & -> & Hh & F).
  { destruct (decide (k = Plain)) as [->|Hne].
    - exists s. split; [done|]. rewrite insert_id by done. split; [apply H|apply framed_refl].
    - destruct Hk as [|(j & x & Hj & Hx)]; [done|].
      destruct (acquire_ok s (s_hands s) i k n t (i_h _ _ H) Hi Hne Ht) as [(_ & s1 & E & A & B)|(m & Hm & _)]; [eauto|].
      rewrite Ht in Hx. pose proof (handle_excl s K j k x t H Hj Hne Hx) as H0.
      pose proof (holders_unique _ _ _ _ _ _ H0 Hm). lia. }
  simpl. eexists. split; [done|]. rewrite (fr_hands _ _ F). split; [|split; [|split]].
  - apply (mk_inv s1 K _ (s_fresh s1)).
    + eapply framed_sinv; [apply H|done].
    + done.
    + intros u Hu. rewrite (framed_held _ _ _ _ F). apply tree_held_relabel; [eauto|].
      apply (i_held _ _ H). by apply (framed_tree_alive _ _ _ F).
    + eapply framed_finv; [apply H|done].
    + intros j hd. rewrite (fr_fresh _ _ F). destruct (decide (j = i)) as [->|].
      * rewrite lookup_insert. intros [= <-]. simpl. apply (f_hands _ (i_f _ _ H) _ _ Hi).
      * rewrite lookup_insert_ne by done. apply (f_hands _ (i_f _ _ H)).
    + done.
  - destruct F as [A B C D E]. split; done.
  - done.
  - simpl. apply F.
Qed.

(** What creating a node achieves: the node [n] carrying [d] now belongs to the
    tree [t], nothing else changed but the shape, and the user has one more handle. *)
Record created s s' (K' : forest) (t : tid) (n : nid) (d : T) (k : kind) (i : nat) : Prop := {
  cr_inv : inv s' K';
  cr_new : s_nodes s !! n = None;
  cr_hand_new : s_hands s !! i = None;
  cr_hands : s_hands s' = <[i := HNode k n]> (s_hands s);
  cr_data : payload s' n = Some (d, Lent 0);
  cr_other : forall y, y <> n -> payload s' y = payload s y;
  cr_tree_n : tree_of s' n = Some t;
  cr_tree : forall y, y <> n -> tree_of s' y = tree_of s y;
  cr_trees : forall u, is_Some (s_trees s' !! u) <-> is_Some (s_trees s !! u);
  cr_unm : forall j hd, s_hands s !! j = Some hd -> hand_target hd <> n;
}.

Lemma quiet_payload s s' x : quiet s s' -> payload s' x = payload s x.
Proof. intros Q. apply memonly_payload. apply Q. Qed.
Lemma quiet_trees s s' t : quiet s s' -> (is_Some (s_trees s' !! t) <-> is_Some (s_trees s !! t)).
Proof.
  intros Q. pose proof (q_root _ _ Q t) as E. destruct (s_trees s' !! t), (s_trees s !! t); try done; split; eauto.
Qed.

(** After a new orphan [n] has been put in place. *)
Lemma created_finish s s1 s2 K K' n t d k x j :
  orphaned s s1 K n t d -> inv s K -> inv s2 K' -> s_hands s2 = s_hands s1 ->
  (forall y, payload s2 y = payload s1 y) -> (forall y, tree_of s2 y = tree_of s1 y) ->
  (forall u, is_Some (s_trees s2 !! u) <-> is_Some (s_trees s1 !! u)) ->
  (k = Plain \/ s_hands s !! j = Some (HNode k x)) -> tree_of s x = Some t ->
  exists s', upgrade_new s2 (S n) n k = Ret s' /\ created s s' K' t n d k (S n).
Proof.
  intros O H H2 Eh Ep Et Eu Hk Hx. assert (n = s_fresh s) as En by apply O.
  assert (s_hands s !! S n = None) as HS. { destruct (s_hands s !! S n) eqn:E; [|done]. apply (f_hands _ (i_f _ _ H)) in E. lia. }
  assert (s_nodes s !! n = None) as Hn. { destruct (s_nodes s !! n) eqn:E; [|done]. assert (n < s_fresh s); [|lia]. apply (f_nodes _ (i_f _ _ H)). eauto. }
  assert (x <> n) as Hxn. { intros ->. unfold tree_of, n_memb in Hx. by rewrite Hn in Hx. }
  destruct (upgrade_ok s2 K' (S n) n k H2) as (s' & E & I & Q & Hh & Hf).
  { rewrite Eh, (o_hands _ _ _ _ _ _ O). by rewrite lookup_insert. }
  { destruct Hk as [|Hj]; [by left|right]. exists j, x. rewrite Eh, (o_hands _ _ _ _ _ _ O). rewrite lookup_insert_ne by congruence.
    split; [done|]. rewrite !Et, (o_tree_n _ _ _ _ _ _ O), (o_tree _ _ _ _ _ _ O); done. }
  exists s'. split; [done|]. split.
  - exact I.
  - done.
  - done.
  - by rewrite Hh, Eh, (o_hands _ _ _ _ _ _ O), insert_insert.
  - rewrite (quiet_payload _ _ _ Q), Ep. apply O.
  - intros y Hy. rewrite (quiet_payload _ _ _ Q), Ep. unfold payload. by rewrite (o_nodes _ _ _ _ _ _ O).
  - rewrite (q_tree _ _ Q), Et. apply O.
  - intros y Hy. rewrite (q_tree _ _ Q), Et. by apply O.
  - intros u. rewrite (quiet_trees _ _ _ Q), Eu. by rewrite (o_trees _ _ _ _ _ _ O).
  - intros j0 hd Hj0. apply (f_hands _ (i_f _ _ H)) in Hj0 as [_ Hj0]. lia.
Qed.

(** The state after relinking an orphan state. *)
Lemma orphan_inv s s1 K n t d K' h' : orphaned s s1 K n t d -> sinv (with_nodes s1 h') K' -> same_meta (s_nodes s1) h' -> inv (with_nodes s1 h') K'.
Proof.
  intros O Hs M. split.
  - exact Hs.
  - apply hinv_relink; [apply O|done].
  - intros u Hu. rewrite held_relink by done. by apply O.
  - apply finv_relink; [apply O|done].
Qed.

Lemma top_or_child K x : wf K -> is_Some (K !! x) -> is_top K x \/ exists p, child_of K p x.
Proof.
  intros Hw Hx. destruct (anc_exists K x Hw Hx) as [l Hl]. inversion Hl; subst; [by left|right; eauto].
Qed.

(** ** Creation next to an existing node *)
Definition adoptable (K : forest) (ad : adopt_as) (x : nid) : Prop :=
  match ad with AFirstChild | ALastChild => True | _ => exists p, child_of K p x end.

Lemma adoptable_attached K ad x n : is_Some (K !! x) -> adoptable K ad x -> exists K', attached K n (dest_of ad x) K'.
Proof.
  intros [ks Hx] Ha. destruct ad; simpl in *.
  - eexists. by econstructor.
  - eexists. by econstructor.
  - destruct Ha as (p & l & Hl & Hp). eexists. by econstructor.
  - destruct Ha as (p & l & Hl & Hp). eexists. by econstructor.
Qed.

Lemma create_ok s K k j x t d ad : inv s K -> is_Some (s_nodes s !! x) -> tree_of s x = Some t ->
  (k = Plain \/ s_hands s !! j = Some (HNode k x)) -> adoptable K ad x ->
  exists s' n i K', create_node_as s k x d ad = Ret (s', HOk i) /\ attached (<[n := []]> K) n (dest_of ad x) K' /\
    K !! n = None /\ created s s' K' t n d k i.
Proof.
  intros H Hx Ht Hk Ha. pose proof (i_s _ _ H) as Hs. pose proof (s_wf _ _ Hs) as Hw.
  destruct (alive_tree s K x H Hx) as (t0 & Ht0 & Hta). assert (t0 = t) as -> by congruence.
  unfold create_node_as. rewrite (tree_core_ok s K x t H Ht Hx). simpl.
  destruct (new_orphan_ok s K d t H Hta) as (s1 & -> & O). simpl.
  set (n := s_fresh s : nid) in *. set (K1 := <[n := []]> K) in *.
  assert (K !! n = None) as HKn by apply O.
  assert (is_Some (K !! x)) as HxK by (by apply (inv_alive s K x H)).
  assert (x <> n) as Hxn by (intros ->; destruct HxK; congruence).
  assert (forall p c, child_of K1 p c <-> child_of K p c) as HcK.
  { intros p c. unfold K1. rewrite child_of_insert. split.
    - intros [[-> Hc]|[_ Hc]]; [by apply elem_of_nil in Hc|done].
    - intros Hc. right. split; [|done]. intros ->. destruct Hc as (? & ? & _). congruence. }
  assert (is_Some (K1 !! x)) as HxK1 by (unfold K1; by rewrite lookup_insert_ne).
  assert (adoptable K1 ad x) as Ha1. { destruct ad; simpl in *; try done; destruct Ha as [p Hp]; exists p; by apply HcK. }
  destruct (adoptable_attached K1 ad x n HxK1 Ha1) as [K' Hatt].
  destruct (attached_child K1 n _ K' (p_wf _ _ _ (o_pinv _ _ _ _ _ _ O)) Hatt) as (p & Hp & HpK & Hch & Hdom).
  assert (is_top K1 n) as Htop.
  { split; [unfold K1; rewrite lookup_insert; eauto|]. intros q Hq. apply HcK in Hq. destruct (wf_dom _ Hw _ _ Hq). congruence. }
  assert (p <> n) as Hpn.
  { destruct ad; simpl in Hp; subst; try done; intros ->; apply HcK in Hp; destruct Hp as (? & ? & _); congruence. }
  assert (~ below K1 n p) as Hnb.
  { intros Hb. apply Hpn. symmetry. clear -Hb HcK HKn Hw. assert (forall q c, below K1 q c -> q = n -> c = n) as X.
    { intros q c B. induction B as [|q1 c B IH Hc]; [done|]. intros ->. rewrite (IH eq_refl) in Hc. apply HcK in Hc. destruct Hc as (? & ? & _). congruence. }
    symmetry. by eapply X. }
  destruct (insert_orphan_ok (s_nodes s1) K1 n (dest_of ad x) K' p true (p_rep _ _ _ (o_pinv _ _ _ _ _ _ O)) (p_wf _ _ _ (o_pinv _ _ _ _ _ _ O)) Htop Hatt Hp Hnb)
    as (h' & -> & Hr' & Hw' & M). simpl.
  assert (forall q, dest_parent K1 (dest_of ad x) q -> tree_of s1 q = tree_of s1 n) as Hd.
  { intros q Hq. assert (q = p) as -> by (eapply dest_parent_det; [apply (p_wf _ _ _ (o_pinv _ _ _ _ _ _ O))|done|done]).
    rewrite (o_tree_n _ _ _ _ _ _ O), (o_tree _ _ _ _ _ _ O) by done. rewrite <-Ht.
    destruct ad; simpl in Hp; subst; try done; apply HcK in Hp; symmetry; by apply (s_child _ _ Hs). }
  pose proof (attach_pinv s1 K1 n _ K' h' (o_pinv _ _ _ _ _ _ O) Htop (o_root _ _ _ _ _ _ O) Hatt Hd Hr' Hw' M) as Hs2.
  pose proof (orphan_inv _ _ _ _ _ _ _ _ O Hs2 M) as H2.
  destruct (created_finish s s1 (with_nodes s1 h') K K' n t d k x j O H H2 eq_refl) as (s' & E & C); try done.
  { intros y. by apply relink_payload. } { intros y. by apply relink_tree_of. }
  change (S (s_fresh s)) with (S n). rewrite E. simpl. exists s', n, (S n), K'. done.
Qed.

(** Creating a sibling of a root is refused and changes nothing the user can see. *)
Lemma create_err s K k x t d ad : inv s K -> is_Some (s_nodes s !! x) -> tree_of s x = Some t ->
  is_top K x -> (ad = APreviousSibling \/ ad = ANextSibling) -> tree_held s (s_hands s) t ->
  create_node_as s k x d ad = Ret (with_fresh s (S (S (s_fresh s))), HErr SiblingsWithoutParent) /\ inv (with_fresh s (S (S (s_fresh s)))) K.
Proof.
  intros H Hx Ht Htop Had Hheld. pose proof (i_s _ _ H) as Hs. pose proof (s_wf _ _ Hs) as Hw.
  destruct (alive_tree s K x H Hx) as (t0 & Ht0 & Hta). assert (t0 = t) as -> by congruence.
  split; [|apply (mk_inv s K); [apply H|apply H|apply H|apply H| |lia]; intros i hd Hi; destruct (f_hands _ (i_f _ _ H) _ _ Hi); lia].
  unfold create_node_as. rewrite (tree_core_ok s K x t H Ht Hx). simpl.
  set (n := s_fresh s : nid).
  assert (s_nodes s !! n = None) as Hn. { destruct (s_nodes s !! n) eqn:E; [|done]. assert (n < s_fresh s); [|lia]. apply (f_nodes _ (i_f _ _ H)). eauto. }
  unfold new_orphan. fold n.
  set (s0 := with_fresh (with_nodes s (alloc (s_nodes s) n d (MWeak (Some t)))) (S n)).
  assert (n_memb s0 n = Some (MWeak (Some t))) as Hm0. { unfold n_memb. simpl. unfold alloc. by rewrite lookup_insert. }
  unfold incr_ref. rewrite Hm0. unfold tree_alive. rewrite bool_decide_true by done.
  set (s1 := put_mem s0 n (MStrong t 1 0)). simpl.
  assert (K !! n = None) as HKn. { destruct (K !! n) eqn:E; [|done]. assert (is_Some (s_nodes s !! n)) as [? ?] by (apply (inv_alive s K n H); eauto). congruence. }
  assert (rep (s_nodes s1) (<[n := []]> K)) as Hrep.
  { eapply rep_memonly; [|apply memonly_set_mem]. apply rep_alloc; [apply Hs|done|done]. }
  assert (is_top (<[n := []]> K) x) as Htop1.
  { destruct Htop as [A B]. split.
    - destruct (decide (x = n)) as [->|]; [rewrite lookup_insert; eauto|by rewrite lookup_insert_ne].
    - intros q. rewrite child_of_insert. intros [[_ Hc]|[_ Hc]]; [by apply elem_of_nil in Hc|by apply (B q)]. }
  change (set_mem (alloc (s_nodes s) n d (MWeak (Some t))) n (MStrong t 1 0)) with (s_nodes s1).
  rewrite (insert_orphan_sibling_of_top (s_nodes s1) (<[n := []]> K) n true x (dest_of ad x) Hrep Htop1) by (destruct Had as [->| ->]; auto).
  simpl. unfold drop_node, drop_link. simpl.
  set (sd := del_hand (with_nodes (add_hand s1 (HNode Plain n)) (s_nodes s1)) (S n)).
  assert (s_hands sd = s_hands s) as Ehd.
  { unfold sd. simpl. rewrite delete_insert; [done|]. destruct (s_hands s !! S n) eqn:E; [|done]. apply (f_hands _ (i_f _ _ H)) in E. lia. }
  assert (n_memb sd n = Some (MStrong t 1 0)) as Hmd.
  { change (n_memb sd n) with (n_memb s1 n). unfold s1. rewrite n_memb_put by (by eapply n_memb_alive). by rewrite decide_True. }
  change (s_fresh s1) with (S n). fold sd.
  match goal with |- context [decr_ref ?a n] => change a with sd end. unfold decr_ref. rewrite Hmd. simpl.
  set (se := put_mem sd n (MWeak (Some t))).
  assert (tree_referenced se [] t = true) as Href.
  { apply tree_referenced_iff. right. destruct Hheld as [(i & Hi)|(i & k1 & y & Hi & Hy)].
    - left. exists i. change (s_hands se) with (s_hands sd). by rewrite Ehd.
    - right. assert (y <> n) as Hyn. { intros ->. unfold tree_of, n_memb in Hy. by rewrite Hn in Hy. }
      destruct (hinv_handle_strong s (s_hands s) i k1 y (i_h _ _ H) Hi) as (t1 & rc & lk & E & _ & _ & _ & E2).
      assert (t1 = t) as -> by congruence. exists y, (S rc), lk.
      unfold n_memb, se, sd, s1, s0, put_mem, set_mem, alloc. simpl. rewrite !lookup_alter_ne, lookup_insert_ne by done. exact E. }
  unfold drop_tree_if_dead. destruct Hta as [tr Htr]. change (s_trees se) with (s_trees s). rewrite Htr, Href. simpl.
  assert (exists nd, s_nodes se !! n = Some nd /\ n_first nd = None /\ n_next nd = None /\ n_mem nd = MWeak (Some t)) as (nd & End & Hf & Hnx & Hmm).
  { unfold se, sd, s1, s0, put_mem, set_mem, alloc. simpl. eexists. rewrite !lookup_alter, lookup_insert. simpl. done. }
  assert (forall y, y <> n -> s_nodes se !! y = s_nodes s !! y) as Hno.
  { intros y Hy. unfold se, sd, s1, s0, put_mem, set_mem, alloc. simpl. by rewrite !lookup_alter_ne, lookup_insert_ne by done. }
  erewrite (release_free se [] n nd (Some t)); [|done| |done|done|done].
  - simpl. do 2 f_equal. unfold with_nodes, with_fresh. f_equal; [|exact Ehd].
    apply map_eq. intros y. destruct (decide (y = n)) as [->|]; [by rewrite lookup_delete|]. rewrite lookup_delete_ne by done. by apply Hno.
  - apply referenced_false.
    + apply not_elem_of_nil.
    + split.
      * intros i k1. change (s_hands se) with (s_hands sd). rewrite Ehd. intros Hi. by apply (no_target s K n H (le_n _) _ _ Hi).
      * intros u tr1 Hu E. change (s_trees se) with (s_trees s) in Hu. destruct (s_root _ _ Hs _ _ Hu) as [[[? A] _] _]. rewrite E in A. congruence.
    + intros y E. apply field_first in E as (nd1 & E1 & E2). destruct (decide (y = n)) as [->|Hy]; [congruence|].
      rewrite Hno in E1 by done. assert (ffirst (s_nodes s) y = Some n) as E3 by (apply field_first; eauto).
      apply (ffirst_inv _ _ _ _ (s_rep _ _ Hs)) in E3 as (ks & A1 & A2). destruct (wf_dom _ Hw y n); [|congruence].
      exists ks. split; [done|]. by eapply elem_of_list_lookup_2.
    + intros y E. apply field_next in E as (nd1 & E1 & E2). destruct (decide (y = n)) as [->|Hy]; [congruence|].
      rewrite Hno in E1 by done. assert (fnext (s_nodes s) y = Some n) as E3 by (apply field_next; eauto).
      apply (fnext_inv _ _ _ _ (s_rep _ _ Hs) Hw) in E3 as (p & ks & i & A1 & A2 & A3). destruct (wf_dom _ Hw p n); [|congruence].
      exists ks. split; [done|]. by eapply elem_of_list_lookup_2.
Qed.

End SysFacts8.
