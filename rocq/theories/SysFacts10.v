(** * SysFacts10: new trees, data access, moves inside a tree. *)
From Verif Require Import Heap Edit System SysSpec CardFacts HeapFacts SpecFacts NavFacts NavFacts2 EditFacts EditFacts2 EditFacts3 IterSpec RoseFacts TdFacts TdFacts2 SysFacts SysFacts2 SysFacts3 SysFacts4 SysFacts5 SysFacts6 SysFacts7 SysFacts8 SysFacts9 Spec.

Section SysFacts10.
Context {T : Type}.
Implicit Types (h : heap T) (s : sys T) (hm : gmap nat handle) (K : forest).

(** ** New trees *)
Lemma new_tree_ok s K (d : T) : inv s K ->
  exists s' n t, new_tree s d = (s', S (S n)) /\ n = s_fresh s /\ t = S n /\ K !! n = None /\ s_trees s !! t = None /\
    inv s' (<[n := []]> K) /\ s_hands s' = <[S (S n) := HNode Plain n]> (s_hands s) /\ s_hands s !! S (S n) = None /\
    payload s' n = Some (d, Lent 0) /\ (forall y, y <> n -> payload s' y = payload s y) /\
    tree_of s' n = Some t /\ (forall y, y <> n -> tree_of s' y = tree_of s y) /\
    s_trees s' = <[t := mkTree n 0]> (s_trees s).
Proof.
  intros H. pose proof (i_s _ _ H) as Hs. pose proof (s_wf _ _ Hs) as Hw.
  set (n := s_fresh s : nid). set (t := S n : tid).
  assert (s_nodes s !! n = None) as Hn. { destruct (s_nodes s !! n) eqn:E; [|done]. assert (n < s_fresh s); [|lia]. apply (f_nodes _ (i_f _ _ H)). eauto. }
  assert (K !! n = None) as HKn. { destruct (K !! n) eqn:E; [|done]. assert (is_Some (s_nodes s !! n)) as [? ?] by (apply (inv_alive s K n H); eauto). congruence. }
  assert (s_trees s !! t = None) as Hst. { destruct (s_trees s !! t) eqn:E; [|done]. assert (t < s_fresh s); [|unfold t in *; lia]. apply (f_trees _ (i_f _ _ H)). eauto. }
  assert (s_hands s !! S (S n) = None) as HS. { destruct (s_hands s !! S (S n)) eqn:E; [|done]. apply (f_hands _ (i_f _ _ H)) in E. lia. }
  assert (forall i hd, s_hands s !! i = Some hd -> hand_target hd <> n /\ hand_target hd <> t) as Hnt.
  { intros i hd Hi. destruct (f_hands _ (i_f _ _ H) _ _ Hi). unfold t. lia. }
  assert (forall y, tree_of s y <> Some t) as Htt. { intros y E. apply (f_memb _ (i_f _ _ H)) in E. unfold t in *. lia. }
  eexists _, n, t. split; [done|]. unfold new_tree. fold n. fold t.
  set (s' := add_hand _ _).
  assert (s_hands s' = <[S (S n) := HNode Plain n]> (s_hands s)) as Hh' by done.
  assert (forall y, y <> n -> s_nodes s' !! y = s_nodes s !! y) as Hno. { intros y Hy. unfold s'. simpl. unfold alloc. by rewrite lookup_insert_ne. }
  assert (s_nodes s' !! n = Some (new_node n d (MStrong t 1 0))) as Hnn. { unfold s'. simpl. unfold alloc. by rewrite lookup_insert. }
  assert (n_memb s' n = Some (MStrong t 1 0)) as Hmn. { unfold n_memb. by rewrite Hnn. }
  assert (forall y, y <> n -> n_memb s' y = n_memb s y) as Hmo. { intros y Hy. unfold n_memb. by rewrite Hno. }
  assert (tree_of s' n = Some t) as Htn. { unfold tree_of. by rewrite Hmn. }
  assert (forall y, y <> n -> tree_of s' y = tree_of s y) as Hto. { intros y Hy. unfold tree_of. by rewrite Hmo. }
  assert (s_trees s' = <[t := mkTree n 0]> (s_trees s)) as Htr by done.
  assert (inv s' (<[n := []]> K)) as Hinv.
  { split.
    - split.
      + unfold s'. simpl. apply rep_alloc; [apply Hs|done|done].
      + by apply wf_new.
      + intros p c Hc. apply new_child_iff in Hc; [|done]. rewrite !Hto.
        * by apply (s_child _ _ Hs).
        * intros ->. destruct Hc as (? & ? & _). congruence.
        * intros ->. destruct (wf_dom _ Hw _ _ Hc). congruence.
      + intros x Hx. destruct (decide (x = n)) as [->|Hne].
        * exists t, (mkTree n 0). split; [done|]. rewrite Htr. by rewrite lookup_insert.
        * destruct Hx as [A B]. rewrite lookup_insert_ne in A by done. destruct (s_top _ _ Hs x) as (u & tr & C1 & C2 & C3).
          { split; [done|]. intros p Hp. apply (B p). by apply new_child_iff. }
          exists u, tr. rewrite Hto by done. split; [done|]. split; [|done]. rewrite Htr, lookup_insert_ne; [done|]. intros <-. congruence.
      + intros u tr. rewrite Htr. destruct (decide (u = t)) as [->|Hne].
        * rewrite lookup_insert. intros [= <-]. simpl. split; [by apply new_top|done].
        * rewrite lookup_insert_ne by done. intros Hu. destruct (s_root _ _ Hs _ _ Hu) as [A B].
          assert (t_root tr <> n) as Hrn. { intros E. rewrite E in A. destruct A as [[? ?] _]. congruence. }
          split; [by apply new_top_old|]. by rewrite Hto.
    - destruct (i_h _ _ H) as [A1 A2 A3 A4 A5].
      assert (forall k i y, s_hands s' !! i = Some (HNode k y) <-> (i = S (S n) /\ k = Plain /\ y = n) \/ s_hands s !! i = Some (HNode k y)) as Hi'.
      { intros k i y. rewrite Hh', insert_hand_iff by done. naive_solver. }
      assert (forall y i, y <> n -> (node_handle (s_hands s') y i <-> node_handle (s_hands s) y i)) as Hnh.
      { intros y i Hy. unfold node_handle. setoid_rewrite Hi'. naive_solver. }
      assert (forall y i, y <> n -> (lock_handle (s_hands s') y i <-> lock_handle (s_hands s) y i)) as Hlh.
      { intros y i Hy. unfold lock_handle. setoid_rewrite Hi'. naive_solver. }
      assert (forall i k, s_hands s !! i <> Some (HNode k n)) as Hno'. { intros i k Hi. apply Hnt in Hi as [? _]. done. }
      assert (forall k u i, token_holder (s_hands s') k u i <-> token_holder (s_hands s) k u i) as Hth.
      { intros k u i. unfold token_holder. rewrite Hh', insert_hand_iff by done. destruct k; naive_solver. }
      assert (forall k u x, node_holder s' (s_hands s') k u x <-> node_holder s (s_hands s) k u x) as Hnhd.
      { intros k u x. unfold node_holder. setoid_rewrite Hi'. destruct (decide (x = n)) as [->|Hne].
        - split; [intros (B1 & B2 & i & [(_ & -> & _)|B3])|intros (B1 & B2 & i & B3)]; [done|by apply Hno' in B3|by apply Hno' in B3].
        - rewrite Hto by done. naive_solver. }
      split.
      + intros x o Hx. destruct (decide (x = n)) as [->|Hne]; [congruence|]. rewrite Hmo in Hx by done.
        destruct (A1 _ _ Hx) as [B1 B2]. split; [done|]. intros i Hi. apply Hnh in Hi; [|done]. by apply (B2 i).
      + intros x u rc lk Hx. destruct (decide (x = n)) as [->|Hne].
        * rewrite Hmn in Hx. injection Hx as <- <- <-. split; [rewrite Htr, lookup_insert; eauto|]. split; [lia|]. split.
          -- exists [S (S n)]. split; [apply NoDup_singleton|]. split; [|done]. intros i. rewrite elem_of_list_singleton.
             unfold node_handle. setoid_rewrite Hi'. split; [intros ->; exists Plain; by left|]. intros (k & [(-> & _)|Hk]); [done|by apply Hno' in Hk].
          -- exists []. split; [apply NoDup_nil_2|]. split; [|done]. intros i. rewrite elem_of_nil. split; [done|].
             intros (k & Hk & Hk2). apply Hi' in Hk2 as [(_ & -> & _)|Hk2]; [done|by apply Hno' in Hk2].
        * rewrite Hmo in Hx by done. destruct (A2 _ _ _ _ Hx) as (B1 & B2 & B3 & B4). split; [|split; [done|split]].
          -- rewrite Htr. destruct (decide (u = t)) as [->|]; [rewrite lookup_insert; eauto|by rewrite lookup_insert_ne].
          -- eapply card_ext; [exact B3|]. intros i. symmetry. by apply Hnh.
          -- eapply card_ext; [exact B4|]. intros i. symmetry. by apply Hlh.
      + intros i k x Hi. apply Hi' in Hi as [(_ & _ & ->)|Hi]; [rewrite Hnn; eauto|].
        rewrite Hno; [by eapply A3|]. intros ->. by apply Hno' in Hi.
      + intros i u. rewrite Hh', insert_hand_iff by done. intros [[_ ?]|Hi]; [done|]. rewrite Htr.
        destruct (decide (u = t)) as [->|]; [rewrite lookup_insert; eauto|rewrite lookup_insert_ne by done]. by eapply A4.
      + intros u tr. rewrite Htr. destruct (decide (u = t)) as [->|Hne].
        * rewrite lookup_insert. intros [= <-].
          assert (forall k, holders s' (s_hands s') k t 0) as X0.
          { intros k. exists 0, 0. split; [|split; [|done]]; exists []; (split; [apply NoDup_nil_2|split; [|done]]); intros i; rewrite elem_of_nil; (split; [done|]).
            - intros [C1 C2]%Hth. apply Hnt in C2 as [_ C2]. by destruct k.
            - intros (C1 & C2 & _)%Hnhd. by apply Htt in C2. }
          exists 0, 0. split; [apply X0|]. split; [apply X0|]. split; [done|by left].
        * rewrite lookup_insert_ne by done. intros Hu. eapply lock_ok_ext; [exact (A5 u tr Hu)|..].
          -- intros k i. symmetry. apply Hth.
          -- intros k x. symmetry. apply Hnhd.
    - intros u. rewrite Htr. intros Hu. destruct (decide (u = t)) as [->|Hne].
      + right. exists (S (S n)), Plain, n. rewrite Hh', lookup_insert. done.
      + rewrite lookup_insert_ne in Hu by done. destruct (i_held _ _ H u Hu) as [(j & Hj)|(j & k1 & y & Hj & Hy)].
        * left. exists j. rewrite Hh', insert_hand_iff by done. by right.
        * right. exists j, k1, y. rewrite Hh', insert_hand_iff by done. split; [by right|]. rewrite Hto; [done|]. intros ->. apply Hnt in Hj as [? _]. done.
    - destruct (i_f _ _ H) as [A1 A2 A3 A4]. fold n in A1, A2, A3, A4.
      assert (s_fresh s' = S (S (S n))) as Hf by done. split; rewrite Hf.
      + intros x Hx. destruct (decide (x = n)) as [->|Hne]; [lia|]. rewrite Hno in Hx by done. specialize (A1 x Hx). lia.
      + intros u. rewrite Htr. destruct (decide (u = t)) as [->|]; [intros _; unfold t; lia|]. rewrite lookup_insert_ne by done. intros Hu. specialize (A2 u Hu). lia.
      + intros j hd. rewrite Hh', insert_hand_iff by done. intros [[-> ->]|Hj]; [simpl; lia|]. destruct (A3 _ _ Hj). lia.
      + intros x u. destruct (decide (x = n)) as [->|Hne]; [rewrite Htn; intros [= <-]; unfold t; lia|]. rewrite Hto by done. intros Hx. specialize (A4 _ _ Hx). lia. }
  split_and!; [done|done|done|done|exact Hinv|done|done| | |done|done|done].
  - unfold payload. by rewrite Hnn.
  - intros y Hy. unfold payload. by rewrite Hno.
Qed.

(** ** Data *)
Definition shape_of (nd : node T) := (n_parent nd, n_first nd, n_next nd, n_prev nd, n_nch nd, n_mem nd).
Definition dataonly h h' : Prop := forall x : nid, shape_of <$> h' !! x = shape_of <$> h !! x.

Lemma dataonly_fields h h' x : dataonly h h' ->
  fparent h' x = fparent h x /\ ffirst h' x = ffirst h x /\ fnext h' x = fnext h x /\ fprev h' x = fprev h x /\ fnch h' x = fnch h x /\
  (is_Some (h' !! x) <-> is_Some (h !! x)) /\ n_mem <$> h' !! x = n_mem <$> h !! x.
Proof.
  intros H. specialize (H x). unfold fparent, ffirst, fnext, fprev, fnch.
  destruct (h' !! x), (h !! x); simpl in *; unfold shape_of in *; simplify_eq; try done.
  split_and!; try congruence. split; eauto.
Qed.

Lemma data_inv s K h' : inv s K -> dataonly (s_nodes s) h' -> inv (with_nodes s h') K.
Proof.
  intros H D.
  assert (forall x, n_memb (with_nodes s h') x = n_memb s x) as Hm. { intros x. unfold n_memb. simpl. by apply dataonly_fields. }
  assert (forall x, tree_of (with_nodes s h') x = tree_of s x) as Ht. { intros x. unfold tree_of. by rewrite Hm. }
  assert (forall x, is_Some (h' !! x) <-> is_Some (s_nodes s !! x)) as Ha. { intros x. by apply (dataonly_fields _ _ x D). }
  split.
  - destruct (i_s _ _ H) as [A B C D1 E]. split.
    + destruct A as [R1 R2 R3 R4 R5]. split; simpl.
      * intros x. rewrite Ha. apply R1.
      * intros x ks Hx. destruct (dataonly_fields _ _ x D) as (_ & -> & _). by apply R2.
      * intros x ks Hx. destruct (dataonly_fields _ _ x D) as (_ & _ & _ & _ & -> & _). by apply R3.
      * intros x ks Hx i c Hc. destruct (dataonly_fields _ _ c D) as (-> & _ & -> & -> & _). by apply (R4 x ks Hx).
      * intros x Hx. destruct (dataonly_fields _ _ x D) as (-> & _ & -> & -> & _). by apply R5.
    + done.
    + intros p c Hc. rewrite !Ht. by apply C.
    + intros x Hx. rewrite Ht. by apply D1.
    + intros t tr Htr. rewrite Ht. by apply E.
  - destruct (i_h _ _ H) as [A B C D1 E]. split.
    + intros x o. rewrite Hm. apply A.
    + intros x t rc lk. rewrite Hm. apply B.
    + intros i k x Hi. simpl. rewrite Ha. by eapply C.
    + exact D1.
    + intros t tr Htr. eapply lock_ok_ext; [exact (E t tr Htr)|done|]. intros k x. unfold node_holder. by rewrite Ht.
  - intros t Hta. destruct (i_held _ _ H t Hta) as [?|(i & k & x & A & B)]; [by left|right]. exists i, k, x. by rewrite Ht.
  - destruct (i_f _ _ H) as [A B C D1]. split; [|exact B|exact C|].
    + intros x. simpl. rewrite Ha. apply A.
    + intros x t. rewrite Ht. apply D1.
Qed.

Lemma dataonly_set_data h x d : dataonly h (set_data h x d).
Proof.
  intros y. unfold set_data. destruct (decide (y = x)) as [->|]; [rewrite lookup_alter|by rewrite lookup_alter_ne].
  by destruct (h !! x).
Qed.
Lemma dataonly_set_lend h x b : dataonly h (set_lend h x b).
Proof.
  intros y. unfold set_lend. destruct (decide (y = x)) as [->|]; [rewrite lookup_alter|by rewrite lookup_alter_ne].
  by destruct (h !! x).
Qed.
Lemma payload_set_data s x d y : payload (with_nodes s (set_data (s_nodes s) x d)) y =
  if decide (y = x) then (fun p => (d, p.2)) <$> payload s y else payload s y.
Proof.
  unfold payload, set_data. simpl. case_decide as E; [subst; rewrite lookup_alter|by rewrite lookup_alter_ne].
  by destruct (s_nodes s !! x).
Qed.
Lemma payload_set_lend s x b y : payload (with_nodes s (set_lend (s_nodes s) x b)) y =
  if decide (y = x) then (fun p => (p.1, b)) <$> payload s y else payload s y.
Proof.
  unfold payload, set_lend. simpl. case_decide as E; [subst; rewrite lookup_alter|by rewrite lookup_alter_ne].
  by destruct (s_nodes s !! x).
Qed.

(** ** Moves inside a tree *)
(** Nothing but the shape changed. *)
Record reshaped s s' (K' : forest) : Prop := {
  rs_inv : inv s' K';
  rs_hands : s_hands s' = s_hands s;
  rs_payload : forall y, payload s' y = payload s y;
  rs_tree : forall y, tree_of s' y = tree_of s y;
  rs_trees : s_trees s' = s_trees s;
}.

Lemma moved_exists K x dest : wf K -> (exists p, child_of K p x) -> is_Some (K !! dest_anchor dest) -> ~ below K x (dest_anchor dest) ->
  match dest with FirstChildOf _ | LastChildOf _ => True | PreviousSiblingOf y | NextSiblingOf y => exists p, child_of K p y end ->
  exists K', moved K x dest K'.
Proof.
  intros Hw (p & ks & Hp & Hx) Ha Hb Hd.
  assert (unlinked K x (<[p := without x ks]> K)) as Hu by (exists p, ks; done).
  destruct (unlinked_child K x _ Hw Hu) as (Hch & Hdom & _).
  set (K1 := <[p := without x ks]> K) in *.
  assert (forall y, y = dest_anchor dest -> y <> x) as Hyx. { intros y -> E. apply Hb. rewrite E. constructor. }
  destruct dest as [y|y|y|y]; simpl in *.
  - apply Hdom in Ha as [l Hl]. eexists. exists K1. split; [done|]. by econstructor.
  - apply Hdom in Ha as [l Hl]. eexists. exists K1. split; [done|]. by econstructor.
  - destruct Hd as [q Hq]. assert (child_of K1 q y) as (l & Hl & Hy). { apply Hch. split; [done|]. by apply Hyx. }
    eexists. exists K1. split; [done|]. by econstructor.
  - destruct Hd as [q Hq]. assert (child_of K1 q y) as (l & Hl & Hy). { apply Hch. split; [done|]. by apply Hyx. }
    eexists. exists K1. split; [done|]. by econstructor.
Qed.

Lemma moved_reshaped s K x dest K' h' : inv s K -> moved K x dest K' -> ~ below K x (dest_anchor dest) ->
  tree_of s (dest_anchor dest) = tree_of s x -> rep h' K' -> wf K' -> same_meta (s_nodes s) h' -> reshaped s (with_nodes s h') K'.
Proof.
  intros H Hm Hb Ht Hr Hw' M. pose proof (i_s _ _ H) as Hs. pose proof (s_wf _ _ Hs) as Hw.
  destruct Hm as (K1 & Hu & Ha).
  destruct (unlinked_child K x K1 Hw Hu) as (Hch1 & Hdom1 & q0 & Hq0).
  destruct (attached_child K1 x dest K' (proj1 (unlinked_wf K x K1 Hw Hu)) Ha) as (p & Hp & _ & Hch & Hdom).
  assert (tree_of s p = tree_of s x) as Htp.
  { rewrite <-Ht. destruct dest; simpl in *; subst; try done; apply Hch1 in Hp as [Hp _]; symmetry; by apply (s_child _ _ Hs). }
  split.
  - split.
    + apply sinv_pinv. eapply pinv_relink; [apply sinv_pinv; exact Hs|done|done|done|..].
      * intros q c Hc. apply Hch in Hc as [Hc|[-> ->]]; [|done]. apply Hch1 in Hc as [Hc _]. by apply (s_child _ _ Hs).
      * intros y [Hy1 Hy2]. right. split; [|by intros []]. split; [by apply Hdom1, Hdom|]. intros q Hq.
        destruct (decide (y = x)) as [->|Hne].
        -- apply (Hy2 p). apply Hch. by right.
        -- apply (Hy2 q). apply Hch. left. by apply Hch1.
      * intros u tr Hu1. destruct (s_root _ _ Hs _ _ Hu1) as [[A1 A2] _]. split; [by apply Hdom, Hdom1|].
        intros q Hq. apply Hch in Hq as [Hq|[-> Hq]]; [apply Hch1 in Hq as [Hq _]; by apply (A2 q)|]. apply (A2 q0). by rewrite Hq.
    + apply hinv_relink; [apply H|done].
    + intros u Hu1. rewrite held_relink by done. by apply H.
    + apply finv_relink; [apply H|done].
  - done.
  - intros y. by apply relink_payload.
  - intros y. by apply relink_tree_of.
  - done.
Qed.

Lemma move_same_ok s K x dest K' : inv s K -> moved K x dest K' -> ~ last_not_first K x -> ~ below K x (dest_anchor dest) ->
  tree_of s (dest_anchor dest) = tree_of s x ->
  exists h', move_inside_same_tree (s_nodes s) x dest = Ret (h', HOk tt) /\ reshaped s (with_nodes s h') K'.
Proof.
  intros H Hm Hl Hb Ht. pose proof (i_s _ _ H) as Hs. pose proof (s_wf _ _ Hs) as Hw.
  destruct (move_ok (s_nodes s) K x dest K' (s_rep _ _ Hs) Hw Hm Hl Hb) as (h' & E & Hr & Hw' & M).
  exists h'. split; [exact E|]. by eapply moved_reshaped.
Qed.

End SysFacts10.
