(** * ApiFacts: handle and data operations have the effect ApiSpec asks for. *)
From Verif Require Import Heap Edit System SysSpec CardFacts HeapFacts SpecFacts NavFacts NavFacts2 EditFacts EditFacts2 EditFacts3 EditFacts4 EditFacts5 IterSpec RoseFacts AdjFacts TravFacts TdFacts TdFacts2 SysFacts SysFacts2 SysFacts3 SysFacts4 SysFacts5 SysFacts6 SysFacts7 SysFacts8 SysFacts9 SysFacts10 SysFacts11 SysFacts12 SysFacts13 SysFacts14 SysFacts15 ApiSpec Spec.

Section ApiFacts.
Context {T : Type}.
Implicit Types (h : heap T) (s : sys T) (hm : gmap nat handle).

Lemma inv_stores s K : inv s K -> stores s K.
Proof. intros H. split; apply (i_s _ _ H). Qed.

(** The stored forest is unique. *)
Lemma linked_same h p (ks ks' : list nid) : linked h p ks -> linked h p ks' -> head ks = head ks' -> length ks = length ks' -> ks = ks'.
Proof.
  intros L L' Hh Hl. apply list_eq. intros i. induction i as [|i IH].
  - by destruct ks, ks'.
  - destruct (ks !! i) as [c|] eqn:E.
    + symmetry in IH. destruct (L _ _ E) as (_ & A & _). destruct (L' _ _ IH) as (_ & B & _). congruence.
    + symmetry in IH. apply lookup_ge_None in E. apply lookup_ge_None in IH. rewrite !lookup_ge_None_2 by lia. done.
Qed.
Lemma stores_unique s K K' : stores s K -> stores s K' -> K = K'.
Proof.
  intros [R W] [R' W']. apply map_eq. intros x. destruct (K !! x) as [ks|] eqn:E.
  - assert (is_Some (K' !! x)) as [ks' E'].
    { apply (rep_dom _ _ R'). apply (rep_dom _ _ R). eauto. }
    rewrite E'. f_equal. apply (linked_same (s_nodes s) x).
    + by apply (rep_linked _ _ R).
    + by apply (rep_linked _ _ R').
    + by rewrite <- (rep_first _ _ R _ _ E), <- (rep_first _ _ R' _ _ E').
    + by rewrite <- (rep_nch _ _ R _ _ E), <- (rep_nch _ _ R' _ _ E').
  - destruct (K' !! x) as [ks'|] eqn:E'; [|done]. exfalso.
    assert (is_Some (K !! x)) as [? ?]; [|congruence].
    apply (rep_dom _ _ R). apply (rep_dom _ _ R'). eauto.
Qed.

Lemma quiet_view s s' : quiet s s' -> same_view s s'.
Proof.
  intros Q. split.
  - intros K [R W]. split; [|exact W]. eapply rep_memonly; [exact R|]. apply Q.
  - apply Q.
  - intros x. by apply quiet_payload.
  - apply Q.
Qed.

Lemma gained_gives s s' K hd : inv s K -> gained s s' K hd -> gives s s' (s_fresh s) hd.
Proof.
  intros H (_ & Q & E & _). split; [by apply quiet_view|]. split; [|exact E]. by apply (hands_fresh s K).
Qed.
Lemma exchanged_exchanges s s' K i hd : inv s K -> exchanged s s' K i hd -> exchanges s s' i (s_fresh s) hd.
Proof.
  intros H (_ & Q & E & _). split; [by apply quiet_view|]. split; [|exact E]. by apply (hands_fresh s K).
Qed.

Lemma dropped_drops s s' K t i K' : inv s K -> inv s' K' -> s_hands s' = delete i (s_hands s) -> is_Some (s_trees s !! t) ->
  dropped s s' K t i K' -> drops s K i t s'.
Proof.
  intros H H' E [tr Ht] D. split; [exact E|]. destruct D as [(A & -> & Q)|(A & tr1 & L & Ht1 & HL & -> & Hn & Ho & Hd & Hk)].
  - left. rewrite E. split; [exact A|]. by apply quiet_view.
  - right. rewrite E. split; [exact A|]. assert (tr1 = tr) as -> by congruence.
    assert (forall y, is_Some (s_nodes s !! y) -> (y ∈ L <-> tree_of s y = Some t)) as HL'.
    { intros y Hy. rewrite HL, (sinv_below s K t tr y (i_s _ _ H) Ht). naive_solver. }
    assert (forall y, y ∈ L -> tree_of s y = Some t) as HL1.
    { intros y Hy. apply HL'; [|done]. apply HL in Hy. by apply (sinv_below s K t tr y (i_s _ _ H) Ht) in Hy as [? ?]. }
    split_and!.
    + exists (prune K L). split; [|by apply inv_stores]. intros y. rewrite prune_lookup. split.
      * intros Hy. rewrite decide_False; [done|]. intros Hin. by apply Hy, HL1.
      * intros Hy. destruct (decide (y ∈ L)) as [|Hny]; [done|]. destruct (K !! y) eqn:Ey; [|done]. exfalso.
        assert (is_Some (s_nodes s !! y)) as Hs by (apply (inv_alive s K y H); eauto).
        apply Hy. intros Et. by apply Hny, HL'.
    + intros y Hy. apply Hd. apply HL'; [|done]. unfold tree_of in Hy. destruct (n_memb s y) eqn:Em; [|done]. by eapply n_memb_alive.
    + intros y Hy. apply Hk. intros Hin. by apply Hy, HL1.
    + exact Hn.
    + exact Ho.
Qed.

Definition outcome s K (o : op T) : Prop :=
  exists s' r K', step s o = Ret (s', r) /\ inv s' K' /\ effect s K o s' r.

Lemma gained_inv s s' K hd : gained s s' K hd -> inv s' K.
Proof. intros H. apply H. Qed.
Lemma exchanged_inv s s' K i hd : exchanged s s' K i hd -> inv s' K.
Proof. intros H. apply H. Qed.

Lemma drop_step s K i hd : inv s K -> s_hands s !! i = Some hd -> outcome s K (OpDrop i).
Proof.
  intros H Hi. destruct hd as [k x|t|t|t|x|t].
  - destruct (handle_tree s K i k x H Hi) as (t & tr & Et & Ht & _).
    destruct (drop_node_ok s K i k x t H Hi Et) as (s' & K' & E & I' & Eh & _ & D).
    exists s', OutUnit, K'. split; [by simpl; rewrite Hi, E|]. split; [exact I'|]. left. exists (HNode k x).
    split; [exact Hi|]. split; [done|]. exists t. split; [exact Et|]. eapply dropped_drops; eauto.
  - destruct (drop_tree_hand_ok s K i t H Hi) as (s' & K' & E & I' & Eh & _ & D).
    exists s', OutUnit, K'. split; [exact E|]. split; [exact I'|]. left. exists (HTree t).
    split; [exact Hi|]. split; [done|]. eapply dropped_drops; eauto. exact (h_tree _ _ (i_h _ _ H) _ _ Hi).
  - destruct (drop_light s K i _ H Hi) as (s' & E & I' & Q & Eh & _); [done..|].
    exists s', OutUnit, K. split; [exact E|]. split; [exact I'|]. left. eexists.
    split; [exact Hi|]. split; [done|]. split; [by apply quiet_view|exact Eh].
  - destruct (drop_light s K i _ H Hi) as (s' & E & I' & Q & Eh & _); [done..|].
    exists s', OutUnit, K. split; [exact E|]. split; [exact I'|]. left. eexists.
    split; [exact Hi|]. split; [done|]. split; [by apply quiet_view|exact Eh].
  - destruct (drop_light s K i _ H Hi) as (s' & E & I' & Q & Eh & _); [done..|].
    exists s', OutUnit, K. split; [exact E|]. split; [exact I'|]. left. eexists.
    split; [exact Hi|]. split; [done|]. split; [by apply quiet_view|exact Eh].
  - destruct (drop_light s K i _ H Hi) as (s' & E & I' & Q & Eh & _); [done..|].
    exists s', OutUnit, K. split; [exact E|]. split; [exact I'|]. left. eexists.
    split; [exact Hi|]. split; [done|]. split; [by apply quiet_view|exact Eh].
Qed.

Lemma clone_step s K i hd : inv s K -> s_hands s !! i = Some hd -> outcome s K (OpClone i).
Proof.
  intros H Hi. destruct (step_clone s K i hd H Hi) as (s' & E & G).
  exists s', (OutHandle (s_fresh s)), K. split; [exact E|]. split; [by apply gained_inv in G|]. left.
  exists hd, (s_fresh s). split; [exact Hi|]. split; [done|]. by apply (gained_gives s s' K).
Qed.

Lemma nav_step s K v i k x : inv s K -> s_hands s !! i = Some (HNode k x) -> outcome s K (OpNav v i).
Proof.
  intros H Hi. destruct (step_nav s K v i k x H Hi) as ([y|] & N & S).
  - destruct S as (s' & E & G). exists s', (OutHandle (s_fresh s)), K. split; [exact E|]. split; [by apply gained_inv in G|].
    left. exists k, x, (Some y). split; [exact Hi|]. split; [exact N|]. exists (s_fresh s). split; [done|]. by apply (gained_gives s s' K).
  - exists s, OutNone, K. split; [exact S|]. split; [exact H|]. left. exists k, x, None. split; [exact Hi|]. split; [exact N|]. done.
Qed.

Lemma tree_step s K i k x : inv s K -> s_hands s !! i = Some (HNode k x) -> outcome s K (OpTree i).
Proof.
  intros H Hi. destruct (step_tree s K i k x H Hi) as (s' & t & Et & E & G).
  exists s', (OutHandle (s_fresh s)), K. split; [exact E|]. split; [by apply gained_inv in G|]. left.
  exists k, x, t, (s_fresh s). split; [exact Hi|]. split; [exact Et|]. split; [done|]. by apply (gained_gives s s' K).
Qed.

Lemma root_step s K i t : inv s K -> s_hands s !! i = Some (HTree t) -> outcome s K (OpRoot i).
Proof.
  intros H Hi. destruct (step_root s K i t H Hi) as (s' & tr & Et & Etop & E & G).
  exists s', (OutHandle (s_fresh s)), K. split; [exact E|]. split; [by apply gained_inv in G|]. left.
  exists t, (t_root tr), (s_fresh s). split; [exact Hi|]. split; [exact Etop|].
  split; [exact (proj2 (s_root _ _ (i_s _ _ H) _ _ Et))|]. split; [done|]. by apply (gained_gives s s' K).
Qed.

Lemma opp_opposite k : opp k = opposite k.
Proof. by destruct k. Qed.

Lemma lock_step s K k i t : inv s K -> s_hands s !! i = Some (HTree t) -> k <> Plain -> outcome s K (OpLock k i).
Proof.
  intros H Hi Hk. destruct (step_lock s K k i t H Hi Hk) as [(Hh & s' & E & G)|(n & Hh & E)].
  - exists s', (OutHandle (s_fresh s)), K. split; [exact E|]. split; [by apply gained_inv in G|]. left.
    exists t. split; [exact Hi|]. split; [exact Hk|]. left. unfold lockable. rewrite <- opp_opposite. split; [exact Hh|].
    exists (s_fresh s). split; [done|]. by apply (gained_gives s s' K).
  - exists s, OutLockErr, K. split; [exact E|]. split; [exact H|]. left. exists t. split; [exact Hi|]. split; [exact Hk|].
    right. split; [|done]. exists n. rewrite <- opp_opposite. exact Hh.
Qed.

Lemma bundle_step s K k i x : inv s K -> s_hands s !! i = Some (HNode Plain x) -> k <> Plain -> outcome s K (OpBundle k i).
Proof.
  intros H Hi Hk. destruct (handle_tree s K i Plain x H Hi) as (t & tr & Et & Ht & _).
  destruct (step_bundle s K k i x t H Hi Hk Et) as [(Hh & s' & E & G)|(n & Hh & s' & K' & E & I' & Eh & _ & D)].
  - exists s', (OutHandle (s_fresh s)), K. split; [exact E|]. split; [by apply exchanged_inv in G|]. left.
    exists x, t. split; [exact Hi|]. split; [exact Hk|]. split; [exact Et|]. left. unfold lockable. rewrite <- opp_opposite.
    split; [exact Hh|]. exists (s_fresh s). split; [done|]. by apply (exchanged_exchanges s s' K).
  - exists s', OutLockErr, K'. split; [exact E|]. split; [exact I'|]. left. exists x, t. split; [exact Hi|]. split; [exact Hk|].
    split; [exact Et|]. right. split; [exists n; rewrite <- opp_opposite; exact Hh|]. split; [done|]. eapply dropped_drops; eauto.
Qed.

Lemma bundle_with_step s K k i j x t : inv s K -> s_hands s !! i = Some (HNode Plain x) -> k <> Plain ->
  s_hands s !! j = Some (token k t) ->
  (tree_of s x <> Some t /\ step s (OpBundleWith i j) = Panic) \/ (tree_of s x = Some t /\ outcome s K (OpBundleWith i j)).
Proof.
  intros H Hi Hk Hj. destruct (handle_tree s K i Plain x H Hi) as (t1 & tr & Et & Ht & _).
  destruct (decide (t1 = t)) as [e|Hne].
  - right. rewrite e in *. split; [exact Et|]. destruct (step_bundle_with s K k i j x t H Hi Hk Hj Et) as (s' & E & G).
    exists s', (OutHandle (s_fresh s)), K. split; [exact E|]. split; [by apply exchanged_inv in G|]. left.
    exists k, x, t, (s_fresh s). split; [exact Hi|]. split; [exact Hk|]. split; [exact Et|]. split; [exact Hj|]. split; [done|].
    by apply (exchanged_exchanges s s' K).
  - left. split; [congruence|]. by apply (step_bundle_with_bad s K k i j x t1 t).
Qed.

Lemma plain_step s K k i x : inv s K -> s_hands s !! i = Some (HNode k x) -> k <> Plain -> outcome s K (OpPlain i).
Proof.
  intros H Hi Hk. destruct (step_plain s K i k x H Hi Hk) as (s' & E & G).
  exists s', (OutHandle (s_fresh s)), K. split; [exact E|]. split; [by apply gained_inv in G|]. left.
  exists k, x, (s_fresh s). split; [exact Hi|]. split; [exact Hk|]. split; [done|]. by apply (gained_gives s s' K).
Qed.

Lemma extract_step s K k i x : inv s K -> s_hands s !! i = Some (HNode k x) -> k <> Plain -> outcome s K (OpExtract i).
Proof.
  intros H Hi Hk. destruct (handle_tree s K i k x H Hi) as (t & tr & Et & Ht & _).
  destruct (step_extract s K i k x t H Hi Hk Et) as (s' & E & G).
  exists s', (OutHandle (s_fresh s)), K. split; [exact E|]. split; [by apply gained_inv in G|]. left.
  exists k, x, t, (s_fresh s). split; [exact Hi|]. split; [exact Hk|]. split; [exact Et|]. split; [done|]. by apply (gained_gives s s' K).
Qed.

Lemma downgrade_step s K i : inv s K -> well_typed s (OpDowngrade i) -> outcome s K (OpDowngrade i).
Proof.
  intros H [[x Hi]|[t Hi]].
  - destruct (proj1 (step_downgrade s K i H) x Hi) as (s' & E & G).
    exists s', (OutHandle (s_fresh s)), K. split; [exact E|]. split; [by apply gained_inv in G|]. left.
    exists (s_fresh s). split; [done|]. left. exists x. split; [exact Hi|]. by apply (gained_gives s s' K).
  - destruct (proj2 (step_downgrade s K i H) t Hi) as (s' & E & G).
    exists s', (OutHandle (s_fresh s)), K. split; [exact E|]. split; [by apply gained_inv in G|]. left.
    exists (s_fresh s). split; [done|]. right. exists t. split; [exact Hi|]. by apply (gained_gives s s' K).
Qed.

(** A tree core exists exactly while somebody holds it. *)
Lemma tree_alive_held s K t : inv s K -> (is_Some (s_trees s !! t) <-> tree_held s (s_hands s) t).
Proof.
  intros H. split; [apply (i_held _ _ H)|]. intros [[i Hi]|(i & k & x & Hi & Et)].
  - exact (h_tree _ _ (i_h _ _ H) _ _ Hi).
  - destruct (handle_tree s K i k x H Hi) as (t1 & tr & Et1 & Ht & _). assert (t1 = t) as <- by congruence. eauto.
Qed.

Lemma upgrade_step s K i : inv s K -> well_typed s (OpUpgrade i) -> outcome s K (OpUpgrade i).
Proof.
  intros H [[x Hi]|[t Hi]].
  - pose proof (proj1 (step_upgrade s K i H) x Hi) as S. unfold alive in S. case_bool_decide as Ha.
    + destruct S as (s' & E & G). exists s', (OutHandle (s_fresh s)), K. split; [exact E|]. split; [by apply gained_inv in G|]. left.
      left. exists x. split; [exact Hi|]. left. split; [by apply (inv_alive s K x H)|].
      exists (s_fresh s). split; [done|]. by apply (gained_gives s s' K).
    + exists s, OutNone, K. split; [exact S|]. split; [exact H|]. left. left. exists x. split; [exact Hi|]. right.
      split; [|done]. destruct (K !! x) eqn:E; [|done]. exfalso. apply Ha, (inv_alive s K x H). eauto.
  - pose proof (proj2 (step_upgrade s K i H) t Hi) as S. unfold tree_alive in S. case_bool_decide as Ha.
    + destruct S as (s' & E & G). exists s', (OutHandle (s_fresh s)), K. split; [exact E|]. split; [by apply gained_inv in G|]. left.
      right. exists t. split; [exact Hi|]. left. split; [by apply (tree_alive_held s K)|].
      exists (s_fresh s). split; [done|]. by apply (gained_gives s s' K).
    + exists s, OutNone, K. split; [exact S|]. split; [exact H|]. left. right. exists t. split; [exact Hi|]. right.
      split; [|done]. intros Hh. by apply Ha, (tree_alive_held s K).
Qed.

(** ** Data *)
Lemma dataonly_view s h' : dataonly (s_nodes s) h' ->
  (forall K, stores s K -> stores (with_nodes s h') K) /\ forall y, tree_of (with_nodes s h') y = tree_of s y.
Proof.
  intros D. split.
  - intros K [[A B C E F] W]. split; [|exact W].
    assert (forall x, is_Some (h' !! x) <-> is_Some (s_nodes s !! x)) as Hd by (intros x; apply (dataonly_fields _ _ x D)).
    split; simpl.
    + intros x. by rewrite Hd.
    + intros x ks Hx. destruct (dataonly_fields _ _ x D) as (_ & -> & _). by apply B.
    + intros x ks Hx. destruct (dataonly_fields _ _ x D) as (_ & _ & _ & _ & -> & _). by apply C.
    + intros x ks Hx i c Hc. destruct (dataonly_fields _ _ c D) as (-> & _ & -> & -> & _). by apply (E x ks).
    + intros x Hx. destruct (dataonly_fields _ _ x D) as (-> & _ & -> & -> & _). by apply F.
  - intros y. unfold tree_of, n_memb. simpl. by destruct (dataonly_fields _ _ y D) as (_ & _ & _ & _ & _ & _ & ->).
Qed.

Lemma lend_some b l l' : lend b l = Some l' -> lends b l l'.
Proof. destruct b, l as [[|n]|]; cbn; intros [= <-]; eauto. Qed.
Lemma lend_none b l : lend b l = None -> forall l', ~ lends b l l'.
Proof. destruct b, l as [[|n]|]; cbn; intros E l'; try discriminate E; naive_solver. Qed.

Lemma data_step s K o : inv s K -> match o with OpGet _ | OpSet _ _ | OpBorrow _ _ => True | _ => False end -> well_typed s o -> outcome s K o.
Proof.
  intros H Ho Hw. assert (exists i k x, s_hands s !! i = Some (HNode k x) /\ match o with OpGet j | OpSet j _ | OpBorrow j _ => j = i | _ => False end)
    as (i & k & x & Hi & Hj).
  { destruct o; try done; destruct Hw as (k & x & Hi); eauto 10. }
  destruct (handle_alive s K i k x H Hi) as [nd Hn].
  destruct o as [| | | | | | | | | | | | | | | | | | |j|j d|j b]; try done; rewrite Hj in *; clear Hj.
  - exists s, (if n_mut nd then OutBorrowErr else OutData (n_data nd)), K. simpl. rewrite Hi, Hn. split; [done|]. split; [exact H|].
    right. left. exists k, x, (n_data nd), (n_lend nd). split; [exact Hi|]. split; [unfold payload; by rewrite Hn|]. split; [done|].
    unfold n_mut. destruct (n_lend nd); [right|left]; done.
  - destruct (n_free nd) eqn:Em.
    + eexists _, OutUnit, K. simpl. rewrite Hi, Hn, Em. split; [done|]. split; [apply (data_inv _ _ _ H), dataonly_set_data|].
      right. left. exists k, x, (n_data nd), (n_lend nd). split; [exact Hi|]. split; [unfold payload; by rewrite Hn|].
      destruct (dataonly_view s _ (dataonly_set_data (s_nodes s) x d)) as [A B]. right.
      split; [unfold n_free in Em; by destruct (n_lend nd) as [[|n]|]|]. split; [done|].
      split; [done|]. split; [done|]. split; [exact A|]. split; [exact B|]. split.
      * rewrite payload_set_data, decide_True by done. unfold payload. by rewrite Hn.
      * intros y Hy. by rewrite payload_set_data, decide_False.
    + exists s, OutBorrowErr, K. simpl. rewrite Hi, Hn, Em. split; [done|]. split; [exact H|].
      right. left. exists k, x, (n_data nd), (n_lend nd). split; [exact Hi|]. split; [unfold payload; by rewrite Hn|]. left.
      split; [|done]. unfold n_free in Em. by destruct (n_lend nd) as [[|n]|].
  - destruct (lend b (n_lend nd)) as [l|] eqn:Em.
    + eexists _, OutUnit, K. simpl. rewrite Hi, Hn, Em. split; [done|]. split; [apply (data_inv _ _ _ H), dataonly_set_lend|].
      right. left. exists k, x, (n_data nd), (n_lend nd). split; [exact Hi|]. split; [unfold payload; by rewrite Hn|].
      destruct (dataonly_view s _ (dataonly_set_lend (s_nodes s) x l)) as [A B]. right. exists l.
      split; [by apply lend_some|]. split; [done|].
      split; [done|]. split; [done|]. split; [exact A|]. split; [exact B|]. split.
      * rewrite payload_set_lend, decide_True by done. unfold payload. by rewrite Hn.
      * intros y Hy. by rewrite payload_set_lend, decide_False.
    + exists s, OutBorrowErr, K. simpl. rewrite Hi, Hn, Em. split; [done|]. split; [exact H|].
      right. left. exists k, x, (n_data nd), (n_lend nd). split; [exact Hi|]. split; [unfold payload; by rewrite Hn|]. left.
      split; [|done]. by apply lend_none.
Qed.

End ApiFacts.
