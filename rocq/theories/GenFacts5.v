(** * GenFacts5: handles, reference counts and locks agree whatever the links are:
    every call. *)
From Verif Require Import Heap Edit Traverse System SysSpec CardFacts HeapFacts SysFacts SysFacts2 SysFacts3 SysFacts4 SysFacts6 SysFacts7 SysFacts9 SysFacts11 SysFacts14 ApiSpec GenSpec GenFacts GenFacts2 GenFacts3 GenFacts4 Spec.

Section GenFacts5.
Context {T : Type}.
Implicit Types (h : heap T) (s : sys T) (hm : gmap nat handle) (P : tid -> Prop) (o : op T).
Notation swept := GenFacts.swept.
Tactic Notation "sb" hyp(E) ident(a) ident(E1) := cbv beta zeta delta [mbind run_bind] in E;
  match type of E with match ?m with _ => _ end = _ => destruct m as [a| |] eqn:E1; cbv beta iota zeta delta [mbind run_bind] in E; [|discriminate E|discriminate E] end.

Lemma meta_good s h' P : good s P -> same_meta (s_nodes s) h' -> good (with_nodes s h') P.
Proof. intros H M. exact (swept_good _ _ _ H (same_meta_swept _ _ M)). Qed.
Lemma meta_evolves s h' : same_meta (s_nodes s) h' -> evolves s (with_nodes s h').
Proof. intros M. exact (swept_evolves _ _ (same_meta_swept _ _ M)). Qed.

(** ** Creation *)
Definition creates s s' i : Prop := ok s' /\ evolves s s' /\ s_hands s !! i = None /\ exists hd, s_hands s' = <[i := hd]> (s_hands s).
Definition keeps s s' : Prop := ok s' /\ evolves s s' /\ s_hands s' = s_hands s.

Lemma made_upgrade s s1 s2 s3 n i t k : made s s1 n i t -> swept s1 s2 -> upgrade_new s2 i n k = Ret s3 -> creates s s3 i.
Proof.
  intros M W E. assert (s_hands s2 !! i = Some (HNode Plain n)) as Hi. { rewrite (sw_hands _ _ W), (m_hands _ _ _ _ _ M). by rewrite lookup_insert. }
  destruct (upgrade_new_good s2 i n k s3 (swept_good _ _ _ (m_ok _ _ _ _ _ M) W) Hi E) as (A & B & C).
  split; [exact A|]. split; [eapply evolves_trans; [exact (m_ev _ _ _ _ _ M)|]; eapply evolves_trans; [exact (swept_evolves _ _ W)|exact B]|].
  split; [exact (m_i _ _ _ _ _ M)|]. exists (HNode k n). rewrite C, (sw_hands _ _ W), (m_hands _ _ _ _ _ M). by rewrite insert_insert.
Qed.
Lemma create_node_good s k x d ad s' r : ok s -> create_node_as s k x d ad = Ret (s', r) ->
  match r with HOk i => creates s s' i | HErr _ => keeps s s' end.
Proof.
  intros H E. unfold create_node_as in E. sb E t E1. destruct (tree_core_alive _ _ _ (g_h _ _ H) E1) as [_ Ha].
  sb E p E2. destruct p as [[s1 n] i]. pose proof (new_orphan_good _ _ _ _ _ _ H Ha E2) as M.
  sb E p E3. destruct p as [h' r1]. pose proof (same_meta_swept _ _ (insert_meta _ _ _ _ _ _ E3)) as W. destruct r1 as [[]|e].
  - sb E s3 E4. injection E as <- <-. by eapply made_upgrade.
  - sb E s3 E4. injection E as <- <-. assert (s_hands (with_nodes s1 h') !! i = Some (HNode Plain n)) as Hi. { simpl. rewrite (m_hands _ _ _ _ _ M). by rewrite lookup_insert. }
    destruct (drop_node_good (with_nodes s1 h') i Plain n s3 (swept_good _ _ _ (m_ok _ _ _ _ _ M) W) Hi E4) as (A & B & C & D).
    split; [exact A|]. split; [eapply evolves_trans; [exact (m_ev _ _ _ _ _ M)|]; eapply evolves_trans; [exact (swept_evolves _ _ W)|exact B]|].
    rewrite C. simpl. rewrite (m_hands _ _ _ _ _ M). apply delete_insert. exact (m_i _ _ _ _ _ M).
Qed.
Lemma interrupting_parent_good s k x d s' i : ok s -> create_interrupting_parent s k x d = Ret (s', i) -> creates s s' i.
Proof.
  intros H E. unfold create_interrupting_parent in E. sb E t E1. destruct (tree_core_alive _ _ _ (g_h _ _ H) E1) as [_ Ha].
  sb E p E2. destruct p as [[s1 n] j]. pose proof (new_orphan_good _ _ _ _ _ _ H Ha E2) as M.
  sb E p E3. destruct p as [h' b]. pose proof (same_meta_swept _ _ (iparent_meta _ _ _ _ _ E3)) as W. sb E s4 E4. injection E as <- <-.
  assert (swept s1 (if b then put_root (with_nodes s1 h') t n else with_nodes s1 h')) as W2. { destruct b; [|exact W]. eapply swept_trans; [exact W|apply put_root_swept]. }
  by eapply made_upgrade.
Qed.
Lemma interrupting_child_good s k x d s' i : ok s -> create_interrupting_child s k x d = Ret (s', i) -> creates s s' i.
Proof.
  intros H E. unfold create_interrupting_child in E. sb E t E1. destruct (tree_core_alive _ _ _ (g_h _ _ H) E1) as [_ Ha].
  sb E p E2. destruct p as [[s1 n] j]. pose proof (new_orphan_good _ _ _ _ _ _ H Ha E2) as M.
  sb E h' E3. pose proof (same_meta_swept _ _ (ichild_meta _ _ _ _ E3)) as W. sb E s4 E4. injection E as <- <-. by eapply made_upgrade.
Qed.

(** ** Moving and detaching *)
Lemma ok_nil s : good s (fun u => u ∈ @nil tid) <-> ok s.
Proof. split; intros H; (eapply good_mono; [exact H|]); intros u Hu; [by apply elem_of_nil in Hu|done]. Qed.
Lemma hand_lt s i k (x : nid) : ok s -> s_hands s !! i = Some (HNode k x) -> x < s_fresh s.
Proof. intros H Hi. by apply (good_hand_lt _ _ _ _ H) in Hi as [_ ?]. Qed.
Lemma detach_good s i k x s' : ok s -> s_hands s !! i = Some (HNode k x) -> detach_subtree s x = Ret s' -> keeps s s'.
Proof.
  intros H Hi E. unfold detach_subtree in E. destruct (is_root (s_nodes s) x); [injection E as <-; split; [done|split; [apply evolves_refl|done]]|].
  sb E p E1. destruct p as [h' b]. pose proof (unlink_meta _ _ _ _ E1) as M.
  destruct (create_new_tree_good (with_nodes s h') [] x s') as (A & B & C).
  - apply ok_nil. by apply meta_good.
  - exact (hand_lt _ _ _ _ H Hi).
  - exists i, k. exact Hi.
  - exact E.
  - split; [by apply ok_nil|]. split; [|exact C]. eapply evolves_trans; [exact (meta_evolves _ _ M)|exact B].
Qed.
Lemma replace_good s i k x s' r : ok s -> s_hands s !! i = Some (HNode k x) -> replace_node s x = Ret (s', r) -> keeps s s'.
Proof.
  intros H Hi E. unfold replace_node in E. sb E t E1. sb E p E2. destruct p as [h' r1]. pose proof (replace_meta _ _ _ _ E2) as M. destruct r1 as [o1|e].
  2:{ injection E as <- <-. split; [by apply meta_good|]. split; [by apply meta_evolves|done]. }
  set (s2 := match o1 with Some c => put_root (with_nodes s h') t c | None => with_nodes s h' end) in *.
  assert (swept s s2) as W2. { unfold s2. destruct o1; [eapply swept_trans; [by apply same_meta_swept|apply put_root_swept]|by apply same_meta_swept]. }
  sb E s3 E3. sb E s4 E4. injection E as <- <-. destruct (create_new_tree_good s2 [t] x s3) as (A & B & C).
  - eapply good_mono; [exact (swept_good _ _ _ H W2)|done].
  - rewrite (sw_fresh _ _ W2). exact (hand_lt _ _ _ _ H Hi).
  - exists i, k. by rewrite (sw_hands _ _ W2).
  - exact E3.
  - destruct (drop_tree_kept [] [] s3 t s4 (fun _ => False)) as [W4 K4]; [exact (g_h _ _ A)|intros u Hu; by apply elem_of_nil in Hu| |exact E4|].
    { intros u Hu. destruct (g_k _ _ A u Hu) as [D|D]; [by left|]. right. left. by apply elem_of_list_singleton in D. }
    split; [split; [exact (swept_hinv _ _ (g_h _ _ A) W4)|exact (swept_finv _ _ (g_f _ _ A) W4)|exact K4]|].
    split; [eapply evolves_trans; [exact (swept_evolves _ _ W2)|]; eapply evolves_trans; [exact B|exact (swept_evolves _ _ W4)]|].
    by rewrite (sw_hands _ _ W4), C, (sw_hands _ _ W2).
Qed.
Lemma move_good s i k x ad j k2 y s' r : ok s -> s_hands s !! i = Some (HNode k x) -> s_hands s !! j = Some (HNode k2 y) -> move_subtree s x ad y = Ret (s', r) -> keeps s s'.
Proof.
  intros H Hi Hj E. unfold move_subtree in E. sb E t E1. sb E t' E2. destruct (decide (t = t')) as [<-|Hne].
  - sb E p E3. destruct p as [h' r1]. injection E as <- <-. pose proof (move_meta _ _ _ _ _ E3) as M. split; [by apply meta_good|]. split; [by apply meta_evolves|done].
  - unfold move_to_another_tree in E. sb E p E3. destruct p as [h' b]. pose proof (unlink_meta _ _ _ _ E3) as M. sb E r2 E4. destruct r2 as [s2|]; [|discriminate].
    sb E p E5. destruct p as [h3 r3]. injection E as <- <-.
    assert (tree_of s y = Some t') as Hy. { unfold link_tree_core in E2. unfold tree_of. destruct (n_memb s y) as [[|]|]; try discriminate. by injection E2 as ->. }
    assert (is_Some (s_trees s !! t')) as Ha. { destruct (hinv_handle_strong _ _ _ _ _ (g_h _ _ H) Hj) as (u & _ & _ & _ & A & _ & _ & B). congruence. }
    destruct (set_subtree_tree_good (with_nodes s h') [] x t' s2) as (A & B & C).
    + eapply good_mono; [by apply meta_good|done].
    + exact Ha.
    + exists i, k. exact Hi.
    + exact E4.
    + apply ok_nil in A. pose proof (insert_meta _ _ _ _ _ _ E5) as M2. split; [by apply meta_good|]. split; [|exact (st_hands _ _ _ B)].
      eapply evolves_trans; [exact (meta_evolves _ _ M)|]. eapply evolves_trans; [exact (st_ev _ _ _ B)|exact (meta_evolves _ _ M2)].
Qed.

(** ** Data *)
Lemma data_good s h' : ok s -> (forall x, n_mem <$> h' !! x = n_mem <$> s_nodes s !! x) -> ok (with_nodes s h').
Proof.
  intros H E. assert (forall x, n_memb (with_nodes s h') x = n_memb s x) as Hm by exact E.
  assert (forall x, tree_of (with_nodes s h') x = tree_of s x) as Ht by (intros x; unfold tree_of; by rewrite Hm).
  assert (forall x, is_Some (h' !! x) <-> is_Some (s_nodes s !! x)) as Ha. { intros x. specialize (E x). destruct (h' !! x), (s_nodes s !! x); try done; split; eauto. }
  destruct H as [[A1 A2 A3 A4 A5] [B1 B2 B3 B4] C]. split; [split|split|].
  - intros x o. rewrite Hm. apply A1.
  - intros x t rc lk. rewrite Hm. apply A2.
  - intros i k x Hi. apply Ha. by eapply A3.
  - exact A4.
  - intros t tr Htr. eapply lock_ok_ext; [exact (A5 t tr Htr)|done|]. intros k x. unfold node_holder. by rewrite Ht.
  - intros x Hx. by apply B1, Ha.
  - exact B2.
  - exact B3.
  - intros x t. rewrite Ht. apply B4.
  - intros u Hu. unfold tree_held. setoid_rewrite Ht. by apply C.
Qed.

(** ** Every call *)
Definition fine s o s' r : Prop := ok s' /\ (~ writes_data o -> evolves s s') /\ hands_after s o s' r.
Lemma fine_same s o r : ok s -> (forall j, r <> OutHandle j) -> (forall i, o = OpDrop i -> r <> OutUnit) -> (forall k i, o = OpBundle k i -> r <> OutLockErr) -> fine s o s r.
Proof.
  intros H Hr Hd Hb. split; [exact H|]. split; [intros _; apply evolves_refl|]. destruct o, r; simpl; try reflexivity; exfalso;
    first [by eapply Hr|by eapply Hd|by eapply Hb].
Qed.
Lemma fine_ill s o s' r : ok s -> Ret (s, OutIll) = Ret (s', r) -> fine s o s' r.
Proof. intros H [= <- <-]. by apply fine_same. Qed.
Definition adding o : Prop := match o with OpDrop _ | OpBundle _ _ | OpBundleWith _ _ => False | _ => True end.
Lemma fine_creates s o s' i : adding o -> creates s s' i -> fine s o s' (OutHandle i).
Proof. intros Ho (A & B & C & D). split; [exact A|]. split; [done|]. by destruct o. Qed.
Lemma fine_new s o k x s' r : ok s -> adding o -> (r0 ← new_node_hand s k x; ret_hand r0) = Ret (s', r) -> fine s o s' r.
Proof.
  intros H Ho E. sb E p E1. destruct p as [s1 i]. injection E as <- <-. destruct (new_node_hand_good _ _ _ _ _ _ H E1) as (A & B & -> & C & D).
  apply fine_creates; [done|]. split; [exact A|]. split; [exact B|]. split; [exact (good_fresh _ _ H)|eauto].
Qed.
Lemma fine_inert s o hd s' r : ok s -> adding o -> counted hd = false -> (forall t, hd = HTree t -> is_Some (s_trees s !! t)) -> hand_target hd < s_fresh s ->
  Ret (add_hand s hd, OutHandle (s_fresh s)) = Ret (s', r) -> fine s o s' r.
Proof.
  intros H Ho A B C [= <- <-]. destruct (add_inert_good s hd _ H A B C) as (D1 & D2 & D3 & _). apply fine_creates; [done|]. split; [exact D1|]. split; [exact D2|].
  split; [exact (good_fresh _ _ H)|eauto].
Qed.
Lemma fine_lock s o k t s' r : ok s -> adding o -> (forall i, o <> OpDrop i) -> k <> Plain -> is_Some (s_trees s !! t) ->
  match lock_tree s k t with None => Ret (s, OutLockErr) | Some s1 => Ret (add_hand s1 (token k t), OutHandle (s_fresh s1)) end = Ret (s', r) -> fine s o s' r.
Proof.
  intros H Ho Hd Hk Ha E. destruct (lock_tree_ok s (s_hands s) (s_fresh s) k t (g_h _ _ H) (good_fresh _ _ H) Hk Ha) as [(_ & s1 & E1 & Hh & F)|(n & _ & E1)]; rewrite E1 in E; injection E as <- <-.
  - rewrite (fr_fresh _ _ F). destruct (add_hand_good s s1 (token k t) _ H F Hh) as (D1 & D2 & D3 & _). { apply (f_trees _ (g_f _ _ H)) in Ha. by destruct k. }
    apply fine_creates; [done|]. split; [exact D1|]. split; [exact D2|]. split; [exact (good_fresh _ _ H)|eauto].
  - apply fine_same; [done|done|done|]. intros k0 i0 ->. done.
Qed.
Lemma fine_clone_token s i k t s' r : ok s -> k <> Plain -> s_hands s !! i = Some (token k t) -> clone_token s k t (token k t) = Ret (s', r) -> fine s (OpClone i) s' r.
Proof.
  intros H Hk Hi E. unfold clone_token, tree_alive in E. case_bool_decide as Ha; [by eapply fine_lock|]. injection E as <- <-.
  assert (s_trees s !! t = None) as En by (destruct (s_trees s !! t); [exfalso; eauto|done]). pose proof (good_fresh _ _ H) as Hfr.
  destruct (add_hand_good s s (token k t) _ H (framed_refl s)) as (D1 & D2 & D3 & _).
  - eapply hinv_inert; [apply H|]. intros j hd Hc. rewrite insert_hand_iff by done. split; [|by right]. intros [[_ ->]|?]; [|done]. exfalso. apply Hc. by destruct k.
  - apply (good_hand_lt _ _ _ _ H) in Hi as [_ Hi]. exact Hi.
  - apply fine_creates; [done|]. split; [exact D1|]. split; [exact D2|]. split; [done|eauto].
Qed.
Lemma fine_drop s i s' : ok s' /\ evolves s s' /\ s_hands s' = delete i (s_hands s) -> fine s (OpDrop i) s' OutUnit.
Proof. intros (A & B & C). split; [exact A|]. by split. Qed.
Lemma fine_keeps s o s' r : keeps s s' -> (forall j, r <> OutHandle j) -> adding o -> fine s o s' r.
Proof. intros (A & B & C) Hr Ho. split; [exact A|]. split; [done|]. by destruct o, r; try (by destruct Ho); simpl; try (by edestruct Hr). Qed.
Lemma fine_exchange s i k x s1 o : ok s -> k <> Plain -> s_hands s !! i = Some (HNode Plain x) -> acquire s k x = Ret (Some s1) -> o = OpBundle k i \/ (exists j, o = OpBundleWith i j) ->
  fine s o (add_hand (del_hand s1 i) (HNode k x)) (OutHandle (s_fresh s1)).
Proof.
  intros H Hk Hi E Ho. destruct (hinv_handle_strong _ _ _ _ _ (g_h _ _ H) Hi) as (t & rc & lk & Hm & _ & _ & _ & Ht).
  destruct (acquire_ok s (s_hands s) i k x t (g_h _ _ H) Hi Hk Ht) as [(_ & s2 & E2 & Hh2 & F2)|(m & _ & E2)]; [|congruence]. assert (s2 = s1) as -> by congruence.
  destruct (exchange_good s i k x t s1 H Hi Ht Hh2 F2) as (A & B & C). rewrite (fr_fresh _ _ F2). split; [exact A|]. split; [done|].
  destruct Ho as [->|[j ->]]; (split; [exact (good_fresh _ _ H)|by eexists]).
Qed.

Lemma with_auth_cases s a f s' r : with_auth s a f = Ret (s', r) -> (s' = s /\ r = OutIll) \/ exists i k x, s_hands s !! i = Some (HNode k x) /\ f k x = Ret (s', r).
Proof.
  unfold with_auth. destruct a as [i|i g].
  - destruct (s_hands s !! i) as [[[] x| | | | |]|] eqn:Hi; try (intros [= <- <-]; by left). intros E. right. eauto.
  - destruct (s_hands s !! i) as [[[] x| | | | |]|] eqn:Hi; try (intros [= <- <-]; by left).
    destruct (s_hands s !! g) as [[]|]; try (intros [= <- <-]; by left). intros E. sb E t0 E1. case_decide; [|discriminate]. right. eauto.
Qed.

Theorem step_fine s o s' r : ok s -> step s o = Ret (s', r) -> fine s o s' r.
Proof.
  intros H E. destruct o as [d|i|i|v i|i|i|k i|k i|i j|i|i|i|i|a d ad|a d|a d|a|a|a ad j|i|i d|i b]; cbn [step] in E.
  - (* new_tree *)
    unfold ret_hand in E. injection E as <- <-. destruct (new_tree_good s d _ _ H (surjective_pairing _)) as (A & B & C & n & D). apply fine_creates; [done|]. split; [exact A|]. split; [exact B|]. split; [exact C|eauto].
  - (* clone *)
    destruct (s_hands s !! i) as [[k x|t|t|t|x|t]|] eqn:Hi.
    + rewrite (clone_node_new_h s _ _ _ _ (g_h _ _ H) Hi) in E. by eapply fine_new.
    + eapply fine_inert; [done|done| | | |exact E]; [done| |by apply (good_hand_lt _ _ _ _ H) in Hi as [_ ?]]. intros t0 [= <-]. by eapply (h_tree _ _ (g_h _ _ H)).
    + by apply (fine_clone_token s i Hot t).
    + by apply (fine_clone_token s i Frozen t).
    + eapply fine_inert; [done|done| | | |exact E]; [done| |by apply (good_hand_lt _ _ _ _ H) in Hi as [_ ?]]. done.
    + eapply fine_inert; [done|done| | | |exact E]; [done| |by apply (good_hand_lt _ _ _ _ H) in Hi as [_ ?]]. done.
    + by apply fine_ill.
  - (* drop *)
    destruct (s_hands s !! i) as [[k x|t|t|t|x|t]|] eqn:Hi.
    + sb E s1 E1. injection E as <- <-. apply fine_drop. destruct (drop_node_good _ _ _ _ _ H Hi E1) as (A & B & C & _). done.
    + sb E s1 E1. injection E as <- <-. apply fine_drop. by eapply drop_tree_hand_good.
    + sb E s1 E1. injection E as <- <-. apply fine_drop. by eapply (drop_token_good s Hot t).
    + sb E s1 E1. injection E as <- <-. apply fine_drop. by eapply (drop_token_good s Frozen t).
    + injection E as <- <-. apply fine_drop. eapply drop_weak_good; [done|exact Hi|eauto].
    + injection E as <- <-. apply fine_drop. eapply drop_weak_good; [done|exact Hi|eauto].
    + by apply fine_ill.
  - (* nav *)
    destruct (s_hands s !! i) as [[k x|t|t|t|x|t]|] eqn:Hi; try (by apply fine_ill).
    sb E y E1. destruct y as [y|]; [by eapply fine_new|]. injection E as <- <-. by apply fine_same.
  - (* tree *)
    destruct (s_hands s !! i) as [[k x|t|t|t|x|t]|] eqn:Hi; try (by apply fine_ill).
    sb E t E1. destruct (tree_core_alive _ _ _ (g_h _ _ H) E1) as [_ Ha]. eapply fine_inert; [done|done| | | |exact E]; [done| |by apply (f_trees _ (g_f _ _ H)) in Ha]. by intros t0 [= <-].
  - (* root *)
    destruct (s_hands s !! i) as [[k x|t|t|t|x|t]|] eqn:Hi; try (by apply fine_ill).
    destruct (s_trees s !! t) as [tr|]; [|discriminate]. by eapply fine_new.
  - (* lock *)
    destruct (s_hands s !! i) as [[k0 x|t|t|t|x|t]|] eqn:Hi; try (by apply fine_ill).
    unfold new_token in E. pose proof (h_tree _ _ (g_h _ _ H) _ _ Hi) as Ha. destruct k; [by apply fine_ill|by apply (fine_lock s _ Hot t)|by apply (fine_lock s _ Frozen t)].
  - (* bundle *)
    destruct (s_hands s !! i) as [[[] x|t|t|t|x|t]|] eqn:Hi; try (by apply fine_ill). destruct (is_lock_kind k) eqn:Ek; [|by apply fine_ill].
    assert (k <> Plain) as Hk by (by intros ->). sb E r1 E1. destruct r1 as [s1|].
    + injection E as <- <-. apply fine_exchange; [done|done|done|done|by left].
    + sb E s1 E2. injection E as <- <-. destruct (drop_node_good _ _ _ _ _ H Hi E2) as (A & B & C & _). split; [exact A|]. split; [done|]. exact C.
  - (* bundle with *)
    destruct (s_hands s !! i) as [[[] x|t|t|t|x|t]|] eqn:Hi; try (by apply fine_ill).
    destruct (s_hands s !! j) as [[k x1|t1|t1|t1|x1|t1]|] eqn:Hj; try (by apply fine_ill).
    + sb E t E1. destruct (decide (t = t1)); [|discriminate]. sb E s1 E2. injection E as <- <-. unfold acquire_expect in E2. sb E2 q E3. destruct q as [s2|]; [|discriminate]. injection E2 as <-.
      apply fine_exchange; [done|done|done|done|right; eauto].
    + sb E t E1. destruct (decide (t = t1)); [|discriminate]. sb E s1 E2. injection E as <- <-. unfold acquire_expect in E2. sb E2 q E3. destruct q as [s2|]; [|discriminate]. injection E2 as <-.
      apply fine_exchange; [done|done|done|done|right; eauto].
  - (* plain *)
    destruct (s_hands s !! i) as [[k x|t|t|t|x|t]|] eqn:Hi; try (by apply fine_ill). destruct (is_lock_kind k) eqn:Ek; [|by apply fine_ill].
    assert (clone_node s Plain x = new_node_hand s Plain x) as Ec.
    { destruct (hinv_handle_strong _ _ _ _ _ (g_h _ _ H) Hi) as (t & rc & lk & Hm & _). unfold clone_node, new_node_hand, incr_ref, incr_nonzero_ref, acquire_expect, acquire. cbn [mbind run_bind]. by rewrite Hm. }
    rewrite Ec in E. by eapply fine_new.
  - (* extract *)
    destruct (s_hands s !! i) as [[k x|t|t|t|x|t]|] eqn:Hi; try (by apply fine_ill). destruct (is_lock_kind k) eqn:Ek; [|by apply fine_ill].
    sb E t E1. destruct (tree_core_alive _ _ _ (g_h _ _ H) E1) as [_ Ha]. sb E p E2. destruct p as [s1 o1].
    assert (k <> Plain) as Hk by (by intros ->). assert (fine s (OpExtract i) s1 o1) as F.
    { eapply (fine_lock s _ k t); [done|done|done|done|done|]. unfold new_token in E2. by destruct k. }
    destruct o1; try discriminate; injection E as <- <-; exact F.
  - (* downgrade *)
    destruct (s_hands s !! i) as [[[] x|t|t|t|x|t]|] eqn:Hi; try (by apply fine_ill).
    + eapply fine_inert; [done|done| | | |exact E]; [done|done|by apply (good_hand_lt _ _ _ _ H) in Hi as [_ ?]].
    + eapply fine_inert; [done|done| | | |exact E]; [done|done|by apply (good_hand_lt _ _ _ _ H) in Hi as [_ ?]].
  - (* upgrade *)
    destruct (s_hands s !! i) as [[k x|t|t|t|x|t]|] eqn:Hi; try (by apply fine_ill).
    + destruct (alive (s_nodes s) x); [by eapply fine_new|]. injection E as <- <-. by apply fine_same.
    + unfold tree_alive in E. case_bool_decide as Ha; [|injection E as <- <-; by apply fine_same].
      eapply fine_inert; [done|done| | | |exact E]; [done| |by apply (good_hand_lt _ _ _ _ H) in Hi as [_ ?]]. by intros t0 [= <-].
  - (* create *)
    destruct (with_auth_cases _ _ _ _ _ E) as [[-> ->]|(i & k & x & Hi & E1)]; [by apply fine_same|]. sb E1 p E2. destruct p as [s1 r1].
    pose proof (create_node_good _ _ _ _ _ _ _ H E2) as C. destruct r1 as [j|e]; injection E1 as <- <-; [by apply fine_creates|by apply fine_keeps].
  - destruct (with_auth_cases _ _ _ _ _ E) as [[-> ->]|(i & k & x & Hi & E1)]; [by apply fine_same|]. sb E1 p E2. destruct p as [s1 r1]. injection E1 as <- <-. apply fine_creates; [done|]. by eapply interrupting_parent_good.
  - destruct (with_auth_cases _ _ _ _ _ E) as [[-> ->]|(i & k & x & Hi & E1)]; [by apply fine_same|]. sb E1 p E2. destruct p as [s1 r1]. injection E1 as <- <-. apply fine_creates; [done|]. by eapply interrupting_child_good.
  - (* replace *)
    destruct (with_auth_cases _ _ _ _ _ E) as [[-> ->]|(i & k & x & Hi & E1)]; [by apply fine_same|]. sb E1 p E2. destruct p as [s1 r1]. pose proof (replace_good _ _ _ _ _ _ H Hi E2) as C. destruct r1; injection E1 as <- <-; by apply fine_keeps.
  - (* detach *)
    destruct (with_auth_cases _ _ _ _ _ E) as [[-> ->]|(i & k & x & Hi & E1)]; [by apply fine_same|]. sb E1 s1 E2. injection E1 as <- <-. apply fine_keeps; [|done|done]. by eapply detach_good.
  - (* move *)
    destruct (s_hands s !! j) as [[[] y|t|t|t|y|t]|] eqn:Hj; try (by apply fine_ill).
    destruct (with_auth_cases _ _ _ _ _ E) as [[-> ->]|(i & k & x & Hi & E1)]; [by apply fine_same|]. sb E1 p E2. destruct p as [s1 r1]. pose proof (move_good _ _ _ _ _ _ _ _ _ _ H Hi Hj E2) as C. destruct r1; injection E1 as <- <-; by apply fine_keeps.
  - (* get *)
    destruct (s_hands s !! i) as [[k x|t|t|t|x|t]|] eqn:Hi; try (by apply fine_ill). destruct (s_nodes s !! x) as [nd|]; [|discriminate]. injection E as <- <-. destruct (n_mut nd); by apply fine_same.
  - (* set *)
    destruct (s_hands s !! i) as [[k x|t|t|t|x|t]|] eqn:Hi; try (by apply fine_ill). destruct (s_nodes s !! x) as [nd|] eqn:Ex; [|discriminate]. destruct (negb (n_free nd)); injection E as <- <-; [by apply fine_same|].
    split; [|split; [intros F; destruct (F I)|done]]. apply data_good; [done|]. intros y. unfold set_data. destruct (decide (y = x)) as [->|]; [rewrite lookup_alter; by destruct (s_nodes s !! x)|by rewrite lookup_alter_ne].
  - (* borrow *)
    destruct (s_hands s !! i) as [[k x|t|t|t|x|t]|] eqn:Hi; try (by apply fine_ill). destruct (s_nodes s !! x) as [nd|] eqn:Ex; [|discriminate]. destruct (lend b (n_lend nd)); injection E as <- <-; [|by apply fine_same].
    split; [|split; [intros F; destruct (F I)|done]]. apply data_good; [done|]. intros y. unfold set_lend. destruct (decide (y = x)) as [->|]; [rewrite lookup_alter; by destruct (s_nodes s !! x)|by rewrite lookup_alter_ne].
Qed.

Lemma init_ok : ok (@init T).
Proof.
  split; [split|split|].
  - done.
  - done.
  - intros i k x Hi. simpl in Hi. by rewrite lookup_empty in Hi.
  - intros i k Hi. simpl in Hi. by rewrite lookup_empty in Hi.
  - intros t tr Hi. simpl in Hi. by rewrite lookup_empty in Hi.
  - intros x [? Hi]. simpl in Hi. by rewrite lookup_empty in Hi.
  - intros x [? Hi]. simpl in Hi. by rewrite lookup_empty in Hi.
  - intros i hd Hi. simpl in Hi. by rewrite lookup_empty in Hi.
  - intros x t Hi. unfold tree_of, n_memb in Hi. simpl in Hi. by rewrite lookup_empty in Hi.
  - intros u [? Hi]. simpl in Hi. by rewrite lookup_empty in Hi.
Qed.
Theorem any_ok s : any s -> ok s.
Proof.
  induction 1 as [|s o s' r _ IH E|s s' _ IH W].
  - apply init_ok.
  - by eapply step_fine.
  - exact (swept_good _ _ _ IH (scrambled_swept _ _ (g_h _ _ IH) W)).
Qed.
End GenFacts5.
