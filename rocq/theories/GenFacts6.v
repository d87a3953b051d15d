(** * GenFacts6: consequences for the calls that do not depend on the links. *)
From Verif Require Import Heap Edit Traverse System SysSpec CardFacts HeapFacts SysFacts SysFacts2 SysFacts3 SysFacts4 SysFacts6 SysFacts7 SysFacts11 ApiSpec ApiFacts5 GenSpec GenFacts GenFacts2 GenFacts3 GenFacts4 GenFacts5 Spec.

Section GenFacts6.
Context {T : Type}.
Implicit Types (h : heap T) (s : sys T) (hm : gmap nat handle) (P : tid -> Prop) (o : op T).
Notation swept := GenFacts.swept.
Tactic Notation "sb" hyp(E) ident(a) ident(E1) := cbv beta zeta delta [mbind run_bind] in E;
  match type of E with match ?m with _ => _ end = _ => destruct m as [a| |] eqn:E1; cbv beta iota zeta delta [mbind run_bind] in E; [|discriminate E|discriminate E] end.

(** ** Locks *)
Lemma any_exclusive s t : ok s -> is_Some (s_trees s !! t) -> ~ (some_lock s Hot t /\ some_lock s Frozen t).
Proof.
  intros H [tr Ht] [H1 H2]. destruct (h_lock _ _ (g_h _ _ H) t tr Ht) as (g & p & Hg & Hp & _ & Hz).
  assert (0 < g) as G. { destruct H1 as [[i Hi]|[x Hx]]; [by eapply holders_pos_token|by eapply holders_pos_node]. }
  assert (0 < p) as Pp. { destruct H2 as [[i Hi]|[x Hx]]; [by eapply holders_pos_token|by eapply holders_pos_node]. }
  lia.
Qed.
Lemma no_holders s k t : holders s (s_hands s) (opp k) t 0 -> ~ some_lock s (opposite k) t.
Proof.
  intros H0. assert (opp k = opposite k) as E by (by destruct k). rewrite <-E. intros [[i Hi]|[x Hx]].
  - by apply (proj1 (holders_0 _ _ _ _ H0) i).
  - by apply (proj2 (holders_0 _ _ _ _ H0) x).
Qed.
Lemma has_holders s k t n : holders s (s_hands s) (opp k) t (S n) -> some_lock s (opposite k) t.
Proof.
  intros H0. assert (opp k = opposite k) as E by (by destruct k). rewrite <-E. destruct (holders_S _ _ _ _ _ H0) as [?|?]; [by left|by right].
Qed.
Lemma framed_unmoved s s1 hm f : framed s s1 -> unmoved s (mkSys (s_nodes s1) (s_trees s1) hm f).
Proof.
  intros F. split; simpl.
  - intros y. apply memonly_fields. apply F.
  - intros y. unfold payload. simpl. apply (memonly_payload s s1). apply F.
  - intros y. apply (fr_tree _ _ F).
  - apply F.
Qed.
Lemma any_lock s k i t : ok s -> s_hands s !! i = Some (HTree t) -> has_lock k ->
  (~ some_lock s (opposite k) t /\ exists s' j, step s (OpLock k i) = Ret (s', OutHandle j) /\ hands_out s s' j (token k t)) \/
  (some_lock s (opposite k) t /\ step s (OpLock k i) = Ret (s, OutLockErr)).
Proof.
  intros H Hi Hk. pose proof (h_tree _ _ (g_h _ _ H) _ _ Hi) as Ht. pose proof (good_fresh _ _ H) as Hfr. cbn [step]. rewrite Hi.
  assert (new_token s k t = match lock_tree s k t with None => Ret (s, OutLockErr) | Some s1 => Ret (add_hand s1 (token k t), OutHandle (s_fresh s1)) end) as E by (by destruct k). rewrite E.
  destruct (lock_tree_ok s (s_hands s) (s_fresh s) k t (g_h _ _ H) Hfr Hk Ht) as [(H0 & s1 & E1 & Hh & F)|(n & H0 & E1)]; rewrite E1.
  - left. split; [by apply no_holders|]. eexists _, _. split; [reflexivity|]. rewrite (fr_fresh _ _ F). split; [exact (framed_unmoved _ _ _ _ F)|]. split; [exact Hfr|].
    simpl. by rewrite (fr_hands _ _ F), (fr_fresh _ _ F).
  - right. split; [by eapply has_holders|done].
Qed.
Lemma any_bundle s k i x t : ok s -> s_hands s !! i = Some (HNode Plain x) -> tree_of s x = Some t -> has_lock k ->
  (~ some_lock s (opposite k) t /\ exists s' j, step s (OpBundle k i) = Ret (s', OutHandle j) /\ swaps s s' i j (HNode k x)) \/
  (some_lock s (opposite k) t /\ forall s' r, step s (OpBundle k i) = Ret (s', r) -> r = OutLockErr /\ s_hands s' = delete i (s_hands s)).
Proof.
  intros H Hi Ht Hk. pose proof (good_fresh _ _ H) as Hfr. cbn [step]. rewrite Hi. assert (is_lock_kind k = true) as -> by (by destruct k).
  destruct (acquire_ok s (s_hands s) i k x t (g_h _ _ H) Hi Hk Ht) as [(H0 & s1 & E1 & Hh & F)|(n & H0 & E1)]; rewrite E1; cbn [mbind run_bind].
  - left. split; [by apply no_holders|]. eexists _, _. split; [reflexivity|]. rewrite (fr_fresh _ _ F). split; [exact (framed_unmoved _ _ _ _ F)|]. split; [exact Hfr|].
    simpl. by rewrite (fr_hands _ _ F), (fr_fresh _ _ F).
  - right. split; [by eapply has_holders|]. intros s' r E. sb E s2 E2. injection E as <- <-. split; [done|]. by destruct (drop_node_good _ _ _ _ _ H Hi E2) as (_ & _ & C & _).
Qed.

(** ** Handles *)
Lemma any_handle s i k x : ok s -> s_hands s !! i = Some (HNode k x) ->
  exists d l t tr, payload s x = Some (d, l) /\ tree_of s x = Some t /\ s_trees s !! t = Some tr /\
    step s (OpGet i) = Ret (s, match l with LentMut => OutBorrowErr | Lent _ => OutData d end) /\
    (exists s' j, step s (OpClone i) = Ret (s', OutHandle j) /\ hands_out s s' j (HNode k x)) /\
    (exists s' j, step s (OpTree i) = Ret (s', OutHandle j) /\ hands_out s s' j (HTree t)).
Proof.
  intros H Hi. destruct (hinv_handle_strong _ _ _ _ _ (g_h _ _ H) Hi) as (t & rc & lk & Hm & [tr Htr] & _ & _ & Ht). pose proof (good_fresh _ _ H) as Hfr.
  destruct (h_node _ _ (g_h _ _ H) _ _ _ Hi) as [nd Hx]. exists (n_data nd), (n_lend nd), t, tr.
  split; [unfold payload; by rewrite Hx|]. split; [exact Ht|]. split; [exact Htr|]. split; [cbn [step]; rewrite Hi, Hx; unfold n_mut; by destruct (n_lend nd)|]. split.
  - cbn [step]. rewrite Hi. rewrite (clone_node_new_h s _ _ _ _ (g_h _ _ H) Hi).
    destruct (incr_ref_ok s (s_hands s) (s_fresh s) x t (g_h _ _ H) Hfr) as (s1 & rc1 & lk1 & E1 & _ & Hh1 & F1); [eauto|exact Ht|eauto|].
    unfold new_node_hand. rewrite E1. destruct (decide (k = Plain)) as [->|Hk].
    { unfold acquire_expect, acquire. cbn [mbind run_bind]. eexists _, _. split; [reflexivity|]. simpl. rewrite (fr_fresh _ _ F1). split; [exact (framed_unmoved _ _ _ _ F1)|]. split; [exact Hfr|].
      simpl. by rewrite (fr_hands _ _ F1), (fr_fresh _ _ F1). }
    destruct (acquire_ok s1 (<[s_fresh s := HNode Plain x]> (s_hands s)) (s_fresh s) k x t Hh1) as [(_ & s2 & E2 & Hh2 & F2)|(n & Hn & _)].
    + by rewrite lookup_insert.
    + done.
    + by rewrite (fr_tree _ _ F1).
    + unfold acquire_expect. rewrite E2. cbn [mbind run_bind]. pose proof (framed_trans _ _ _ F1 F2) as F. eexists _, _. split; [reflexivity|]. simpl. rewrite (fr_fresh _ _ F). split; [exact (framed_unmoved _ _ _ _ F)|]. split; [exact Hfr|].
      simpl. by rewrite (fr_hands _ _ F), (fr_fresh _ _ F).
    + exfalso. pose proof (handle_excl_h _ _ _ _ _ _ (g_h _ _ H) Hi Hk Ht) as H1. assert (holders s1 (<[s_fresh s := HNode Plain x]> (s_hands s)) (opp k) t 0) as H0.
      { eapply holders_ext; [exact H1|..].
        - intros j. unfold token_holder. rewrite insert_hand_iff by done. split; [naive_solver|].
          intros [A [[_ B]|B]]; [|done]. by destruct k.
        - intros y. unfold node_holder. rewrite (fr_tree _ _ F1). setoid_rewrite (insert_hand_iff _ _ _ _ _ Hfr). split; [naive_solver|].
          intros (A & B & j & [[_ C]|C]); [by destruct k|naive_solver]. }
      pose proof (holders_unique _ _ _ _ _ _ H0 Hn). lia.
  - cbn [step]. rewrite Hi. unfold tree_core. rewrite Hm. cbn [mbind run_bind]. eexists _, _. split; [reflexivity|]. split; [exact (framed_unmoved s s _ _ (framed_refl s))|]. split; [exact Hfr|done].
Qed.

(** ** Deallocation never panics *)
Lemma release_calm : forall fuel pins s x, hinv s (s_hands s) -> release fuel pins s x <> Panic.
Proof.
  induction fuel as [|f IH]; intros pins s x H; cbn [release]; destruct (s_nodes s !! x) as [nd|] eqn:Ex; try discriminate.
  - destruct (referenced s pins x); discriminate.
  - destruct (referenced s pins x) eqn:Er; [discriminate|]. destruct (n_mem nd) as [o|t0 rc0 lk0] eqn:Em.
    2:{ exfalso. destruct (strong_held s (s_hands s) x t0 rc0 lk0 H) as (i & k & Hi); [unfold n_memb; rewrite Ex; simpl; by rewrite Em|]. by rewrite (referenced_hand s pins x i k Hi) in Er. }
    set (s1 := with_nodes s (delete x (s_nodes s))).
    assert (swept s s1) as W1.
    { split; try done.
      - intros t tr' E. eauto.
      - intros t [tr E] E'. simpl in E'. congruence.
      - intros y [nd' Hy]. unfold fmeta. simpl in *. rewrite lookup_delete_Some in Hy. destruct Hy as [Hn Hy]. by rewrite lookup_delete_ne.
      - intros y Hy C. simpl. destruct (decide (y = x)) as [->|Hn]; [exfalso|by rewrite lookup_delete_ne].
        destruct C as [(i & k & Hi)|(t & rc & lk & Hm)].
        + by rewrite (referenced_hand s pins x i k Hi) in Er.
        + unfold n_memb in Hm. rewrite Ex in Hm. simpl in Hm. congruence. }
    pose proof (swept_hinv _ _ H W1) as H1.
    destruct (match n_first nd with Some c => release f pins s1 c | None => Ret s1 end) as [s2| |] eqn:E2; cbn [mbind run_bind]; try discriminate.
    + assert (swept s1 s2) as W2. { destruct (n_first nd); [by eapply release_swept|]. injection E2 as <-. apply swept_refl. }
      destruct (n_next nd); [|discriminate]. apply IH. exact (swept_hinv _ _ H1 W2).
    + destruct (n_first nd); [by apply IH in E2|discriminate].
Qed.
Lemma release_all_calm s pins x : hinv s (s_hands s) -> release_all s pins x <> Panic.
Proof. apply release_calm. Qed.
Lemma teardown_calm : forall fuel pins s next, hinv s (s_hands s) -> teardown fuel pins s next <> Panic.
Proof.
  induction fuel as [|f IH]; intros pins s next H; cbn [teardown]; destruct next as [cur|]; try discriminate.
  destruct cur as [v|v]; [by apply IH|].
  destruct (match parent_link (s_nodes s) v with Some p => _ | None => Ret s end) as [s1| |] eqn:E1; cbn [mbind run_bind]; try discriminate.
  - assert (swept s s1) as W1.
    { destruct (parent_link (s_nodes s) v) as [p|]; [|injection E1 as <-; apply swept_refl].
      set (h2 := set_first (set_next (s_nodes s) v None) p (fnext (s_nodes s) v)) in *.
      assert (swept s (with_nodes s h2)) as W2. { apply same_meta_swept. eapply meta_trans; [apply meta_set_next|apply meta_set_first]. }
      destruct (ffirst _ p); [|injection E1 as <-; exact W2]. eapply swept_trans; [exact W2|]. by eapply release_all_swept. }
    pose proof (swept_hinv _ _ H W1) as H1. destruct (release_all s1 _ v) as [s2| |] eqn:E2; cbn [mbind run_bind]; try discriminate.
    + apply IH. exact (swept_hinv _ _ H1 (release_all_swept _ _ _ _ E2)).
    + by apply release_all_calm in E2.
  - destruct (parent_link (s_nodes s) v) as [p|]; [|discriminate].
    set (h2 := set_first (set_next (s_nodes s) v None) p (fnext (s_nodes s) v)) in *.
    assert (swept s (with_nodes s h2)) as W2. { apply same_meta_swept. eapply meta_trans; [apply meta_set_next|apply meta_set_first]. }
    destruct (ffirst _ p); [|discriminate]. apply release_all_calm in E1; [done|]. exact (swept_hinv _ _ H W2).
Qed.
Lemma drop_tree_calm pins tpins s t : hinv s (s_hands s) -> drop_tree_if_dead pins tpins s t <> Panic.
Proof.
  intros H. unfold drop_tree_if_dead. destruct (s_trees s !! t) as [tr|] eqn:Et; [|discriminate]. destruct (tree_referenced s tpins t) eqn:Er; [discriminate|].
  destruct (teardown _ pins s _) as [s1| |] eqn:E1; cbn [mbind run_bind]; try discriminate; [|by apply teardown_calm in E1].
  pose proof (teardown_swept _ _ _ _ _ E1) as W1. apply release_all_calm. apply swept_hinv with (s := s1); [exact (swept_hinv _ _ H W1)|].
  assert ((forall i, s_hands s !! i <> Some (HTree t)) /\ forall x rc lk, n_memb s x <> Some (MStrong t rc lk)) as [N1 N2].
  { split; intros; intros F; assert (tree_referenced s tpins t = true) as X by (apply tree_referenced_iff; eauto 10); congruence. }
  split; try done.
  - intros u tr' E. simpl in E. rewrite lookup_delete_Some in E. destruct E as [_ E]. eauto.
  - intros u [tr1 Eu] E. simpl in E. rewrite lookup_delete_None in E. destruct E as [<-|E]; [|congruence].
    rewrite (sw_hands _ _ W1). split; [done|]. intros x rc lk F. apply (N2 x rc lk). by eapply swept_memb.
Qed.
Lemma drop_link_calm s hm i x : hinv s hm -> hm !! i = Some (HNode Plain x) -> delete i (s_hands s) = delete i hm -> drop_link s i x <> Panic.
Proof.
  intros Hh Hi Ehm. destruct (hinv_handle_strong _ _ _ _ _ Hh Hi) as (t & rc & lk & Hm & _ & C1 & C2 & Ht).
  destruct (decr_mem_ok _ _ _ _ _ _ _ Hh Hi Hm) as (Hlk & Hh1 & F1). set (m := match rc with 0 => MWeak (Some t) | S _ => MStrong t rc lk end) in *.
  set (s1 := put_mem (del_hand s i) x m).
  assert (hinv s1 (s_hands s1)) as Hh1'. { unfold s1. simpl. rewrite Ehm. destruct Hh1 as [A1 A2 A3 A4 A5]. split; done. }
  unfold drop_link, decr_ref. change (n_memb (del_hand s i) x) with (n_memb s x). rewrite Hm. destruct rc as [|rc].
  - rewrite (Hlk eq_refl). simpl Nat.eqb. cbn [assertb mbind run_bind].
    change (put_mem (del_hand s i) x (MWeak (Some t))) with s1. destruct (drop_tree_if_dead [x] [] s1 t) as [s2| |] eqn:E2; cbn [mbind run_bind]; [|by apply drop_tree_calm in E2|discriminate].
    apply release_all_calm. destruct (drop_tree_gen_ok _ _ _ _ _ E2) as [W _]. exact (swept_hinv _ _ Hh1' W).
  - cbn [mbind run_bind]. apply release_all_calm. exact Hh1'.
Qed.
Lemma drop_node_calm s i k x : ok s -> s_hands s !! i = Some (HNode k x) -> drop_node s i k x <> Panic.
Proof.
  intros H Hi. unfold drop_node. destruct (decide (k = Plain)) as [->|Hk].
  - cbn [mbind run_bind]. eapply drop_link_calm; [apply H|exact Hi|done].
  - destruct (decr_lock_ok _ _ _ _ _ (g_h _ _ H) Hi Hk) as (s1 & E1 & Hh1 & F1).
    assert (match k with Plain => Ret s | _ => decr_lock s x end = Ret s1) as -> by (by destruct k). cbn [mbind run_bind].
    eapply drop_link_calm; [exact Hh1|by rewrite lookup_insert|]. rewrite (fr_hands _ _ F1). by rewrite delete_insert_delete.
Qed.

(** The call returns or runs forever. *)
Theorem any_calm s o : ok s -> link_free o -> step s o <> Panic.
Proof.
  intros H Ho. destruct o as [d|i|i|v i|i|i|k i|k i|i j|i|i|i|i|a d ad|a d|a d|a|a|a ad j|i|i d|i b]; try (exfalso; exact Ho); cbn [step].
  - discriminate.
  - destruct (s_hands s !! i) as [[k x|t|t|t|x|t]|] eqn:Hi; try discriminate.
    + destruct (any_handle s i k x H Hi) as (d & b & t & tr & _ & _ & _ & _ & (s' & j & E & _) & _). cbn [step] in E. rewrite Hi in E. by rewrite E.
    + unfold clone_token. destruct (tree_alive s t); [|discriminate]. by destruct (lock_tree s Hot t).
    + unfold clone_token. destruct (tree_alive s t); [|discriminate]. by destruct (lock_tree s Frozen t).
  - destruct (s_hands s !! i) as [[k x|t|t|t|x|t]|] eqn:Hi; try discriminate.
    + destruct (drop_node s i k x) eqn:E; cbn [mbind run_bind]; try discriminate. by apply drop_node_calm in E.
    + destruct (drop_tree_if_dead [] [] (del_hand s i) t) eqn:E; cbn [mbind run_bind]; try discriminate. apply drop_tree_calm in E; [done|].
      assert (hinv s (delete i (s_hands s))) as Hh.
      { eapply hinv_uncounted; [apply H|..].
        - intros j hd Hc. rewrite lookup_delete_Some. split; [tauto|]. intros Hj. split; [|done]. intros <-. rewrite Hi in Hj. by injection Hj as <-.
        - intros j u. rewrite lookup_delete_Some. intros [_ Hj]. by eapply (h_tree _ _ (g_h _ _ H)). }
      destruct Hh as [A B C D F]. split; done.
    + unfold drop_token, tree_alive. case_bool_decide as Ha; [|discriminate]. destruct (unlock_tree_ok s (s_hands s) i Hot t (g_h _ _ H) Hi ltac:(done) Ha) as (s1 & -> & _). discriminate.
    + unfold drop_token, tree_alive. case_bool_decide as Ha; [|discriminate]. destruct (unlock_tree_ok s (s_hands s) i Frozen t (g_h _ _ H) Hi ltac:(done) Ha) as (s1 & -> & _). discriminate.
  - destruct (s_hands s !! i) as [[k x|t|t|t|x|t]|] eqn:Hi; try discriminate. destruct (hinv_handle_strong _ _ _ _ _ (g_h _ _ H) Hi) as (t & rc & lk & Hm & _). unfold tree_core. rewrite Hm. discriminate.
  - destruct (s_hands s !! i) as [[k0 x|t|t|t|x|t]|] eqn:Hi; try discriminate. unfold new_token. destruct k; [discriminate|by destruct (lock_tree s Hot t)|by destruct (lock_tree s Frozen t)].
  - destruct (s_hands s !! i) as [[[] x|t|t|t|x|t]|] eqn:Hi; try discriminate. destruct (is_lock_kind k) eqn:Ek; [|discriminate].
    assert (k <> Plain) as Hk by (by intros ->). destruct (hinv_handle_strong _ _ _ _ _ (g_h _ _ H) Hi) as (t & rc & lk & Hm & _ & _ & _ & Ht).
    destruct (acquire_ok s (s_hands s) i k x t (g_h _ _ H) Hi Hk Ht) as [(_ & s1 & -> & _)|(n & _ & ->)]; cbn [mbind run_bind]; [discriminate|].
    destruct (drop_node s i Plain x) eqn:E; cbn [mbind run_bind]; try discriminate. by apply drop_node_calm in E.
  - destruct (s_hands s !! i) as [[k x|t|t|t|x|t]|] eqn:Hi; try discriminate. destruct (is_lock_kind k); [|discriminate].
    destruct (hinv_handle_strong _ _ _ _ _ (g_h _ _ H) Hi) as (t & rc & lk & Hm & _). unfold clone_node, incr_nonzero_ref. cbn [mbind run_bind]. rewrite Hm. discriminate.
  - destruct (s_hands s !! i) as [[k x|t|t|t|x|t]|] eqn:Hi; try discriminate. destruct (is_lock_kind k) eqn:Ek; [|discriminate].
    assert (k <> Plain) as Hk by (by intros ->).
    destruct (hinv_handle_strong _ _ _ _ _ (g_h _ _ H) Hi) as (t & rc & lk & Hm & Ha & _ & _ & Ht). unfold tree_core. rewrite Hm. cbn [mbind run_bind].
    assert (new_token s k t = match lock_tree s k t with None => Ret (s, OutLockErr) | Some s1 => Ret (add_hand s1 (token k t), OutHandle (s_fresh s1)) end) as -> by (by destruct k).
    destruct (lock_tree_ok s (s_hands s) (s_fresh s) k t (g_h _ _ H) (good_fresh _ _ H) Hk Ha) as [(_ & s1 & -> & _)|(n & Hn & _)]; cbn [mbind run_bind]; [discriminate|].
    exfalso. pose proof (handle_excl_h _ _ _ _ _ _ (g_h _ _ H) Hi Hk Ht) as H0. pose proof (holders_unique _ _ _ _ _ _ H0 Hn). lia.
  - destruct (s_hands s !! i) as [[[] x|t|t|t|x|t]|] eqn:Hi; discriminate.
  - destruct (s_hands s !! i) as [[k x|t|t|t|x|t]|] eqn:Hi; try discriminate. by destruct (h_node _ _ (g_h _ _ H) _ _ _ Hi) as [nd ->].
  - destruct (s_hands s !! i) as [[k x|t|t|t|x|t]|] eqn:Hi; try discriminate. destruct (h_node _ _ (g_h _ _ H) _ _ _ Hi) as [nd ->]. by destruct (negb (n_free nd)).
  - destruct (s_hands s !! i) as [[k x|t|t|t|x|t]|] eqn:Hi; try discriminate. destruct (h_node _ _ (g_h _ _ H) _ _ _ Hi) as [nd ->]. by destruct (lend b (n_lend nd)).
Qed.

(** ** Weak references *)
Lemma any_weak_tree s i t : ok s -> s_hands s !! i = Some (HTreeWeak t) ->
  (tree_held s (s_hands s) t -> exists s' j, step s (OpUpgrade i) = Ret (s', OutHandle j) /\ hands_out s s' j (HTree t)) /\
  (~ tree_held s (s_hands s) t -> step s (OpUpgrade i) = Ret (s, OutNone)).
Proof.
  intros H Hi. cbn [step]. rewrite Hi. unfold tree_alive. split; intros Hh; case_bool_decide as Ha.
  - eexists _, _. split; [reflexivity|]. split; [exact (framed_unmoved s s _ _ (framed_refl s))|]. split; [exact (good_fresh _ _ H)|done].
  - exfalso. apply Ha. destruct Hh as [[j Hj]|(j & k & x & Hj & Hx)]; [by eapply (h_tree _ _ (g_h _ _ H))|].
    destruct (hinv_handle_strong _ _ _ _ _ (g_h _ _ H) Hj) as (u & _ & _ & _ & A & _ & _ & B). congruence.
  - exfalso. destruct (g_k _ _ H t Ha) as [A|[]]. done.
  - done.
Qed.
Lemma any_weak_node s i x s' r : ok s -> s_hands s !! i = Some (HNodeWeak x) -> step s (OpUpgrade i) = Ret (s', r) ->
  (s_nodes s !! x = None /\ r = OutNone /\ s' = s) \/
  (exists j, is_Some (s_nodes s !! x) /\ r = OutHandle j /\ hands_out s s' j (HNode Plain x)).
Proof.
  intros H Hi. cbn [step]. rewrite Hi. unfold alive. case_bool_decide as Ha.
  - intros E. right. sb E p E1. destruct p as [s1 j]. injection E as <- <-. exists j. split; [exact Ha|]. split; [done|].
    pose proof (good_fresh _ _ H) as Hfr. unfold new_node_hand in E1. destruct (incr_ref s x) as [s2|] eqn:E2; [|discriminate].
    destruct (incr_ref_inv _ _ _ E2 (g_h _ _ H)) as (t & Hx & Ht & Hta).
    destruct (incr_ref_ok s (s_hands s) (s_fresh s) x t (g_h _ _ H) Hfr Hx Ht Hta) as (s2' & rc & lk & E2' & _ & Hh1 & F1). assert (s2' = s2) as -> by congruence.
    unfold acquire_expect, acquire in E1. cbn [mbind run_bind] in E1. injection E1 as <- <-. rewrite (fr_fresh _ _ F1). split; [exact (framed_unmoved _ _ _ _ F1)|]. split; [exact Hfr|].
    simpl. by rewrite (fr_hands _ _ F1), (fr_fresh _ _ F1).
  - intros [= <- <-]. left. split; [|done]. destruct (s_nodes s !! x); [exfalso; eauto|done].
Qed.

(** What is gone stays gone. *)
Lemma any_gone s o s' r i hd : ok s -> step s o = Ret (s', r) -> s_hands s !! i = Some hd ->
  (forall x, hd = HNodeWeak x -> s_nodes s !! x = None -> s_nodes s' !! x = None) /\
  (forall t, hd = HTreeWeak t \/ hd = HGrant t \/ hd = HProhib t -> s_trees s !! t = None -> s_trees s' !! t = None).
Proof.
  intros H E Hi. destruct (step_fine _ _ _ _ H E) as (_ & Hev & _). assert (hand_target hd < s_fresh s) as Hl by (by apply (good_hand_lt _ _ _ _ H Hi)).
  destruct (decide (match o with OpSet _ _ | OpBorrow _ _ => true | _ => false end = true)) as [Hw|Hw].
  - assert (forall y, s_nodes s !! y = None -> s_nodes s' !! y = None) as X1.
    { destruct o; try discriminate; cbn [step] in E; destruct (s_hands s !! i0) as [[]|]; try (by injection E as <- _); destruct (s_nodes s !! x) as [nd|] eqn:Ex; try discriminate.
      - destruct (negb (n_free nd)); injection E as <- _; [done|]. intros y Hy. simpl. unfold set_data. by rewrite lookup_alter_None.
      - destruct (lend b (n_lend nd)); injection E as <- _; [|done]. intros y Hy. simpl. unfold set_lend. by rewrite lookup_alter_None. }
    assert (s_trees s' = s_trees s) as X2.
    { destruct o; try discriminate; cbn [step] in E; destruct (s_hands s !! i0) as [[]|]; try (by injection E as <- _); destruct (s_nodes s !! x) as [nd|] eqn:Ex; try discriminate.
      - destruct (negb (n_free nd)); injection E as <- _; done.
      - destruct (lend b (n_lend nd)); injection E as <- _; done. }
    split; [intros x _; apply X1|]. intros t _. by rewrite X2.
  - assert (evolves s s') as Ev by (apply Hev; destruct o; simpl in *; auto). split.
    + intros x -> Hn. destruct (s_nodes s' !! x) eqn:Ex; [|done]. pose proof (ev_data _ _ Ev x Hl ltac:(eauto)) as Ep. unfold payload in Ep. by rewrite Ex, Hn in Ep.
    + intros t Ht Hn. destruct (s_trees s' !! t) eqn:Et; [|done]. assert (t < s_fresh s) as Hl' by (destruct Ht as [->|[->| ->]]; exact Hl).
      destruct (ev_trees _ _ Ev t Hl' ltac:(eauto)). congruence.
Qed.

(** ** Data *)
Lemma any_data s o s' r y : ok s -> step s o = Ret (s', r) -> ~ writes_data o -> is_Some (s_nodes s !! y) -> is_Some (s_nodes s' !! y) -> payload s' y = payload s y.
Proof.
  intros H E Hw Hy Hy'. destruct (step_fine _ _ _ _ H E) as (_ & Hev & _). apply (ev_data _ _ (Hev Hw)); [by apply (f_nodes _ (g_f _ _ H))|done].
Qed.
Lemma lends_lend b l l' : lends b l l' -> lend b l = Some l'.
Proof.
  destruct b; cbn.
  - intros (n & -> & ->). done.
  - intros [-> ->]. done.
  - intros [(n & -> & ->)|[H ->]]; [done|]. destruct l as [[|n]|]; [done| |done]. by destruct (H n).
  - intros [[-> ->]|[H ->]]; [done|]. by destruct l as [[|n]|].
Qed.
Lemma lend_lends b l l' : lend b l = Some l' -> lends b l l'.
Proof. destruct b, l as [[|n]|]; cbn; intros [= <-]; eauto. Qed.
Lemma any_write s i k x d l d' : s_hands s !! i = Some (HNode k x) -> payload s x = Some (d, l) ->
  (match l with LentMut => step s (OpGet i) = Ret (s, OutBorrowErr) | Lent _ => step s (OpGet i) = Ret (s, OutData d) end) /\
  (l <> Lent 0 -> step s (OpSet i d') = Ret (s, OutBorrowErr)) /\
  (l = Lent 0 -> exists s', step s (OpSet i d') = Ret (s', OutUnit) /\ writes s x d' l s') /\
  (forall b, (forall l', ~ lends b l l') -> step s (OpBorrow i b) = Ret (s, OutBorrowErr)) /\
  (forall b l', lends b l l' -> exists s', step s (OpBorrow i b) = Ret (s', OutUnit) /\ writes s x d l' s').
Proof.
  intros Hi Hp. unfold payload in Hp. destruct (s_nodes s !! x) as [nd|] eqn:Ex; [|discriminate]. simpl in Hp. injection Hp as E1 E2.
  assert (forall (f : node T -> node T) h', h' = alter f x (s_nodes s) -> (forall y, h' !! y = if decide (y = x) then Some (f nd) else s_nodes s !! y)) as Hl.
  { intros f h' -> y. case_decide as Hy; [subst; by rewrite lookup_alter, Ex|by rewrite lookup_alter_ne]. }
  assert (forall d1 l1 h', (forall y, h' !! y = if decide (y = x) then Some (mkNode d1 l1 (n_parent nd) (n_first nd) (n_next nd) (n_prev nd) (n_nch nd) (n_mem nd)) else s_nodes s !! y) ->
    writes s x d1 l1 (with_nodes s h')) as Hwr.
  { intros d1 l1 h' Hh. split.
    - unfold payload. simpl. by rewrite Hh, decide_True.
    - intros y Hy. simpl. by rewrite Hh, decide_False.
    - intros y. unfold tree_of, n_memb. simpl. rewrite Hh. case_decide as Hy; [|done]. by rewrite Hy, Ex.
    - intros y. simpl. unfold fparent, ffirst, fnext, fprev, fnch. rewrite Hh. case_decide as Hy; [|done]. by rewrite Hy, Ex.
    - done.
    - done. }
  cbn [step]. rewrite Hi, Ex. unfold n_mut, n_free. rewrite E2. split; [|split; [|split; [|split]]].
  - rewrite E1. by destruct l.
  - intros Hl0. by destruct l as [[|n]|].
  - intros ->. eexists. split; [reflexivity|]. apply Hwr. rewrite <- E2. exact (Hl _ _ eq_refl).
  - intros b Hb. destruct (lend b l) as [l'|] eqn:El; [|done]. destruct (Hb l'). by apply lend_lends.
  - intros b l' Hb. rewrite (lends_lend _ _ _ Hb). eexists. split; [reflexivity|]. apply Hwr. rewrite <- E1. exact (Hl _ _ eq_refl).
Qed.

(** ** Tokens of another tree *)
Lemma any_wrong_grant s o : ok s -> must_panic s o -> step s o = Panic.
Proof.
  intros H Hp. assert (forall a f, unauthorised s a -> with_auth s a f = Panic) as Hu.
  { intros a f Ha. destruct a as [|i g]; [done|]. destruct Ha as (x & t & Hi & Hg & Hne). unfold with_auth. rewrite Hi, Hg.
    destruct (hinv_handle_strong _ _ _ _ _ (g_h _ _ H) Hi) as (u & rc & lk & Hm & _ & _ & _ & Ht). unfold tree_core. rewrite Hm. cbn [mbind run_bind].
    rewrite decide_False; [done|]. congruence. }
  destruct o as [d|i|i|v i|i|i|k i|k i|i j|i|i|i|i|a d ad|a d|a d|a|a|a ad j|i|i d|i b]; try (exfalso; exact Hp); cbn [step].
  - destruct Hp as (k & x & t & Hi & Hk & Hj & Hne). rewrite Hi, Hj. destruct (hinv_handle_strong _ _ _ _ _ (g_h _ _ H) Hi) as (u & rc & lk & Hm & _ & _ & _ & Ht).
    destruct k; [by destruct Hk| |]; simpl token; cbv iota; unfold tree_core; rewrite Hm; cbn [mbind run_bind]; (rewrite decide_False; [done|congruence]).
  - by apply Hu.
  - by apply Hu.
  - by apply Hu.
  - by apply Hu.
  - by apply Hu.
  - destruct Hp as [Ha [y ->]]. by apply Hu.
Qed.
End GenFacts6.
