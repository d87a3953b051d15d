(** * GenFacts3: handles, reference counts and locks agree whatever the links are:
    handles. *)
From Verif Require Import Heap Edit System SysSpec CardFacts HeapFacts SysFacts SysFacts2 SysFacts3 SysFacts4 SysFacts6 SysFacts7 SysFacts9 SysFacts11 SysFacts14 GenSpec GenFacts GenFacts2 Spec.

Section GenFacts3.
Context {T : Type}.
Implicit Types (h : heap T) (s : sys T) (hm : gmap nat handle) (P : tid -> Prop).
Notation swept := GenFacts.swept.

Record good s P : Prop := {
  g_h : hinv s (s_hands s);
  g_f : finv s;
  g_k : kept s P;
}.
Definition ok s : Prop := good s (fun _ => False).

Lemma swept_good s s' P : good s P -> swept s s' -> good s' P.
Proof. intros [A B C] W. split; [exact (swept_hinv _ _ A W)|exact (swept_finv _ _ B W)|exact (swept_keeps _ _ _ A W C)]. Qed.
Lemma good_mono s P P' : good s P -> (forall u, P u -> P' u) -> good s P'.
Proof. intros [A B C] H. split; [exact A|exact B|]. intros u Hu. destruct (C u Hu); auto. Qed.
Lemma good_fresh s P : good s P -> s_hands s !! s_fresh s = None.
Proof. intros H. destruct (s_hands s !! s_fresh s) eqn:E; [|done]. apply (f_hands _ (g_f _ _ H)) in E. lia. Qed.
Lemma good_hand_lt s P i hd : good s P -> s_hands s !! i = Some hd -> i < s_fresh s /\ hand_target hd < s_fresh s.
Proof. intros H. apply (f_hands _ (g_f _ _ H)). Qed.

(** A state from its parts. *)
Lemma mk_good s hm f P : hinv s hm -> (forall u, is_Some (s_trees s !! u) -> tree_held s hm u \/ P u) -> finv s ->
  (forall i hd, hm !! i = Some hd -> i < f /\ hand_target hd < f) -> s_fresh s <= f -> good (mkSys (s_nodes s) (s_trees s) hm f) P.
Proof.
  intros [A B C D E] Hk [F1 F2 F3 F4] Hhm Hf. split.
  - split; done.
  - split; simpl.
    + intros x Hx. specialize (F1 x Hx). lia.
    + intros t Ht. specialize (F2 t Ht). lia.
    + done.
    + intros x t Ht. specialize (F4 x t Ht). lia.
  - exact Hk.
Qed.
Lemma framed_evolves s s1 hm f : framed s s1 -> s_fresh s <= f -> evolves s (mkSys (s_nodes s1) (s_trees s1) hm f).
Proof.
  intros F Hf. split; simpl; [done| |].
  - intros y _ _. unfold payload. simpl. apply (memonly_payload s s1 y). apply F.
  - intros t _. apply (framed_tree_alive _ _ _ F).
Qed.

Lemma add_hand_good s s1 hd P : good s P -> framed s s1 -> hinv s1 (<[s_fresh s := hd]> (s_hands s)) -> hand_target hd < s_fresh s ->
  good (add_hand s1 hd) P /\ evolves s (add_hand s1 hd) /\ s_hands (add_hand s1 hd) = <[s_fresh s := hd]> (s_hands s) /\ s_fresh (add_hand s1 hd) = S (s_fresh s).
Proof.
  intros H F Hh Hhd. pose proof (good_fresh _ _ H) as Hfr. unfold add_hand. rewrite (fr_hands _ _ F), (fr_fresh _ _ F). split; [|split; [|done]].
  - apply (mk_good s1).
    + done.
    + intros t Ht. rewrite (framed_held _ _ _ _ F). destruct (g_k _ _ H t) as [A|A]; [by apply (framed_tree_alive _ _ _ F)| |by right].
      left. eapply tree_held_mono; [by apply SysFacts4.insert_mono|done].
    + eapply framed_finv; [apply H|done].
    + intros i hd1. simpl. rewrite insert_hand_iff by done. intros [[-> ->]|Hi]; [lia|]. apply (good_hand_lt _ _ _ _ H) in Hi. lia.
    + rewrite (fr_fresh _ _ F). lia.
  - apply (framed_evolves s s1); [done|lia].
Qed.

Lemma add_inert_good s hd P : good s P -> counted hd = false -> (forall t, hd = HTree t -> is_Some (s_trees s !! t)) -> hand_target hd < s_fresh s ->
  good (add_hand s hd) P /\ evolves s (add_hand s hd) /\ s_hands (add_hand s hd) = <[s_fresh s := hd]> (s_hands s) /\ s_fresh (add_hand s hd) = S (s_fresh s).
Proof.
  intros H Hc Ht Hl. apply add_hand_good; [done|apply framed_refl| |done]. pose proof (good_fresh _ _ H) as Hfr.
  eapply hinv_uncounted; [apply H|..].
  - intros i hd1 Hc1. rewrite insert_hand_iff by done. split; [|by right]. intros [[_ ->]|?]; [congruence|done].
  - intros i t. rewrite insert_hand_iff by done. intros [[_ E]|Hi]; [by apply Ht|]. by eapply (h_tree _ _ (g_h _ _ H)).
Qed.

(** What an attempt to create a handle on a node says about the node. *)
Lemma incr_ref_inv s x s1 : incr_ref s x = Some s1 -> hinv s (s_hands s) -> exists t, is_Some (s_nodes s !! x) /\ tree_of s x = Some t /\ is_Some (s_trees s !! t).
Proof.
  intros E H. unfold incr_ref in E. destruct (n_memb s x) as [m|] eqn:Em; [|discriminate].
  assert (is_Some (s_nodes s !! x)) as Hx by (by eapply n_memb_alive). unfold tree_of. rewrite Em. destruct m as [[t|]|t rc lk].
  - unfold tree_alive in E. case_bool_decide; [|discriminate]. eauto.
  - discriminate.
  - destruct (h_strong _ _ H _ _ _ _ Em) as (A & _). eauto.
Qed.
Lemma new_node_hand_good s k x s' i P : good s P -> new_node_hand s k x = Ret (s', i) ->
  good s' P /\ evolves s s' /\ i = s_fresh s /\ s_hands s' = <[s_fresh s := HNode k x]> (s_hands s) /\ s_fresh s' = S (s_fresh s).
Proof.
  intros H E. pose proof (good_fresh _ _ H) as Hfr. unfold new_node_hand in E. destruct (incr_ref s x) as [s1|] eqn:E1; [|discriminate].
  destruct (incr_ref_inv _ _ _ E1 (g_h _ _ H)) as (t & Hx & Ht & Hta).
  destruct (incr_ref_ok s (s_hands s) (s_fresh s) x t (g_h _ _ H) Hfr Hx Ht Hta) as (s1' & rc & lk & E1' & _ & Hh1 & F1). assert (s1' = s1) as -> by congruence. clear E1'.
  assert (x < s_fresh s) as Hxf by (by apply (f_nodes _ (g_f _ _ H))).
  destruct (decide (k = Plain)) as [->|Hkp].
  { unfold acquire_expect, acquire in E. cbn [mbind run_bind] in E. injection E as <- <-.
    destruct (add_hand_good s s1 (HNode Plain x) P H F1 Hh1 Hxf) as (A & B & C & D). split; [exact A|]. split; [exact B|]. rewrite (fr_fresh _ _ F1). split; [done|]. done. }
  destruct (acquire_ok s1 (<[s_fresh s := HNode Plain x]> (s_hands s)) (s_fresh s) k x t Hh1) as [(_ & s2 & E2 & Hh2 & F2)|(n & Hn & E2)].
  - by rewrite lookup_insert.
  - done.
  - by rewrite (fr_tree _ _ F1).
  - unfold acquire_expect in E. rewrite E2 in E. cbn [mbind run_bind] in E. injection E as <- <-. pose proof (framed_trans _ _ _ F1 F2) as F. rewrite insert_insert in Hh2.
    destruct (add_hand_good s s2 (HNode k x) P H F Hh2 Hxf) as (A & B & C & D). split; [exact A|]. split; [exact B|]. rewrite (fr_fresh _ _ F). split; [done|]. done.
  - unfold acquire_expect in E. rewrite E2 in E. cbn [mbind run_bind] in E. discriminate.
Qed.

Lemma handle_excl_h s hm i k x t : hinv s hm -> hm !! i = Some (HNode k x) -> k <> Plain -> tree_of s x = Some t -> holders s hm (opp k) t 0.
Proof.
  intros H Hi Hk Ht. destruct (hinv_handle_strong _ _ _ _ _ H Hi) as (t1 & rc & lk & Hm & [tr Htr] & _ & _ & E).
  assert (t1 = t) as -> by congruence.
  eapply lock_ok_excl; [exact (h_lock _ _ H _ _ Htr)|done|]. right. exists x. split_and!; eauto.
Qed.
Lemma token_excl_h s hm i k t : hinv s hm -> hm !! i = Some (token k t) -> k <> Plain -> is_Some (s_trees s !! t) -> holders s hm (opp k) t 0.
Proof.
  intros H Hi Hk [tr Htr].
  eapply lock_ok_excl; [exact (h_lock _ _ H _ _ Htr)|done|]. left. exists i. done.
Qed.
Lemma clone_node_new_h s hm i k x : hinv s hm -> hm !! i = Some (HNode k x) -> clone_node s k x = new_node_hand s k x.
Proof.
  intros H Hi. destruct (hinv_handle_strong _ _ _ _ _ H Hi) as (t & rc & lk & Hm & [tr Htr] & C1 & C2 & Ht).
  assert (is_Some (s_nodes s !! x)) as Hx by (by eapply n_memb_alive).
  unfold clone_node, new_node_hand, incr_ref. rewrite Hm. destruct (decide (k = Plain)) as [->|Hk].
  { unfold incr_nonzero_ref, acquire_expect, acquire. cbn [mbind run_bind]. by rewrite Hm. }
  assert (exists lk', lk = S lk') as [lk' ->].
  { destruct lk; [|eauto]. exfalso. apply (card_0 _ C2 i). by exists k. }
  assert (Hexp : forall A (a b : A), match k with Plain => a | _ => b end = b) by (by destruct k).
  rewrite Hexp. unfold incr_nonzero_lock. rewrite Hm. cbn [mbind run_bind]. unfold incr_nonzero_ref.
  rewrite n_memb_put by done. rewrite decide_True by done. cbn [mbind run_bind]. rewrite put_mem_twice.
  unfold acquire_expect, acquire. rewrite Hexp. rewrite n_memb_put by done. rewrite decide_True by done.
  simpl s_trees. rewrite Htr. pose proof (handle_excl_h _ _ _ _ _ _ H Hi Hk Ht) as H0.
  destruct (h_lock _ _ H _ _ Htr) as (g & p & Hg & Hp & Hc & Hz).
  assert ((match k with Hot => (0 <=? t_cnt tr)%Z | _ => (t_cnt tr <=? 0)%Z end) = true) as ->.
  { destruct k; [done|..]; simpl in H0.
    - pose proof (holders_unique _ _ _ _ _ _ H0 Hp). apply Z.leb_le. lia.
    - pose proof (holders_unique _ _ _ _ _ _ H0 Hg). apply Z.leb_le. lia. }
  cbn [mbind run_bind]. rewrite put_mem_twice. done.
Qed.

(** Exchanging a plain handle for a locking one. *)
Lemma exchange_good s i k x t s1 : ok s -> s_hands s !! i = Some (HNode Plain x) -> tree_of s x = Some t ->
  hinv s1 (<[i := HNode k x]> (s_hands s)) -> framed s s1 ->
  ok (add_hand (del_hand s1 i) (HNode k x)) /\ evolves s (add_hand (del_hand s1 i) (HNode k x)) /\
  s_hands (add_hand (del_hand s1 i) (HNode k x)) = <[s_fresh s := HNode k x]> (delete i (s_hands s)).
Proof.
  intros H Hi Ht Hh F. pose proof (good_fresh _ _ H) as Hfr.
  assert (i <> s_fresh s) as Hne by (intros ->; congruence).
  assert (x < s_fresh s) as Hx. { by apply (good_hand_lt _ _ _ _ H Hi). }
  unfold add_hand, del_hand, with_hands, with_fresh. simpl.
  rewrite (fr_hands _ _ F), (fr_fresh _ _ F). split; [|split; [apply (framed_evolves s s1); [done|lia]|done]].
  apply (mk_good s1).
  - rewrite <-(delete_insert_delete (s_hands s) i (HNode k x)). eapply hinv_rename; [done|by rewrite lookup_insert|by rewrite lookup_insert_ne].
  - intros u Hu. rewrite (framed_held _ _ _ _ F). apply (framed_tree_alive _ _ _ F) in Hu. left.
    destruct (g_k _ _ H u Hu) as [[(j & Hj)|(j & k1 & y & Hj & Hy)]|[]].
    + left. exists j. rewrite lookup_insert_ne; [rewrite lookup_delete_ne; [done|]|]; intros <-; congruence.
    + right. destruct (decide (j = i)) as [->|].
      * exists (s_fresh s), k, x. rewrite lookup_insert. split; [done|]. congruence.
      * exists j, k1, y. rewrite lookup_insert_ne; [by rewrite lookup_delete_ne|]. intros <-. congruence.
  - eapply framed_finv; [apply H|done].
  - intros j hd. destruct (decide (j = s_fresh s)) as [->|].
    + rewrite lookup_insert. intros [= <-]. simpl. lia.
    + rewrite lookup_insert_ne by done. rewrite lookup_delete_Some. intros [_ Hj].
      destruct (good_hand_lt _ _ _ _ H Hj). lia.
  - rewrite (fr_fresh _ _ F). lia.
Qed.

(** Dropping a token or a weak handle. *)
Lemma del_hand_good s s1 i : ok s -> framed s s1 -> hinv s1 (delete i (s_hands s)) ->
  (forall k x, s_hands s !! i <> Some (HNode k x)) -> (forall t, s_hands s !! i <> Some (HTree t)) ->
  ok (del_hand s1 i) /\ evolves s (del_hand s1 i) /\ s_hands (del_hand s1 i) = delete i (s_hands s).
Proof.
  intros H F Hh Hn Ht. unfold del_hand, with_hands. rewrite (fr_hands _ _ F), (fr_fresh _ _ F). split; [|split; [by apply (framed_evolves s s1)|done]].
  apply (mk_good s1).
  - done.
  - intros u Hu. rewrite (framed_held _ _ _ _ F). apply (framed_tree_alive _ _ _ F) in Hu. left.
    destruct (g_k _ _ H u Hu) as [[(j & Hj)|(j & k1 & y & Hj & Hy)]|[]].
    + left. exists j. rewrite lookup_delete_ne; [done|]. intros <-. by apply Ht in Hj.
    + right. exists j, k1, y. rewrite lookup_delete_ne; [done|]. intros <-. by apply Hn in Hj.
  - eapply framed_finv; [apply H|done].
  - intros j hd. rewrite lookup_delete_Some. intros [_ Hj]. by apply (good_hand_lt _ _ _ _ H).
  - by rewrite (fr_fresh _ _ F).
Qed.
Lemma drop_token_good s k t i s' : ok s -> s_hands s !! i = Some (token k t) -> k <> Plain -> drop_token s k t i = Ret s' ->
  ok s' /\ evolves s s' /\ s_hands s' = delete i (s_hands s).
Proof.
  intros H Hi Hk. unfold drop_token, tree_alive.
  assert (forall k0 x, s_hands s !! i <> Some (HNode k0 x)) as Hn by (intros k0 x E; rewrite Hi in E; by destruct k).
  assert (forall t0, s_hands s !! i <> Some (HTree t0)) as Ht by (intros t0 E; rewrite Hi in E; by destruct k).
  case_bool_decide as Hta.
  - destruct (unlock_tree_ok s (s_hands s) i k t (g_h _ _ H) Hi Hk Hta) as (s1 & E & Hh & F). rewrite E. cbn [mbind run_bind]. intros [= <-]. by apply del_hand_good.
  - cbn [mbind run_bind]. intros [= <-]. apply del_hand_good; [done|apply framed_refl| |done|done]. eapply hinv_inert; [apply H|].
    intros j hd1 Hc. rewrite lookup_delete_Some. split; [tauto|]. intros Hj. split; [|done]. intros <-. rewrite Hi in Hj. injection Hj as <-. apply Hc.
    assert (s_trees s !! t = None) as E by (destruct (s_trees s !! t); [exfalso; eauto|done]). by destruct k.
Qed.
Lemma drop_weak_good s i hd : ok s -> s_hands s !! i = Some hd -> (exists x, hd = HNodeWeak x) \/ (exists t, hd = HTreeWeak t) ->
  ok (del_hand s i) /\ evolves s (del_hand s i) /\ s_hands (del_hand s i) = delete i (s_hands s).
Proof.
  intros H Hi Hw. apply del_hand_good; [done|apply framed_refl| | |].
  - eapply hinv_inert; [apply H|]. intros j hd1 Hc. rewrite lookup_delete_Some. split; [tauto|]. intros Hj. split; [|done]. intros <-. rewrite Hi in Hj. injection Hj as <-. apply Hc.
    by destruct Hw as [[? ->]|[? ->]].
  - intros k x E. rewrite Hi in E. destruct Hw as [[? ->]|[? ->]]; discriminate.
  - intros x E. rewrite Hi in E. destruct Hw as [[? ->]|[? ->]]; discriminate.
Qed.

(** Dropping a tree handle. *)
Lemma drop_tree_hand_good s i t s' : ok s -> s_hands s !! i = Some (HTree t) -> drop_tree_if_dead [] [] (del_hand s i) t = Ret s' ->
  ok s' /\ evolves s s' /\ s_hands s' = delete i (s_hands s).
Proof.
  intros H Hi E. assert (good (del_hand s i) (fun u => u = t \/ False)) as G.
  { apply (mk_good s).
    - eapply hinv_uncounted; [apply H|..].
      + intros j hd Hc. rewrite lookup_delete_Some. split; [tauto|]. intros Hj. split; [|done]. intros <-. rewrite Hi in Hj. by injection Hj as <-.
      + intros j u. rewrite lookup_delete_Some. intros [_ Hj]. by eapply (h_tree _ _ (g_h _ _ H)).
    - intros u Hu. destruct (decide (u = t)) as [->|Hne]; [right; by left|left]. destruct (g_k _ _ H u Hu) as [[(j & Hj)|(j & k1 & y & Hj & Hy)]|[]].
      + left. exists j. rewrite lookup_delete_ne; [done|]. intros <-. congruence.
      + right. exists j, k1, y. rewrite lookup_delete_ne; [done|]. intros <-. congruence.
    - apply H.
    - intros j hd. rewrite lookup_delete_Some. intros [_ Hj]. by apply (good_hand_lt _ _ _ _ H).
    - done. }
  destruct (drop_tree_kept [] [] (del_hand s i) t s' (fun _ => False) (g_h _ _ G)) as [W K'].
  - intros u Hu. by apply elem_of_nil in Hu.
  - exact (g_k _ _ G).
  - exact E.
  - split; [|split].
    + split; [exact (swept_hinv _ _ (g_h _ _ G) W)|exact (swept_finv _ _ (g_f _ _ G) W)|exact K'].
    + eapply evolves_trans; [|exact (swept_evolves _ _ W)]. by apply (framed_evolves s s); [apply framed_refl|].
    + by rewrite (sw_hands _ _ W).
Qed.

(** Dropping a node handle. *)
Lemma drop_link_good s hm i x s' : hinv s hm -> hm !! i = Some (HNode Plain x) -> delete i (s_hands s) = delete i hm ->
  (forall u, is_Some (s_trees s !! u) -> tree_held s hm u) -> finv s -> drop_link s i x = Ret s' ->
  ok s' /\ evolves s s' /\ s_hands s' = delete i (s_hands s) /\ s_fresh s' = s_fresh s.
Proof.
  intros Hh Hi Ehm Hheld Hf.
  destruct (hinv_handle_strong _ _ _ _ _ Hh Hi) as (t & rc & lk & Hm & _ & C1 & C2 & Ht).
  destruct (decr_mem_ok _ _ _ _ _ _ _ Hh Hi Hm) as (Hlk & Hh1 & F1).
  set (m := match rc with 0 => MWeak (Some t) | S _ => MStrong t rc lk end) in *.
  set (s1 := put_mem (del_hand s i) x m).
  assert (hinv s1 (s_hands s1)) as Hh1'.
  { unfold s1. simpl. rewrite Ehm. destruct Hh1 as [A1 A2 A3 A4 A5]. split; done. }
  assert (finv s1) as Hf1.
  { destruct (framed_finv _ _ Hf F1) as [A B C D]. split; try done.
    intros j hd Hj. unfold s1 in Hj. simpl in Hj. apply lookup_delete_Some in Hj as [_ Hj]. by apply C. }
  assert (forall u, tree_held s1 (s_hands s1) u <-> tree_held s (delete i hm) u) as Hth.
  { intros u. change (s_hands s1) with (delete i (s_hands s)). rewrite Ehm. unfold tree_held. change (tree_of s1) with (tree_of (put_mem s x m)). setoid_rewrite (fr_tree _ _ F1). done. }
  assert (kept s1 (fun u => u = t \/ False)) as Hk1.
  { intros u Hus. destruct (decide (u = t)) as [->|Hu]; [right; by left|left]. apply Hth. destruct (Hheld u Hus) as [(j & Hj)|(j & k & y & Hj & Hy)].
    - left. exists j. rewrite lookup_delete_ne; [done|]. intros <-. congruence.
    - right. exists j, k, y. rewrite lookup_delete_ne; [done|]. intros <-. rewrite Hi in Hj. simplify_eq. }
  assert (evolves s s1) as Ev1. { exact (framed_evolves s (put_mem s x m) (delete i (s_hands s)) (s_fresh s) F1 (le_n _)). }
  assert (forall s2, swept s1 s2 -> kept s2 (fun _ => False) -> release_all s2 [] x = Ret s' -> ok s' /\ evolves s s' /\ s_hands s' = delete i (s_hands s) /\ s_fresh s' = s_fresh s) as Hfin.
  { intros s2 W2 K2 E. pose proof (release_all_swept _ _ _ _ E) as W3. assert (ok s2) as G2.
    { split; [exact (swept_hinv _ _ Hh1' W2)|exact (swept_finv _ _ Hf1 W2)|exact K2]. }
    split; [exact (swept_good _ _ _ G2 W3)|]. pose proof (swept_trans _ _ _ W2 W3) as W. split; [eapply evolves_trans; [exact Ev1|exact (swept_evolves _ _ W)]|].
    rewrite (sw_hands _ _ W), (sw_fresh _ _ W). done. }
  unfold drop_link, decr_ref. change (n_memb (del_hand s i) x) with (n_memb s x). rewrite Hm. destruct rc as [|rc].
  - rewrite (Hlk eq_refl). simpl Nat.eqb. cbn [assertb mbind run_bind].
    change (put_mem (del_hand s i) x (MWeak (Some t))) with s1. destruct (drop_tree_if_dead [x] [] s1 t) as [s2| |] eqn:E2; cbn [mbind run_bind]; [|discriminate|discriminate].
    destruct (drop_tree_kept [x] [] s1 t s2 (fun _ => False) Hh1') as [W2 K2]; [intros u Hu; by apply elem_of_nil in Hu|exact Hk1|exact E2|]. by apply Hfin.
  - cbn [mbind run_bind]. change (put_mem (del_hand s i) x (MStrong t (S rc) lk)) with s1. apply Hfin; [apply swept_refl|].
    intros u Hu. left. destruct (Hk1 u Hu) as [A|[->|[]]]; [exact A|]. apply Hth.
    assert (card (node_handle (delete i hm) x) (S rc)) as Hc.
    { destruct (h_strong _ _ Hh1 x t (S rc) lk) as (_ & _ & Hc & _); [|done]. rewrite n_memb_put by (by eapply n_memb_alive). by rewrite decide_True. }
    destruct (card_S _ _ Hc) as (j & k & Hj). right. exists j, k, x. done.
Qed.
Lemma drop_node_good s i k x s' : ok s -> s_hands s !! i = Some (HNode k x) -> drop_node s i k x = Ret s' ->
  ok s' /\ evolves s s' /\ s_hands s' = delete i (s_hands s) /\ s_fresh s' = s_fresh s.
Proof.
  intros H Hi E. unfold drop_node in E. destruct (decide (k = Plain)) as [->|Hk].
  - cbn [mbind run_bind] in E. eapply drop_link_good; [apply H|exact Hi|done| |apply H|exact E].
    intros u Hu. destruct (g_k _ _ H u Hu) as [A|[]]. exact A.
  - destruct (decr_lock_ok _ _ _ _ _ (g_h _ _ H) Hi Hk) as (s1 & E1 & Hh1 & F1).
    rewrite (match k as k0 return k0 <> Plain -> (match k0 with Plain => Ret s | _ => decr_lock s x end) = decr_lock s x with Plain => fun F => match F eq_refl with end | _ => fun _ => eq_refl end Hk) in E.
    rewrite E1 in E. cbn [mbind run_bind] in E.
    destruct (drop_link_good s1 (<[i := HNode Plain x]> (s_hands s)) i x s' Hh1) as (A & B & C & D).
    + by rewrite lookup_insert.
    + rewrite (fr_hands _ _ F1). by rewrite delete_insert_delete.
    + intros u Hu. rewrite (framed_held _ _ _ _ F1). apply (framed_tree_alive _ _ _ F1) in Hu. destruct (g_k _ _ H u Hu) as [[(j & Hj)|(j & k1 & y & Hj & Hy)]|[]].
      * left. exists j. rewrite lookup_insert_ne; [done|]. intros <-. congruence.
      * right. destruct (decide (j = i)) as [->|]; [exists i, Plain, x; rewrite lookup_insert; split; [done|congruence]|]. exists j, k1, y. by rewrite lookup_insert_ne.
    + eapply framed_finv; [apply H|done].
    + exact E.
    + split; [exact A|]. split; [|by rewrite C, D, (fr_hands _ _ F1), (fr_fresh _ _ F1)].
      eapply evolves_trans; [|exact B]. pose proof (framed_evolves s s1 (s_hands s1) (s_fresh s1) F1 (Nat.eq_le_incl _ _ (eq_sym (fr_fresh _ _ F1)))) as X. by destruct s1.
Qed.
End GenFacts3.
