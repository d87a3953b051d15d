(** * SysFacts: reference counts and locks. *)
From Verif Require Import Heap System SysSpec CardFacts HeapFacts SpecFacts NavFacts EditFacts3 Spec.

Section SysFacts.
Context {T : Type}.
Implicit Types (h : heap T) (s : sys T) (hm : gmap nat handle).

(** ** Frames *)
Definition links (nd : node T) := (n_data nd, n_lend nd, n_parent nd, n_first nd, n_next nd, n_prev nd, n_nch nd).
Definition memonly h h' : Prop := forall x : nid, links <$> h' !! x = links <$> h !! x.

Lemma memonly_fields h h' x : memonly h h' ->
  fparent h' x = fparent h x /\ ffirst h' x = ffirst h x /\ fnext h' x = fnext h x /\
  fprev h' x = fprev h x /\ fnch h' x = fnch h x /\ (is_Some (h' !! x) <-> is_Some (h !! x)).
Proof.
  intros H. specialize (H x). unfold fparent, ffirst, fnext, fprev, fnch.
  destruct (h' !! x) as [a|], (h !! x) as [b|]; simpl in *; try discriminate H.
  - unfold links in H. simplify_eq. split_and!; try congruence. split; eauto.
  - split_and!; try done.
Qed.

Lemma rep_memonly h h' K : rep h K -> memonly h h' -> rep h' K.
Proof.
  intros Hr H. split.
  - intros x. destruct (memonly_fields _ _ x H) as (_ & _ & _ & _ & _ & ->). apply (rep_dom _ _ Hr).
  - intros x ks Hx. destruct (memonly_fields _ _ x H) as (_ & -> & _). by apply (rep_first _ _ Hr).
  - intros x ks Hx. destruct (memonly_fields _ _ x H) as (_ & _ & _ & _ & -> & _). by apply (rep_nch _ _ Hr).
  - intros x ks Hx i c Hc. destruct (memonly_fields _ _ c H) as (-> & _ & -> & -> & _). by apply (rep_linked _ _ Hr _ _ Hx).
  - intros x Hx. destruct (memonly_fields _ _ x H) as (-> & _ & -> & -> & _). by apply (rep_top _ _ Hr).
Qed.

Record framed s s' : Prop := {
  fr_mem : memonly (s_nodes s) (s_nodes s');
  fr_tree : forall x, tree_of s' x = tree_of s x;
  fr_root : forall t : tid, t_root <$> s_trees s' !! t = t_root <$> s_trees s !! t;
  fr_hands : s_hands s' = s_hands s;
  fr_fresh : s_fresh s' = s_fresh s;
}.

Lemma framed_refl s : framed s s.
Proof. by split. Qed.
Lemma framed_trans s1 s2 s3 : framed s1 s2 -> framed s2 s3 -> framed s1 s3.
Proof.
  intros [A1 A2 A3 A4 A5] [B1 B2 B3 B4 B5]. split.
  - intros x. by rewrite B1, A1.
  - intros x. by rewrite B2, A2.
  - intros t. by rewrite B3, A3.
  - congruence.
  - congruence.
Qed.

Lemma framed_alive s s' x : framed s s' -> (is_Some (s_nodes s' !! x) <-> is_Some (s_nodes s !! x)).
Proof. intros F. apply (memonly_fields _ _ x (fr_mem _ _ F)). Qed.
Lemma framed_tree_alive s s' t : framed s s' -> (is_Some (s_trees s' !! t) <-> is_Some (s_trees s !! t)).
Proof. intros F. pose proof (fr_root _ _ F t) as E. destruct (s_trees s' !! t), (s_trees s !! t); try discriminate E; split; eauto; intros [? ?]; done. Qed.

Lemma framed_sinv s s' K : sinv s K -> framed s s' -> sinv s' K.
Proof.
  intros [H1 H2 H3 H4 H5] F. split.
  - eapply rep_memonly; [done|apply F].
  - done.
  - intros p c Hc. rewrite !(fr_tree _ _ F). by apply H3.
  - intros x Hx. destruct (H4 x Hx) as (t & tr & A1 & A2 & A3).
    pose proof (fr_root _ _ F t) as E. rewrite A2 in E. destruct (s_trees s' !! t) as [tr'|] eqn:Et; [|done].
    simpl in E. exists t, tr'. rewrite (fr_tree _ _ F). split_and!; congruence.
  - intros t tr Ht. pose proof (fr_root _ _ F t) as E. rewrite Ht in E. destruct (s_trees s !! t) as [tr0|] eqn:Et; [|done].
    simpl in E. simplify_eq. rewrite (fr_tree _ _ F), E. by apply H5.
Qed.

Lemma framed_held s s' hm t : framed s s' -> (tree_held s' hm t <-> tree_held s hm t).
Proof. intros F. unfold tree_held. by setoid_rewrite (fr_tree _ _ F). Qed.

Lemma framed_finv s s' : finv s -> framed s s' -> finv s'.
Proof.
  intros [H1 H2 H3 H4] F. rewrite <-(fr_fresh _ _ F) in *. split.
  - intros x. rewrite (framed_alive _ _ x F). apply H1.
  - intros t. rewrite (framed_tree_alive _ _ t F). apply H2.
  - intros i hd. rewrite (fr_hands _ _ F). apply H3.
  - intros x t. rewrite (fr_tree _ _ F). apply H4.
Qed.

(** ** Elementary updates *)
Lemma n_memb_put s x m y : is_Some (s_nodes s !! x) ->
  n_memb (put_mem s x m) y = if decide (y = x) then Some m else n_memb s y.
Proof.
  intros [nd Hx]. unfold n_memb, put_mem, set_mem. simpl. destruct (decide (y = x)) as [->|].
  - rewrite lookup_alter, Hx. done.
  - by rewrite lookup_alter_ne.
Qed.

Lemma n_memb_alive s x m : n_memb s x = Some m -> is_Some (s_nodes s !! x).
Proof. unfold n_memb. destruct (s_nodes s !! x); [eauto|done]. Qed.
Lemma alive_n_memb s x : is_Some (s_nodes s !! x) -> exists m, n_memb s x = Some m.
Proof. intros [nd H]. unfold n_memb. rewrite H. simpl. eauto. Qed.

Lemma memonly_set_mem h x m : memonly h (set_mem h x m).
Proof.
  intros y. unfold set_mem. destruct (decide (x = y)) as [->|].
  - rewrite lookup_alter. by destruct (h !! y).
  - by rewrite lookup_alter_ne.
Qed.

Lemma put_mem_framed s x m0 m : n_memb s x = Some m0 ->
  match m with MStrong t _ _ => Some t | MWeak o => o end = match m0 with MStrong t _ _ => Some t | MWeak o => o end ->
  framed s (put_mem s x m).
Proof.
  intros Hx E. split; try done.
  - apply memonly_set_mem.
  - intros y. unfold tree_of. rewrite n_memb_put by (by eapply n_memb_alive).
    destruct (decide (y = x)) as [->|]; [|done]. by rewrite Hx.
Qed.

Lemma put_cnt_framed s t z : framed s (put_cnt s t z).
Proof.
  split; try done.
  - intros u. simpl. destruct (decide (t = u)) as [->|].
    + rewrite lookup_alter. by destruct (s_trees s !! u).
    + by rewrite lookup_alter_ne.
Qed.

(** ** Handle-map updates *)
Definition opp (k : kind) : kind := match k with Hot => Frozen | Frozen => Hot | Plain => Plain end.

Lemma holders_ext s s' hm hm' k t n : holders s hm k t n ->
  (forall i, token_holder hm k t i <-> token_holder hm' k t i) ->
  (forall x, node_holder s hm k t x <-> node_holder s' hm' k t x) -> holders s' hm' k t n.
Proof. intros (a & b & H1 & H2 & ->) E1 E2. exists a, b. split_and!; [by eapply card_ext|by eapply card_ext|done]. Qed.

Lemma holders_unique s hm k t n m : holders s hm k t n -> holders s hm k t m -> n = m.
Proof. intros (a & b & H1 & H2 & ->) (a' & b' & H1' & H2' & ->). by rewrite (card_unique _ _ _ H1 H1'), (card_unique _ _ _ H2 H2'). Qed.

Lemma holders_pos_node s hm k t n x : holders s hm k t n -> node_holder s hm k t x -> 0 < n.
Proof. intros (a & b & _ & H & ->) Hx. pose proof (card_pos _ _ _ H Hx). lia. Qed.
Lemma holders_pos_token s hm k t n i : holders s hm k t n -> token_holder hm k t i -> 0 < n.
Proof. intros (a & b & H & _ & ->) Hx. pose proof (card_pos _ _ _ H Hx). lia. Qed.
Lemma holders_0 s hm k t : holders s hm k t 0 -> (forall i, ~ token_holder hm k t i) /\ (forall x, ~ node_holder s hm k t x).
Proof. intros (a & b & H1 & H2 & E). destruct a, b; try lia. split; by apply card_0. Qed.
Lemma holders_S s hm k t n : holders s hm k t (S n) -> (exists i, token_holder hm k t i) \/ (exists x, node_holder s hm k t x).
Proof.
  intros (a & b & H1 & H2 & E). destruct a as [|a]; [|left; by eapply card_S]. destruct b as [|b]; [lia|].
  right. by eapply card_S.
Qed.

Lemma holders_add_node s s' hm hm' k t n x : holders s hm k t n -> ~ node_holder s hm k t x ->
  (forall i, token_holder hm k t i <-> token_holder hm' k t i) ->
  (forall y, node_holder s' hm' k t y <-> y = x \/ node_holder s hm k t y) -> holders s' hm' k t (S n).
Proof.
  intros (a & b & H1 & H2 & ->) Hx E1 E2. exists a, (S b). split_and!; [by eapply card_ext|by eapply card_add|lia].
Qed.
Lemma holders_remove_node s s' hm hm' k t n x : holders s hm k t n -> node_holder s hm k t x ->
  (forall i, token_holder hm k t i <-> token_holder hm' k t i) ->
  (forall y, node_holder s' hm' k t y <-> y <> x /\ node_holder s hm k t y) -> exists m, n = S m /\ holders s' hm' k t m.
Proof.
  intros (a & b & H1 & H2 & ->) Hx E1 E2. destruct (card_remove _ _ _ _ H2 Hx E2) as (m & -> & H3).
  exists (a + m). split; [lia|]. exists a, m. split_and!; [by eapply card_ext|done|done].
Qed.
Lemma holders_add_token s s' hm hm' k t n i : holders s hm k t n -> ~ token_holder hm k t i ->
  (forall j, token_holder hm' k t j <-> j = i \/ token_holder hm k t j) ->
  (forall x, node_holder s hm k t x <-> node_holder s' hm' k t x) -> holders s' hm' k t (S n).
Proof.
  intros (a & b & H1 & H2 & ->) Hx E1 E2. exists (S a), b. split_and!; [by eapply card_add|by eapply card_ext|lia].
Qed.
Lemma holders_remove_token s s' hm hm' k t n i : holders s hm k t n -> token_holder hm k t i ->
  (forall j, token_holder hm' k t j <-> j <> i /\ token_holder hm k t j) ->
  (forall x, node_holder s hm k t x <-> node_holder s' hm' k t x) -> exists m, n = S m /\ holders s' hm' k t m.
Proof.
  intros (a & b & H1 & H2 & ->) Hx E1 E2. destruct (card_remove _ _ _ _ H1 Hx E1) as (m & -> & H3).
  exists (m + b). split; [lia|]. exists m, b. split_and!; [done|by eapply card_ext|done].
Qed.

(** The part of [hinv] about locks, for all trees whose count and holders did not change. *)
Definition lock_ok s hm t tr : Prop :=
  exists g p, holders s hm Hot t g /\ holders s hm Frozen t p /\
    t_cnt tr = (Z.of_nat g - Z.of_nat p)%Z /\ (g = 0 \/ p = 0).

Lemma lock_ok_ext s s' hm hm' t tr : lock_ok s hm t tr ->
  (forall k i, token_holder hm k t i <-> token_holder hm' k t i) ->
  (forall k x, node_holder s hm k t x <-> node_holder s' hm' k t x) -> lock_ok s' hm' t tr.
Proof.
  intros (g & p & H1 & H2 & H3 & H4) E1 E2. exists g, p. split; [by eapply holders_ext|]. split; [by eapply holders_ext|]. done.
Qed.

(** A node with a handle has a strong membership. *)
Lemma hinv_handle_strong s hm i k x : hinv s hm -> hm !! i = Some (HNode k x) ->
  exists t rc lk, n_memb s x = Some (MStrong t (S rc) lk) /\ is_Some (s_trees s !! t) /\
    card (node_handle hm x) (S rc) /\ card (lock_handle hm x) lk /\ tree_of s x = Some t.
Proof.
  intros H Hi. destruct (alive_n_memb s x (h_node _ _ H _ _ _ Hi)) as [m Hm].
  destruct m as [o|t rc lk].
  - destruct (h_weak _ _ H _ _ Hm) as [_ Hn]. exfalso. apply (Hn i). by exists k.
  - destruct (h_strong _ _ H _ _ _ _ Hm) as (H1 & H2 & H3 & H4). destruct rc as [|rc]; [lia|].
    exists t, rc, lk. split_and!; try done. unfold tree_of. by rewrite Hm.
Qed.

(** Adding or removing handles that take no part in counting. *)
Definition counted (hd : handle) : bool :=
  match hd with HNode _ _ | HGrant _ | HProhib _ => true | _ => false end.

Lemma hinv_uncounted s hm hm' : hinv s hm ->
  (forall i hd, counted hd = true -> (hm' !! i = Some hd <-> hm !! i = Some hd)) ->
  (forall i t, hm' !! i = Some (HTree t) -> is_Some (s_trees s !! t)) -> hinv s hm'.
Proof.
  intros [H1 H2 H3 H4 H5] E Ht.
  assert (forall x i, node_handle hm x i <-> node_handle hm' x i) as N.
  { intros x i. unfold node_handle. split; intros (k & Hk); exists k; by apply E. }
  assert (forall x i, lock_handle hm x i <-> lock_handle hm' x i) as L.
  { intros x i. unfold lock_handle. split; intros (k & Hn & Hk); exists k; split; try done; by apply E. }
  split.
  - intros x o Hx. destruct (H1 _ _ Hx) as [A B]. split; [done|]. intros i. rewrite <-N. apply B.
  - intros x t rc lk Hx. destruct (H2 _ _ _ _ Hx) as (A & B & C & D). split_and!; [done|done|by eapply card_ext|by eapply card_ext].
  - intros i k x Hi. eapply H3. apply E; [|done]. done.
  - done.
  - intros t tr Htr. eapply lock_ok_ext; [by apply H5|..].
    + intros k i. unfold token_holder. rewrite E; [done|]. by destruct k.
    + intros k x. unfold node_holder. split; intros (A & B & i & C); (split_and!; [done|done|]); exists i; by apply E.
Qed.

(** ** Plain handles *)
Lemma insert_hand_iff hm i hd j hd' : hm !! i = None ->
  (<[i := hd]> hm !! j = Some hd' <-> (j = i /\ hd' = hd) \/ hm !! j = Some hd').
Proof. intros Hi. destruct (decide (j = i)) as [->|]; [rewrite lookup_insert|rewrite lookup_insert_ne by done]; naive_solver. Qed.

Lemma incr_ref_ok s hm i x t :
  hinv s hm -> hm !! i = None -> is_Some (s_nodes s !! x) -> tree_of s x = Some t -> is_Some (s_trees s !! t) ->
  exists s' rc lk, incr_ref s x = Some s' /\ s' = put_mem s x (MStrong t rc lk) /\ hinv s' (<[i := HNode Plain x]> hm) /\ framed s s'.
Proof.
  intros H Hi Hx Ht Hta. destruct (alive_n_memb s x Hx) as [m Hm].
  assert (forall rc lk, tree_of s x = Some t -> framed s (put_mem s x (MStrong t rc lk))) as HF.
  { intros rc lk Htx. eapply put_mem_framed; [done|]. unfold tree_of in Htx. rewrite Hm in Htx. destruct m; done. }
  assert (exists rc lk, incr_ref s x = Some (put_mem s x (MStrong t (S rc) lk)) /\
     card (node_handle hm x) rc /\ card (lock_handle hm x) lk) as (rc & lk & E & C1 & C2).
  { unfold incr_ref, tree_of in *. rewrite Hm in *. destruct m as [o|t0 rc lk].
    - subst o. unfold tree_alive. rewrite bool_decide_true by done. exists 0, 0. split; [done|].
      destruct (h_weak _ _ H _ _ Hm) as [_ Hn]. split; [by apply card_none|].
      apply card_none. intros j (k & _ & Hj). apply (Hn j). by exists k.
    - simplify_eq. destruct (h_strong _ _ H _ _ _ _ Hm) as (_ & _ & A & B). eauto. }
  exists (put_mem s x (MStrong t (S rc) lk)), (S rc), lk. split; [done|]. split; [done|].
  assert (forall y j, lock_handle (<[i := HNode Plain x]> hm) y j <-> lock_handle hm y j) as L.
  { intros y j. unfold lock_handle. setoid_rewrite (insert_hand_iff _ _ _ _ _ Hi). naive_solver. }
  assert (forall y j, node_handle (<[i := HNode Plain x]> hm) y j <-> (j = i /\ y = x) \/ node_handle hm y j) as N.
  { intros y j. unfold node_handle. setoid_rewrite (insert_hand_iff _ _ _ _ _ Hi). naive_solver. }
  split; [|by apply HF]. split.
  - intros y o. rewrite n_memb_put by done. destruct (decide (y = x)) as [->|Hne]; [done|]. intros Hy.
    destruct (h_weak _ _ H _ _ Hy) as [A B]. split; [done|]. intros j. rewrite N. naive_solver.
  - intros y t1 rc1 lk1. rewrite n_memb_put by done. destruct (decide (y = x)) as [->|Hne].
    + intros E1. simplify_eq. split_and!; [done|lia| |].
      * eapply (card_add _ _ _ i); [done| |].
        { intros (k & Hk). congruence. }
        intros j. rewrite N. naive_solver.
      * eapply card_ext; [done|]. intros j. by rewrite L.
    + intros Hy. destruct (h_strong _ _ H _ _ _ _ Hy) as (A & B & C & D). split_and!; [done|done| |].
      * eapply card_ext; [done|]. intros j. rewrite N. naive_solver.
      * eapply card_ext; [done|]. intros j. by rewrite L.
  - intros j k y. rewrite insert_hand_iff by done. rewrite (framed_alive s _ y (HF _ _ Ht)).
    intros [[-> [= -> ->]]|Hj]; [done|]. exact (h_node _ _ H _ _ _ Hj).
  - intros j u. rewrite insert_hand_iff by done. intros [[-> ?]|Hj]; [done|]. exact (h_tree _ _ H _ _ Hj).
  - intros u tr Hu. eapply lock_ok_ext; [by apply (h_lock _ _ H)|..].
    + intros k j. unfold token_holder. rewrite insert_hand_iff by done. split; [naive_solver|].
      intros [A [[_ B]|B]]; [|done]. by destruct k.
    + intros k y. unfold node_holder. rewrite (fr_tree _ _ (HF _ _ Ht)). setoid_rewrite (insert_hand_iff _ _ _ _ _ Hi). naive_solver.
Qed.

(** Removing a plain handle: the membership written by [decrement_tree_refcount]. *)
Lemma decr_mem_ok s hm i x t rc lk :
  hinv s hm -> hm !! i = Some (HNode Plain x) -> n_memb s x = Some (MStrong t (S rc) lk) ->
  (rc = 0 -> lk = 0) /\
  hinv (put_mem s x (match rc with 0 => MWeak (Some t) | S _ => MStrong t rc lk end)) (delete i hm) /\
  framed s (put_mem s x (match rc with 0 => MWeak (Some t) | S _ => MStrong t rc lk end)).
Proof.
  intros H Hi Hm. destruct (h_strong _ _ H _ _ _ _ Hm) as (Hta & _ & C1 & C2).
  assert (node_handle hm x i) as Hni by (by exists Plain).
  assert (forall y j, node_handle (delete i hm) y j <-> j <> i /\ node_handle hm y j) as N.
  { intros y j. unfold node_handle. destruct (decide (j = i)) as [->|].
    - rewrite lookup_delete. naive_solver.
    - rewrite lookup_delete_ne by done. naive_solver. }
  assert (forall y j, lock_handle (delete i hm) y j <-> lock_handle hm y j) as L.
  { intros y j. unfold lock_handle. destruct (decide (j = i)) as [->|].
    - rewrite lookup_delete, Hi. naive_solver.
    - by rewrite lookup_delete_ne. }
  destruct (card_remove _ (node_handle (delete i hm) x) _ _ C1 Hni (N x)) as (m & E & C1'). simplify_eq.
  assert (m = 0 -> lk = 0) as Hlk.
  { intros ->. destruct lk as [|lk]; [done|]. destruct (card_S _ _ C2) as (j & k & Hk & Hj).
    pose proof (card_0 _ C1' j) as E0. exfalso. apply E0, N. split; [|by exists k]. intros ->. rewrite Hi in Hj. simplify_eq. }
  split; [done|].
  assert (framed s (put_mem s x (match m with 0 => MWeak (Some t) | S _ => MStrong t m lk end))) as HF.
  { eapply put_mem_framed; [done|]. by destruct m. }
  split; [|done]. assert (is_Some (s_nodes s !! x)) as Hx by (by eapply n_memb_alive). split.
  - intros y o. rewrite n_memb_put by done. destruct (decide (y = x)) as [->|Hne].
    + destruct m; [|done]. intros E. simplify_eq. split; [eauto|]. by apply card_0.
    + intros Hy. destruct (h_weak _ _ H _ _ Hy) as [A B]. split; [done|]. intros j. rewrite N. naive_solver.
  - intros y t1 rc1 lk1. rewrite n_memb_put by done. destruct (decide (y = x)) as [->|Hne].
    + destruct m; [done|]. intros E. simplify_eq. split_and!; [done|lia|done|].
      eapply card_ext; [done|]. intros j. by rewrite L.
    + intros Hy. destruct (h_strong _ _ H _ _ _ _ Hy) as (A & B & C & D). split_and!; [done|done| |].
      * eapply card_ext; [done|]. intros j. rewrite N. split; [|naive_solver]. intros Hj. split; [|done].
        intros ->. destruct Hj as (k & Hk). congruence.
      * eapply card_ext; [done|]. intros j. by rewrite L.
  - intros j k y. rewrite lookup_delete_Some. intros [_ Hj]. rewrite (framed_alive s _ y HF). exact (h_node _ _ H _ _ _ Hj).
  - intros j u. rewrite lookup_delete_Some. intros [_ Hj]. exact (h_tree _ _ H _ _ Hj).
  - intros u tr Hu. eapply lock_ok_ext; [by apply (h_lock _ _ H)|..].
    + intros k j. unfold token_holder. rewrite lookup_delete_Some. split; [|naive_solver]. intros [A B]. split_and!; try done.
      intros ->. rewrite Hi in B. by destruct k.
    + intros k y. unfold node_holder. rewrite (fr_tree _ _ HF). split.
      * intros (A & B & j & C). split_and!; [done|done|]. exists j. rewrite lookup_delete_ne; [done|]. intros ->. congruence.
      * intros (A & B & j & C). split_and!; [done|done|]. exists j. rewrite lookup_delete_Some in C. tauto.
Qed.

End SysFacts.
