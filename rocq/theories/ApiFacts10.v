(** * ApiFacts10: further consequences for the property files. *)
From Verif Require Import Heap Edit System SysSpec CardFacts HeapFacts SpecFacts NavFacts NavFacts2 EditFacts EditFacts2 RoseFacts SysFacts SysFacts2 SysFacts3 SysFacts4 ApiSpec ApiFacts ApiFacts2 ApiFacts3 ApiFacts4 ApiFacts5 ApiFacts6 ApiFacts7 Spec.

Section ApiFacts10.
Context {T : Type}.
Implicit Types (s : sys T) (K : forest) (x y : nid) (t : tid).

Lemma handle_valid s K i k x : reach s -> stores s K -> s_hands s !! i = Some (HNode k x) ->
  is_Some (K !! x) /\ exists r, is_top K r /\ below K r x /\
    forall y, is_Some (K !! y) -> (tree_of s y = tree_of s x <-> below K r y).
Proof.
  intros H Hst Hi. destruct (handle_tree s K i k x H Hst Hi) as (t & _ & _ & _ & _ & _ & Hx). split; [exact Hx|].
  destruct (proj1 (same_tree_iff s K x x H Hst Hx Hx) eq_refl) as (r & Hr & Hb & _). exists r. split; [exact Hr|]. split; [exact Hb|].
  intros y Hy. rewrite (same_tree_iff s K y x H Hst Hy Hx). split.
  - intros (r' & Hr' & Hy' & Hx'). assert (r' = r) as -> by (eapply below_top_unique; [apply Hst|done..]). exact Hy'.
  - intros Hb'. exists r. done.
Qed.

Lemma all_dropped s : reach s ->
  (forall i, match s_hands s !! i with Some (HNode _ _) | Some (HTree _) => False | _ => True end) ->
  s_nodes s = ∅ /\ s_trees s = ∅.
Proof.
  intros H Hn. destruct (reach_stores s H) as [K Hst]. destruct (no_garbage s K H Hst) as [A B].
  assert (forall t, ~ is_Some (s_trees s !! t)) as Ht.
  { intros t Ht. destruct (B t Ht) as [[i Hi]|(i & k & x & Hi & _)]; specialize (Hn i); by rewrite Hi in Hn. }
  split; apply map_eq; intros x; rewrite lookup_empty.
  - destruct (s_nodes s !! x) eqn:E; [|done]. destruct (A x ltac:(eauto)) as (t & _ & C). by apply Ht in C.
  - destruct (s_trees s !! x) eqn:E; [|done]. exfalso. apply (Ht x). eauto.
Qed.

(** A node that appears was unknown before. *)
Lemma appears s K o s' r y : reach s -> stores s K -> safe s K o -> step s o = Ret (s', r) ->
  s_nodes s !! y = None -> is_Some (s_nodes s' !! y) -> unknown s y.
Proof.
  intros H Hst Hs E Hy Hy'.
  destruct (reach_safe_step s K o s' r H Hst Hs E) as [H' [[_ ->]|[_ Ef]]]; [rewrite Hy in Hy'; by destruct Hy'|].
  destruct (reach_stores s' H') as [K' Hst'].
  assert (writes_data o -> unknown s y) as Hwr.
  { intros Hw. destruct (data_alive s K o s' r K' H Hst E Hw Hst') as (-> & _).
    apply (stores_alive s' K y Hst') in Hy'. apply (stores_alive s K y Hst) in Hy'. rewrite Hy in Hy'. by destruct Hy'. }
  assert (handle_op o -> unknown s y) as Hho.
  { intros Ho. destruct (handle_frame s K o s' r K' y H Hst Ho E Hst' Hy') as (A & _).
    apply (stores_alive s' K' y Hst') in Hy'. rewrite A in Hy'. apply (stores_alive s K y Hst) in Hy'. rewrite Hy in Hy'. by destruct Hy'. }
  assert (s' = s -> unknown s y) as Hsame. { intros ->. rewrite Hy in Hy'. by destruct Hy'. }
  assert (forall K2 t n d k i, adds s s' K2 t n d k i -> unknown s y) as Had.
  { intros K2 t n d k i A. destruct (decide (y = n)) as [->|Hne]; [exact (ad_unknown _ _ _ _ _ _ _ _ A)|].
    exfalso. apply (alive_payload s s' y) in Hy'; [|exact (ad_payload_other _ _ _ _ _ _ _ _ A y Hne)]. rewrite Hy in Hy'. by destruct Hy'. }
  assert (forall K1 x t t' K2, carries s K1 x t t' s' K2 -> unknown s y) as Hcy.
  { intros K1 x t t' K2 C. exfalso. apply (alive_payload s s' y) in Hy'; [|exact (cy_payload _ _ _ _ _ _ _ C y Hy')]. rewrite Hy in Hy'. by destruct Hy'. }
  destruct o; try (apply Hho; exact Logic.I); try (apply Hwr; exact Logic.I); destruct Ef as [[]|[Ef|Ef]]; try (by destruct Ef); simpl in Ef.
  - destruct Ef as (n & t & i & _ & _ & Hu & _ & _ & _ & _ & _ & _ & _ & Ho & _).
    destruct (decide (y = n)) as [->|Hne]; [exact Hu|]. exfalso. apply (alive_payload s s' y) in Hy'; [|exact (proj1 (Ho y Hne))].
    rewrite Hy in Hy'. by destruct Hy'.
  - destruct Ef as (k & x & t & _ & _ & [(_ & n & i & K2 & _ & _ & A)|(_ & _ & En & _)]); [by eapply Had|].
    rewrite En, Hy in Hy'. by destruct Hy'.
  - destruct Ef as (k & x & t & n & i & _ & _ & _ & [[_ A]|(p & ks & _ & _ & A)]); by eapply Had.
  - destruct Ef as (k & x & t & n & i & ks & _ & _ & _ & _ & A). by eapply Had.
  - destruct Ef as (k & x & t & cs & _ & _ & _ & [(p & ks & t' & K2 & _ & _ & _ & Sp)|[(_ & c & t' & K2 & _ & _ & Sp & _)|[(_ & _ & _ & e)|(_ & _ & _ & e)]]]).
    + eapply Hcy. exact (sp_carries _ _ _ _ _ _ _ Sp).
    + eapply Hcy. exact (sp_carries _ _ _ _ _ _ _ Sp).
    + by apply Hsame.
    + by apply Hsame.
  - destruct Ef as (k & x & t & _ & _ & _ & [[_ e]|(K1 & t' & K2 & _ & Sp)]); [by apply Hsame|].
    eapply Hcy. exact (sp_carries _ _ _ _ _ _ _ Sp).
  - destruct Ef as (k & x & z & t & t' & _ & _ & _ & _ & _ & [(_ & _ & e)|[(_ & K2 & _ & R)|(_ & K1 & K2 & K3 & _ & C & _)]]); [by apply Hsame| |by eapply Hcy].
    exfalso. apply (alive_payload s s' y) in Hy'; [|exact (re_payload _ _ _ R y)]. rewrite Hy in Hy'. by destruct Hy'.
  - destruct Ef as (k & x & d & b & _ & _ & e & _). by apply Hsame.
Qed.

Lemma no_resurrection s s' K o r i x : reach s -> stores s K -> safe s K o -> step s o = Ret (s', r) ->
  s_hands s !! i = Some (HNodeWeak x) -> s_nodes s !! x = None -> s_nodes s' !! x = None.
Proof.
  intros H Hst Hs E Hi Hx. destruct (s_nodes s' !! x) eqn:En; [|done]. exfalso.
  apply (appears s K o s' r x H Hst Hs E Hx ltac:(eauto) i _ Hi). done.
Qed.

Lemma write_api s i k x d d' : reach s -> s_hands s !! i = Some (HNode k x) ->
  (payload s x = Some (d, Lent 0) ->
    exists s', step s (OpSet i d') = Ret (s', OutUnit) /\ payload s' x = Some (d', Lent 0) /\
      (forall y, y <> x -> payload s' y = payload s y) /\ (forall y, tree_of s' y = tree_of s y) /\
      (forall K, stores s K -> stores s' K) /\ s_hands s' = s_hands s /\ step s (OpGet i) = Ret (s, OutData d)) /\
  (forall n, payload s x = Some (d, Lent (S n)) ->
    step s (OpSet i d') = Ret (s, OutBorrowErr) /\ step s (OpGet i) = Ret (s, OutData d)) /\
  (payload s x = Some (d, LentMut) ->
    step s (OpSet i d') = Ret (s, OutBorrowErr) /\ step s (OpGet i) = Ret (s, OutBorrowErr)).
Proof.
  intros H Hi. destruct (reach_stores s H) as [K Hst].
  destruct (reach_effect s K (OpSet i d') H Hst ltac:(exact Logic.I)) as (s1 & r1 & E1 & R1 & Ef1); [by exists k, x|exact (fun F => F)|].
  destruct (reach_effect s K (OpGet i) H Hst ltac:(exact Logic.I)) as (s2 & r2 & E2 & R2 & Ef2); [by exists k, x|exact (fun F => F)|].
  destruct Ef1 as [[]|[(k1 & x1 & d1 & b1 & Hi1 & Hp1 & C1)|[]]]. destruct Ef2 as [[]|[(k2 & x2 & d2 & b2 & Hi2 & Hp2 & -> & C2)|[]]].
  assert (x1 = x) as -> by congruence. assert (x2 = x) as -> by congruence. split; [|split].
  - intros Hp. assert (b1 = Lent 0) as -> by congruence. assert (b2 = Lent 0) as -> by congruence. assert (d2 = d) as -> by congruence.
    destruct C1 as [(F & _)|(_ & -> & Hh & _ & Hk & Ht & Hpx & Hpo)]; [done|]. destruct C2 as [[F _]|[_ ->]]; [done|]. exists s1. split_and!; assumption.
  - intros n Hp. assert (b1 = Lent (S n)) as -> by congruence. assert (b2 = Lent (S n)) as -> by congruence. assert (d2 = d) as -> by congruence.
    destruct C1 as [(_ & -> & ->)|(F & _)]; [|done]. destruct C2 as [[F _]|[_ ->]]; [done|]. done.
  - intros Hp. assert (b1 = LentMut) as -> by congruence. assert (b2 = LentMut) as -> by congruence.
    destruct C1 as [(_ & -> & ->)|(F & _)]; [|done]. destruct C2 as [[_ ->]|[F _]]; [|done]. done.
Qed.

Lemma no_panic s K o : reach s -> stores s K -> safe s K o -> ~ must_panic s o -> exists s' r, step s o = Ret (s', r) /\ reach s'.
Proof.
  intros H Hst Hs Hp. destruct (well_typed_dec s o) as [Hw|Hw].
  - destruct (reach_effect s K o H Hst Hs Hw Hp) as (s' & r & E & R & _). eauto.
  - exists s, OutIll. split; [by apply step_ill|exact H].
Qed.

Lemma panic_iff s K o : reach s -> stores s K -> safe s K o ->
  (step s o = Panic <-> must_panic s o /\ well_typed s o) /\ step s o <> NoFuel.
Proof.
  intros H Hst Hs. destruct (well_typed_dec s o) as [Hw|Hw].
  - destruct (step_effect s K o (reach_stores_inv s K H Hst) Hs Hw) as [[A E]|[A (s' & r & K' & E & _)]]; rewrite E; split; try done.
    split; [done|]. by intros [B _].
  - rewrite (step_ill s o Hw). split; [|done]. split; [done|]. by intros [_ B].
Qed.
End ApiFacts10.
