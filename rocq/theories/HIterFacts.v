(** * HIterFacts: iterators that own handles, over changing trees. *)
From Verif Require Import HIter HIterSpec SpecFacts ApiFacts ApiFacts2 ApiFacts3 ApiFacts7 BuildFacts4 GenSpec GenFacts5 Spec.

Section HIterFacts.
Context {T : Type}.
Implicit Types (s : sys T) (K : forest) (own : list nat).

Lemma reach_any s : reach s -> any s.
Proof. induction 1 as [|s K o s' r _ IH _ _ E]; [exact any_init|exact (any_step s o s' r IH E)]. Qed.

Lemma step_keeps s o s' r i hd : any s -> step s o = Ret (s', r) -> i ∉ op_args o -> s_hands s !! i = Some hd -> s_hands s' !! i = Some hd.
Proof.
  intros H E Hi Hh. pose proof (proj2 (proj2 (step_fine s o s' r (any_ok s H) E))) as Ha.
  assert (forall j hd', s_hands s !! j = None -> s_hands s' = <[j := hd']> (s_hands s) -> s_hands s' !! i = Some hd) as H1.
  { intros j hd' Hj ->. rewrite lookup_insert_ne; [exact Hh|]. intros ->. congruence. }
  assert (forall k, i <> k -> s_hands s' = delete k (s_hands s) -> s_hands s' !! i = Some hd) as H2.
  { intros k Hk ->. rewrite lookup_delete_ne; [exact Hh|]. intros ->. by apply Hk. }
  assert (forall j k hd', i <> k -> s_hands s !! j = None -> s_hands s' = <[j := hd']> (delete k (s_hands s)) -> s_hands s' !! i = Some hd) as H3.
  { intros j k hd' Hk Hj ->. rewrite lookup_insert_ne; [|intros ->; congruence]. rewrite lookup_delete_ne; [exact Hh|]. intros ->. by apply Hk. }
  destruct o, r; simpl in Ha, Hi; try (rewrite Ha; exact Hh);
    lazymatch type of Ha with
    | _ /\ _ => destruct Ha as [Hj [hd' Ha]]; first [exact (H1 _ _ Hj Ha)|eapply H3; [|exact Hj|exact Ha]; clear -Hi; set_solver]
    | _ => eapply H2; [|exact Ha]; clear -Hi; set_solver
    end.
Qed.

Lemma others_ok own s s' : others own s s' -> reach s ->
  reach s' /\ forall i hd, i ∈ own -> s_hands s !! i = Some hd -> s_hands s' !! i = Some hd.
Proof.
  induction 1 as [s|s K o s1 r s2 Hst Hs Ha E _ IH]; intros H; [split; [exact H|intros i hd _ Hi; exact Hi]|].
  assert (reach s1) as H1 by (eapply reach_step; [exact H|exact Hst|exact Hs|exact E]).
  destruct (IH H1) as [H2 Hk]. split; [exact H2|]. intros i hd Hi Hh. apply (Hk i hd Hi).
  apply (step_keeps s o s1 r i hd (reach_any s H) E); [|exact Hh]. intros Hin. exact (Ha i Hin Hi).
Qed.

(** ** The calls an iterator makes *)
Definition extends s s' : Prop := forall i hd, s_hands s !! i = Some hd -> s_hands s' !! i = Some hd.
Lemma extends_refl s : extends s s. Proof. intros i hd H. exact H. Qed.
Lemma extends_trans s1 s2 s3 : extends s1 s2 -> extends s2 s3 -> extends s1 s3.
Proof. intros A B i hd H. exact (B i hd (A i hd H)). Qed.
Lemma view_refl s : same_view s s. Proof. constructor; intros; first [done|assumption]. Qed.

(** The new handle [j] names [y]; the trees did not change. *)
Record got s s' (j : nat) (k : kind) (y : nid) : Prop := {
  got_reach : reach s';
  got_view : same_view s s';
  got_ext : extends s s';
  got_new : s_hands s !! j = None;
  got_hand : s_hands s' !! j = Some (HNode k y);
}.
Lemma gives_got s s' j k y : reach s' -> gives s s' j (HNode k y) -> got s s' j k y.
Proof.
  intros H (V & Hj & Hh). constructor; [exact H|exact V| |exact Hj|rewrite Hh; apply lookup_insert].
  intros i hd Hi. rewrite Hh, lookup_insert_ne; [exact Hi|]. intros ->. congruence.
Qed.

Lemma h_nav_ok s K v i k x : reach s -> stores s K -> s_hands s !! i = Some (HNode k x) ->
  exists o, nav_spec K v x o /\
    match o with
    | None => h_nav s v i = Ret (s, None)
    | Some y => exists s1 j, h_nav s v i = Ret (s1, Some j) /\ got s s1 j k y
    end.
Proof.
  intros H Hst Hi. destruct (nav_api s K v i k x H Hst Hi) as (o & Hn & C). exists o. split; [exact Hn|].
  unfold h_nav. destruct o as [y|]; [|by rewrite C]. destruct C as (s1 & j & E & G). exists s1, j.
  split; [by rewrite E|]. apply gives_got; [|exact G]. eapply reach_step; [exact H|exact Hst| |exact E]. exact Logic.I.
Qed.
Lemma h_clone_ok s i k x : reach s -> s_hands s !! i = Some (HNode k x) ->
  exists s1 j, h_clone s i = Ret (s1, j) /\ got s s1 j k x.
Proof.
  intros H Hi. destruct (reach_stores s H) as [K Hst].
  destruct (reach_effect s K (OpClone i) H Hst ltac:(exact Logic.I)) as (s1 & r1 & E1 & R1 & Ef1); [by eexists|exact (fun F => F)|].
  destruct Ef1 as [(hd & j & Hi' & -> & G)|[[]|[]]]. assert (hd = HNode k x) as -> by congruence.
  exists s1, j. split; [|exact (gives_got s s1 j k x R1 G)]. unfold h_clone, call_hand. by rewrite E1.
Qed.
Lemma h_drop_ok s i hd : reach s -> s_hands s !! i = Some hd ->
  exists s', h_drop s i = Ret s' /\ reach s' /\ s_hands s' = delete i (s_hands s).
Proof.
  intros H Hi. destruct (drop_any s i hd H Hi) as (s' & E & R & Hh). exists s'. split; [|by split].
  unfold h_drop, drop_opt. by rewrite E.
Qed.
(** Another handle on the same tree keeps it. *)
Lemma h_drop_view s i j k k' x y : reach s -> s_hands s !! i = Some (HNode k x) -> i <> j -> s_hands s !! j = Some (HNode k' y) ->
  tree_of s x = tree_of s y ->
  exists s', h_drop s i = Ret s' /\ reach s' /\ s_hands s' = delete i (s_hands s) /\ same_view s s'.
Proof.
  intros H Hi Hn Hj Ht. destruct (reach_stores s H) as [K Hst].
  destruct (handle_tree s K i k x H Hst Hi) as (t & _ & _ & _ & Et & _).
  destruct (drop_api s K i (HNode k x) t H Hst Hi) as (s' & E & Hh & [[_ V]|(Hnh & _)]); [right; by exists k, x| |].
  - exists s'. split; [unfold h_drop, drop_opt; by rewrite E|]. split; [|by split].
    eapply reach_step; [exact H|exact Hst| |exact E]. exact Logic.I.
  - exfalso. apply Hnh. right. exists j, k', y. rewrite Hh, lookup_delete_ne by done. split; [exact Hj|]. congruence.
Qed.

(** ** Events *)
Lemma hev_next_ok s K k e ev : reach s -> stores s K -> names s k e ev ->
  exists s1 r o, hev_next s e = Ret (s1, r) /\ ev_succ K ev o /\ reach s1 /\ same_view s s1 /\ extends s s1 /\
    match r, o with
    | Some e', Some ev' => names s1 k e' ev' /\ s_hands s !! ev_val e' = None
    | None, None => s1 = s
    | _, _ => False
    end.
Proof.
  intros H Hst Hn. destruct e as [i|i], ev as [x|x]; try (exfalso; exact Hn); simpl in Hn; unfold hev_next.
  - destruct (h_nav_ok s K NFirstChild i k x H Hst Hn) as (o & (ks & Hk & Ho) & C). destruct o as [y|].
    + destruct C as (s1 & j & E & G). exists s1, (Some (Open j)), (Some (Open y)). rewrite E. cbn [mbind run_bind].
      split; [reflexivity|]. split; [destruct ks as [|c ks]; [discriminate Ho|]; injection Ho as ->; by econstructor|].
      destruct G as [R V X N Hj]. split; [exact R|]. split; [exact V|]. split; [exact X|]. by split.
    + destruct (h_clone_ok s i k x H Hn) as (s1 & j & E & G). exists s1, (Some (Close j)), (Some (Close x)). rewrite C. cbn [mbind run_bind].
      rewrite E. cbn [mbind run_bind]. split; [reflexivity|]. split; [destruct ks as [|c ks]; [by constructor|discriminate Ho]|].
      destruct G as [R V X N Hj]. split; [exact R|]. split; [exact V|]. split; [exact X|]. by split.
  - destruct (h_nav_ok s K NNext i k x H Hst Hn) as (o & Hs & C). destruct o as [y|].
    + destruct C as (s1 & j & E & G). exists s1, (Some (Open j)), (Some (Open y)). rewrite E. cbn [mbind run_bind].
      split; [reflexivity|]. split.
      { destruct Hs as [[_ ?]|(p & ks & n & Hp & Hx & Hy)]; [done|]. symmetry in Hy.
        apply (es_sibling K x p (take n ks) y (drop (S (S n)) ks)).
        rewrite <- (drop_S _ _ _ Hy), <- (drop_S _ _ _ Hx), take_drop. exact Hp. }
      destruct G as [R V X N Hj]. split; [exact R|]. split; [exact V|]. split; [exact X|]. by split.
    + rewrite C. cbn [mbind run_bind]. destruct (h_nav_ok s K NParent i k x H Hst Hn) as (o & Hp & D). destruct o as [q|].
      * destruct D as (s1 & j & E & G). exists s1, (Some (Close j)), (Some (Close q)). rewrite E. cbn [mbind run_bind option_map].
        split; [reflexivity|]. split.
        { destruct Hs as [[Ht _]|(p & ks & n & Hk & Hx & Hy)]; [exfalso; exact (proj2 Ht q Hp)|].
          assert (q = p) as -> by (eapply (wf_uniq K (proj2 Hst)); [exact Hp|]; eapply child_intro; [exact Hk|]; by eapply elem_of_list_lookup_2).
          apply (es_parent K x p (take n ks)). rewrite Hk. f_equal. rewrite <- (take_drop n ks) at 1. f_equal. rewrite (drop_S _ _ _ Hx).
          f_equal. apply drop_ge. by apply lookup_ge_None_1. }
        destruct G as [R V X N Hj]. split; [exact R|]. split; [exact V|]. split; [exact X|]. by split.
      * exists s, None, None. rewrite D. cbn [mbind run_bind option_map]. split; [reflexivity|]. split; [by apply es_root|].
        split; [exact H|]. split; [apply view_refl|]. split; [apply extends_refl|reflexivity].
Qed.
Lemma hev_prev_ok s K k e ev : reach s -> stores s K -> names s k e ev ->
  exists s1 r o, hev_prev s e = Ret (s1, r) /\ ev_pred K ev o /\ reach s1 /\ same_view s s1 /\ extends s s1 /\
    match r, o with
    | Some e', Some ev' => names s1 k e' ev' /\ s_hands s !! ev_val e' = None
    | None, None => s1 = s
    | _, _ => False
    end.
Proof.
  intros H Hst Hn. destruct e as [i|i], ev as [x|x]; try (exfalso; exact Hn); simpl in Hn; unfold hev_prev.
  - destruct (h_nav_ok s K NPrev i k x H Hst Hn) as (o & Hs & C). destruct o as [y|].
    + destruct C as (s1 & j & E & G). exists s1, (Some (Close j)), (Some (Close y)). rewrite E. cbn [mbind run_bind].
      split; [reflexivity|]. split.
      { destruct Hs as [[_ ?]|(p & ks & n & Hp & Hx & Hy)]; [done|]. destruct n as [|n]; [done|]. symmetry in Hy.
        apply (ep_sibling K x p (take n ks) y (drop (S (S n)) ks)).
        rewrite <- (drop_S _ _ _ Hx), <- (drop_S _ _ _ Hy), take_drop. exact Hp. }
      destruct G as [R V X N Hj]. split; [exact R|]. split; [exact V|]. split; [exact X|]. by split.
    + rewrite C. cbn [mbind run_bind]. destruct (h_nav_ok s K NParent i k x H Hst Hn) as (o & Hp & D). destruct o as [q|].
      * destruct D as (s1 & j & E & G). exists s1, (Some (Open j)), (Some (Open q)). rewrite E. cbn [mbind run_bind option_map].
        split; [reflexivity|]. split.
        { destruct Hs as [[Ht _]|(p & ks & n & Hk & Hx & Hy)]; [exfalso; exact (proj2 Ht q Hp)|].
          assert (q = p) as -> by (eapply (wf_uniq K (proj2 Hst)); [exact Hp|]; eapply child_intro; [exact Hk|]; by eapply elem_of_list_lookup_2).
          destruct n as [|n].
          - destruct ks as [|z ks]; [discriminate Hx|]. injection Hx as ->. by apply (ep_parent K x p ks).
          - exfalso. assert (S n < length ks) as Hl by (by eapply lookup_lt_Some). destruct (lookup_lt_is_Some_2 ks n) as [z Hz]; [lia|congruence]. }
        destruct G as [R V X N Hj]. split; [exact R|]. split; [exact V|]. split; [exact X|]. by split.
      * exists s, None, None. rewrite D. cbn [mbind run_bind option_map]. split; [reflexivity|]. split; [by apply ep_root|].
        split; [exact H|]. split; [apply view_refl|]. split; [apply extends_refl|reflexivity].
  - destruct (h_nav_ok s K NLastChild i k x H Hst Hn) as (o & (ks & Hk & Ho) & C). destruct o as [y|].
    + destruct C as (s1 & j & E & G). exists s1, (Some (Close j)), (Some (Close y)). rewrite E. cbn [mbind run_bind].
      split; [reflexivity|]. split.
      { destruct (list_snoc_inv ks) as [->|(l & z & ->)]; [discriminate Ho|]. rewrite last_snoc in Ho. injection Ho as ->. by econstructor. }
      destruct G as [R V X N Hj]. split; [exact R|]. split; [exact V|]. split; [exact X|]. by split.
    + destruct (h_clone_ok s i k x H Hn) as (s1 & j & E & G). exists s1, (Some (Open j)), (Some (Open x)). rewrite C. cbn [mbind run_bind].
      rewrite E. cbn [mbind run_bind]. split; [reflexivity|]. split.
      { destruct (list_snoc_inv ks) as [->|(l & z & ->)]; [by constructor|]. rewrite last_snoc in Ho. discriminate Ho. }
      destruct G as [R V X N Hj]. split; [exact R|]. split; [exact V|]. split; [exact X|]. by split.
Qed.

(** ** Walking *)
Definition on (k : kind) s (e : dft nat) (c : dft nid * nid) : Prop := names s k e c.1.
Definition at_cursor k s (st : hdfs_state) (c : option (dft nid * nid)) : Prop :=
  match st, c with
  | None, None => True
  | Some (e, b), Some (ev, r) => names s k e ev /\ s_hands s !! b = Some (HNode k r) /\ ev_val e <> b
  | _, _ => False
  end.
Lemma names_val s k e ev : names s k e ev <-> (exists x, s_hands s !! ev_val e = Some (HNode k x) /\ ev_val ev = x) /\
  match e, ev with Open _, Open _ | Close _, Close _ => True | _, _ => False end.
Proof.
  destruct e, ev; simpl; split; try tauto.
  - intros E. split; [by eexists|done]. - intros [(x & A & B) _]. by subst.
  - intros E. split; [by eexists|done]. - intros [(x & A & B) _]. by subst.
Qed.
Lemma names_keep s s' k e ev : names s k e ev -> (forall hd, s_hands s !! ev_val e = Some hd -> s_hands s' !! ev_val e = Some hd) -> names s' k e ev.
Proof. intros Hn Hk. destruct e, ev; try (exfalso; exact Hn); simpl in *; by apply Hk. Qed.
Lemma names_hand s k e ev : names s k e ev -> s_hands s !! ev_val e = Some (HNode k (ev_val ev)).
Proof. intros Hn. destruct e, ev; try (exfalso; exact Hn); exact Hn. Qed.

Lemma undisturbed_refl own s : undisturbed own s s. Proof. intros i hd _ H. exact H. Qed.
Lemma undisturbed_ext own s s' : extends s s' -> undisturbed own s s'. Proof. intros X i hd _ H. exact (X i hd H). Qed.
Lemma undisturbed_drop own s s1 s2 i : extends s s1 -> i ∈ own -> s_hands s2 = delete i (s_hands s1) -> undisturbed own s s2.
Proof. intros X Hi E j hd Hj H. rewrite E, lookup_delete_ne; [exact (X j hd H)|]. intros ->. by apply Hj. Qed.

Lemma at_cursor_others k s st c s1 : reach s -> others (hdfs_owns st) s s1 -> at_cursor k s st c -> reach s1 /\ at_cursor k s1 st c.
Proof.
  intros H Ho Ha. destruct (others_ok _ _ _ Ho H) as [H1 Hk]. split; [exact H1|].
  destruct st as [[e b]|], c as [[ev r]|]; try (exfalso; exact Ha); [|exact Logic.I]. destruct Ha as (Hn & Hb & Hd). simpl in Hk.
  split; [|split; [|exact Hd]].
  - apply (names_keep s); [exact Hn|]. intros hd Hhd. apply Hk; [set_solver|exact Hhd].
  - apply Hk; [set_solver|exact Hb].
Qed.

(** The shape of one step, for both directions. *)
Lemma hdfs_step k s K st c : reach s -> stores s K -> at_cursor k s st c ->
  exists s2 r st', hdfs_next s st = Ret (s2, r, st') /\ reach s2 /\ undisturbed (hdfs_owns st) s s2 /\
    match c with
    | None => r = None /\ s2 = s /\ at_cursor k s2 st' None
    | Some c => exists i c', r = Some i /\ on k s2 i c /\ dfs_moves K c c' /\ (c' <> None -> same_view s s2) /\ at_cursor k s2 st' c'
    end.
Proof.
  intros H Hst Ha. destruct st as [[e b]|], c as [[ev r]|]; try (exfalso; exact Ha).
  2:{ exists s, None, None. split; [reflexivity|]. split; [exact H|]. split; [apply undisturbed_refl|]. by split. }
  destruct Ha as (Hn & Hb & Hd). unfold hdfs_next.
  assert (hev_end : (match e with Close i => hand_ptr_eq s i b | Open _ => Ret false end) = Ret (bool_decide (ev = Close r))).
  { destruct e as [i|i], ev as [x|x]; try (exfalso; exact Hn); [by rewrite bool_decide_eq_false_2|]. simpl in Hn.
    unfold hand_ptr_eq. rewrite Hn, Hb. f_equal. apply bool_decide_ext. split; [by intros ->|by intros [= ->]]. }
  rewrite hev_end. cbn [mbind run_bind].
  destruct (bool_decide_reflect (ev = Close r)) as [->|Hne].
  - destruct (h_drop_ok s b _ H Hb) as (s1 & E & R & Hh). rewrite E. cbn [mbind run_bind].
    exists s1, (Some e), None. split; [reflexivity|]. split; [exact R|].
    split; [eapply undisturbed_drop; [apply extends_refl| |exact Hh]; simpl; clear; set_solver|].
    exists e, None. split; [reflexivity|]. split.
    { apply (names_keep s); [exact Hn|]. intros hd Hhd. rewrite Hh, lookup_delete_ne; [exact Hhd|]. intros E'. by apply Hd. }
    split; [constructor|]. split; [done|exact Logic.I].
  - destruct (hev_next_ok s K k e ev H Hst Hn) as (s1 & q & o & E & Hs & R & V & X & C). rewrite E. cbn [mbind run_bind].
    assert (names s1 k e ev) as Hn1. { apply (names_keep s); [exact Hn|]. intros hd Hhd. exact (X _ _ Hhd). }
    destruct q as [e'|], o as [ev'|]; try (exfalso; exact C).
    + destruct C as [Hn' Hnew]. exists s1, (Some e), (Some (e', b)). split; [reflexivity|]. split; [exact R|]. split; [by apply undisturbed_ext|].
      exists e, (Some (ev', r)). split; [reflexivity|]. split; [exact Hn1|].
      split; [exact (dm_next K ev r (Some ev') Hne Hs)|]. split; [intros _; exact V|]. split; [exact Hn'|]. split; [exact (X _ _ Hb)|].
      intros E'. congruence.
    + subst s1. destruct (h_drop_ok s b _ H Hb) as (s2 & E2 & R2 & Hh). rewrite E2. cbn [mbind run_bind].
      exists s2, (Some e), None. split; [reflexivity|]. split; [exact R2|].
      split; [eapply undisturbed_drop; [apply extends_refl| |exact Hh]; simpl; clear; set_solver|].
      exists e, None. split; [reflexivity|]. split.
      { apply (names_keep s); [exact Hn|]. intros hd Hhd. rewrite Hh, lookup_delete_ne; [exact Hhd|]. intros E'. by apply Hd. }
      split; [exact (dm_next K ev r None Hne Hs)|]. split; [done|exact Logic.I].
Qed.
Lemma hrdfs_step k s K st c : reach s -> stores s K -> at_cursor k s st c ->
  exists s2 r st', hrdfs_next s st = Ret (s2, r, st') /\ reach s2 /\ undisturbed (hdfs_owns st) s s2 /\
    match c with
    | None => r = None /\ s2 = s /\ at_cursor k s2 st' None
    | Some c => exists i c', r = Some i /\ on k s2 i c /\ rdfs_moves K c c' /\ (c' <> None -> same_view s s2) /\ at_cursor k s2 st' c'
    end.
Proof.
  intros H Hst Ha. destruct st as [[e b]|], c as [[ev r]|]; try (exfalso; exact Ha).
  2:{ exists s, None, None. split; [reflexivity|]. split; [exact H|]. split; [apply undisturbed_refl|]. by split. }
  destruct Ha as (Hn & Hb & Hd). unfold hrdfs_next.
  assert (hev_end : (match e with Open i => hand_ptr_eq s i b | Close _ => Ret false end) = Ret (bool_decide (ev = Open r))).
  { destruct e as [i|i], ev as [x|x]; try (exfalso; exact Hn); [|by rewrite bool_decide_eq_false_2]. simpl in Hn.
    unfold hand_ptr_eq. rewrite Hn, Hb. f_equal. apply bool_decide_ext. split; [by intros ->|by intros [= ->]]. }
  rewrite hev_end. cbn [mbind run_bind].
  destruct (bool_decide_reflect (ev = Open r)) as [->|Hne].
  - destruct (h_drop_ok s b _ H Hb) as (s1 & E & R & Hh). rewrite E. cbn [mbind run_bind].
    exists s1, (Some e), None. split; [reflexivity|]. split; [exact R|].
    split; [eapply undisturbed_drop; [apply extends_refl| |exact Hh]; simpl; clear; set_solver|].
    exists e, None. split; [reflexivity|]. split.
    { apply (names_keep s); [exact Hn|]. intros hd Hhd. rewrite Hh, lookup_delete_ne; [exact Hhd|]. intros E'. by apply Hd. }
    split; [constructor|]. split; [done|exact Logic.I].
  - destruct (hev_prev_ok s K k e ev H Hst Hn) as (s1 & q & o & E & Hs & R & V & X & C). rewrite E. cbn [mbind run_bind].
    assert (names s1 k e ev) as Hn1. { apply (names_keep s); [exact Hn|]. intros hd Hhd. exact (X _ _ Hhd). }
    destruct q as [e'|], o as [ev'|]; try (exfalso; exact C).
    + destruct C as [Hn' Hnew]. exists s1, (Some e), (Some (e', b)). split; [reflexivity|]. split; [exact R|]. split; [by apply undisturbed_ext|].
      exists e, (Some (ev', r)). split; [reflexivity|]. split; [exact Hn1|].
      split; [exact (rm_next K ev r (Some ev') Hne Hs)|]. split; [intros _; exact V|]. split; [exact Hn'|]. split; [exact (X _ _ Hb)|].
      intros E'. congruence.
    + subst s1. destruct (h_drop_ok s b _ H Hb) as (s2 & E2 & R2 & Hh). rewrite E2. cbn [mbind run_bind].
      exists s2, (Some e), None. split; [reflexivity|]. split; [exact R2|].
      split; [eapply undisturbed_drop; [apply extends_refl| |exact Hh]; simpl; clear; set_solver|].
      exists e, None. split; [reflexivity|]. split.
      { apply (names_keep s); [exact Hn|]. intros hd Hhd. rewrite Hh, lookup_delete_ne; [exact Hhd|]. intros E'. by apply Hd. }
      split; [exact (rm_next K ev r None Hne Hs)|]. split; [done|exact Logic.I].
Qed.

Lemma hdfs_walks k n : forall s st c, reach s -> at_cursor k s st c -> walks hdfs_next hdfs_owns (on k) dfs_moves n s st c.
Proof.
  induction n as [|n IH]; intros s st c H Ha; [exact Logic.I|]. intros s1 K1 Ho Hst.
  destruct (at_cursor_others k s st c s1 H Ho Ha) as [H1 Ha1].
  destruct (hdfs_step k s1 K1 st c H1 Hst Ha1) as (s2 & r & st' & E & R & U & C). exists s2, r, st'.
  split; [exact E|]. split; [exact R|]. split; [exact U|]. destruct c as [c|].
  - destruct C as (i & c' & -> & A & B & V & D). exists i, c'. split; [reflexivity|]. split; [exact A|]. split; [exact B|]. split; [exact V|]. by apply IH.
  - destruct C as (-> & -> & D). split; [reflexivity|]. split; [reflexivity|]. by apply IH.
Qed.
Lemma hrdfs_walks k n : forall s st c, reach s -> at_cursor k s st c -> walks hrdfs_next hdfs_owns (on k) rdfs_moves n s st c.
Proof.
  induction n as [|n IH]; intros s st c H Ha; [exact Logic.I|]. intros s1 K1 Ho Hst.
  destruct (at_cursor_others k s st c s1 H Ho Ha) as [H1 Ha1].
  destruct (hrdfs_step k s1 K1 st c H1 Hst Ha1) as (s2 & r & st' & E & R & U & C). exists s2, r, st'.
  split; [exact E|]. split; [exact R|]. split; [exact U|]. destruct c as [c|].
  - destruct C as (i & c' & -> & A & B & V & D). exists i, c'. split; [reflexivity|]. split; [exact A|]. split; [exact B|]. split; [exact V|]. by apply IH.
  - destruct C as (-> & -> & D). split; [reflexivity|]. split; [reflexivity|]. by apply IH.
Qed.

(** Along one direction. *)
Lemma hsib_walks v k n : forall s st c, reach s ->
  match st, c with None, None => True | Some i, Some x => s_hands s !! i = Some (HNode k x) | _, _ => False end ->
  walks (hsib_next v) hsib_owns (fun s i x => s_hands s !! i = Some (HNode k x)) (fun K x o => nav_spec K v x o) n s st c.
Proof.
  induction n as [|n IH]; intros s st c H Ha; [exact Logic.I|]. intros s1 K1 Ho Hst.
  destruct (others_ok _ _ _ Ho H) as [H1 Hk]. destruct st as [i|], c as [x|]; try (exfalso; exact Ha).
  - assert (s_hands s1 !! i = Some (HNode k x)) as Hi by (apply Hk; [simpl; clear; set_solver|exact Ha]).
    destruct (h_nav_ok s1 K1 v i k x H1 Hst Hi) as (o & Hn & C). unfold hsib_next. destruct o as [y|].
    + destruct C as (s2 & j & E & G). rewrite E. cbn [mbind run_bind]. exists s2, (Some i), (Some j). split; [reflexivity|].
      destruct G as [R V X N Hj]. split; [exact R|]. split; [by apply undisturbed_ext|]. exists i, (Some y). split; [reflexivity|].
      split; [exact (X _ _ Hi)|]. split; [exact Hn|]. split; [intros _; exact V|]. by apply IH.
    + rewrite C. cbn [mbind run_bind]. exists s1, (Some i), None. split; [reflexivity|]. split; [exact H1|]. split; [apply undisturbed_refl|].
      exists i, None. split; [reflexivity|]. split; [exact Hi|]. split; [exact Hn|]. split; [done|]. by apply IH.
  - exists s1, None, None. split; [reflexivity|]. split; [exact H1|]. split; [apply undisturbed_refl|]. split; [reflexivity|]. split; [reflexivity|]. by apply IH.
Qed.

Lemma hdfs_start_ok s i k x : reach s -> s_hands s !! i = Some (HNode k x) ->
  exists s1 st, hdfs_start s i = Ret (s1, st) /\ reach s1 /\ same_view s s1 /\ extends s s1 /\ at_cursor k s1 st (Some (Open x, x)).
Proof.
  intros H Hi. destruct (h_clone_ok s i k x H Hi) as (s1 & j & E & [R V X N Hj]). exists s1, (Some (Open j, i)).
  split; [unfold hdfs_start; by rewrite E|]. split; [exact R|]. split; [exact V|]. split; [exact X|].
  split; [exact Hj|]. split; [exact (X _ _ Hi)|]. simpl. congruence.
Qed.
Lemma hrdfs_start_ok s i k x : reach s -> s_hands s !! i = Some (HNode k x) ->
  exists s1 st, hrdfs_start s i = Ret (s1, st) /\ reach s1 /\ same_view s s1 /\ extends s s1 /\ at_cursor k s1 st (Some (Close x, x)).
Proof.
  intros H Hi. destruct (h_clone_ok s i k x H Hi) as (s1 & j & E & [R V X N Hj]). exists s1, (Some (Close j, i)).
  split; [unfold hrdfs_start; by rewrite E|]. split; [exact R|]. split; [exact V|]. split; [exact X|].
  split; [exact Hj|]. split; [exact (X _ _ Hi)|]. simpl. congruence.
Qed.
End HIterFacts.
