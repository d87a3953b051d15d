(** * EveryFacts: what every call does in a reachable state, also the damaging ones. *)
From Verif Require Import Heap Edit System SysSpec SpecFacts NavFacts EditFacts2 SysFacts5 SysFacts7 ApiSpec ApiFacts ApiFacts2 ApiFacts3 ApiFacts6 ApiFacts7 ApiFacts10 MisledSpec MoveSpec Misled3 Misled6 Misled8 MoveFacts GraftSpec GraftFacts2 GraftFacts4 GraftFacts5 GenSpec GenFacts5 GenFacts6 HIterFacts SafeSpec SafeExact AsideSpec Spec.

Section Every.
Context {T : Type}.
Implicit Types (h : heap T) (s u g : sys T) (K : forest) (x y z p q f : nid).

(** ** Panics *)
Lemma panic_every s o : reach s -> (step s o = Panic <-> must_panic s o /\ well_typed s o) /\ step s o <> NoFuel.
Proof.
  intros R. destruct (reach_stores s R) as [K Hst].
  assert ((forall u r, step s o <> Ret (u, r)) -> safe s K o) as A.
  { intros N. apply (undamaging_safe s K o R Hst). intros D. destruct (damaging_runs s K o R Hst D) as (u & r & E & _). exact (N u r E). }
  split.
  - split.
    + intros E. apply (panic_iff s K o R Hst); [|exact E]. apply A. intros u r E'. rewrite E in E'. discriminate E'.
    + intros [M _]. exact (any_wrong_grant s o (any_ok s (reach_any s R)) M).
  - intros E. assert (safe s K o) as Hs. { apply A. intros u r E'. rewrite E in E'. discriminate E'. }
    exact (proj2 (panic_iff s K o R Hst Hs) E).
Qed.

(** ** Forests that agree on one tree *)
Definition off s v K K' : Prop := forall z, tree_of s z = Some v -> K' !! z = K !! z /\ forall q, child_of K' q z -> child_of K q z.

Lemma tree_alive s z v : tree_of s z = Some v -> is_Some (s_nodes s !! z).
Proof. unfold tree_of, n_memb. destruct (s_nodes s !! z); [by eexists|done]. Qed.
Lemma off_refl s v K : off s v K K.
Proof. intros z _. done. Qed.
Lemma off_links s K K' v h' z : sinv s K -> rep h' K' -> off s v K K' -> tree_of s z = Some v -> same_links (s_nodes s) h' z.
Proof.
  intros S0 R' Of Ez. pose proof (s_rep _ _ S0) as R. destruct (Of z Ez) as [Ek Hp].
  assert (is_Some (K !! z)) as Hz. { apply (rep_dom _ _ R). by eapply tree_alive. } pose proof Hz as [ks Hk].
  assert (K' !! z = Some ks) as Hk' by congruence. unfold same_links.
  rewrite (rep_first _ _ R _ _ Hk), (rep_first _ _ R' _ _ Hk'), (rep_nch _ _ R _ _ Hk), (rep_nch _ _ R' _ _ Hk').
  destruct (SpecFacts.top_or_child K z Hz) as [Ht|(q & l & Hq & Hin)].
  - assert (is_top K' z) as Ht'. { split; [by eexists|]. intros q Hq. exact (proj2 Ht q (Hp q Hq)). }
    destruct (rep_top _ _ R z Ht) as (-> & -> & ->). by destruct (rep_top _ _ R' z Ht') as (-> & -> & ->).
  - assert (child_of K q z) as Hc by (by exists l). assert (tree_of s q = Some v) as Eq. { by rewrite <- (s_child _ _ S0 q z Hc). }
    assert (K' !! q = Some l) as Hq' by (by rewrite (proj1 (Of q Eq))). apply elem_of_list_lookup in Hin as [i Hi].
    destruct (rep_linked _ _ R _ _ Hq _ _ Hi) as (-> & -> & ->). by destruct (rep_linked _ _ R' _ _ Hq' _ _ Hi) as (-> & -> & ->).
Qed.
Lemma off_unlinked s K K1 v x : sinv s K -> unlinked K x K1 -> tree_of s x <> Some v -> off s v K K1.
Proof.
  intros S0 (q & ks & Hq & Hin & ->) Hx z Ez. assert (child_of K q x) as Hc by (by exists ks).
  assert (z <> q) as Hn. { intros ->. apply Hx. by rewrite (s_child _ _ S0 q x Hc). }
  split; [by rewrite lookup_insert_ne|]. intros q' Hq'. apply child_of_insert in Hq' as [[-> Hw]|[_ Hw]]; [|exact Hw].
  exists ks. split; [exact Hq|]. unfold without in Hw. by apply elem_of_list_filter in Hw as [_ Hw].
Qed.
Lemma attached_shape K n dest K' : attached K n dest K' ->
  exists p ks ks', dest_parent K dest p /\ K !! p = Some ks /\ K' = <[p := ks']> K /\ ks' ≡ₚ n :: ks.
Proof.
  intros Ha. inversion Ha as [p ks Hp|p ks Hp|s p ks Hp Hs|s p ks Hp Hs]; subst.
  - exists p, ks, (n :: ks). done.
  - exists p, ks, (ks ++ [n]). split_and!; try done. rewrite Permutation_app_comm. done.
  - exists p, ks, (ins_before s n ks). split_and!; try done; [exists ks; done|]. by apply ins_before_perm.
  - exists p, ks, (ins_after s n ks). split_and!; try done; [exists ks; done|]. by apply ins_after_perm.
Qed.
Lemma off_attached s K K1 K2 v x ad y : sinv s K -> off s v K K1 -> attached K1 x (dest_of ad y) K2 ->
  tree_of s x <> Some v -> tree_of s y <> Some v -> off s v K K2.
Proof.
  intros S0 Of Ha Hx Hy z Ez. destruct (Of z Ez) as [Ek Hp]. destruct (attached_shape _ _ _ _ Ha) as (p & ks & ks' & Hd & Hks & -> & Hperm).
  assert (z <> p) as Hn.
  { intros ->. apply Hy. assert (y = p \/ child_of K1 p y) as [->|Hc]; [destruct ad; simpl in Hd; auto|done|].
    destruct Hc as (l & Hl & Hin). rewrite Ek in Hl. rewrite (s_child _ _ S0 p y); [done|by exists l]. }
  split; [by rewrite lookup_insert_ne|]. intros q Hq. apply Hp. apply child_of_insert in Hq as [[-> Hw]|[_ Hw]]; [|exact Hw].
  rewrite Hperm in Hw. apply elem_of_cons in Hw as [->|Hw]; [by rewrite Ez in Hx|]. by exists ks.
Qed.
Lemma off_only s K K1 K2 v (P : nid -> Prop) : off s v K K1 -> only P K1 K2 -> (forall z, tree_of s z = Some v -> P z) -> off s v K K2.
Proof.
  intros Of Ho HP z Ez. destruct (Of z Ez) as [Ek Hp]. split; [by rewrite (proj1 (Ho z) (HP z Ez))|].
  intros q (l & Hq & Hin). apply Hp. exists l. split; [|exact Hin]. apply dec_stable. intros N.
  assert (~ P q) as NP. { intros Pq. apply N. by rewrite <- (proj1 (Ho q) Pq). } rewrite (proj2 (Ho q) NP) in Hq. discriminate Hq.
Qed.
Lemma off_below s K K1 x z : (forall p c, child_of K1 p c -> child_of K p c) -> sinv s K -> below K1 x z -> tree_of s z = tree_of s x.
Proof. intros Hc S0. induction 1 as [|p c Hb IH Hpc]; [done|]. rewrite (s_child _ _ S0 p c (Hc _ _ Hpc)). exact IH. Qed.

(** ** From forests to states *)
Lemma aside_off s K K' u v : sinv s K -> rep (s_nodes u) K' -> off s v K K' ->
  (forall z, tree_of s z = Some v -> tree_of u z = Some v) -> (forall z, tree_of u z = Some v -> tree_of s z = Some v) -> aside s v u.
Proof.
  intros S0 R' Of A B. split; [|split; [exact B|]].
  - intros z Ez _. split; [by eapply off_links|by apply A].
  - intros _ z Ez. apply (rep_dom _ _ R'). rewrite (proj1 (Of z Ez)). apply (rep_dom _ _ (s_rep _ _ S0)). by eapply tree_alive.
Qed.
(** A state that differs in nodes of other trees only. *)
Lemma aside_trans s g u v : aside s v g -> s_hands u = s_hands g -> (forall z, tree_of s z = Some v -> s_nodes u !! z = s_nodes g !! z) ->
  (forall z, tree_of u z = tree_of g z) -> aside s v u.
Proof.
  intros [A [B C]] Hh Hn Ht. split; [|split].
  - intros z Ez Hz. rewrite (Hn z Ez) in Hz. destruct (A z Ez Hz) as [L E]. rewrite Ht. split; [|exact E].
    revert L. unfold same_links, fparent, ffirst, fnext, fprev, fnch. by rewrite (Hn z Ez).
  - intros z. rewrite Ht. apply B.
  - intros Hd z Ez. rewrite (Hn z Ez). apply C; [|exact Ez]. revert Hd. rewrite Hh. intros [Hi|(i & k & x & Hi & Ex)]; [by left|right]. exists i, k, x. by rewrite <- Ht.
Qed.
Lemma aside_misled s g u v f x : aside s v g -> misled g f x u -> tree_of s f <> Some v -> aside s v u.
Proof.
  intros A M Hf. eapply aside_trans; [exact A|exact (ml_hands _ _ _ _ M)| |].
  - intros z Ez. apply (ml_rest _ _ _ _ M). intros ->. done.
  - exact (sd_tree _ _ (misled_sturdy _ _ _ _ M)).
Qed.
Lemma aside_cut s K g u v x p : sinv s K -> child_of K p x -> aside s v g -> cut_off K x g u -> tree_of s x <> Some v -> aside s v u.
Proof.
  intros S0 Hc A [C1 C2] Hx. pose proof (s_wf _ _ S0) as W. destruct Hc as (ks & Hk & Hin).
  destruct (lnf_dec K p ks x W Hk Hin) as [(f & m & -> & _)|N]; [|by rewrite (C1 (not_lnf K p ks x W Hk Hin N))].
  eapply aside_misled; [exact A|exact (C2 p f m Hk)|].
  rewrite (s_child _ _ S0 p f); [|exists (f :: m ++ [x]); split; [exact Hk|left]].
  rewrite <- (s_child _ _ S0 p x); [exact Hx|]. by exists (f :: m ++ [x]).
Qed.
Lemma aside_reshapes s K K' g v : sinv s K -> reshapes s g K' -> off s v K K' -> aside s v g.
Proof.
  intros S0 Re Of. eapply (aside_off s K K'); [exact S0|exact (proj1 (re_stores _ _ _ Re))|exact Of| |]; intros z; by rewrite (re_tree _ _ _ Re).
Qed.
Lemma off_carries s K K1 K2 x t t' g v : off s v K K1 -> carries s K1 x t t' g K2 -> t <> v -> off s v K K2.
Proof.
  intros Of C Ht. destruct (cy_rest _ _ _ _ _ _ _ C) as [(_ & _ & ->)|(_ & _ & Ho)]; [exact Of|].
  eapply off_only; [exact Of|exact Ho|]. intros z Ez. right. congruence.
Qed.
Lemma carries_tree s K K1 K2 x t t' g v : sinv s K -> (forall p c, child_of K1 p c -> child_of K p c) -> off s v K K2 ->
  (forall z, is_Some (s_nodes g !! z) <-> is_Some (K2 !! z)) -> carries s K1 x t t' g K2 -> tree_of s x = Some t -> t <> v -> t' <> v ->
  (forall z, tree_of s z = Some v -> tree_of g z = Some v) /\ (forall z, tree_of g z = Some v -> tree_of s z = Some v).
Proof.
  intros S0 Hc Of R2 C Ex Ht Ht'. split.
  - intros z Ez. assert (~ below K1 x z) as Nb. { intros Hb. rewrite (off_below s K K1 x z Hc S0 Hb) in Ez. congruence. }
    rewrite (cy_out _ _ _ _ _ _ _ C z Nb); [exact Ez|]. apply R2. rewrite (proj1 (Of z Ez)). apply (rep_dom _ _ (s_rep _ _ S0)). by eapply tree_alive.
  - intros z Ez. apply dec_stable. intros N. assert (~ below K1 x z) as Nb. { intros Hb. rewrite (cy_in _ _ _ _ _ _ _ C z Hb) in Ez. congruence. }
    apply N. rewrite <- (cy_out _ _ _ _ _ _ _ C z Nb); [exact Ez|]. by eapply tree_alive.
Qed.
Lemma aside_splits s K K1 K2 x t t' g v : sinv s K -> unlinked K x K1 -> splits s K1 x t t' g K2 -> tree_of s x = Some t -> t <> v ->
  is_Some (s_trees s !! v) -> aside s v g.
Proof.
  intros S0 Hu Sp Ex Ht Hv. pose proof (sp_carries _ _ _ _ _ _ _ Sp) as C. assert (t' <> v) as Ht'. { intros ->. rewrite (sp_new _ _ _ _ _ _ _ Sp) in Hv. by destruct Hv. }
  assert (off s v K K1) as O1. { eapply off_unlinked; [exact S0|exact Hu|congruence]. }
  assert (off s v K K2) as O2 by (eapply off_carries; [exact O1|exact C|exact Ht]).
  assert (forall p c, child_of K1 p c -> child_of K p c) as Hc. { intros p c H. by apply (unlinked_child _ _ _ (s_wf _ _ S0) Hu) in H as [H _]. }
  pose proof (proj1 (sp_stores _ _ _ _ _ _ _ Sp)) as R2. destruct (carries_tree s K K1 K2 x t t' g v S0 Hc O2 (rep_dom _ _ R2) C Ex Ht Ht') as [A B].
  by eapply (aside_off s K K2).
Qed.

(** ** The damaging calls *)
Lemma last_tree s K p f m x v : sinv s K -> K !! p = Some (f :: m ++ [x]) -> tree_of s x <> Some v -> tree_of s p <> Some v /\ tree_of s f <> Some v.
Proof.
  intros S0 Hk Hx. assert (tree_of s x = tree_of s p) as E1. { apply (s_child _ _ S0). exists (f :: m ++ [x]). split; [exact Hk|]. apply elem_of_list_further, elem_of_app. right. left. }
  assert (tree_of s f = tree_of s p) as E2. { apply (s_child _ _ S0). exists (f :: m ++ [x]). split; [exact Hk|]. left. }
  split; congruence.
Qed.
Lemma filter_keep x (l : list nid) : x ∉ l -> filter (fun y => y <> x) l = l.
Proof.
  induction l as [|c l IH]; intros N; [done|]. apply not_elem_of_cons in N as [N1 N2]. rewrite filter_cons_True by congruence. by rewrite IH.
Qed.
Lemma unlinked_last K p f m x : wf K -> K !! p = Some (f :: m ++ [x]) -> unlinked K x (<[p := f :: m]> K).
Proof.
  intros W Hk. exists p, (f :: m ++ [x]). split; [exact Hk|]. split; [apply elem_of_list_further, elem_of_app; right; left|].
  pose proof (wf_nodup _ W _ _ Hk) as N. assert (x ∉ f :: m) as Nx.
  { change (f :: m ++ [x]) with ((f :: m) ++ [x]) in N. apply NoDup_app in N as (_ & N & _). intros Hin. apply (N x Hin). left. }
  f_equal. change (f :: m ++ [x]) with ((f :: m) ++ [x]). unfold without. rewrite filter_app. rewrite (filter_keep x (f :: m)).
  - rewrite filter_cons_False by (exact (fun F => F eq_refl)). rewrite filter_nil. by rewrite app_nil_r.
  - exact Nx.
Qed.

Section Damage.
Variables (s : sys T) (K : forest) (R : reach s) (Hst : stores s K) (v : tid) (Hv : is_Some (s_trees s !! v)).
Let I : inv s K := reach_stores_inv s K R Hst.
Let S0 : sinv s K := i_s _ _ I.
Let W : wf K := proj2 Hst.

Lemma aside_detach a k x p f m u r : receiver s a k x -> K !! p = Some (f :: m ++ [x]) -> tree_of s x <> Some v ->
  step s (OpDetach a) = Ret (u, r) -> aside s v u.
Proof.
  intros Hr Hk Hx E. destruct (detach_exact s K a k x p f m R Hst Hr Hk) as (s' & g & t & t' & K2 & E' & Ex & Sp & _ & M & _).
  rewrite E in E'. injection E' as <- _. destruct (last_tree s K p f m x v S0 Hk Hx) as [_ Hf].
  eapply aside_misled; [|exact M|exact Hf]. eapply aside_splits; [exact S0|exact (unlinked_last K p f m x W Hk)|exact Sp|exact Ex|congruence|exact Hv].
Qed.
Lemma aside_replace a k x p f m u r : receiver s a k x -> K !! p = Some (f :: m ++ [x]) -> K !! x = Some [] -> tree_of s x <> Some v ->
  step s (OpReplace a) = Ret (u, r) -> aside s v u.
Proof.
  intros Hr Hk H0 Hx E. destruct (replace_exact s K a k x p f m R Hst Hr Hk H0) as (s' & g & t & t' & K2 & E' & Ex & Sp & M & _).
  rewrite E in E'. injection E' as <- _. destruct (last_tree s K p f m x v S0 Hk Hx) as [_ Hf].
  eapply aside_misled; [|exact M|exact Hf]. eapply aside_splits; [exact S0|exact (unlinked_last K p f m x W Hk)|exact Sp|exact Ex|congruence|exact Hv].
Qed.

Section Move.
Variables (a : auth) (k : kind) (x : nid) (ad : adopt_as) (j : nat) (y : nid) (u : sys T) (r : out T).
Hypotheses (Hr : receiver s a k x) (Hj : s_hands s !! j = Some (HNode Hot y)) (Hx : tree_of s x <> Some v) (Hy : tree_of s y <> Some v)
  (E : step s (OpMove a ad j) = Ret (u, r)).

Lemma aside_no_place p : child_of K p x -> no_place K x ad y -> aside s v u.
Proof.
  intros Hc Hn. destruct (decide (tree_of s x = tree_of s y)) as [Et|Et].
  - destruct (move_same_fails s K a k x ad j y p R Hst Hr Hj Hc Et Hn) as (K1 & g & s' & E' & Hu & Re & Co). rewrite E in E'. injection E' as <- _.
    eapply aside_cut; [exact S0|exact Hc| |exact Co|exact Hx]. eapply aside_reshapes; [exact S0|exact Re|]. by eapply off_unlinked.
  - destruct (move_other_fails s K a k x ad j y p R Hst Hr Hj Hc Et Hn) as (K1 & K2 & t & t' & g & s' & E' & Ex & Ey & Hu & Cy & Sg & Ht & Hrt & Co). rewrite E in E'. injection E' as <- _.
    eapply aside_cut; [exact S0|exact Hc| |exact Co|exact Hx].
    assert (off s v K K1) as O1 by (by eapply off_unlinked). assert (off s v K K2) as O2 by (eapply off_carries; [exact O1|exact Cy|congruence]).
    assert (forall p c, child_of K1 p c -> child_of K p c) as Hcc. { intros p' c H. by apply (unlinked_child _ _ _ W Hu) in H as [H _]. }
    destruct (carries_tree s K K1 K2 x t t' g v S0 Hcc O2 (rep_dom _ _ (proj1 Sg)) Cy Ex) as [A B]; [congruence..|]. exact (aside_off s K K2 g v S0 (proj1 Sg) O2 A B).
Qed.
Lemma off_moved K' : moved K x (dest_of ad y) K' -> off s v K K'.
Proof. intros (K1 & Hu & Ha). eapply off_attached; [exact S0| |exact Ha|exact Hx|exact Hy]. by eapply off_unlinked. Qed.
Lemma aside_below p : child_of K p x -> ~ no_place K x ad y -> below K x y -> aside s v u.
Proof.
  intros Hc Hn Hb. destruct (move_below s K a k x ad j y p R Hst Hr Hj Hc Hb Hn) as (K1 & g & s' & q & E' & Hm & Re & Co & _). rewrite E in E'. injection E' as <- _.
  eapply aside_cut; [exact S0|exact Hc| |exact Co|exact Hx]. eapply (aside_off s K K1); [exact S0|exact (rl_rep _ _ _ Re)|by apply off_moved| |]; intros z; by rewrite (rl_tree _ _ _ Re).
Qed.
Lemma aside_last p f m : K !! p = Some (f :: m ++ [x]) -> ~ below K x y -> has_place K ad y -> aside s v u.
Proof.
  intros Hk Hb Hp. destruct (last_tree s K p f m x v S0 Hk Hx) as [Hpt Hf]. destruct (decide (tree_of s x = tree_of s y)) as [Et|Et].
  - destruct (move_same_exact s K a k x ad j y p f m R Hst Hr Hj Hk Et Hb Hp) as (K1 & ks' & Hm & Hk' & _ & B).
    pose proof (off_moved K1 Hm) as O1. destruct (decide (last ks' = Some x)) as [Hlast|Hlast].
    + pose proof (last_place_dest K x ad y K1 p f m ks' W Hk Hm Hk' Hlast) as Hd.
      destruct (move_last_place s K a k x ad j y p f m R Hst Hr Hj Hk Hd) as (g & s' & E' & Re & Da). rewrite E in E'. injection E' as <- _.
      eapply aside_trans; [eapply aside_reshapes; [exact S0|exact Re|eapply off_unlinked; [exact S0|exact (unlinked_last K p f m x W Hk)|exact Hx]]|exact (dg_hands _ _ _ _ _ Da)| |].
      * intros z Ez. apply (dg_rest _ _ _ _ _ Da); intros ->; congruence.
      * intros z. unfold tree_of, n_memb. destruct (decide (z = x)) as [->|Nx]; [rewrite (dg_node _ _ _ _ _ Da); by destruct (s_nodes g !! x)|].
        destruct (decide (z = f)) as [->|Nf]; [rewrite (dg_first _ _ _ _ _ Da); by destruct (s_nodes g !! f)|].
        destruct (decide (z = p)) as [->|Np]; [rewrite (dg_parent _ _ _ _ _ Da); by destruct (s_nodes g !! p)|]. by rewrite (dg_rest _ _ _ _ _ Da z Np Nf Nx).
    + destruct (B Hlast) as (s' & g & f' & E' & Hh & Re & M & _). rewrite E in E'. injection E' as <- _.
      eapply aside_misled; [|exact M|]; [by eapply aside_reshapes|]. intros Ef. apply Hpt.
      assert (child_of K1 p f') as Hc. { exists ks'. split; [exact Hk'|]. destruct ks' as [|c l]; [done|]. injection Hh as ->. left. }
      by rewrite <- (s_child _ _ S0 p f' (proj2 (O1 f' Ef) p Hc)).
  - destruct (move_other_exact s K a k x ad j y p f m R Hst Hr Hj Hk Et Hp) as (s' & g & t & t' & K2 & K3 & E' & Ex & Ey & Cy & Ha & Sg & _ & M & _). rewrite E in E'. injection E' as <- _.
    eapply aside_misled; [|exact M|exact Hf]. pose proof (unlinked_last K p f m x W Hk) as Hu.
    assert (off s v K (<[p := f :: m]> K)) as O1 by (by eapply off_unlinked). assert (off s v K K2) as O2 by (eapply off_carries; [exact O1|exact Cy|congruence]).
    assert (forall q c, child_of (<[p := f :: m]> K) q c -> child_of K q c) as Hcc. { intros p' c H. by apply (unlinked_child _ _ _ W Hu) in H as [H _]. }
    assert (forall z, is_Some (s_nodes g !! z) <-> is_Some (K2 !! z)) as Hal.
    { intros z. destruct (attached_shape _ _ _ _ Ha) as (q & l & l' & _ & Hq & E3 & _). rewrite (rep_dom _ _ (proj1 Sg) z), E3.
      destruct (decide (z = q)) as [->|Nz]; [rewrite lookup_insert, Hq; split; eauto|by rewrite lookup_insert_ne]. }
    destruct (carries_tree s K _ K2 x t t' g v S0 Hcc O2 Hal Cy Ex) as [A B]; [congruence..|].
    assert (off s v K K3) as O3 by (eapply off_attached; [exact S0|exact O2|exact Ha|exact Hx|exact Hy]). exact (aside_off s K K3 g v S0 (proj1 Sg) O3 A B).
Qed.
Lemma aside_whole : is_top K x -> tree_of s x <> tree_of s y -> aside s v u.
Proof.
  intros Ht Et. destruct (receiver_facts s K a k x I Hr) as (i0 & t & Hi0 & Ex & Htt & _ & Hax & _).
  destruct (ApiFacts7.handle_tree s K j Hot y R Hst Hj) as (t' & rc & lk & _ & Ey & _). assert (t <> t') as Htn by congruence.
  assert (is_Some (K !! y)) as Hya. { apply (rep_dom _ _ (proj1 Hst)). eapply handle_alive; [exact I|exact Hj]. }
  assert (forall z, below K x z -> tree_of s z = Some t) as Hbt. { intros z Hb. rewrite (off_below s K K x z (fun _ _ H => H) S0 Hb). exact Ex. }
  assert (forall z, tree_of s z = Some v -> ~ below K x z) as Nb. { intros z Ez Hb. rewrite (Hbt z Hb) in Ez. congruence. }
  assert (has_place K ad y \/ no_place K x ad y) as HP.
  { destruct (has_place_dec K ad y W Hya) as [A|[A B]]; [by left|right; split; [exact B|by right]]. }
  destruct (tree_handle_dec s t) as [[i Hi]|Hno].
  - assert (hands_over s K x t' u /\ exists K', rep (s_nodes u) K' /\ off s v K K') as (Ho & K' & R' & O').
    { destruct HP as [HP|HP].
      - destruct (graft_kept s K a k x ad j y t t' i R Hst Hr Hj Ht Ex Ey Htn Hi HP) as (s' & K3 & E' & Ho & Ha & Sg). rewrite E in E'. injection E' as <- _.
        split; [exact Ho|]. exists K3. split; [exact (proj1 Sg)|]. eapply off_attached; [exact S0|apply off_refl|exact Ha|exact Hx|exact Hy].
      - destruct (graft_kept_refused s K a k x ad j y t t' i R Hst Hr Hj Ht Ex Ey Htn Hi HP) as (s' & E' & Ho & Sg). rewrite E in E'. injection E' as <- _.
        split; [exact Ho|]. exists K. split; [exact (proj1 Sg)|]. apply off_refl. }
    apply (aside_off s K K' u v S0 R' O').
    + intros z Ez. by rewrite (ho_out _ _ _ _ _ Ho z (Nb z Ez)).
    + intros z Ez. apply dec_stable. intros N. assert (~ below K x z) as Hb. { intros Hb. rewrite (ho_in _ _ _ _ _ Ho z Hb) in Ez. congruence. }
      apply N. by rewrite <- (ho_out _ _ _ _ _ Ho z Hb).
  - assert (forall K2, falls_apart s K x K2 -> off s v K K2) as Ofa.
    { intros K2 Fa z Ez. split; [by apply (Fa z), Nb|]. intros q (l & Hq & Hin). exists l. split; [|exact Hin]. apply dec_stable. intros N.
      assert (below K x q) as Hb. { destruct (below_dec K x q W (proj1 Ht)) as [Hb|Hb]; [exact Hb|]. exfalso. apply N. by rewrite <- (proj1 (Fa q) Hb). }
      destruct (Fa q) as (_ & F1 & F2). assert (~ held_node s q) as Hn. { intros Hh. rewrite (F1 Hb Hh) in Hq. injection Hq as <-. by apply elem_of_nil in Hin. }
      rewrite (F2 Hb Hn) in Hq. discriminate Hq. }
    assert (exists K3, off s v K K3 /\ strands s K x t t' K3 u /\ forall z, below K x z -> ~ held_node s z -> K3 !! z = None) as (K3 & O3 & St & Hd).
    { destruct HP as [HP|HP].
      - destruct (graft_lost s K a k x ad j y t t' R Hst Hr Hj Ht Ex Ey Htn Hno HP) as (s' & K2 & K3 & E' & Fa & At & W3 & St). rewrite E in E'. injection E' as <- _.
        exists K3. split; [eapply off_attached; [exact S0|by apply Ofa|exact At|exact Hx|exact Hy]|]. split; [exact St|]. intros z Hb Hh.
        destruct (attached_shape _ _ _ _ At) as (q & l & l' & _ & Hq & -> & _). pose proof (proj2 (proj2 (Fa z)) Hb Hh) as Hz.
        rewrite lookup_insert_ne; [exact Hz|]. intros ->. congruence.
      - destruct (graft_lost_refused s K a k x ad j y t t' R Hst Hr Hj Ht Ex Ey Htn Hno HP) as (s' & K2 & E' & Fa & St). rewrite E in E'. injection E' as <- _.
        exists K2. split; [by apply Ofa|]. split; [exact St|]. intros z Hb Hh. by apply (Fa z). }
    split; [|split].
    + intros z Ez _. destruct (st_links _ _ _ _ _ _ _ St) as (h & Rh & Hl & _). split; [|by rewrite (st_out _ _ _ _ _ _ _ St z (Nb z Ez))].
      pose proof (off_links s K K3 v h z S0 Rh O3 Ez) as L. revert L. unfold same_links, fparent, ffirst, fnext, fprev, fnch. by rewrite (Hl z (Nb z Ez)).
    + intros z Ez. apply dec_stable. intros N. assert (~ below K x z) as Hb.
      { intros Hb. assert (~ held_node s z) as Hh. { intros Hh. rewrite (st_in _ _ _ _ _ _ _ St z Hb Hh) in Ez. congruence. }
        pose proof (tree_alive u z v Ez) as Ha. apply (st_alive _ _ _ _ _ _ _ St) in Ha. rewrite (Hd z Hb Hh) in Ha. by destruct Ha. }
      apply N. by rewrite <- (st_out _ _ _ _ _ _ _ St z Hb).
    + intros _ z Ez. apply (st_alive _ _ _ _ _ _ _ St). rewrite (proj1 (O3 z Ez)). apply (rep_dom _ _ (s_rep _ _ S0)). by eapply tree_alive.
Qed.
End Move.

(** ** Any call *)
Lemma aside_safe o u r : safe s K o -> step s o = Ret (u, r) -> ~ touches s o v -> aside s v u.
Proof.
  intros Hs E Hn. pose proof (reach_step s K o u r R Hst Hs E) as Ru. destruct (reach_inv u Ru) as [K' Iu]. pose proof (i_s _ _ Iu) as Su.
  destruct (footprint s K o u r K' v R Hst Hs E (inv_stores _ _ Iu) Hv Hn) as [A B]. split; [|split; [exact B|intros Hd z Ez; exact (kept_alive s K o u r z v R Hst Hs E Ez Hd)]].
  intros y Ey Hy. destruct (A y Ey Hy) as [Hk Et]. split; [|exact Et].
  assert (forall z, tree_of s z = Some v -> K' !! z = K !! z) as Hall.
  { intros z Ez. apply (A z Ez). destruct (no_garbage u K' Ru (inv_stores _ _ Iu)) as [G1 G2]. destruct (G1 y Hy) as (v' & Ev & Hv').
    assert (v' = v) as -> by congruence. exact (kept_alive s K o u r z v R Hst Hs E Ez (G2 v Hv')). }
  eapply (off_links s K K'); [exact S0|exact (s_rep _ _ Su)| |exact Ey]. intros z Ez. split; [by apply Hall|].
  intros q (l & Hq & Hin). exists l. split; [|exact Hin]. rewrite <- Hall; [exact Hq|]. apply B.
  rewrite <- (s_child _ _ Su q z); [|by exists l]. apply (A z Ez). apply (rep_dom _ _ (s_rep _ _ Su)). rewrite (Hall z Ez). apply (rep_dom _ _ (s_rep _ _ S0)). by eapply tree_alive.
Qed.
Lemma aside_damaging o u r : damaging s K o -> step s o = Ret (u, r) -> ~ touches s o v -> aside s v u.
Proof.
  intros D E Hn. destruct o; try (by destruct D); simpl in D.
  - destruct D as (k & x & Hr & (p & ks & Hk & Hl & Hh) & H0 & _). destruct (last_list ks x Hl Hh) as (f & m & ->).
    eapply (aside_replace a k x p f m); [exact Hr|exact Hk|exact H0| |exact E]. intros Ex. apply Hn. by exists k, x.
  - destruct D as (k & x & Hr & (p & ks & Hk & Hl & Hh) & _). destruct (last_list ks x Hl Hh) as (f & m & ->).
    eapply (aside_detach a k x p f m); [exact Hr|exact Hk| |exact E]. intros Ex. apply Hn. by exists k, x.
  - destruct D as (k & x & y & Hr & Hj & D). assert (tree_of s x <> Some v) as Hx. { intros Ex. apply Hn. left. by exists k, x. }
    assert (tree_of s y <> Some v) as Hy. { intros Ey. apply Hn. right. by exists y. }
    assert (is_Some (K !! y)) as Hya. { apply (rep_dom _ _ (proj1 Hst)). eapply handle_alive; [exact I|exact Hj]. }
    destruct D as [([p Hc] & D)|(Ht & Et & _)]; [|by eapply aside_whole].
    assert (no_place K x ad y \/ ~ no_place K x ad y) as [Np|Np].
    { destruct (has_place_dec K ad y W Hya) as [A|[A B]]; [|left; split; [exact B|by right]]. destruct (decide (y = x)) as [->|Nx].
      - destruct ad; [right|right|left|left]; try (intros [[?|?] _]; discriminate); split; auto.
      - right. intros [[-> | ->] [?|[_ Z]]]; try done; destruct A as [q Hq]; by apply (Z q). }
    { by eapply aside_no_place. }
    assert (has_place K ad y) as Hp. { destruct (has_place_dec K ad y W Hya) as [A|[A B]]; [exact A|]. exfalso. apply Np. split; [exact B|by right]. }
    destruct (below_dec K x y W) as [Hb|Hb]; [destruct Hc as (l & Hl & Hin); apply (wf_dom _ W p); by exists l|by eapply aside_below|].
    destruct D as [[(q & ks & Hk & Hl & Hh) _]|[D|D]]; [|done|done]. destruct (last_list ks x Hl Hh) as (f & m & ->). by eapply aside_last.
Qed.
End Damage.

Global Instance same_links_dec h h' y : Decision (same_links h h' y).
Proof. apply _. Defined.
Lemma aside_stable s v u : ~ ~ aside s v u -> aside s v u.
Proof.
  intros N. split; [|split].
  - intros y Ey Hy. apply dec_stable. intros N'. apply N. intros [A _]. exact (N' (A y Ey Hy)).
  - intros y Ey. apply dec_stable. intros N'. apply N. intros [_ [A _]]. exact (N' (A y Ey)).
  - intros Hd y Ey. apply dec_stable. intros N'. apply N. intros [_ [_ A]]. exact (N' (A Hd y Ey)).
Qed.
Lemma aside_every s o u r v : reach s -> step s o = Ret (u, r) -> is_Some (s_trees s !! v) -> ~ touches s o v -> aside s v u.
Proof.
  intros R E Hv Hn. destruct (reach_stores s R) as [K Hst]. apply aside_stable. intros N. apply N.
  apply (aside_safe s K R Hst v Hv o u r); [|exact E|exact Hn]. apply (undamaging_safe s K o R Hst).
  intros D. apply N. exact (aside_damaging s K R Hst v Hv o u r D E Hn).
Qed.
Lemma frozen_every s o u r v : reach s -> step s o = Ret (u, r) -> is_Some (s_trees s !! v) -> some_lock s Frozen v -> aside s v u.
Proof.
  intros R E Hv Hl. destruct (reach_stores s R) as [K Hst]. apply (aside_every s o u r v R E Hv). intros Ht. exact (touched_thawed s K o v R Hst Ht Hl).
Qed.
End Every.
