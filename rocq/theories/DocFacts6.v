(** * DocFacts6: copying a subtree to a place is pasting a copy of its document (C58). *)
From Verif Require Import Heap Traverse System SysSpec SpecFacts RoseFacts IterSpec IterFacts TravFacts ApiSpec ApiFacts ApiFacts2 ApiFacts3 ApiFacts6 Serial SerialSpec EqFacts BuildFacts8 BuildFacts7 DocSpec EditFacts2 UndoFacts DocFacts DocFacts2 DocFacts3 Spec.

Section DocFacts6.
Context {T : Type}.
Implicit Types (s : sys T) (K : forest).

Lemma attached_at K K2 n dest K1 : (forall p, dest_parent K dest p -> K2 !! p = K !! p) -> attached K n dest K1 ->
  exists p ks, K1 = <[p := ks]> K /\ attached K2 n dest (<[p := ks]> K2) /\ dest_parent K dest p.
Proof.
  intros H A. inversion A as [p ks Hp|p ks Hp|y p ks Hp Hin|y p ks Hp Hin]; subst; cbn [dest_parent] in *.
  - exists p, (n :: ks). split; [done|]. split; [constructor; by rewrite H|done].
  - exists p, (ks ++ [n]). split; [done|]. split; [constructor; by rewrite H|done].
  - exists p, (ins_before y n ks). split; [done|]. split; [|by exists ks]. constructor; [|done]. rewrite H; [done|by exists ks].
  - exists p, (ins_after y n ks). split; [done|]. split; [|by exists ks]. constructor; [|done]. rewrite H; [done|by exists ks].
Qed.

Lemma dest_parent_uniq K d p q : wf K -> dest_parent K d p -> dest_parent K d q -> p = q.
Proof. intros W. destruct d; cbn [dest_parent]; [by intros -> ->..| |]; intros H1 H2; by eapply (wf_uniq _ W). Qed.

Lemma graft_paste s K n ad y t0 td s' : stores s K -> is_Some (K !! y) -> grafts s K n (dest_of ad y) t0 td s' ->
  reads s' n (dfs_events t0) /\
  forall r E, is_Some (s_nodes s !! r) -> reads s r E -> exists E', pasted (dfs_events t0) y E ad E' /\ reads s' r E'.
Proof.
  intros St Hy G. destruct (gr_forest _ _ _ _ _ _ _ G) as (K1 & K' & At & S' & Sh & Old & Dom).
  assert (Hn : K !! n = None). { apply (gr_new _ _ _ _ _ _ _ G n). inversion Sh; subst. apply elem_of_list_here. }
  pose proof (wf_alone K n (proj2 St) Hn) as Wn. pose proof (docs_of_shape K' _ _ Sh) as DS. pose proof (docs_reads s' K' n _ S' DS) as RS.
  split; [done|]. intros r E Hr HE. apply (reads_docs s K) in HE; [|done..].
  assert (NC : forall p, ~ child_of (<[n := []]> K) p n).
  { intros p (l & Hl & Hin). destruct (decide (p = n)) as [->|Hne]; [rewrite lookup_insert in Hl; injection Hl as <-; by apply elem_of_nil in Hin|].
    rewrite lookup_insert_ne in Hl by done. assert (Hd : is_Some (K !! n)) by (eapply (wf_dom _ (proj2 St) p); by exists l). rewrite Hn in Hd. by destruct Hd. }
  destruct (attached_undo _ n _ K1 Wn NC At) as (p & ks & ks' & Hp & EK1 & Hin & Hnin & Hw & _).
  assert (Hd : dest_parent (<[n := []]> K) (dest_of ad y) p).
  { destruct (attached_at _ (<[n := []]> K) n _ _ (fun _ _ => eq_refl) At) as (p2 & ks2 & E1 & _ & D).
    assert (p2 = p) as ->; [|done]. destruct (decide (p2 = p)) as [|Hne]; [done|]. exfalso. rewrite EK1 in E1.
    pose proof (f_equal (lookup p) E1) as F. rewrite lookup_insert, lookup_insert_ne in F by done. rewrite Hp in F. injection F as ->. done. }
  assert (Hpn : p <> n).
  { intros ->. destruct ad; cbn [dest_of dest_parent] in Hd; try (destruct Hd as (l & Hl & Hil); rewrite lookup_insert in Hl; injection Hl as <-; by apply elem_of_nil in Hil).
    all: subst y; rewrite Hn in Hy; by destruct Hy. }
  assert (HpK : K !! p = Some ks) by (by rewrite lookup_insert_ne in Hp).
  assert (Hp' : K' !! p = Some ks') by (rewrite Old by (by eexists); rewrite EK1; apply lookup_insert).
  set (Kx := <[p := ks]> K').
  assert (U : unlinked K' n Kx) by (exists p, ks'; rewrite Hw; done).
  destruct (EditFacts2.unlinked_wf K' n Kx (proj2 S') U) as [Wx _].
  assert (Hx : Kx !! p = Some ks) by apply lookup_insert.
  assert (Ax : attached Kx n (dest_of ad y) K').
  { destruct (attached_at (<[n := []]> K) Kx n (dest_of ad y) K1) as (p2 & ks2 & E1 & A2 & D2); [|exact At|].
    - intros q Hq. rewrite (dest_parent_uniq _ _ _ _ Wn Hq Hd). by rewrite Hx, Hp.
    - assert (p2 = p) as -> by exact (dest_parent_uniq _ _ _ _ Wn D2 Hd). rewrite EK1 in E1. pose proof (f_equal (lookup p) E1) as F. rewrite !lookup_insert in F. injection F as <-.
      unfold Kx in A2 at 2. rewrite insert_insert, insert_id in A2; done. }
  assert (Dx : dest_parent Kx (dest_of ad y) p).
  { destruct ad; cbn [dest_of dest_parent] in *; [done|done|..]; destruct Hd as (l & Hl & Hil); rewrite Hp in Hl; injection Hl as <-; by exists ks. }
  assert (Hnew : forall z, Open z ∈ dfs_events t0 -> K !! z = None).
  { intros z Hz. apply dfs_events_elem in Hz. by apply (gr_new _ _ _ _ _ _ _ G z). }
  destruct (paste_docs Kx r E n (dfs_events t0) ad y K' Wx) as (E' & Pa & D'); [| |exact Ax| |exists E'; split; [done|by eapply docs_reads]].
  - eapply docs_agree; [exact HE|]. intros z Hz. pose proof (docs_dom _ _ _ _ HE Hz) as Hzk. destruct (decide (z = p)) as [->|Hzp]; [by rewrite Hx|].
    unfold Kx. rewrite lookup_insert_ne by done. rewrite Old by done. rewrite EK1, lookup_insert_ne by done. rewrite lookup_insert_ne; [done|]. intros <-. rewrite Hn in Hzk. by destruct Hzk.
  - eapply docs_agree; [exact DS|]. intros z Hz. apply Hnew in Hz. unfold Kx. rewrite lookup_insert_ne; [done|]. intros <-. congruence.
  - intros q Hq F. rewrite (dest_parent_uniq _ _ _ _ Wx Hq Dx) in F. apply Hnew in F. congruence.
Qed.

Lemma doc_clone_insert s K x S ad j y fuel s' i : reach s -> stores s K -> is_Some (s_nodes s !! x) -> reads s x S -> s_hands s !! j = Some (HNode Hot y) -> has_place K ad y ->
  (forall q, dest_parent K (dest_of ad y) q -> ~ below K x q) -> dfs_fuel (s_nodes s) <= fuel ->
  clone_insert_subtree fuel s x ad j = Ret (s', HOk i) ->
  exists n S', s_hands s' !! i = Some (HNode Hot n) /\ s_nodes s !! n = None /\ reads s' n S' /\ copied s s' S S' /\
    forall r E, is_Some (s_nodes s !! r) -> reads s r E -> exists E', pasted S' y E ad E' /\ reads s' r E'.
Proof.
  intros R St Hx HS Hj Hpl Hout Hf Es. apply (reads_docs s K) in HS; [|done..]. destruct (docs_shape _ _ _ HS) as (t & Sh & ->). destruct (clone_insert_ok s K x t ad j y fuel R St Sh Hj Hpl Hout Hf) as (s1 & r & E1 & C).
  rewrite Es in E1. injection E1 as <- <-. destruct C as (_ & _ & n & t0 & td & Dt & G & Eh).
  assert (Hy : is_Some (K !! y)). { apply (alive_K s K y St). by destruct (receiver_facts s K (ByHot j) Hot y (reach_stores_inv s K R St) (conj eq_refl Hj)) as (_ & _ & _ & _ & _ & _ & F & _). }
  destruct (graft_paste s K n ad y t0 td s' St Hy G) as [RS P].
  assert (Hn : K !! n = None). { apply (gr_new _ _ _ _ _ _ _ G n). destruct (gr_forest _ _ _ _ _ _ _ G) as (K1 & K' & _ & _ & Sn & _). inversion Sn; subst. apply elem_of_list_here. }
  exists n, (dfs_events t0). split; [rewrite Eh; apply lookup_insert|]. split.
  { destruct (s_nodes s !! n) eqn:En; [|done]. assert (F : is_Some (K !! n)) by (apply (alive_K s K n St); by eexists). rewrite Hn in F. by destruct F. }
  split; [done|]. split; [|exact P].
  pose proof (rose_rel_sym_comp _ _ _ _ _ Dt (gr_data _ _ _ _ _ _ _ G)) as RR.
  pose proof (proj2 (rose_rel_events _ t t0 [] []) (conj RR (proj2 (Forall2_nil _) Logic.I))) as F. rewrite !app_nil_r in F.
  unfold copied. eapply Forall2_impl; [exact F|]. intros [a|a] [b|b] H; cbn in H; try done. destruct H as (d & (nd & Ha & Hda) & Hb). exists d, (n_lend nd). split; [|done].
  unfold payload. by rewrite Ha; cbn; subst.
Qed.
End DocFacts6.
Lemma doc_readable {T} (s : sys T) r : reach s -> is_Some (s_nodes s !! r) -> exists E, reads s r E /\ NoDup E /\ hd_error E = Some (Open r) /\ last E = Some (Close r) /\ forall E', reads s r E' -> E' = E.
Proof.
  intros R Hr. destruct (reach_stores s R) as [K St]. destruct (docs_exist K r (proj2 St) (alive_K s K r St Hr)) as [E D]. pose proof (docs_reads s K r E St D) as HE.
  exists E. split; [done|]. split; [by eapply docs_nodup; [exact (proj2 St)|]|]. split.
  { inversion D; subst. done. } split.
  { inversion D as [|? ? cs m rest Hc Hm Hrest]; subst. inversion Hrest; subst. change (Open r :: m ++ [Close r]) with ((Open r :: m) ++ [Close r]). apply last_snoc. }
  intros E' H'. exact (enumerates_unique _ _ _ _ H' HE).
Qed.
