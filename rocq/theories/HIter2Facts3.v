(** * HIter2Facts3: the breadth-first iterators of a frozen tree under interference. *)
From Verif Require Import HIter HIter2 HIterSpec HIter2Spec OwnSpec OwnFacts OwnFacts2 LooseFacts SpecFacts NavFacts RoseFacts IterFacts AdjFacts TravFacts TravFacts3 TravFacts4 EditFacts2 SysFacts5 ApiFacts ApiFacts2 ApiFacts3 ApiFacts6 ApiFacts7 BuildFacts4 GenSpec QuerySpec QueryFacts HIterFacts HIterFacts2 HIterFacts3 HIter2Facts HIter2Facts2 EditFacts3 Spec.

Section HIter2Facts3.
Context {T : Type}.
Implicit Types (s : sys T) (K : forest) (t : rose nid) (d : nat).

(** ** Handles *)
Lemma ho_keeps own s own' s' j hd : hands_over own s own' s' -> j ∉ own -> s_hands s !! j = Some hd -> j ∉ own' /\ s_hands s' !! j = Some hd.
Proof.
  intros (_ & A & _ & D) Hj E. assert (j ∉ own') as Hn by (intros F; destruct (A j F) as [_ [B|B]]; [by apply Hj|congruence]).
  split; [exact Hn|]. rewrite (D j Hn Hj). exact E.
Qed.
Lemma ho_undisturbed own s own' s' : hands_over own s own' s' -> undisturbed own s s'.
Proof. intros H j hd Hj E. exact (proj2 (ho_keeps own s own' s' j hd H Hj E)). Qed.
Lemma others_mono own own' s s' : (forall j, j ∈ own -> j ∈ own') -> others own' s s' -> others own s s'.
Proof.
  intros Hs. induction 1 as [s|s K o s2 r s3 Hst Hsf Ha E Ho IH]; [constructor|]. eapply others_call; [exact Hst|exact Hsf| |exact E|exact IH].
  intros i Hi F. exact (Ha i Hi (Hs i F)).
Qed.
Lemma owned_others own s s' : others own s s' -> reach s -> owned own s -> owned own s'.
Proof.
  intros Ho H [A B]. split; [exact A|]. intros j Hj. destruct (B j Hj) as [hd E]. exists hd. exact (proj2 (others_ok _ _ _ Ho H) j hd Hj E).
Qed.

(** ** The inner traverser *)
Lemma sh_inv_owned max t s st l : sh_inv max t s st l -> owned (hsh_owns st) s.
Proof.
  destruct st as [[e eb]|]; [|intros _; apply owned_nil]. intros (a & b & l1 & l2 & _ & He & Hb & Hd & _). split.
  - simpl. constructor; [|constructor; [|constructor]]; [|by apply not_elem_of_nil]. intros F. apply elem_of_list_singleton in F. by apply Hd.
  - intros j Hj. simpl in Hj. apply elem_of_cons in Hj as [->|Hj]; [eexists; exact (proj1 (names_at_val s Frozen e a He))|].
    apply elem_of_list_singleton in Hj as ->. eexists. exact (proj1 (names_at_val s Frozen eb b Hb)).
Qed.
Lemma sh_inv_keep max t s s' st l : same_view s s' -> (forall j hd, j ∈ hsh_owns st -> s_hands s !! j = Some hd -> s_hands s' !! j = Some hd) ->
  sh_inv max t s st l -> sh_inv max t s' st l.
Proof.
  intros V Hk. destruct st as [[e eb]|]; [|done]. intros (a & b & l1 & l2 & Hs & He & Hb & Hd & Ha & Hl & HL).
  exists a, b, l1, l2. split; [exact (stable_view s s' t V Hs)|]. split; [apply (names_at_keep s); [exact He|]; intros hd; apply Hk; simpl; left|].
  split; [apply (names_at_keep s); [exact Hb|]; intros hd; apply Hk; simpl; right; left|]. done.
Qed.
Lemma sh_len max t s st l : stable s t -> sh_inv max t s st l -> length l < dfs_fuel (s_nodes s).
Proof.
  intros (u & K & Hst & Hsh & _) Hi. pose proof (cut_events_fuel (s_nodes s) K _ t max 0 (proj1 Hst) (proj2 Hst) Hsh) as L.
  destruct st as [[e eb]|]; [|simpl in Hi; subst l; simpl; lia]. destruct Hi as (a & b & l1 & l2 & _ & _ & _ & _ & _ & _ & HL). unfold all_events in HL.
  rewrite HL, !app_length in L. lia.
Qed.
Lemma sh_inv_start max t s c : reach s -> stable s t -> nfz s c (rose_root t) ->
  exists s1 j, hsh_start s c = Ret (s1, Some (Open (j, 0), Close (c, 0))) /\ reach s1 /\ same_view s s1 /\ extends s s1 /\ s_hands s !! j = None /\
    sh_inv max t s1 (Some (Open (j, 0), Close (c, 0))) (all_events max t).
Proof.
  intros H Hs Hc. destruct (h_clone_ok s c Frozen _ H Hc) as (s1 & j & E & [R V X N Hj]). exists s1, j. split; [unfold hsh_start; by rewrite E|].
  split; [exact R|]. split; [exact V|]. split; [exact X|]. split; [exact N|]. exists (Open (rose_root t, 0)), (Close (rose_root t, 0)), [], [].
  assert (rose_root (rose_depths 0 (rose_cut max t)) = (rose_root t, 0)) as Hroot by (by rewrite depths_root, cut_root).
  split; [exact (stable_view s s1 t V Hs)|]. split; [by split|]. split; [split; [exact (X _ _ Hc)|done]|]. split; [simpl; unfold nfz in Hc; congruence|].
  unfold all_events. rewrite head_events, last_events, Hroot, app_nil_r. done.
Qed.
(** One item, and letting go of it. *)
Lemma sh_pass max t w s st l e l' : reach s -> stable s t -> nfz s w (rose_root t) -> w ∉ hsh_owns st -> sh_inv max t s st l -> l = e :: l' ->
  exists s1 i st', hsh_next max s st = Ret (s1, Some i, st') /\ reach s1 /\ same_view s s1 /\ names_at s1 Frozen i e /\ sh_inv max t s1 st' l' /\
    hands_over (hsh_owns st) s ((ev_val i).1 :: hsh_owns st') s1 /\
    exists s2, h_drop s1 (ev_val i).1 = Ret s2 /\ reach s2 /\ same_view s s2 /\ sh_inv max t s2 st' l' /\ nfz s2 w (rose_root t) /\ w ∉ hsh_owns st'.
Proof.
  intros H Hs Hw Nw Hi El. destruct (sh_inv_next max t s st l H Hi) as (s1 & r & st' & E & R & _ & V & C & I1). rewrite El in C, I1. cbn [head tail] in C, I1.
  destruct C as (i & -> & Hn). destruct (own_sh_next max s st s1 _ st' (reach_any s H) (sh_inv_owned _ _ _ _ _ Hi) E) as [_ Ho]. cbn [app] in Ho.
  exists s1, i, st'. split; [exact E|]. split; [exact R|]. split; [exact V|]. split; [exact Hn|]. split; [exact I1|]. split; [exact Ho|].
  destruct (ho_keeps _ _ _ _ w _ Ho Nw Hw) as [Nw1 Hw1]. pose proof (stable_view s s1 t V Hs) as (u & K & Hst & Hsh & Htr).
  destruct (names_at_val s1 Frozen i e Hn) as [Hv _].
  assert ((ev_val e).1 ∈ rose_nodes t) as He.
  { destruct st as [[e1 e2]|]; [|simpl in Hi; subst l; discriminate El]. destruct Hi as (a & b & l1 & l2 & _ & _ & _ & _ & Ha & Hl & HL).
    apply (all_events_nodes max). rewrite HL, El. clear. set_solver. }
  destruct (h_drop_view s1 (ev_val i).1 w Frozen Frozen (ev_val e).1 (rose_root t) R Hv) as (s2 & E2 & R2 & Hh & V2); [intros F; apply Nw1; rewrite F; left|exact Hw1| |].
  { rewrite (Htr _ He), Htr; [done|]. destruct t. left. }
  assert ((ev_val i).1 ∉ hsh_owns st') as Hni by (destruct Ho as [ND _]; apply NoDup_cons in ND as [ND _]; exact ND).
  exists s2. split; [exact E2|]. split; [exact R2|]. split; [exact (view_trans _ _ _ V V2)|]. split.
  - apply (sh_inv_keep max t s1 s2 st' l' V2); [|exact I1]. intros j hd Hj Hjd. rewrite Hh, lookup_delete_ne; [exact Hjd|]. intros F. apply Hni. by rewrite F.
  - assert (w <> (ev_val i).1) as Hne by (intros F; apply Nw1; rewrite F; left). split; [unfold nfz; rewrite Hh, lookup_delete_ne by congruence; exact Hw1|].
    intros F. apply Nw1. by right.
Qed.
Lemma find_ok t w d : forall fuel s st l, reach s -> stable s t -> nfz s w (rose_root t) -> w ∉ hsh_owns st -> sh_inv (Some d) t s st l -> length l < fuel ->
  exists s2 r st' l', h_find fuel d s st = Ret (s2, r, st') /\ reach s2 /\ same_view s s2 /\ sh_inv (Some d) t s2 st' l' /\
    opens_at_depth d l' = tail (opens_at_depth d l) /\
    match head (opens_at_depth d l) with None => r = None | Some y => exists i, r = Some i /\ nfz s2 i y end.
Proof.
  induction fuel as [|fuel IH]; intros s st l H Hs Hw Nw Hi Hf; [lia|]. destruct l as [|e l].
  - destruct (sh_inv_next (Some d) t s st [] H Hi) as (s1 & r & st' & E & R & _ & V & [-> ->] & I1). exists s, None, st', [].
    cbn [h_find]. rewrite E. cbn [mbind run_bind]. split; [done|]. split; [exact R|]. split; [exact V|]. split; [exact I1|]. done.
  - destruct (sh_pass (Some d) t w s st (e :: l) e l H Hs Hw Nw Hi eq_refl) as (s1 & i & st' & E & R & V & Hn & I1 & Ho & s2 & E2 & R2 & V2 & I2 & Hw2 & Nw2).
    cbn [h_find]. rewrite E. cbn [mbind run_bind]. cbn [length] in Hf.
    assert (exists s3 r st3 l3, h_find fuel d s2 st' = Ret (s3, r, st3) /\ reach s3 /\ same_view s s3 /\ sh_inv (Some d) t s3 st3 l3 /\
      opens_at_depth d l3 = tail (opens_at_depth d l) /\ match head (opens_at_depth d l) with None => r = None | Some y => exists i, r = Some i /\ nfz s3 i y end) as Hrec.
    { destruct (IH s2 st' l R2 (stable_view s s2 t V2 Hs) Hw2 Nw2 I2 ltac:(lia)) as (s3 & r & st3 & l3 & E3 & R3 & V3 & C). exists s3, r, st3, l3.
      split; [exact E3|]. split; [exact R3|]. split; [exact (view_trans _ _ _ V2 V3)|]. exact C. }
    destruct i as [[i d1]|[i d1]], e as [[y d2]|[y d2]]; simpl in Hn; try (exfalso; exact Hn); destruct Hn as [Hy ->]; cbn [ev_val fst] in E2.
    + destruct (decide (d2 = d)) as [->|Hne].
      * exists s1, (Some i), st', l. split; [done|]. split; [exact R|]. split; [exact V|]. split; [exact I1|].
        unfold opens_at_depth. cbn [omap list_omap]. rewrite decide_True by done. cbn [head tail]. split; [done|]. exists i. by split.
      * rewrite E2. cbn [mbind run_bind]. unfold opens_at_depth. cbn [omap list_omap]. rewrite decide_False by done. exact Hrec.
    + rewrite E2. cbn [mbind run_bind]. exact Hrec.
Qed.
Lemma opens_ok t w d : forall fuel s st l, reach s -> stable s t -> nfz s w (rose_root t) -> w ∉ hsh_owns st -> sh_inv (Some d) t s st l -> length l < fuel ->
  exists s2 lh, h_opens fuel d s st = Ret (s2, lh) /\ reach s2 /\ same_view s s2 /\ Forall2 (nfz s2) lh (opens_at_depth d l).
Proof.
  induction fuel as [|fuel IH]; intros s st l H Hs Hw Nw Hi Hf; [lia|]. destruct l as [|e l].
  - destruct (sh_inv_next (Some d) t s st [] H Hi) as (s1 & r & st' & E & R & _ & V & [-> ->] & I1). exists s, [].
    cbn [h_opens]. rewrite E. cbn [mbind run_bind]. split; [done|]. split; [exact R|]. split; [exact V|]. constructor.
  - destruct (sh_pass (Some d) t w s st (e :: l) e l H Hs Hw Nw Hi eq_refl) as (s1 & i & st' & E & R & V & Hn & I1 & Ho & s2 & E2 & R2 & V2 & I2 & Hw2 & Nw2).
    cbn [h_opens]. rewrite E. cbn [mbind run_bind]. cbn [length] in Hf.
    assert (exists s3 lh, h_opens fuel d s2 st' = Ret (s3, lh) /\ reach s3 /\ same_view s s3 /\ Forall2 (nfz s3) lh (opens_at_depth d l)) as Hrec.
    { destruct (IH s2 st' l R2 (stable_view s s2 t V2 Hs) Hw2 Nw2 I2 ltac:(lia)) as (s3 & lh & E3 & R3 & V3 & C). exists s3, lh.
      split; [exact E3|]. split; [exact R3|]. split; [exact (view_trans _ _ _ V2 V3)|]. exact C. }
    destruct i as [[i d1]|[i d1]], e as [[y d2]|[y d2]]; simpl in Hn; try (exfalso; exact Hn); destruct Hn as [Hy ->]; cbn [ev_val fst] in E2, Ho.
    + destruct (decide (d2 = d)) as [->|Hne].
      * assert (nfz s1 w (rose_root t)) as Hw1 by (exact (proj2 (ho_keeps _ _ _ _ w _ Ho Nw Hw))).
        destruct (IH s1 st' l R (stable_view s s1 t V Hs) Hw1 Nw2 I1 ltac:(lia)) as (s3 & lh & E3 & R3 & V3 & C). rewrite E3. cbn [mbind run_bind].
        destruct (t_opens fuel d s1 st' s3 lh (reach_any s1 R) (sh_inv_owned _ _ _ _ _ I1) E3) as [_ Ho3].
        assert (i ∉ hsh_owns st') as Ni by (destruct Ho as [ND _]; apply NoDup_cons in ND as [ND _]; exact ND).
        exists s3, (i :: lh). split; [done|]. split; [exact R3|]. split; [exact (view_trans _ _ _ V V3)|].
        unfold opens_at_depth. cbn [omap list_omap]. rewrite decide_True by done. constructor; [|exact C]. exact (proj2 (ho_keeps _ _ _ _ i _ Ho3 Ni Hy)).
      * rewrite E2. cbn [mbind run_bind]. unfold opens_at_depth. cbn [omap list_omap]. rewrite decide_False by done. exact Hrec.
    + rewrite E2. cbn [mbind run_bind]. exact Hrec.
Qed.

(** ** [NonAllocatingBreadthFirstTraverser] *)
Definition bden s (p : nat * nat) (q : nid * nat) : Prop := s_hands s !! p.1 = Some (HNode Frozen q.1) /\ p.2 = q.2.
Definition nbf_inv t s (st : hnbf_state) (l : list (nid * nat)) : Prop :=
  owned (hnbf_owns st) s /\
  match hnbf_root st with
  | None => l = [] /\ hnbf_inner st = None
  | Some w => exists li, stable s t /\ nfz s w (rose_root t) /\ sh_inv (Some (hnbf_depth st)) t s (hnbf_inner st) li /\
      l = map (fun x => (x, hnbf_depth st)) (opens_at_depth (hnbf_depth st) li) ++ level_order (S (hnbf_depth st)) t
  end.
Lemma nbf_others t s st l s1 : reach s -> others (hnbf_owns st) s s1 -> nbf_inv t s st l -> reach s1 /\ nbf_inv t s1 st l.
Proof.
  intros H Ho [Hw C]. destruct (others_ok _ _ _ Ho H) as [H1 Hk]. split; [exact H1|]. split; [exact (owned_others _ _ _ Ho H Hw)|].
  unfold hnbf_owns in Ho, Hk. destruct (hnbf_root st) as [w|]; [|exact C]. destruct C as (li & Hs & Hn & Hi & El). cbn [option_list] in Ho, Hk. exists li.
  assert (w ∈ hsh_owns (hnbf_inner st) ++ [w]) as Hin by (clear; set_solver).
  split; [eapply stable_others; [exact Ho|exact H|exact Hin|exact Hn|destruct t; left|exact Hs]|]. split; [exact (Hk _ _ Hin Hn)|]. split; [|exact El].
  apply (sh_inv_others (Some (hnbf_depth st)) t s (hnbf_inner st) li s1 H); [|exact Hi]. eapply others_mono; [|exact Ho]. intros j Hj. apply elem_of_app. by left.
Qed.
Lemma owned_app_r (a b : list nat) s : owned (a ++ b) s -> owned b s.
Proof. intros [A B]. apply NoDup_app in A as (_ & _ & A). split; [exact A|]. intros j Hj. apply B, elem_of_app. by right. Qed.
Lemma nbf_step t s st l : reach s -> nbf_inv t s st l ->
  exists s2 r st', hnbf_next s st = Ret (s2, r, st') /\ reach s2 /\ undisturbed (hnbf_owns st) s s2 /\
    match l with [] => r = None | j :: _ => same_view s s2 /\ exists i, r = Some i /\ bden s2 i j end /\ nbf_inv t s2 st' (tail l).
Proof.
  intros H [Hw C].
  assert (forall s2 r st', hnbf_next s st = Ret (s2, r, st') -> undisturbed (hnbf_owns st) s s2 /\ owned (hnbf_owns st') s2) as Hown.
  { intros s2 r st' E. destruct (own_nbf_next s st s2 r st' (reach_any s H) Hw E) as [_ Ho]. split; [exact (ho_undisturbed _ _ _ _ Ho)|].
    exact (owned_app_r _ _ _ (ho_owned _ _ _ _ Ho)). }
  enough (exists s2 r st', hnbf_next s st = Ret (s2, r, st') /\ reach s2 /\
    match l with [] => r = None | j :: _ => same_view s s2 /\ exists i, r = Some i /\ bden s2 i j end /\ (owned (hnbf_owns st') s2 -> nbf_inv t s2 st' (tail l))) as (s2 & r & st' & E & R & D & G).
  { destruct (Hown s2 r st' E) as [U O]. exists s2, r, st'. split; [exact E|]. split; [exact R|]. split; [exact U|]. split; [exact D|]. exact (G O). }
  clear Hown. unfold hnbf_next. destruct st as [inner [w|] d]; cbn [hnbf_root hnbf_inner hnbf_depth] in *.
  2:{ destruct C as [-> ->]. exists s, None, (mkHnbf None None d). split; [done|]. split; [exact H|]. split; [done|]. intros O. split; [exact O|]. done. }
  destruct C as (li & Hs & Hn & Hi & ->). unfold hnbf_owns in Hw. cbn [hnbf_root hnbf_inner option_list] in Hw.
  assert (w ∉ hsh_owns inner) as Nw by (destruct Hw as [ND _]; apply NoDup_app in ND as (_ & ND & _); intros F; apply (ND w F); left).
  destruct (find_ok t w d _ s inner li H Hs Hn Nw Hi (sh_len _ _ _ _ _ Hs Hi)) as (s1 & r & st1 & l1 & E & R & V & I1 & Eo & C). rewrite E. cbn [mbind run_bind].
  destruct (t_find _ d s inner s1 r st1 (reach_any s H) (sh_inv_owned _ _ _ _ _ Hi) E) as [_ Ho1].
  destruct (ho_keeps _ _ _ _ w _ Ho1 Nw Hn) as [Nw1 Hn1]. pose proof (stable_view s s1 t V Hs) as Hs1.
  destruct (opens_at_depth d li) as [|y ys]; cbn [head tail] in C, Eo.
  - subst r. pose proof (end_find _ d s inner s1 st1 E) as ->. clear I1 Eo Ho1 Nw1.
    destruct (h_clone_ok s1 w Frozen _ R Hn1) as (s2 & c & E2 & [R2 V2 X2 N2 Hc]). rewrite E2. cbn [mbind run_bind].
    destruct (sh_inv_start (Some (S d)) t s2 c R2 (stable_view s1 s2 t V2 Hs1) Hc) as (s3 & j & E3 & R3 & V3 & X3 & N3 & I3). rewrite E3. cbn [mbind run_bind hsh_owns h_drops].
    assert (nfz s3 w (rose_root t)) as Hn3 by (exact (X3 _ _ (X2 _ _ Hn1))).
    assert (w ∉ hsh_owns (Some (Open (j, 0), Close (c, 0)))) as Nw3.
    { simpl. intros F. apply elem_of_cons in F as [F|F]; [|apply elem_of_list_singleton in F]; subst w; [pose proof (X2 _ _ Hn1)|]; unfold nfz in *; congruence. }
    assert (stable s3 t) as Hs3 by (exact (stable_view s2 s3 t V3 (stable_view s1 s2 t V2 Hs1))).
    assert (same_view s s3) as V03 by (exact (view_trans _ _ _ V (view_trans _ _ _ V2 V3))).
    destruct (find_ok t w (S d) _ s3 _ _ R3 Hs3 Hn3 Nw3 I3 (sh_len _ _ _ _ _ Hs3 I3)) as (s5 & r & st5 & l5 & E5 & R5 & V5 & I5 & Eo & C). rewrite E5. cbn [mbind run_bind].
    destruct (t_find _ (S d) s3 _ s5 r st5 (reach_any s3 R3) (sh_inv_owned _ _ _ _ _ I3) E5) as [_ Ho5]. destruct (ho_keeps _ _ _ _ w _ Ho5 Nw3 Hn3) as [_ Hn5].
    assert (opens_at_depth (S d) (all_events (Some (S d)) t) = rose_level (S d) t) as El by (exact (opens_cut t 0 (S d))). rewrite El in Eo, C.
    cbn [map app]. rewrite level_order_step. destruct (rose_level (S d) t) as [|y ys] eqn:Ey; cbn [head tail map app] in C, Eo |- *.
    + subst r. destruct (h_drop_ok s5 w _ R5 Hn5) as (s6 & E6 & R6 & _). rewrite E6. cbn [mbind run_bind].
      assert (level_order (S (S d)) t = []) as ->.
      { apply level_order_empty. rewrite level_subs. rewrite subs_empty_next; [done|]. rewrite level_subs in Ey. by apply map_eq_nil in Ey. }
      pose proof (end_find _ (S d) s3 _ s5 st5 E5) as ->. exists s6, None, (mkHnbf None None (S d)). split; [done|]. split; [exact R6|]. split; [done|]. intros O. split; [exact O|]. done.
    + destruct C as (i & -> & Hy). exists s5, (Some (i, S d)), (mkHnbf st5 (Some w) (S d)). split; [done|]. split; [exact R5|].
      split; [split; [exact (view_trans _ _ _ V03 V5)|]; exists (i, S d); split; [done|]; by split|]. intros O. split; [exact O|]. cbn [hnbf_root hnbf_inner hnbf_depth].
      exists l5. split; [exact (stable_view s3 s5 t V5 Hs3)|]. split; [exact Hn5|]. split; [exact I5|]. by rewrite Eo.
  - destruct C as (i & -> & Hy). exists s1, (Some (i, d)), (mkHnbf st1 (Some w) d). split; [done|]. split; [exact R|].
    split; [split; [exact V|]; exists (i, d); split; [done|]; by split|]. intros O. split; [exact O|]. cbn [hnbf_root hnbf_inner hnbf_depth].
    exists l1. split; [exact Hs1|]. split; [exact Hn1|]. split; [exact I1|]. by rewrite Eo.
Qed.
Lemma nbf_outlasts t n : forall s st l, reach s -> nbf_inv t s st l -> outlasts hnbf_next hnbf_owns bden n s st l.
Proof.
  induction n as [|n IH]; intros s st l H Hi; [exact Logic.I|]. intros s1 Ho. destruct (nbf_others t s st l s1 H Ho Hi) as [H1 Hi1].
  destruct (nbf_step t s1 st l H1 Hi1) as (s2 & r & st' & E & R & U & C & G). exists s2, r, st'. split; [exact E|]. split; [exact R|]. split; [exact U|].
  destruct l as [|j l]; [split; [exact C|]|destruct C as [V C]; split; [exact V|]; split; [exact C|]]; apply IH; assumption.
Qed.
Lemma stable_of s K i k x t : reach s -> stores s K -> s_hands s !! i = Some (HNode k x) -> shape K x t -> stable s t.
Proof.
  intros H Hst Hi Hsh. destruct (ApiFacts7.handle_tree s K i k x H Hst Hi) as (u & _ & _ & _ & Eu & _). exists u, K. split; [exact Hst|].
  split; [by rewrite (shape_root _ _ _ Hsh)|]. intros y Hy. rewrite <- Eu. apply (shape_nodes K x t y Hsh) in Hy.
  pose proof (s_child _ _ (i_s _ _ (reach_stores_inv s K H Hst))) as Hc. clear -Hy Hc. induction Hy as [|p c _ IH Hpc]; [done|]. rewrite <- IH. by apply Hc.
Qed.
Theorem nbf_begin s K i x t d : reach s -> stores s K -> nfz s i x -> shape K x t ->
  outlasting (hnbf_start s i d) hnbf_next hnbf_owns bden s (level_order d t).
Proof.
  intros H Hst Hi Hsh. pose proof (stable_of s K i Frozen x t H Hst Hi Hsh) as Hs. rewrite <- (shape_root _ _ _ Hsh) in Hi.
  destruct (h_clone_ok s i Frozen _ H Hi) as (s1 & c & E & [R V X N Hc]). destruct (h_clone_ok s1 c Frozen _ R Hc) as (s2 & c2 & E2 & [R2 V2 X2 N2 Hc2]).
  assert (stable s2 t) as Hs2 by (exact (stable_view s1 s2 t V2 (stable_view s s1 t V Hs))).
  destruct (sh_inv_start (Some d) t s2 c2 R2 Hs2 Hc2) as (s3 & j & E3 & R3 & V3 & X3 & N3 & I3).
  assert (hnbf_start s i d = Ret (s3, mkHnbf (Some (Open (j, 0), Close (c2, 0))) (Some c) d)) as Es.
  { unfold hnbf_start. rewrite E. cbn [mbind run_bind]. rewrite E2. cbn [mbind run_bind]. by rewrite E3. }
  exists s3, (mkHnbf (Some (Open (j, 0), Close (c2, 0))) (Some c) d). split; [exact Es|]. split; [exact R3|]. split; [exact (view_trans _ _ _ V (view_trans _ _ _ V2 V3))|].
  split; [exact (extends_trans _ _ _ X (extends_trans _ _ _ X2 X3))|]. intros n. apply (nbf_outlasts t); [exact R3|]. split.
  - destruct (own_nbf_start s (i, d) s3 _ (reach_any s H) Es) as [_ Ho]. exact (ho_owned _ _ _ _ Ho).
  - cbn [hnbf_root hnbf_inner hnbf_depth]. exists (all_events (Some d) t). split; [exact (stable_view s2 s3 t V3 Hs2)|]. split; [exact (X3 _ _ (X2 _ _ Hc))|].
    split; [exact I3|]. rewrite level_order_step. f_equal. f_equal. symmetry. exact (opens_cut t 0 d).
Qed.

(** ** [AllocatingBreadthFirstTraverser] *)
(** Collecting a sibling iterator. *)
Lemma collect_ok K t ks : wf K -> shape K (rose_root t) t -> row K t ks -> forall fuel s st lf lb, reach s -> whole s t ->
  pair_inv (T := T) hss_val nid_id anytag t ks (rev ks) s st lf lb -> (lb = [] -> lf = []) -> length lf < fuel ->
  exists s2 lh, hss_collect fuel s st = Ret (s2, lh) /\ reach s2 /\ same_view s s2 /\ Forall2 (nfz s2) lh lf.
Proof.
  intros Hw Hsh Hr. destruct (row_ends (T := T) K t ks Hsh Hr) as [HF HB]. pose proof (row_nodes K t ks Hw Hsh Hr) as Hn.
  induction fuel as [|fuel IH]; intros s st lf lb H W Hi Hne Hf; [lia|].
  destruct (pair_front hss_val nid_id anytag _ t ks (rev ks) HF Hn s st lf lb H Hi) as (s1 & r & st' & E & R & U & V & C).
  assert (hss_next s st = Ret (s1, r, st')) as E1 by (exact E). cbn [hss_collect]. rewrite E1. cbn [mbind run_bind].
  destruct lf as [|c lf]; [destruct C as (-> & -> & _); exists s, []; split; [done|]; split; [exact R|]; split; [exact V|]; constructor|].
  destruct lb as [|b lb]; [discriminate (Hne eq_refl)|]. destruct C as [(i & -> & [Hc _]) I1].
  cbn [length] in Hf. destruct (IH s1 st' lf (b :: lb) R (whole_view s s1 t V W) I1 ltac:(discriminate) ltac:(lia)) as (s2 & lh & E2 & R2 & V2 & F). rewrite E2. cbn [mbind run_bind].
  exists s2, (i :: lh). split; [done|]. split; [exact R2|]. split; [exact (view_trans _ _ _ V V2)|]. constructor; [|exact F].
  assert (owned (hss_owns st) s) as Ow.
  { destruct Hi as (a0 & b0 & ? & ? & -> & _ & [Ha _] & [Hb _] & Ne & _). split.
    - simpl. constructor; [|constructor; [|constructor]]; [|by apply not_elem_of_nil]. intros F'. apply elem_of_list_singleton in F'. by apply Ne.
    - intros j Hj. simpl in Hj. apply elem_of_cons in Hj as [->|Hj]; [eexists; exact Ha|]. apply elem_of_list_singleton in Hj as ->. eexists. exact Hb. }
  destruct (own_ss_next s st s1 _ st' (reach_any s H) Ow E1) as [_ Ho]. cbn [app] in Ho. pose proof (ho_owned _ _ _ _ Ho) as Oo.
  assert (i ∉ hss_owns st') as Ni by (destruct Ho as [ND _]; apply NoDup_cons in ND as [ND _]; exact ND).
  assert (owned (hss_owns st') s1) as Ow1 by (exact (owned_app_r [i] _ _ Oo)).
  destruct (t_collect fuel s1 st' s2 lh (reach_any s1 R) Ow1 E2) as [_ Ho2]. exact (proj2 (ho_keeps _ _ _ _ i _ Ho2 Ni Hc)).
Qed.
Lemma nfz_hands (s s' : sys T) l (us : list (rose nid)) : (forall j hd, j ∈ l -> s_hands s !! j = Some hd -> s_hands s' !! j = Some hd) ->
  Forall2 (fun j u => nfz s j (rose_root u)) l us -> Forall2 (fun j u => nfz s' j (rose_root u)) l us.
Proof.
  intros Hk F. induction F as [|j u l us Hj F IH]; [constructor|]. constructor; [apply Hk; [left|exact Hj]|]. apply IH. intros j' hd Hj'. apply Hk. by right.
Qed.
Lemma forall2_roots (P : nat -> nid -> Prop) l : forall us : list (rose nid), Forall2 P l (map rose_root us) -> Forall2 (fun j u => P j (rose_root u)) l us.
Proof. induction l as [|j l IH]; intros [|u us] F; inversion F; subst; constructor; auto. Qed.
Definition queue_of (hu hv : list nat) : list (option nat) := map Some hu ++ None :: map Some hv.
Lemma queue_owns hu hv : omap id (queue_of hu hv) = hu ++ hv.
Proof. unfold queue_of. rewrite omap_app_id. cbn [omap list_omap id]. by rewrite !omap_some. Qed.
Definition abf_inv s (st : habf_state) (l : list (nid * nat)) : Prop :=
  owned (habf_owns st) s /\
  ((habf_queue st = [] /\ l = []) \/
   exists hu hv us vs l', habf_queue st = queue_of hu hv /\ Forall2 (fun j u => nfz s j (rose_root u)) hu us /\ Forall2 (fun j u => nfz s j (rose_root u)) hv vs /\
     (forall u, u ∈ us ++ vs -> stable s u) /\
     l = map (fun x => (x, habf_depth st)) (map rose_root us) ++ l' /\ forder (S (habf_depth st)) (vs ++ concat (map rose_kids us)) l').
Lemma stable_each own s s1 l us : others own s s1 -> reach s -> (forall j, j ∈ l -> j ∈ own) ->
  Forall2 (fun j u => nfz s j (rose_root u)) l us -> (forall u, u ∈ us -> stable s u) -> forall u, u ∈ us -> stable s1 u.
Proof.
  intros Ho H Hin F Hs u Hu. apply elem_of_list_lookup in Hu as [n Hu]. destruct (Forall2_lookup_r _ _ _ n u F Hu) as (j & Hj & Hjn).
  eapply stable_others; [exact Ho|exact H|apply Hin, elem_of_list_lookup; by exists n|exact Hjn|destruct u; left|]. apply Hs, elem_of_list_lookup. by exists n.
Qed.
Lemma abf_others s st l s1 : reach s -> others (habf_owns st) s s1 -> abf_inv s st l -> reach s1 /\ abf_inv s1 st l.
Proof.
  intros H Ho [Hw C]. destruct (others_ok _ _ _ Ho H) as [H1 Hk]. split; [exact H1|]. split; [exact (owned_others _ _ _ Ho H Hw)|].
  destruct C as [C|(hu & hv & us & vs & l' & Eq & Fu & Fv & Hs & El & Hf)]; [left; exact C|]. right. exists hu, hv, us, vs, l'.
  unfold habf_owns in Ho, Hk. rewrite Eq, queue_owns in Ho, Hk. split; [exact Eq|].
  split; [eapply nfz_hands; [|exact Fu]; intros j hd Hj; apply Hk, elem_of_app; by left|].
  split; [eapply nfz_hands; [|exact Fv]; intros j hd Hj; apply Hk, elem_of_app; by right|]. split; [|by split].
  eapply stable_each; [exact Ho|exact H|intros j Hj; exact Hj|exact (Forall2_app Fu Fv)|exact Hs].
Qed.
Lemma kid_stable s u v : stable s u -> v ∈ rose_kids u -> stable s v.
Proof.
  intros (w & K & Hst & Hsh & Ht) Hv. exists w, K. split; [exact Hst|]. split; [exact (shape_kids K _ u v Hsh Hv)|]. intros y Hy. apply Ht. destruct u as [x ks]. simpl.
  right. apply elem_of_list_In, in_concat. exists (rose_nodes v). split; [|by apply elem_of_list_In]. apply in_map. by apply elem_of_list_In.
Qed.
(** A node at the head of the queue. *)
Lemma abf_node s fuel d i hu hv u us vs l' : reach s -> nfz s i (rose_root u) -> Forall2 (fun j u => nfz s j (rose_root u)) hu us ->
  Forall2 (fun j u => nfz s j (rose_root u)) hv vs -> (forall v, v ∈ (u :: us) ++ vs -> stable s v) -> forder (S d) (vs ++ concat (map rose_kids (u :: us))) l' ->
  exists s2 cs, habf_loop (S fuel) s (queue_of (i :: hu) hv) d = Ret (s2, Some (i, d), mkHabf (queue_of hu (hv ++ cs)) d) /\
    reach s2 /\ same_view s s2 /\ extends s s2 /\
    (owned (hu ++ hv ++ cs) s2 -> abf_inv s2 (mkHabf (queue_of hu (hv ++ cs)) d) (map (fun x => (x, d)) (map rose_root us) ++ l')).
Proof.
  intros H Hi Fu Fv Hs Hf. assert (stable s u) as Hsu by (apply Hs; left). pose proof Hsu as (tu & K & Hst & Hsh & Htr).
  destruct (whole_of s K i Frozen _ H Hst Hi) as (t & W & Htop & Hsht & Hx). destruct u as [x ks]. cbn [rose_root] in *. inversion Hsh as [? ? HK HF Ex]; subst.
  set (kx := map rose_root ks) in *. destruct (children_stands s K i x kx H Hst Hi HK) as (s1 & st & E & R & V & X & C).
  assert (row K t kx) as Hr by (econstructor; [exact Hx|exact HK]).
  assert (pair_inv (T := T) hss_val nid_id anytag t kx (rev kx) s1 st kx (rev kx)) as PI.
  { unfold pair_inv. destruct kx as [|c k0] eqn:Ek; [exact C|]. destruct (rev (c :: k0)) as [|b l0]; [exact C|]. destruct C as (a & b0 & -> & Ha & Hb & Ne & _).
    exists a, b0, [], []. split; [done|]. split; [exact (whole_view s s1 t V W)|]. split; [split; [exact Ha|exact Logic.I]|]. split; [split; [exact Hb|exact Logic.I]|]. done. }
  assert (length kx < S (walk_fuel (s_nodes s1))) as Hlen.
  { unfold walk_fuel. pose proof (children_length_le _ _ _ _ (proj1 (sv_stores _ _ V K Hst)) (proj2 Hst) HK). lia. }
  destruct (collect_ok K t kx (proj2 Hst) Hsht Hr (S (walk_fuel (s_nodes s1))) s1 st kx (rev kx) R (whole_view s s1 t V W) PI) as (s2 & cs & E2 & R2 & V2 & F2); [|exact Hlen|].
  { intros En. apply (f_equal (@rev nid)) in En. rewrite rev_involutive in En. exact En. }
  exists s2, cs. assert (same_view s s2) as V02 by (exact (view_trans _ _ _ V V2)).
  destruct (own_children s i s1 st (reach_any s H) E) as [_ Ho1]. destruct (t_collect _ s1 st s2 cs (reach_any s1 R) (ho_owned _ _ _ _ Ho1) E2) as [_ Ho2].
  assert (extends s s2) as X02. { intros j hd Hj. refine (proj2 (ho_keeps _ _ _ _ j hd (ho_trans _ _ _ _ _ _ Ho1 Ho2) _ Hj)). apply not_elem_of_nil. }
  split.
  { cbn [habf_loop queue_of map app]. rewrite E. cbn [mbind run_bind]. rewrite E2. cbn [mbind run_bind]. unfold queue_of. rewrite !map_app, <- app_assoc. done. }
  split; [exact R2|]. split; [exact V02|]. split; [exact X02|]. intros O. split; [unfold habf_owns; cbn [habf_queue]; rewrite queue_owns; exact O|]. right.
  exists hu, (hv ++ cs), us, (vs ++ ks), l'. cbn [habf_queue habf_depth]. split; [done|].
  split; [eapply nfz_hands; [|exact Fu]; intros j hd _; apply X02|].
  split. { apply Forall2_app; [eapply nfz_hands; [|exact Fv]; intros j hd _; apply X02|]. unfold kx in F2. exact (forall2_roots _ _ _ F2). }
  split.
  { intros v Hv. apply (stable_view s s2 v V02). rewrite !elem_of_app in Hv. destruct Hv as [Hv|[Hv|Hv]]; [apply Hs; clear -Hv; set_solver..|].
    exact (kid_stable s (Rose x ks) v Hsu Hv). }
  split; [done|]. rewrite <- app_assoc. exact Hf.
Qed.
Lemma abf_step s st l : reach s -> abf_inv s st l ->
  exists s2 r st', habf_next s st = Ret (s2, r, st') /\ reach s2 /\ undisturbed (habf_owns st) s s2 /\
    match l with [] => r = None | j :: _ => same_view s s2 /\ exists i, r = Some i /\ bden s2 i j end /\ abf_inv s2 st' (tail l).
Proof.
  intros H [Hw C].
  assert (forall s2 r st', habf_next s st = Ret (s2, r, st') -> undisturbed (habf_owns st) s s2 /\ owned (habf_owns st') s2) as Hown.
  { intros s2 r st' E. destruct (own_abf_next s st s2 r st' (reach_any s H) Hw E) as [_ Ho]. split; [exact (ho_undisturbed _ _ _ _ Ho)|].
    exact (owned_app_r _ _ _ (ho_owned _ _ _ _ Ho)). }
  destruct st as [q d]. cbn [habf_queue habf_depth] in C. unfold habf_next in *. cbn [habf_queue habf_depth] in *.
  assert (forall l, l = [] -> (exists s2 r st', habf_loop 3 s q d = Ret (s2, r, st') /\ s2 = s /\ r = None /\ st' = mkHabf [] d) ->
    exists s2 r st', habf_loop 3 s q d = Ret (s2, r, st') /\ reach s2 /\ undisturbed (habf_owns (mkHabf q d)) s s2 /\
      match l with [] => r = None | j :: _ => same_view s s2 /\ exists i, r = Some i /\ bden s2 i j end /\ abf_inv s2 st' (tail l)) as Hend.
  { intros l0 -> (s2 & r & st' & E & -> & -> & ->). exists s, None, (mkHabf [] d). split; [exact E|]. split; [exact H|]. split; [apply undisturbed_refl|]. split; [done|].
    split; [apply owned_nil|]. by left. }
  destruct C as [[-> ->]|(hu & hv & us & vs & l' & -> & Fu & Fv & Hs & -> & Hf)].
  { apply (Hend [] eq_refl). by exists s, None, (mkHabf [] d). }
  assert (forall j l1, (exists s2 i d0 cs hu' hv', habf_loop 3 s (queue_of hu hv) d = Ret (s2, Some (i, d0), mkHabf (queue_of hu' (hv' ++ cs)) d0) /\
      reach s2 /\ same_view s s2 /\ extends s s2 /\ bden s2 (i, d0) j /\ (owned (hu' ++ hv' ++ cs) s2 -> abf_inv s2 (mkHabf (queue_of hu' (hv' ++ cs)) d0) l1)) ->
    exists s2 r st', habf_loop 3 s (queue_of hu hv) d = Ret (s2, r, st') /\ reach s2 /\ undisturbed (habf_owns (mkHabf (queue_of hu hv) d)) s s2 /\
      (same_view s s2 /\ exists i, r = Some i /\ bden s2 i j) /\ abf_inv s2 st' l1) as Hgo.
  { intros j l1 (s2 & i & d0 & cs & hu' & hv' & E & R & V & X & B & G). destruct (Hown s2 _ _ E) as [U O]. exists s2, (Some (i, d0)), (mkHabf (queue_of hu' (hv' ++ cs)) d0).
    split; [exact E|]. split; [exact R|]. split; [exact U|]. split; [split; [exact V|]; by exists (i, d0)|]. apply G. unfold habf_owns in O. cbn [habf_queue] in O. by rewrite queue_owns in O. }
  clear Hown. destruct Fu as [|i u hu us Hi Fu].
  - cbn [map concat app] in Hf, Hend |- *. rewrite app_nil_r in Hf. destruct Fv as [|i v hv vs Hi Fv].
    + apply forder_nil_inv in Hf as ->. apply (Hend [] eq_refl). by exists s, None, (mkHabf [] d).
    + destruct (forder_inv _ _ _ Hf) as (l2 & -> & Hf2). cbn [map app tail]. apply Hgo.
      destruct (abf_node s 1 (S d) i hv [] v vs [] l2 H Hi Fv (Forall2_nil_2 _ _ _)) as (s2 & cs & E & R & V & X & G); [intros w Hin; apply Hs; clear -Hin; set_solver|exact Hf2|].
      exists s2, i, (S d), cs, hv, []. split; [|split; [exact R|split; [exact V|split; [exact X|split; [split; [exact (X _ _ Hi)|done]|exact G]]]]].
      change (habf_loop 3 s (queue_of [] (i :: hv)) d) with (habf_loop 2 s (queue_of (i :: hv) []) (S d)). exact E.
  - cbn [map app tail]. apply Hgo. destruct (abf_node s 2 d i hu hv u us vs l' H Hi Fu Fv Hs Hf) as (s2 & cs & E & R & V & X & G).
    exists s2, i, d, cs, hu, hv. split; [exact E|]. split; [exact R|]. split; [exact V|]. split; [exact X|]. split; [split; [exact (X _ _ Hi)|done]|exact G].
Qed.
Lemma abf_outlasts n : forall s st l, reach s -> abf_inv s st l -> outlasts habf_next habf_owns bden n s st l.
Proof.
  induction n as [|n IH]; intros s st l H Hi; [exact Logic.I|]. intros s1 Ho. destruct (abf_others s st l s1 H Ho Hi) as [H1 Hi1].
  destruct (abf_step s1 st l H1 Hi1) as (s2 & r & st' & E & R & U & C & G). exists s2, r, st'. split; [exact E|]. split; [exact R|]. split; [exact U|].
  destruct l as [|j l]; [split; [exact C|]|destruct C as [V C]; split; [exact V|]; split; [exact C|]]; apply IH; assumption.
Qed.

Lemma subs_stable s t k : stable s t -> forall u, u ∈ rose_subs k t -> stable s u.
Proof.
  induction k as [|k IH]; intros Hs u Hu; [apply elem_of_list_singleton in Hu as ->; exact Hs|]. rewrite subs_S in Hu.
  apply elem_of_list_In, in_concat in Hu as (l & Hl & Hu). apply in_map_iff in Hl as (v & <- & Hv). apply elem_of_list_In in Hv, Hu.
  exact (kid_stable s v u (IH Hs v Hv) Hu).
Qed.
Theorem abf_begin s K i x t d : reach s -> stores s K -> nfz s i x -> shape K x t ->
  outlasting (habf_start s i d) habf_next habf_owns bden s (level_order d t).
Proof.
  intros H Hst Hi Hsh. pose proof (stable_of s K i Frozen x t H Hst Hi Hsh) as Hs. rewrite <- (shape_root _ _ _ Hsh) in Hi.
  assert (exists s1 lh, habf_start s i d = Ret (s1, mkHabf (map Some lh ++ [None]) d) /\ reach s1 /\ same_view s s1 /\ extends s s1 /\
    Forall2 (fun j u => nfz s1 j (rose_root u)) lh (rose_subs d t)) as (s1 & lh & E & R & V & X & F).
  { destruct (h_clone_ok s i Frozen _ H Hi) as (s1 & c & E & [R V X N Hc]). unfold habf_start. rewrite E. cbn [mbind run_bind]. destruct d as [|d].
    - exists s1, [c]. split; [done|]. split; [exact R|]. split; [exact V|]. split; [exact X|]. simpl. constructor; [exact Hc|constructor].
    - destruct (sh_inv_start (Some (S d)) t s1 c R (stable_view s s1 t V Hs) Hc) as (s2 & j & E2 & R2 & V2 & X2 & N2 & I2). rewrite E2. cbn [mbind run_bind].
      assert (stable s2 t) as Hs2 by (exact (stable_view s1 s2 t V2 (stable_view s s1 t V Hs))).
      assert (i ∉ hsh_owns (Some (Open (j, 0), Close (c, 0)))) as Ni.
      { simpl. intros F. apply elem_of_cons in F as [F|F]; [|apply elem_of_list_singleton in F]; subst i; [pose proof (X _ _ Hi)|]; unfold nfz in *; congruence. }
      destruct (opens_ok t i (S d) (dfs_fuel (s_nodes s2)) s2 _ _ R2 Hs2 (X2 _ _ (X _ _ Hi)) Ni I2 (sh_len _ _ _ _ _ Hs2 I2)) as (s3 & lh & E3 & R3 & V3 & F). rewrite E3. cbn [mbind run_bind].
      destruct (t_opens _ (S d) s2 _ s3 lh (reach_any s2 R2) (sh_inv_owned _ _ _ _ _ I2) E3) as [_ Ho3].
      exists s3, lh. split; [done|]. split; [exact R3|]. split; [exact (view_trans _ _ _ V (view_trans _ _ _ V2 V3))|]. split.
      + intros k hd Hk. refine (proj2 (ho_keeps _ _ _ _ k hd Ho3 _ (X2 _ _ (X _ _ Hk)))). simpl. intros G.
        apply elem_of_cons in G as [G|G]; [|apply elem_of_list_singleton in G]; subst k; [apply X in Hk|]; congruence.
      + apply forall2_roots. rewrite <- level_subs. assert (opens_at_depth (S d) (all_events (Some (S d)) t) = rose_level (S d) t) as El by (exact (opens_cut t 0 (S d))).
        rewrite El in F. exact F. }
  exists s1, (mkHabf (map Some lh ++ [None]) d). split; [exact E|]. split; [exact R|]. split; [exact V|]. split; [exact X|]. intros n. apply abf_outlasts; [exact R|].
  destruct (own_abf_start s (i, d) s1 _ (reach_any s H) E) as [_ Ho]. split; [exact (ho_owned _ _ _ _ Ho)|]. right.
  exists lh, [], (rose_subs d t), [], (level_order (S d) t). cbn [habf_queue habf_depth]. split; [done|]. split; [exact F|]. split; [constructor|].
  split; [rewrite app_nil_r; exact (subs_stable s1 t d (stable_view s s1 t V Hs))|]. split; [by rewrite level_order_step, level_subs|].
  cbn [app]. rewrite <- subs_S. apply forder_level.
Qed.
End HIter2Facts3.
