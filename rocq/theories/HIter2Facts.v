(** * HIter2Facts: two ends that do not watch each other, on a frozen tree. *)
From Verif Require Import HIter HIter2 HIterSpec HIter2Spec LooseFacts SpecFacts NavFacts RoseFacts IterFacts AdjFacts TravFacts TravFacts3 TravFacts4 EditFacts2 SysFacts5 ApiFacts ApiFacts2 ApiFacts3 ApiFacts6 ApiFacts7 BuildFacts4 QuerySpec QueryFacts HIterFacts HIterFacts2 HIterFacts3 Spec.

Section HIter2Facts.
Context {T : Type}.
Implicit Types (s : sys T) (K : forest) (t : rose nid).

(** ** A whole tree, frozen *)
Lemma shape_lookup K K1 t : forall x, shape K x t -> shape K1 x t -> forall y, y ∈ rose_nodes t -> K1 !! y = K !! y.
Proof.
  induction t as [z ts IH] using rose_ind2. intros x H1 H2. inversion H1 as [? ? A1 F1]; subst. inversion H2 as [? ? A2 F2]; subst.
  rename z into x. intros y Hy. simpl in Hy. apply elem_of_cons in Hy as [->|Hy]; [congruence|].
  apply elem_of_list_In, in_concat in Hy as (l & Hl & Hy). apply in_map_iff in Hl as (v & <- & Hv). apply elem_of_list_In in Hv, Hy.
  rewrite Forall_forall in IH, F1, F2. eapply (IH v Hv); [exact (F1 v Hv)|exact (F2 v Hv)|exact Hy].
Qed.
Definition whole s (t : rose nid) : Prop :=
  exists (u : tid) K, stores s K /\ shape K (rose_root t) t /\ is_top K (rose_root t) /\ forall y, y ∈ rose_nodes t -> tree_of s y = Some u.
Lemma whole_stable s t : whole s t -> stable s t.
Proof. intros (u & K & A & B & C & D). by exists u, K. Qed.
Lemma whole_step s K o s1 r i z t : reach s -> stores s K -> safe s K o -> i ∉ op_args o -> step s o = Ret (s1, r) ->
  s_hands s !! i = Some (HNode Frozen z) -> z ∈ rose_nodes t -> whole s t -> whole s1 t.
Proof.
  intros H Hst Hs Hi E Hh Hz W. pose proof (stable_step s K o s1 r i z t H Hst Hs Hi E Hh Hz (whole_stable s t W)) as (u1 & K1 & Hst1 & Hsh1 & Ht1).
  destruct W as (u & K0 & HK0 & Hsh & Htop & Ht). assert (K0 = K) as -> by (exact (stores_unique s K0 K HK0 Hst)).
  assert (reach s1) as H1 by (eapply reach_step; [exact H|exact Hst|exact Hs|exact E]).
  exists u1, K1. split; [exact Hst1|]. split; [exact Hsh1|]. split; [|exact Ht1].
  destruct (ApiFacts7.handle_tree s K i Frozen z H Hst Hh) as (u' & rc & lk & _ & Eu & Halive & _).
  assert (u' = u) as -> by (rewrite (Ht z Hz) in Eu; congruence).
  assert (some_lock s Frozen u) as Hl. { right. exists z. split; [done|]. split; [exact Eu|]. by exists i. }
  destruct (frozen_immutable s K o s1 r K1 u H Hst Hs E Hst1 Hl Halive) as [Hk Hc].
  assert (Hr : rose_root t ∈ rose_nodes t) by (destruct t; left).
  assert (is_Some (K1 !! rose_root t)) as Hd by (inversion Hsh1 as [? ? A]; rewrite A; by eexists).
  assert (tree_of s1 (rose_root t) = Some u) as Er. { apply (Hk (rose_root t)); [exact (Ht _ Hr)|]. by apply (alive_known s1 K1 _ Hst1). }
  split; [exact Hd|]. intros p Hp. pose proof (s_child _ _ (i_s _ _ (reach_stores_inv s1 K1 H1 Hst1)) p _ Hp) as Ep. rewrite Er in Ep.
  assert (tree_of s1 p = Some u) as Ep' by congruence.
  assert (is_Some (K1 !! p)) as Hp1 by (destruct Hp as (ks & A & _); by exists ks).
  destruct (Hk p) as [Ek _]; [by apply Hc|by apply (alive_known s1 K1 _ Hst1)|]. apply (proj2 Htop p). destruct Hp as (ks & A & B). exists ks. by rewrite <- Ek.
Qed.
Lemma whole_others own s s1 i z t : others own s s1 -> reach s -> i ∈ own ->
  s_hands s !! i = Some (HNode Frozen z) -> z ∈ rose_nodes t -> whole s t -> whole s1 t.
Proof.
  induction 1 as [s|s K o s2 r s3 Hst Hs Ha E Ho IH]; intros H Hi Hh Hz W; [exact W|].
  assert (i ∉ op_args o) as Hn by (intros F; exact (Ha i F Hi)).
  apply IH; [eapply reach_step; [exact H|exact Hst|exact Hs|exact E]|exact Hi| |exact Hz|].
  - exact (step_keeps s o s2 r i _ (reach_any s H) E Hn Hh).
  - exact (whole_step s K o s2 r i z t H Hst Hs Hn E Hh Hz W).
Qed.
Lemma whole_view s s1 t : same_view s s1 -> whole s t -> whole s1 t.
Proof.
  intros V (u & K & A & B & C & D). exists u, K. split; [exact (sv_stores _ _ V K A)|]. split; [exact B|]. split; [exact C|].
  intros y Hy. rewrite (sv_tree _ _ V y). by apply D.
Qed.
Lemma whole_of s K i k x : reach s -> stores s K -> s_hands s !! i = Some (HNode k x) ->
  exists t, whole s t /\ is_top K (rose_root t) /\ shape K (rose_root t) t /\ x ∈ rose_nodes t.
Proof.
  intros H Hst Hi. destruct (ApiFacts7.handle_tree s K i k x H Hst Hi) as (u & _ & _ & _ & Eu & _ & Hx).
  destruct (top_exists K x (proj2 Hst) Hx) as (r & Htop & Hb). destruct (shape_exists K r (proj2 Hst) (proj1 Htop)) as [t Hsh].
  pose proof (shape_root _ _ _ Hsh) as Er. exists t. rewrite Er.
  assert (forall y, below K r y -> tree_of s y = tree_of s r) as Hc.
  { pose proof (s_child _ _ (i_s _ _ (reach_stores_inv s K H Hst))) as Hc. intros y Hy. clear -Hy Hc. induction Hy as [|p c _ IH Hpc]; [done|]. rewrite <- IH. by apply Hc. }
  split; [|split; [exact Htop|split; [exact Hsh|by apply (shape_nodes K r t x Hsh)]]].
  exists u, K. rewrite Er. split; [exact Hst|]. split; [exact Hsh|]. split; [exact Htop|]. intros y Hy. apply (shape_nodes K r t y Hsh) in Hy. rewrite (Hc y Hy), <- (Hc x Hb). exact Eu.
Qed.

(** ** Two ends *)
Section Pair.
Context {I C : Type} (fv : I -> nat) (cv : C -> nid) (tag : I -> C -> Prop) (F B : sys T -> I -> run (sys T * option I)) (t : rose nid) (LF LB : list C).
Definition den s (i : I) (c : C) : Prop := s_hands s !! fv i = Some (HNode Frozen (cv c)) /\ tag i c.
Definition end_ok s (r : option I) s1 (o : option C) : Prop :=
  reach s1 /\ same_view s s1 /\ extends s s1 /\
  match o with None => r = None /\ s1 = s | Some c' => exists j, r = Some j /\ den s1 j c' /\ s_hands s !! fv j = None end.
Definition end_step (G : sys T -> I -> run (sys T * option I)) (L : list C) : Prop :=
  forall s i c l1 l2, reach s -> whole s t -> den s i c -> L = l1 ++ c :: l2 -> exists s1 r, G s i = Ret (s1, r) /\ end_ok s r s1 (head l2).
Context (HF : end_step F LF) (HB : end_step B LB) (Hn : forall c, c ∈ LF ++ LB -> cv c ∈ rose_nodes t).
Definition pair_inv s (st : option (I * I)) (lf lb : list C) : Prop :=
  match lf, lb with
  | c :: _, d :: _ => exists i ib l1 l2, st = Some (i, ib) /\ whole s t /\ den s i c /\ den s ib d /\ fv i <> fv ib /\ LF = l1 ++ lf /\ LB = l2 ++ lb
  | _, _ => st = None
  end.
Lemma den_keep s s1 i c : (forall hd, s_hands s !! fv i = Some hd -> s_hands s1 !! fv i = Some hd) -> den s i c -> den s1 i c.
Proof. intros X [A D]. split; [by apply X|exact D]. Qed.
Lemma pair_others s st lf lb s1 : reach s -> others (hpair_owns fv st) s s1 -> pair_inv s st lf lb -> reach s1 /\ pair_inv s1 st lf lb.
Proof.
  intros H Ho Hi. destruct (others_ok _ _ _ Ho H) as [H1 Hk]. split; [exact H1|]. destruct lf as [|c lf]; [exact Hi|]. destruct lb as [|d lb]; [exact Hi|].
  destruct Hi as (i & ib & l1 & l2 & -> & W & Di & Db & Ne & Ef & Eb). exists i, ib, l1, l2. split; [done|]. split.
  - eapply whole_others; [exact Ho|exact H|left|exact (proj1 Di)| |exact W]. apply Hn. rewrite Ef. clear. set_solver.
  - split; [eapply den_keep; [|exact Di]; intros hd; apply Hk; left|]. split; [eapply den_keep; [|exact Db]; intros hd; apply Hk; right; left|]. done.
Qed.
Lemma pair_front s st lf lb : reach s -> pair_inv s st lf lb ->
  exists s2 r st', hpair_next F fv s st = Ret (s2, r, st') /\ reach s2 /\ undisturbed (hpair_owns fv st) s s2 /\ same_view s s2 /\
    match lf, lb with
    | x :: lf', y :: lb' => (exists i, r = Some i /\ den s2 i x) /\ pair_inv s2 st' lf' lb
    | _, _ => r = None /\ s2 = s /\ pair_inv s2 st' lf lb
    end.
Proof.
  intros H Hi. destruct lf as [|c lf]; [simpl in Hi; subst st; exists s, None, None; split; [done|]; split; [exact H|]; split; [apply undisturbed_refl|]; split; [apply view_refl|done]|].
  destruct lb as [|d lb]; [simpl in Hi; subst st; exists s, None, None; split; [done|]; split; [exact H|]; split; [apply undisturbed_refl|]; split; [apply view_refl|done]|].
  destruct Hi as (i & ib & l1 & l2 & -> & W & Di & Db & Ne & Ef & Eb).
  destruct (HF s i c l1 lf H W Di Ef) as (s1 & r & E & R & V & X & Ck). unfold hpair_next. rewrite E. cbn [mbind run_bind].
  destruct lf as [|c' lf]; cbn [head] in Ck.
  - destruct Ck as [-> ->]. destruct W as (u & K & W1 & W2 & W3 & W4).
    destruct (h_drop_view s (fv ib) (fv i) Frozen Frozen (cv d) (cv c) H (proj1 Db) (not_eq_sym Ne) (proj1 Di)) as (s2 & E2 & R2 & Hh & V2).
    { rewrite !W4; [done| |]; apply Hn; [rewrite Ef|rewrite Eb]; clear; set_solver. }
    rewrite E2. cbn [mbind run_bind]. exists s2, (Some i), None. split; [done|]. split; [exact R2|].
    split; [eapply undisturbed_drop; [apply extends_refl| |exact Hh]; simpl; clear; set_solver|]. split; [exact V2|]. split; [|done].
    exists i. split; [done|]. eapply den_keep; [|exact Di]. intros hd Hhd. rewrite Hh, lookup_delete_ne; [exact Hhd|]. intros Ee. by apply Ne.
  - destruct Ck as (j & -> & Dj & Nj). exists s1, (Some i), (Some (j, ib)). split; [done|]. split; [exact R|]. split; [by apply undisturbed_ext|]. split; [exact V|].
    split; [exists i; split; [done|]; eapply den_keep; [|exact Di]; intros hd; apply X|].
    exists j, ib, (l1 ++ [c]), l2. split; [done|]. split; [exact (whole_view s s1 t V W)|]. split; [exact Dj|]. split; [eapply den_keep; [|exact Db]; intros hd; apply X|].
    split; [intros Ee; rewrite Ee, (proj1 Db) in Nj; discriminate Nj|]. split; [by rewrite <- app_assoc|done].
Qed.
Lemma pair_back s st lf lb : reach s -> pair_inv s st lf lb ->
  exists s2 r st', hpair_back B fv s st = Ret (s2, r, st') /\ reach s2 /\ undisturbed (hpair_owns fv st) s s2 /\ same_view s s2 /\
    match lf, lb with
    | x :: lf', y :: lb' => (exists i, r = Some i /\ den s2 i y) /\ pair_inv s2 st' lf lb'
    | _, _ => r = None /\ s2 = s /\ pair_inv s2 st' lf lb
    end.
Proof.
  intros H Hi. destruct lf as [|c lf]; [simpl in Hi; subst st; exists s, None, None; split; [done|]; split; [exact H|]; split; [apply undisturbed_refl|]; split; [apply view_refl|done]|].
  destruct lb as [|d lb]; [simpl in Hi; subst st; exists s, None, None; split; [done|]; split; [exact H|]; split; [apply undisturbed_refl|]; split; [apply view_refl|done]|].
  destruct Hi as (i & ib & l1 & l2 & -> & W & Di & Db & Ne & Ef & Eb).
  destruct (HB s ib d l2 lb H W Db Eb) as (s1 & r & E & R & V & X & Ck). unfold hpair_back. rewrite E. cbn [mbind run_bind].
  destruct lb as [|d' lb]; cbn [head] in Ck.
  - destruct Ck as [-> ->]. destruct W as (u & K & W1 & W2 & W3 & W4).
    destruct (h_drop_view s (fv i) (fv ib) Frozen Frozen (cv c) (cv d) H (proj1 Di) Ne (proj1 Db)) as (s2 & E2 & R2 & Hh & V2).
    { rewrite !W4; [done| |]; apply Hn; [rewrite Eb|rewrite Ef]; clear; set_solver. }
    rewrite E2. cbn [mbind run_bind]. exists s2, (Some ib), None. split; [done|]. split; [exact R2|].
    split; [eapply undisturbed_drop; [apply extends_refl| |exact Hh]; simpl; clear; set_solver|]. split; [exact V2|]. split; [|done].
    exists ib. split; [done|]. eapply den_keep; [|exact Db]. intros hd Hhd. rewrite Hh, lookup_delete_ne; [exact Hhd|]. intros Ee. by apply Ne.
  - destruct Ck as (j & -> & Dj & Nj). exists s1, (Some ib), (Some (i, j)). split; [done|]. split; [exact R|]. split; [by apply undisturbed_ext|]. split; [exact V|].
    split; [exists ib; split; [done|]; eapply den_keep; [|exact Db]; intros hd; apply X|].
    exists i, j, l1, (l2 ++ [d]). split; [done|]. split; [exact (whole_view s s1 t V W)|]. split; [eapply den_keep; [|exact Di]; intros hd; apply X|]. split; [exact Dj|].
    split; [intros Ee; rewrite <- Ee, (proj1 Di) in Nj; discriminate Nj|]. split; [done|by rewrite <- app_assoc].
Qed.
Lemma pair_withstands bs : forall s st lf lb, reach s -> pair_inv s st lf lb ->
  loosely_withstands (hpair_next F fv) (hpair_back B fv) (hpair_owns fv) den bs s st lf lb.
Proof.
  induction bs as [|b bs IH]; intros s st lf lb H Hi; [exact Logic.I|]. intros s1 Ho. destruct (pair_others s st lf lb s1 H Ho Hi) as [H1 Hi1]. destruct b.
  - destruct (pair_front s1 st lf lb H1 Hi1) as (s2 & r & st' & E & R & U & V & Ck). exists s2, r, st'. split; [exact E|]. split; [exact R|]. split; [exact U|]. split; [exact V|].
    destruct lf as [|x lf]; [destruct Ck as (A & D & G); split; [exact A|]; split; [exact D|]; by apply IH|].
    destruct lb as [|y lb]; [destruct Ck as (A & D & G); split; [exact A|]; split; [exact D|]; by apply IH|]. destruct Ck as [A G]. split; [exact A|]. by apply IH.
  - destruct (pair_back s1 st lf lb H1 Hi1) as (s2 & r & st' & E & R & U & V & Ck). exists s2, r, st'. split; [exact E|]. split; [exact R|]. split; [exact U|]. split; [exact V|].
    destruct lf as [|x lf]; [destruct Ck as (A & D & G); split; [exact A|]; split; [exact D|]; by apply IH|].
    destruct lb as [|y lb]; [destruct Ck as (A & D & G); split; [exact A|]; split; [exact D|]; by apply IH|]. destruct Ck as [A G]. split; [exact A|]. by apply IH.
Qed.
End Pair.
End HIter2Facts.
