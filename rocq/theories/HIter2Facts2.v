(** * HIter2Facts2: the stable iterators of a frozen tree under interference. *)
From Verif Require Import HIter HIter2 HIterSpec HIter2Spec LooseFacts SpecFacts NavFacts RoseFacts IterFacts AdjFacts TravFacts TravFacts3 TravFacts4 EditFacts2 SysFacts5 ApiFacts ApiFacts2 ApiFacts3 ApiFacts6 ApiFacts7 BuildFacts4 QuerySpec QueryFacts HIterFacts HIterFacts2 HIterFacts3 HIter2Facts Spec.

Section HIter2Facts2.
Context {T : Type}.
Implicit Types (s : sys T) (K : forest) (t : rose nid).

Lemma lw_mono {S I J} (nf nb : sys T -> S -> run (sys T * option I * S)) owns (d1 d2 : sys T -> I -> J -> Prop) :
  (forall s i j, d1 s i j -> d2 s i j) -> forall bs s st lf lb, loosely_withstands nf nb owns d1 bs s st lf lb -> loosely_withstands nf nb owns d2 bs s st lf lb.
Proof.
  intros Hd. induction bs as [|b bs IH]; intros s st lf lb H; [exact Logic.I|]. intros s1 Ho. destruct (H s1 Ho) as (s2 & r & st' & E & R & U & V & C).
  exists s2, r, st'. split; [exact E|]. split; [exact R|]. split; [exact U|]. split; [exact V|]. destruct lf as [|x lf]; [destruct C as (A & B & C); split; [exact A|]; split; [exact B|]; by apply IH|].
  destruct lb as [|y lb]; [destruct C as (A & B & C); split; [exact A|]; split; [exact B|]; by apply IH|]. destruct C as ((i & A & B) & C). split; [exists i; split; [exact A|]; by apply Hd|]. by apply IH.
Qed.

(** ** Siblings *)
Definition nid_id (x : nid) : nid := x.
Definition anytag (i : nat) (x : nid) : Prop := True.
Definition nfz s (i : nat) (x : nid) : Prop := s_hands s !! i = Some (HNode Frozen x).
Lemma nav_end v t L : (forall K a c b, wf K -> shape K (rose_root t) t -> is_top K (rose_root t) -> L = a ++ c :: b -> nav_spec K v c (head b)) ->
  @end_step T nat nid hss_val nid_id anytag t (fun s => h_nav s v) L.
Proof.
  intros Hv s i c l1 l2 H (u & K & Hst & Hsh & Htop & Ht) [Hi _] HL.
  destruct (h_nav_ok s K v i Frozen c H Hst Hi) as (o & Hn & C).
  assert (o = head l2) as -> by (eapply nav_spec_det; [exact (proj2 Hst)|exact Hn|]; exact (Hv K l1 c l2 (proj2 Hst) Hsh Htop HL)).
  destruct (head l2) as [y|]; cbn beta iota in C |- *.
  - destruct C as (s1 & j & E & [R V X N Hj]). exists s1, (Some j). split; [exact E|]. split; [exact R|]. split; [exact V|]. split; [exact X|].
    exists j. split; [done|]. split; [split; [exact Hj|exact Logic.I]|exact N].
  - exists s, None. split; [exact C|]. split; [exact H|]. split; [apply view_refl|]. split; [apply extends_refl|done].
Qed.
Lemma pos_next K p l1 c l2 : K !! p = Some (l1 ++ c :: l2) -> nav_spec K NNext c (head l2).
Proof.
  intros HK. right. exists p, (l1 ++ c :: l2), (length l1). split; [exact HK|]. split; [by apply list_lookup_middle|].
  rewrite lookup_app_r by lia. replace (S (length l1) - length l1) with 1 by lia. by destruct l2.
Qed.
Lemma pos_prev K p l1 c l2 : K !! p = Some (l1 ++ c :: l2) -> nav_spec K NPrev c (last l1).
Proof.
  intros HK. right. exists p, (l1 ++ c :: l2), (length l1). split; [exact HK|]. split; [by apply list_lookup_middle|].
  destruct (list_snoc_inv l1) as [->|(l' & z & ->)]; [done|]. rewrite app_length, Nat.add_1_r, last_snoc, <- app_assoc. simpl. symmetry. by apply list_lookup_middle.
Qed.
Lemma head_rev {A} (l : list A) : head (rev l) = last l.
Proof. destruct (list_snoc_inv l) as [->|(l' & z & ->)]; [done|]. by rewrite last_snoc, rev_app_distr. Qed.
Lemma rev_mid {A} (l a b : list A) c : rev l = a ++ c :: b -> l = rev b ++ c :: rev a.
Proof. intros E. rewrite <- (rev_involutive l), E, rev_app_distr. simpl. by rewrite <- app_assoc. Qed.

(** Where the ends of a sibling iterator go: the children of [p], or a root alone. *)
Inductive row K t : list nid -> Prop :=
| row_kids p ks : p ∈ rose_nodes t -> K !! p = Some ks -> row K t ks
| row_root : row K t [rose_root t].
Lemma row_nodes K t ks : wf K -> shape K (rose_root t) t -> row K t ks -> forall c, c ∈ ks ++ rev ks -> c ∈ rose_nodes t.
Proof.
  intros Hw Hs Hr c Hc. assert (c ∈ ks) as Hk.
  { apply elem_of_app in Hc as [Hc|Hc]; [exact Hc|]. apply elem_of_list_In, in_rev, elem_of_list_In in Hc. exact Hc. }
  destruct Hr as [p ks Hp HK|].
  - apply (shape_nodes K _ t c Hs). apply (shape_nodes K _ t p Hs) in Hp. eapply below_step; [exact Hp|]. exists ks. by split.
  - apply elem_of_list_singleton in Hk. subst c. destruct t. left.
Qed.
Lemma row_ends K t ks : shape K (rose_root t) t -> row K t ks ->
  @end_step T nat nid hss_val nid_id anytag t (fun s => h_nav s NNext) ks /\ @end_step T nat nid hss_val nid_id anytag t (fun s => h_nav s NPrev) (rev ks).
Proof.
  intros Hs Hr. split; apply nav_end; intros K1 a c b Hw1 Hs1 Htop HL; destruct Hr as [p ks Hp HK|].
  - apply (pos_next K1 p a c b). rewrite <- HL, <- HK. exact (shape_lookup K K1 t _ Hs Hs1 p Hp).
  - left. destruct a as [|? [|]]; [|discriminate HL|discriminate HL]. injection HL as <- <-. done.
  - rewrite <- (rev_involutive b), head_rev. apply (pos_prev K1 p _ c (rev a)). apply rev_mid in HL. rewrite <- HL, <- HK. exact (shape_lookup K K1 t _ Hs Hs1 p Hp).
  - left. destruct a as [|? [|]]; [|discriminate HL|discriminate HL]. injection HL as <- <-. done.
Qed.

(** A fresh iterator standing at the heads of the two lists. *)
Definition stands s s1 (st : hss_state) (lf lb : list nid) : Prop :=
  reach s1 /\ same_view s s1 /\ extends s s1 /\
  match lf, lb with
  | c :: _, d :: _ => exists a b, st = Some (a, b) /\ nfz s1 a c /\ nfz s1 b d /\ a <> b /\ s_hands s !! a = None /\ s_hands s !! b = None
  | _, _ => st = None
  end.
Lemma stands_begins start s s1 st lf lb K t ks l1 l2 : wf K -> shape K (rose_root t) t -> row K t ks -> whole s t ->
  start = Ret (s1, st) -> stands s s1 st lf lb -> ks = l1 ++ lf -> rev ks = l2 ++ lb ->
  loosely_begins start hss_next hss_next_back hss_owns nfz s lf lb.
Proof.
  intros Hw Hs Hr W E (R & V & X & C) Ef Eb. exists s1, st. split; [exact E|]. split; [exact R|]. split; [exact V|]. split; [exact X|].
  intros bs. destruct (row_ends K t ks Hs Hr) as [HF HB].
  eapply (lw_mono _ _ _ (den hss_val nid_id anytag)); [intros s' i j [A _]; exact A|].
  apply (pair_withstands hss_val nid_id anytag (fun s => h_nav s NNext) (fun s => h_nav s NPrev) t ks (rev ks) HF HB); [|exact R|].
  - intros c Hc. exact (row_nodes K t ks Hw Hs Hr c Hc).
  - destruct lf as [|c lf]; [exact C|]. destruct lb as [|d lb]; [exact C|]. destruct C as (a & b & -> & Ha & Hb & Ne & _).
    exists a, b, l1, l2. split; [done|]. split; [exact (whole_view s s1 t V W)|]. split; [split; [exact Ha|exact Logic.I]|]. split; [split; [exact Hb|exact Logic.I]|]. done.
Qed.

(** ** Where they start *)
Lemma view_trans s1 s2 s3 : same_view s1 s2 -> same_view s2 s3 -> same_view s1 s3.
Proof. exact (view_trans_ s1 s2 s3). Qed.
Lemma ext_none s s1 j : extends s s1 -> s_hands s1 !! j = None -> s_hands s !! j = None.
Proof. intros X N. destruct (s_hands s !! j) as [hd|] eqn:E; [|done]. apply X in E. congruence. Qed.
(** Dropping a handle that was not there at first. *)
Lemma drop_new s s1 i j x y : reach s1 -> same_view s s1 -> extends s s1 -> s_hands s !! i = Some (HNode Frozen x) -> s_hands s !! j = None ->
  s_hands s1 !! j = Some (HNode Frozen y) -> tree_of s y = tree_of s x ->
  exists s2, h_drop s1 j = Ret s2 /\ reach s2 /\ same_view s s2 /\ extends s s2 /\ s_hands s2 = delete j (s_hands s1).
Proof.
  intros R V X Hi Hj Hj1 Et. destruct (h_drop_view s1 j i Frozen Frozen y x R Hj1) as (s2 & E & R2 & Hh & V2).
  - intros ->. congruence. - exact (X _ _ Hi). - by rewrite !(sv_tree _ _ V). -
  exists s2. split; [exact E|]. split; [exact R2|]. split; [exact (view_trans _ _ _ V V2)|]. split; [|exact Hh].
  intros k hd Hk. rewrite Hh, lookup_delete_ne; [exact (X _ _ Hk)|]. intros ->. congruence.
Qed.
Lemma head_last_cons {A} (l : list A) x l' : l = x :: l' -> exists z r, last l = Some z /\ rev l = z :: r.
Proof.
  intros ->. destruct (list_snoc_inv (x :: l')) as [E|(l2 & z & E)]; [discriminate E|]. rewrite E. exists z, (rev l2). by rewrite last_snoc, rev_app_distr.
Qed.
Lemma children_stands s K i x ks : reach s -> stores s K -> nfz s i x -> K !! x = Some ks ->
  exists s1 st, hchildren_stable s i = Ret (s1, st) /\ stands s s1 st ks (rev ks).
Proof.
  intros H Hst Hi HK. destruct (h_clone_ok s i Frozen x H Hi) as (s1 & j & E & [R V X N Hj]). unfold hchildren_stable. rewrite E. cbn [mbind run_bind].
  pose proof (first_last_child_ok s1 K j Frozen x ks R (sv_stores _ _ V K Hst) Hj HK) as C. destruct ks as [|c ks]; cbn [head] in C.
  - assert (step_first_last_child s1 j = Ret (s1, None)) as -> by (exact (proj2 C)). cbn [mbind run_bind].
    destruct (drop_new s s1 i j x x R V X Hi N Hj eq_refl) as (s2 & E2 & R2 & V2 & X2 & _). rewrite E2. exists s2, None. split; [reflexivity|].
    split; [exact R2|]. split; [exact V2|]. split; [exact X2|]. done.
  - destruct (head_last_cons (c :: ks) c ks eq_refl) as (z & r & El & Er). rewrite El in C. destruct C as (s2 & j1 & j2 & E2 & R2 & (V2 & N1 & N2 & Ne & Hh)).
    rewrite E2. cbn [mbind run_bind].
    assert (j1 <> j) as Ne1 by (intros ->; congruence). assert (j2 <> j) as Ne2 by (intros ->; congruence).
    assert (extends s s2) as X2. { intros k hd Hk. apply X in Hk. rewrite Hh, lookup_insert_ne by congruence. rewrite lookup_insert_ne by congruence. exact Hk. }
    assert (s_hands s2 !! j = Some (HNode Frozen x)) as Hj2. { rewrite Hh, lookup_insert_ne by congruence. rewrite lookup_insert_ne by congruence. exact Hj. }
    destruct (drop_new s s2 i j x x R2 (view_trans _ _ _ V V2) X2 Hi N Hj2 eq_refl) as (s3 & E3 & R3 & V3 & X3 & Hh3). rewrite E3. cbn [mbind run_bind].
    exists s3, (Some (j1, j2)). split; [reflexivity|]. split; [exact R3|]. split; [exact V3|]. split; [exact X3|]. rewrite Er.
    exists j1, j2. split; [done|]. unfold nfz. rewrite Hh3, Hh. rewrite !lookup_delete_ne by congruence. rewrite lookup_insert_ne by congruence. rewrite !lookup_insert.
    split; [done|]. split; [done|]. split; [exact Ne|]. split; (apply (ext_none s s1); [exact X|assumption]).
Qed.
Lemma following_self_stands s K i x z lf lb : reach s -> stores s K -> nfz s i x -> nav_spec K NLastSibling x (Some z) -> head lf = Some x -> head lb = Some z ->
  exists s1 st, hfollowing_or_self_stable s i = Ret (s1, st) /\ stands s s1 st lf lb.
Proof.
  intros H Hst Hi Hz Ef Eb. destruct (h_clone_ok s i Frozen x H Hi) as (s1 & a & E & [R V X N Ha]). unfold hfollowing_or_self_stable. rewrite E. cbn [mbind run_bind].
  pose proof (sv_stores _ _ V K Hst) as Hst1. destruct (h_nav_ok s1 K NLastSibling i Frozen x R Hst1 (X _ _ Hi)) as (o & Hn & C).
  assert (o = Some z) as -> by (eapply nav_spec_det; [exact (proj2 Hst)|exact Hn|exact Hz]). destruct C as (s2 & b & E2 & [R2 V2 X2 N2 Hb]).
  unfold h_nav1. rewrite E2. cbn [mbind run_bind]. exists s2, (Some (a, b)). split; [reflexivity|]. split; [exact R2|]. split; [exact (view_trans _ _ _ V V2)|].
  split; [exact (extends_trans _ _ _ X X2)|]. destruct lf as [|c lf]; [discriminate Ef|]. destruct lb as [|d lb]; [discriminate Eb|]. injection Ef as ->. injection Eb as ->.
  exists a, b. split; [done|]. split; [exact (X2 _ _ Ha)|]. split; [exact Hb|]. split; [intros ->; congruence|]. split; [exact N|].
  destruct (s_hands s !! b) as [hd|] eqn:Ek; [|done]. apply X in Ek. congruence.
Qed.
Lemma preceding_self_stands s K i x z lf lb : reach s -> stores s K -> nfz s i x -> nav_spec K NFirstSibling x (Some z) -> head lf = Some z -> head lb = Some x ->
  exists s1 st, hpreceding_or_self_stable s i = Ret (s1, st) /\ stands s s1 st lf lb.
Proof.
  intros H Hst Hi Hz Ef Eb. destruct (h_nav_ok s K NFirstSibling i Frozen x H Hst Hi) as (o & Hn & C).
  assert (o = Some z) as -> by (eapply nav_spec_det; [exact (proj2 Hst)|exact Hn|exact Hz]). destruct C as (s1 & a & E & [R V X N Ha]).
  unfold hpreceding_or_self_stable, h_nav1. rewrite E. cbn [mbind run_bind]. destruct (h_clone_ok s1 i Frozen x R (X _ _ Hi)) as (s2 & b & E2 & [R2 V2 X2 N2 Hb]).
  rewrite E2. cbn [mbind run_bind]. exists s2, (Some (a, b)). split; [reflexivity|]. split; [exact R2|]. split; [exact (view_trans _ _ _ V V2)|].
  split; [exact (extends_trans _ _ _ X X2)|]. destruct lf as [|c lf]; [discriminate Ef|]. destruct lb as [|d lb]; [discriminate Eb|]. injection Ef as ->. injection Eb as ->.
  exists a, b. split; [done|]. split; [exact (X2 _ _ Ha)|]. split; [exact Hb|]. split; [intros ->; congruence|]. split; [exact N|].
  destruct (s_hands s !! b) as [hd|] eqn:Ek; [|done]. apply X in Ek. congruence.
Qed.
Lemma siblings_stands s K i x p ks : reach s -> stores s K -> nfz s i x -> K !! p = Some ks -> x ∈ ks ->
  exists s1 st, hsiblings_stable s i = Ret (s1, st) /\ stands s s1 st ks (rev ks).
Proof.
  intros H Hst Hi HK Hx. assert (child_of K p x) as Hc by (exists ks; by split). destruct (h_nav_ok s K NParent i Frozen x H Hst Hi) as (o & Hn & C).
  assert (o = Some p) as -> by (eapply nav_spec_det; [exact (proj2 Hst)|exact Hn|exact Hc]). destruct C as (s1 & j & E & [R V X N Hj]).
  unfold hsiblings_stable. rewrite E. cbn [mbind run_bind]. destruct (children_stands s1 K j p ks R (sv_stores _ _ V K Hst) Hj HK) as (s2 & st & E2 & R2 & V2 & X2 & C).
  rewrite E2. cbn [mbind run_bind]. destruct ks as [|c ks]; [by apply elem_of_nil in Hx|]. destruct (head_last_cons (c :: ks) c ks eq_refl) as (z & r & _ & Er). rewrite Er in C |- *.
  destruct C as (a & b & -> & Ha & Hb & Ne & Na & Nb).
  pose proof (s_child _ _ (i_s _ _ (reach_stores_inv s K H Hst)) p x Hc) as Et.
  destruct (drop_new s s2 i j x p R2 (view_trans _ _ _ V V2) (extends_trans _ _ _ X X2) Hi N (X2 _ _ Hj) (eq_sym Et)) as (s3 & E3 & R3 & V3 & X3 & Hh).
  rewrite E3. cbn [mbind run_bind]. exists s3, (Some (a, b)). split; [reflexivity|]. split; [exact R3|]. split; [exact V3|]. split; [exact X3|].
  exists a, b. split; [done|]. unfold nfz in *. rewrite Hh. rewrite !lookup_delete_ne by congruence. split; [exact Ha|]. split; [exact Hb|]. split; [exact Ne|].
  split; (apply (ext_none s s1); [exact X|assumption]).
Qed.
Lemma root_siblings_stands s K i x : reach s -> stores s K -> nfz s i x -> is_top K x ->
  exists s1 st, hsiblings_stable s i = Ret (s1, st) /\ stands s s1 st [x] [x].
Proof.
  intros H Hst Hi Ht. destruct (h_nav_ok s K NParent i Frozen x H Hst Hi) as (o & Hn & C).
  assert (o = None) as -> by (eapply nav_spec_det; [exact (proj2 Hst)|exact Hn|exact Ht]). unfold hsiblings_stable. rewrite C. cbn [mbind run_bind].
  eapply following_self_stands; [exact H|exact Hst|exact Hi| |done|done]. left. by split.
Qed.
(** Skipping the first item. *)
Lemma skip_stands s s1 st c lf d lb i x ks K t l1 : reach s -> nfz s i x -> x ∈ rose_nodes t -> shape K (rose_root t) t -> wf K -> row K t ks -> whole s t ->
  ks = l1 ++ c :: lf -> d ∈ ks -> stands s s1 st (c :: lf) (d :: lb) -> exists s2 st', hss_skip s1 st = Ret (s2, st') /\ stands s s2 st' lf (d :: lb).
Proof.
  intros H Hi Hx Hs Hw Hr W Ek Hd (R & V & X & a & b & -> & Ha & Hb & Ne & Na & Nb). pose proof (whole_view s s1 t V W) as W1.
  destruct (row_ends K t ks Hs Hr) as [HF _]. destruct (HF s1 a c l1 lf R W1 (conj Ha Logic.I) Ek) as (s2 & r & E & R2 & V2 & X2 & C).
  pose proof (row_nodes K t ks Hw Hs Hr) as Hn. assert (c ∈ rose_nodes t) as Hc by (apply Hn; rewrite Ek; clear; set_solver).
  assert (d ∈ rose_nodes t) as Hdn by (apply Hn; clear -Hd; set_solver).
  assert (forall y, y ∈ rose_nodes t -> tree_of s y = tree_of s x) as Et by (destruct W as (u & ? & _ & _ & _ & Wt); intros y Hy; rewrite (Wt y Hy); by rewrite (Wt x Hx)).
  unfold hss_skip, hss_next, hpair_next. rewrite E. cbn [mbind run_bind].
  destruct lf as [|c' lf]; cbn [head] in C.
  - destruct C as [-> ->]. destruct (drop_new s s1 i b x d R V X Hi Nb Hb (Et d Hdn)) as (s3 & E3 & R3 & V3 & X3 & Hh3). unfold hss_val. rewrite E3. cbn [mbind run_bind].
    assert (s_hands s3 !! a = Some (HNode Frozen c)) as Ha3 by (rewrite Hh3, lookup_delete_ne by congruence; exact Ha).
    destruct (drop_new s s3 i a x c R3 V3 X3 Hi Na Ha3 (Et c Hc)) as (s4 & E4 & R4 & V4 & X4 & Hh4). unfold h_drop in E4. rewrite E4. cbn [mbind run_bind].
    exists s4, None. split; [reflexivity|]. split; [exact R4|]. split; [exact V4|]. split; [exact X4|]. done.
  - destruct C as (j & -> & [Dj _] & Nj). unfold hss_val in Dj, Nj.
    assert (a <> j) as Nea by (intros ->; unfold nfz in Ha; congruence). assert (b <> j) as Neb by (intros ->; unfold nfz in Hb; congruence).
    destruct (drop_new s s2 i a x c R2 (view_trans _ _ _ V V2) (extends_trans _ _ _ X X2) Hi Na (X2 _ _ Ha) (Et c Hc)) as (s3 & E3 & R3 & V3 & X3 & Hh3).
    cbn [mbind run_bind]. unfold h_drop in E3. rewrite E3. cbn [mbind run_bind]. exists s3, (Some (j, b)). split; [reflexivity|]. split; [exact R3|]. split; [exact V3|]. split; [exact X3|].
    exists j, b. split; [done|]. unfold nfz. rewrite Hh3. rewrite !lookup_delete_ne by congruence. split; [exact Dj|]. split; [exact (X2 _ _ Hb)|]. split; [congruence|].
    split; [|exact Nb]. destruct (s_hands s !! j) as [hd|] eqn:Ej; [|done]. apply X in Ej. congruence.
Qed.

(** ** The sibling iterators *)
Notation begins := (fun (start : run (sys T * hss_state)) => loosely_begins start hss_next hss_next_back hss_owns nfz).
Lemma parent_in K t p c : wf K -> shape K (rose_root t) t -> is_top K (rose_root t) -> c ∈ rose_nodes t -> child_of K p c -> p ∈ rose_nodes t.
Proof.
  intros Hw Hs Ht Hc Hp. apply (shape_nodes K _ t c Hs) in Hc. apply (shape_nodes K _ t p Hs). destruct Hc as [|q c Hq Hqc]; [by destruct (proj2 Ht p Hp)|].
  assert (q = p) as -> by (exact (wf_uniq K Hw q p c Hqc Hp)). exact Hq.
Qed.
Theorem children_begin s K i x ks : reach s -> stores s K -> nfz s i x -> K !! x = Some ks -> begins (hchildren_stable s i) s ks (rev ks).
Proof.
  intros H Hst Hi HK. destruct (whole_of s K i Frozen x H Hst Hi) as (t & W & Htop & Hsh & Hx). destruct (children_stands s K i x ks H Hst Hi HK) as (s1 & st & E & S1).
  eapply (stands_begins _ s s1 st ks (rev ks) K t ks [] []); [exact (proj2 Hst)|exact Hsh|econstructor; [exact Hx|exact HK]|exact W|exact E|exact S1|done|done].
Qed.
Theorem siblings_begin s K i c p l1 l2 : reach s -> stores s K -> nfz s i c -> K !! p = Some (l1 ++ c :: l2) ->
  begins (hsiblings_stable s i) s (l1 ++ c :: l2) (rev (l1 ++ c :: l2)) /\
  begins (hfollowing_or_self_stable s i) s (c :: l2) (rev (l1 ++ c :: l2)) /\
  begins (hfollowing_stable s i) s l2 (rev (l1 ++ c :: l2)) /\
  begins (hpreceding_or_self_stable s i) s (l1 ++ c :: l2) (c :: rev l1) /\
  begins (hpreceding_stable s i) s (tail (l1 ++ c :: l2)) (c :: rev l1).
Proof.
  intros H Hst Hi HK. pose proof (proj2 Hst) as Hw. destruct (whole_of s K i Frozen c H Hst Hi) as (t & W & Htop & Hsh & Hc).
  set (ks := l1 ++ c :: l2) in *. assert (c ∈ ks) as Hin by (unfold ks; clear; set_solver). assert (child_of K p c) as Hpc by (exists ks; by split).
  assert (row K t ks) as Hr by (econstructor; [exact (parent_in K t p c Hw Hsh Htop Hc Hpc)|exact HK]).
  assert (rev ks = rev l2 ++ c :: rev l1) as Erev by (unfold ks; rewrite rev_app_distr; simpl; by rewrite <- app_assoc).
  assert (exists z r, last ks = Some z /\ rev ks = z :: r) as (z & r & El & Er).
  { destruct ks as [|y l] eqn:Ey; [by apply elem_of_nil in Hin|]. exact (head_last_cons (y :: l) y l eq_refl). }
  assert (z ∈ ks) as Hz by (by apply elem_of_last).
  assert (exists y l, ks = y :: l) as (y & l & Ey) by (destruct ks as [|y l]; [by apply elem_of_nil in Hin|by exists y, l]).
  assert (nav_spec K NLastSibling c (Some z)) as Hl by (right; exists p, ks; split; [exact HK|]; by split).
  assert (nav_spec K NFirstSibling c (Some y)) as Hf by (right; exists p, ks; split; [exact HK|]; split; [exact Hin|by rewrite Ey]).
  destruct (siblings_stands s K i c p ks H Hst Hi HK Hin) as (s1 & st1 & E1 & S1).
  destruct (following_self_stands s K i c z (c :: l2) (rev ks) H Hst Hi Hl eq_refl) as (s2 & st2 & E2 & S2); [by rewrite Er|].
  destruct (preceding_self_stands s K i c y ks (c :: rev l1) H Hst Hi Hf) as (s3 & st3 & E3 & S3); [by rewrite Ey|done|].
  split; [eapply (stands_begins _ s s1 st1 ks (rev ks) K t ks [] []); [exact Hw|exact Hsh|exact Hr|exact W|exact E1|exact S1|done|done]|].
  split; [eapply (stands_begins _ s s2 st2 (c :: l2) (rev ks) K t ks l1 []); [exact Hw|exact Hsh|exact Hr|exact W|exact E2|exact S2|done|done]|].
  split.
  { rewrite Er in S2. destruct (skip_stands s s2 st2 c l2 z r i c ks K t l1 H Hi Hc Hsh Hw Hr W eq_refl Hz S2) as (s4 & st4 & E4 & S4). rewrite <- Er in S4.
    eapply (stands_begins _ s s4 st4 l2 (rev ks) K t ks (l1 ++ [c]) []); [exact Hw|exact Hsh|exact Hr|exact W| |exact S4|unfold ks; by rewrite <- app_assoc|done].
    unfold hfollowing_stable. rewrite E2. exact E4. }
  split; [eapply (stands_begins _ s s3 st3 ks (c :: rev l1) K t ks [] (rev l2)); [exact Hw|exact Hsh|exact Hr|exact W|exact E3|exact S3|done|exact Erev]|].
  rewrite Ey in S3. destruct (skip_stands s s3 st3 y l c (rev l1) i c ks K t [] H Hi Hc Hsh Hw Hr W Ey Hin S3) as (s4 & st4 & E4 & S4). rewrite Ey. cbn [tail].
  eapply (stands_begins _ s s4 st4 l (c :: rev l1) K t ks [y] (rev l2)); [exact Hw|exact Hsh|exact Hr|exact W| |exact S4|exact Ey|exact Erev].
  unfold hpreceding_stable. rewrite E3. exact E4.
Qed.
Theorem root_siblings_begin s K i x : reach s -> stores s K -> nfz s i x -> is_top K x ->
  begins (hsiblings_stable s i) s [x] [x] /\ begins (hfollowing_or_self_stable s i) s [x] [x] /\ begins (hfollowing_stable s i) s [] [x] /\
  begins (hpreceding_or_self_stable s i) s [x] [x] /\ begins (hpreceding_stable s i) s [] [x].
Proof.
  intros H Hst Hi Ht. pose proof (proj2 Hst) as Hw. destruct (whole_of s K i Frozen x H Hst Hi) as (t & W & Htop & Hsh & Hx).
  assert (rose_root t = x) as Ex.
  { apply (shape_nodes K _ t x Hsh) in Hx. destruct Hx as [|q c Hq Hqc]; [done|]. by destruct (proj2 Ht q Hqc). }
  assert (row K t [x]) as Hr by (rewrite <- Ex; constructor).
  destruct (root_siblings_stands s K i x H Hst Hi Ht) as (s1 & st1 & E1 & S1).
  destruct (following_self_stands s K i x x [x] [x] H Hst Hi (or_introl (conj Ht eq_refl)) eq_refl eq_refl) as (s2 & st2 & E2 & S2).
  destruct (preceding_self_stands s K i x x [x] [x] H Hst Hi (or_introl (conj Ht eq_refl)) eq_refl eq_refl) as (s3 & st3 & E3 & S3).
  assert (x ∈ [x]) as Hin by left.
  split; [eapply (stands_begins _ s s1 st1 [x] [x] K t [x] [] []); [exact Hw|exact Hsh|exact Hr|exact W|exact E1|exact S1|done|done]|].
  split; [eapply (stands_begins _ s s2 st2 [x] [x] K t [x] [] []); [exact Hw|exact Hsh|exact Hr|exact W|exact E2|exact S2|done|done]|].
  split.
  { destruct (skip_stands s s2 st2 x [] x [] i x [x] K t [] H Hi Hx Hsh Hw Hr W eq_refl Hin S2) as (s4 & st4 & E4 & S4).
    eapply (stands_begins _ s s4 st4 [] [x] K t [x] [x] []); [exact Hw|exact Hsh|exact Hr|exact W| |exact S4|done|done]. unfold hfollowing_stable. rewrite E2. exact E4. }
  split; [eapply (stands_begins _ s s3 st3 [x] [x] K t [x] [] []); [exact Hw|exact Hsh|exact Hr|exact W|exact E3|exact S3|done|done]|].
  destruct (skip_stands s s3 st3 x [] x [] i x [x] K t [] H Hi Hx Hsh Hw Hr W eq_refl Hin S3) as (s4 & st4 & E4 & S4).
  eapply (stands_begins _ s s4 st4 [] [x] K t [x] [x] []); [exact Hw|exact Hsh|exact Hr|exact W| |exact S4|done|done]. unfold hpreceding_stable. rewrite E3. exact E4.
Qed.

(** ** Events *)
Definition tagd {A B} (e : dft A) (a : dft B) : Prop := match e, a with Open _, Open _ | Close _, Close _ => True | _, _ => False end.
Lemma names_den s e a : names s Frozen e a <-> den ev_val ev_val tagd s e a.
Proof.
  unfold den, tagd. rewrite names_val. split.
  - intros [(x & A & B) C]. subst x. by split. - intros [A C]. split; [|exact C]. by exists (ev_val a).
Qed.
Lemma moves_succ K r c l2 : is_top K r -> dfs_moves K (c, r) (head (map (lab r) l2)) -> ev_succ K c (head l2).
Proof.
  intros Ht P. remember (c, r) as cr eqn:E1. remember (head (map (lab r) l2)) as o eqn:E2. destruct P as [r'|e r' o' Hne Hs'].
  - injection E1 as <- <-. destruct l2; [|discriminate E2]. by constructor.
  - injection E1 as -> ->. destruct o' as [e'|]; destruct l2 as [|c2 l2]; simpl in E2 |- *; try discriminate E2; [|exact Hs']. injection E2 as ->. exact Hs'.
Qed.
Lemma moves_pred K r c l2 : is_top K r -> rdfs_moves K (c, r) (head (map (lab r) l2)) -> ev_pred K c (head l2).
Proof.
  intros Ht P. remember (c, r) as cr eqn:E1. remember (head (map (lab r) l2)) as o eqn:E2. destruct P as [r'|e r' o' Hne Hs'].
  - injection E1 as <- <-. destruct l2; [|discriminate E2]. by constructor.
  - injection E1 as -> ->. destruct o' as [e'|]; destruct l2 as [|c2 l2]; simpl in E2 |- *; try discriminate E2; [|exact Hs']. injection E2 as ->. exact Hs'.
Qed.
Lemma succ_at K t l1 c l2 : wf K -> shape K (rose_root t) t -> is_top K (rose_root t) -> dfs_events t = l1 ++ c :: l2 -> ev_succ K c (head l2).
Proof.
  intros Hw Hs Ht E. pose proof (dfs_path K (rose_root t) Hw t _ Hs (below_refl K _) None (dm_end K (rose_root t))) as P.
  rewrite E, map_app in P. cbn [map] in P. apply path_split in P. exact (moves_succ K _ c l2 Ht P).
Qed.
Lemma pred_at K t l1 c l2 : wf K -> shape K (rose_root t) t -> is_top K (rose_root t) -> rev (dfs_events t) = l1 ++ c :: l2 -> ev_pred K c (head l2).
Proof.
  intros Hw Hs Ht E. pose proof (rdfs_path K (rose_root t) Hw t _ Hs (below_refl K _) None (rm_end K (rose_root t))) as P.
  unfold reverse in P. rewrite <- rev_alt in P. rewrite E, map_app in P. cbn [map] in P. apply path_split in P. exact (moves_pred K _ c l2 Ht P).
Qed.
Lemma ev_end_next t : @end_step T (dft nat) (dft nid) ev_val ev_val tagd t hev_next (dfs_events t).
Proof.
  intros s i c l1 l2 H (u & K & Hst & Hsh & Htop & Ht) Hd HL. apply names_den in Hd.
  destruct (hev_next_ok s K Frozen i c H Hst Hd) as (s1 & r & o & E & Ho & R & V & X & C).
  assert (o = head l2) as -> by (eapply ev_succ_det; [exact (proj2 Hst)|exact Ho|exact (succ_at K t l1 c l2 (proj2 Hst) Hsh Htop HL)]).
  exists s1, r. split; [exact E|]. split; [exact R|]. split; [exact V|]. split; [exact X|]. destruct r as [e'|], (head l2) as [c'|]; try (exfalso; exact C); [|by split].
  destruct C as [A B]. exists e'. split; [done|]. split; [by apply names_den|exact B].
Qed.
Lemma ev_end_prev t : @end_step T (dft nat) (dft nid) ev_val ev_val tagd t hev_prev (rev (dfs_events t)).
Proof.
  intros s i c l1 l2 H (u & K & Hst & Hsh & Htop & Ht) Hd HL. apply names_den in Hd.
  destruct (hev_prev_ok s K Frozen i c H Hst Hd) as (s1 & r & o & E & Ho & R & V & X & C).
  assert (o = head l2) as -> by (eapply ev_pred_det; [exact (proj2 Hst)|exact Ho|exact (pred_at K t l1 c l2 (proj2 Hst) Hsh Htop HL)]).
  exists s1, r. split; [exact E|]. split; [exact R|]. split; [exact V|]. split; [exact X|]. destruct r as [e'|], (head l2) as [c'|]; try (exfalso; exact C); [|by split].
  destruct C as [A B]. exists e'. split; [done|]. split; [by apply names_den|exact B].
Qed.
Theorem events_begin s K i x r t e1 e2 b1 b2 : reach s -> stores s K -> nfz s i x -> is_top K r -> shape K r t ->
  dfs_events t = e1 ++ Open x :: e2 -> dfs_events t = b1 ++ Close x :: b2 ->
  loosely_begins (hsdfs_start s i) hsdfs_next hsdfs_next_back hsdfs_owns (fun s => names s Frozen) s (Open x :: e2) (Close x :: rev b1).
Proof.
  intros H Hst Hi Htop Hsh Ee Eb. pose proof (proj2 Hst) as Hw. destruct (whole_of s K i Frozen x H Hst Hi) as (t' & W & Htop' & Hsh' & Hx).
  assert (x ∈ rose_nodes t) as Hxt by (apply (dfs_events_elem t (Open x)); rewrite Ee; clear; set_solver).
  assert (rose_root t' = r) as Er.
  { apply (shape_nodes K _ t' x Hsh') in Hx. apply (shape_nodes K _ t x Hsh) in Hxt. exact (below_top_unique K _ _ x Hw Htop' Htop Hx Hxt). }
  rewrite Er in Hsh', Htop'. assert (t' = t) as -> by (exact (shape_unique K r t' t Hsh' Hsh)).
  destruct (h_clone_ok s i Frozen x H Hi) as (s1 & c & E & [R V X N Hc]). destruct (h_clone_ok s1 c Frozen x R Hc) as (s2 & j & E2 & [R2 V2 X2 N2 Hj]).
  exists s2, (Some (Open j, Close c)). split; [unfold hsdfs_start; rewrite E; cbn [mbind run_bind]; by rewrite E2|]. split; [exact R2|].
  split; [exact (view_trans _ _ _ V V2)|]. split; [exact (extends_trans _ _ _ X X2)|]. intros bs.
  eapply (lw_mono _ _ _ (den ev_val ev_val tagd)); [intros s' i' j' A; by apply names_den|].
  apply (pair_withstands ev_val ev_val tagd hev_next hev_prev t (dfs_events t) (rev (dfs_events t)) (ev_end_next t) (ev_end_prev t)); [|exact R2|].
  - intros e He. apply dfs_events_elem. apply elem_of_app in He as [He|He]; [exact He|]. by apply elem_of_list_In, in_rev, elem_of_list_In in He.
  - exists (Open j), (Close c), e1, (rev b2). split; [done|]. split; [exact (whole_view s s2 t (view_trans _ _ _ V V2) W)|].
    split; [apply names_den; exact Hj|]. split; [apply names_den; exact (X2 _ _ Hc)|]. split; [simpl; congruence|]. split; [exact Ee|].
    rewrite Eb, rev_app_distr. simpl. by rewrite <- app_assoc.
Qed.
End HIter2Facts2.
