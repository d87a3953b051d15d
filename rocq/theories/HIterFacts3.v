(** * HIterFacts3: traversing along one direction; the frozen double-ended traverser. *)
From Verif Require Import HIter HIterSpec SpecFacts NavFacts RoseFacts IterFacts AdjFacts TravFacts TravFacts3 SysFacts5 ApiFacts ApiFacts2 ApiFacts3 ApiFacts6 ApiFacts7 BuildFacts4 HIterFacts HIterFacts2 Spec.

Local Arguments sh_forward : simpl never.
Local Arguments sh_backward : simpl never.

Section HIterFacts3.
Context {T : Type}.
Implicit Types (s : sys T) (K : forest) (max : option nat).

(** ** One direction *)
Definition named k s (i : nat) (x : nid) : Prop := s_hands s !! i = Some (HNode k x).
Definition along v K x o := nav_spec K v x o.
Lemma hsib_yields v k s i x (stays : forest -> Prop) l : reach s -> s_hands s !! i = Some (HNode k x) -> head l = Some x ->
  (forall K l1 c l2, stays K -> wf K -> l = l1 ++ c :: l2 -> nav_spec K v c (head l2)) ->
  yields_while (hsib_next v) hsib_owns (named k) stays s (Some i) l.
Proof.
  intros H Hi Hl Hp. eapply (walks_yield _ _ _ (along v)); [intros K c a b Hw; by apply nav_spec_det|exact Hp|].
  rewrite Hl. by apply (hsib_walks v k).
Qed.
Lemma hsib_next_yields k s i x p l1 l2 : reach s -> s_hands s !! i = Some (HNode k x) ->
  yields_while (hsib_next NNext) hsib_owns (named k) (fun K => K !! p = Some (l1 ++ x :: l2)) s (Some i) (x :: l2).
Proof.
  intros H Hi. eapply hsib_yields; [exact H|exact Hi|done|]. intros K a c b HK Hw E. right.
  exists p, (l1 ++ a ++ c :: b), (length (l1 ++ a)). split; [by rewrite HK, E|]. split.
  - rewrite app_assoc. by apply list_lookup_middle.
  - rewrite app_assoc, lookup_app_r by lia. replace (S (length (l1 ++ a)) - length (l1 ++ a)) with 1 by lia. by destruct b.
Qed.
Lemma hsib_prev_yields k s i x p l1 l2 : reach s -> s_hands s !! i = Some (HNode k x) ->
  yields_while (hsib_next NPrev) hsib_owns (named k) (fun K => K !! p = Some (l1 ++ x :: l2)) s (Some i) (x :: reverse l1).
Proof.
  intros H Hi. eapply hsib_yields; [exact H|exact Hi|done|]. intros K a c b HK Hw E. right.
  assert (l1 ++ x :: l2 = reverse b ++ c :: reverse a ++ l2) as El.
  { change (x :: reverse l1) with (reverse [x] ++ reverse l1) in E. rewrite <- reverse_app in E. apply (f_equal reverse) in E.
    rewrite reverse_involutive, reverse_app, reverse_cons, <- app_assoc in E.
    change (x :: l2) with ([x] ++ l2). rewrite app_assoc, E, <- !app_assoc. done. }
  exists p, (l1 ++ x :: l2), (length (reverse b)). split; [exact HK|]. rewrite El. split; [by apply list_lookup_middle|].
  destruct b as [|z b]; [done|]. rewrite reverse_cons, app_length, Nat.add_1_r, <- app_assoc. simpl. symmetry. by apply list_lookup_middle.
Qed.
Lemma hsib_anc_yields k s i x l : reach s -> s_hands s !! i = Some (HNode k x) ->
  yields_while (hsib_next NParent) hsib_owns (named k) (fun K => anc K x l) s (Some i) (x :: l).
Proof.
  intros H Hi. eapply hsib_yields; [exact H|exact Hi|done|]. intros K l1 c l2 HK Hw E.
  clear H Hi. revert x l HK E. clear -Hw. induction l1 as [|a l1 IH]; intros x l Ha E.
  - injection E as -> ->. inversion Ha as [? Ht|? p ? Hc]; subst; [exact Ht|exact Hc].
  - injection E as -> ->. inversion Ha as [? Ht|? p ? Hc Ha' E1 E2]; subst; [by destruct l1|].
    apply (IH p l); [exact Ha'|]. by rewrite <- E2.
Qed.

(** ** Frozen trees under interference *)
Definition stable s (t : rose nid) : Prop :=
  exists (u : tid) K, stores s K /\ shape K (rose_root t) t /\ forall y, y ∈ rose_nodes t -> tree_of s y = Some u.

Lemma stable_step s K o s1 r i z t : reach s -> stores s K -> safe s K o -> i ∉ op_args o -> step s o = Ret (s1, r) ->
  s_hands s !! i = Some (HNode Frozen z) -> z ∈ rose_nodes t -> stable s t -> stable s1 t.
Proof.
  intros H Hst Hs Hi E Hh Hz (u & K0 & HK0 & Hsh & Ht). assert (K0 = K) as -> by (exact (stores_unique s K0 K HK0 Hst)).
  assert (reach s1) as H1 by (eapply reach_step; [exact H|exact Hst|exact Hs|exact E]).
  assert (s_hands s1 !! i = Some (HNode Frozen z)) as Hh1 by (exact (step_keeps s o s1 r i _ (reach_any s H) E Hi Hh)).
  destruct (reach_stores s1 H1) as [K1 Hst1].
  destruct (ApiFacts7.handle_tree s K i Frozen z H Hst Hh) as (u' & rc & lk & _ & Eu & Halive & _).
  assert (u' = u) as -> by (rewrite (Ht z Hz) in Eu; congruence).
  assert (some_lock s Frozen u) as Hl. { right. exists z. split; [done|]. split; [exact Eu|]. by exists i. }
  destruct (frozen_immutable s K o s1 r K1 u H Hst Hs E Hst1 Hl Halive) as [Hk _].
  destruct (ApiFacts7.handle_tree s1 K1 i Frozen z H1 Hst1 Hh1) as (u1 & _ & _ & _ & Eu1 & _ & Hz1).
  apply (alive_known s1 K1 z Hst1) in Hz1. destruct (Hk z Eu Hz1) as [_ Ez1].
  assert (forall y, y ∈ rose_nodes t -> K1 !! y = K !! y /\ tree_of s1 y = Some u) as Hy.
  { intros y Hy. apply Hk; [by apply Ht|]. eapply kept_alive; [exact H|exact Hst|exact Hs|exact E|by apply Ht|].
    right. exists i, Frozen, z. by split. }
  exists u, K1. split; [exact Hst1|]. split; [|intros y Hin; exact (proj2 (Hy y Hin))].
  eapply shape_agree; [exact Hsh|]. intros y Hin. exact (proj1 (Hy y Hin)).
Qed.
Lemma stable_others own s s1 i z t : others own s s1 -> reach s -> i ∈ own ->
  s_hands s !! i = Some (HNode Frozen z) -> z ∈ rose_nodes t -> stable s t -> stable s1 t.
Proof.
  induction 1 as [s|s K o s2 r s3 Hst Hs Ha E Ho IH]; intros H Hi Hh Hz Hsta; [exact Hsta|].
  assert (i ∉ op_args o) as Hn by (intros F; exact (Ha i F Hi)).
  apply IH; [eapply reach_step; [exact H|exact Hst|exact Hs|exact E]|exact Hi| |exact Hz|].
  - exact (step_keeps s o s2 r i _ (reach_any s H) E Hn Hh).
  - exact (stable_step s K o s2 r i z t H Hst Hs Hn E Hh Hz Hsta).
Qed.

(** ** Simulation *)
Lemma h_nav_target s K v i k x : reach s -> stores s K -> s_hands s !! i = Some (HNode k x) ->
  exists o, nav_target s v x = Ret o /\
    match o with
    | None => h_nav s v i = Ret (s, None)
    | Some y => exists s1 j, h_nav s v i = Ret (s1, Some j) /\ got s s1 j k y
    end.
Proof.
  intros H Hst Hi. pose proof (reach_stores_inv s K H Hst) as I.
  destruct (nav_ok s K v x I) as (o & E & Hn & _).
  { apply (alive_known s K x Hst). destruct (ApiFacts7.handle_tree s K i k x H Hst Hi) as (? & ? & ? & _ & _ & _ & Hx). exact Hx. }
  destruct (h_nav_ok s K v i k x H Hst Hi) as (o' & Hn' & C).
  assert (o' = o) as -> by (eapply nav_spec_det; [exact (proj2 Hst)|exact Hn'|exact Hn]). exists o. by split.
Qed.

Lemma names_at_val s k e a : names_at s k e a -> s_hands s !! (ev_val e).1 = Some (HNode k (ev_val a).1) /\ (ev_val e).2 = (ev_val a).2.
Proof. destruct e as [[i d]|[i d]], a as [[x d']|[x d']]; simpl; try tauto. Qed.
Lemma names_at_keep s s' k e a : names_at s k e a -> (forall hd, s_hands s !! (ev_val e).1 = Some hd -> s_hands s' !! (ev_val e).1 = Some hd) -> names_at s' k e a.
Proof. intros Hn Hk. destruct e as [[i d]|[i d]], a as [[x d']|[x d']]; simpl in *; try tauto; destruct Hn as [A B]; split; auto. Qed.

Lemma hsh_same_ok s k e eb a b : names_at s k e a -> names_at s k eb b -> forall r, sh_same a b = Ret r -> hsh_same s e eb = Ret r.
Proof.
  intros He Hb r. destruct e as [[i d]|[i d]], a as [[x d']|[x d']], eb as [[j f]|[j f]], b as [[y f']|[y f']]; simpl in He, Hb; try tauto; simpl; try tauto;
    destruct He as [He ->], Hb as [Hb ->]; unfold hand_ptr_eq; rewrite He, Hb; cbn [mbind run_bind]; destruct (decide (x = y)) as [Ee|Ee];
    [rewrite (bool_decide_eq_true_2 _ Ee)|rewrite (bool_decide_eq_false_2 _ Ee)|rewrite (bool_decide_eq_true_2 _ Ee)|rewrite (bool_decide_eq_false_2 _ Ee)]; done.
Qed.

(** What an inner step gives. *)
Definition fresh_end s s1 k (r : option (dft (nat * nat))) (o : option (dft (nid * nat))) : Prop :=
  reach s1 /\ same_view s s1 /\ extends s s1 /\
  match r, o with
  | Some e', Some a' => names_at s1 k e' a' /\ s_hands s !! (ev_val e').1 = None
  | None, None => s1 = s
  | _, _ => False
  end.
Lemma fresh_got s s1 k j y (c : bool) d : got s s1 j k y ->
  fresh_end s s1 k (Some ((if c then Open else Close) (j, d))) (Some ((if c then Open else Close) (y, d))).
Proof. intros [R V X N Hj]. split; [exact R|]. split; [exact V|]. split; [exact X|]. destruct c; simpl; repeat split; assumption. Qed.
Lemma fresh_none s k : reach s -> fresh_end s s k None None.
Proof. intros H. split; [exact H|]. split; [apply view_refl|]. split; [apply extends_refl|reflexivity]. Qed.

Lemma hsh_forward_ok s K k max e eb a b o : reach s -> stores s K -> names_at s k e a -> names_at s k eb b ->
  sh_forward (s_nodes s) max (Some (a, b)) = Ret o ->
  exists s1 r, hsh_forward s max e eb = Ret (s1, r) /\ fresh_end s s1 k r o.
Proof.
  intros H Hst He Hb. unfold sh_forward, hsh_forward. destruct (sh_same a b) as [same| |] eqn:Es; [|discriminate|discriminate].
  rewrite (hsh_same_ok s k e eb a b He Hb same Es). cbn [mbind run_bind].
  destruct same; [intros [= <-]; exists s, None; split; [reflexivity|by apply fresh_none]|].
  destruct e as [[i d]|[i d]], a as [[x d']|[x d']]; simpl in He; try tauto; destruct He as [He ->].
  - destruct (decide (max = Some d')).
    + intros [= <-]. destruct (h_clone_ok s i k x H He) as (s1 & j & E & G). rewrite E. cbn [mbind run_bind].
      exists s1, (Some (Close (j, d'))). split; [reflexivity|]. exact (fresh_got s s1 k j x false d' G).
    + destruct (h_nav_target s K NFirstChild i k x H Hst He) as (c & Ec & C). injection Ec as <-. destruct (first_child_link (s_nodes s) x) as [y|].
      * intros [= <-]. destruct C as (s1 & j & E & G). rewrite E. cbn [mbind run_bind]. exists s1, (Some (Open (j, S d'))). split; [reflexivity|].
        exact (fresh_got s s1 k j y true (S d') G).
      * intros [= <-]. rewrite C. cbn [mbind run_bind]. destruct (h_clone_ok s i k x H He) as (s1 & j & E & G). rewrite E. cbn [mbind run_bind].
        exists s1, (Some (Close (j, d'))). split; [reflexivity|]. exact (fresh_got s s1 k j x false d' G).
  - destruct (h_nav_target s K NNext i k x H Hst He) as (c & Ec & C). injection Ec as <-. destruct (next_sibling_link (s_nodes s) x) as [y|].
    + intros [= <-]. destruct C as (s1 & j & E & G). rewrite E. cbn [mbind run_bind]. exists s1, (Some (Open (j, d'))). split; [reflexivity|].
      exact (fresh_got s s1 k j y true d' G).
    + rewrite C. cbn [mbind run_bind]. destruct (h_nav_target s K NParent i k x H Hst He) as (c & Ec & D). injection Ec as <-.
      destruct (parent_link (s_nodes s) x) as [y|].
      * destruct D as (s1 & j & E & G). rewrite E. cbn [mbind run_bind]. destruct d' as [|d']; [discriminate|]. intros [= <-].
        exists s1, (Some (Close (j, d'))). split; [reflexivity|]. exact (fresh_got s s1 k j y false d' G).
      * rewrite D. cbn [mbind run_bind]. intros [= <-]. exists s, None. split; [reflexivity|by apply fresh_none].
Qed.
Lemma hsh_backward_ok s K k max e eb a b o : reach s -> stores s K -> names_at s k e a -> names_at s k eb b ->
  sh_backward (s_nodes s) max (Some (a, b)) = Ret o ->
  exists s1 r, hsh_backward s max e eb = Ret (s1, r) /\ fresh_end s s1 k r o.
Proof.
  intros H Hst He Hb. unfold sh_backward, hsh_backward. destruct (sh_same a b) as [same| |] eqn:Es; [|discriminate|discriminate].
  rewrite (hsh_same_ok s k e eb a b He Hb same Es). cbn [mbind run_bind].
  destruct same; [intros [= <-]; exists s, None; split; [reflexivity|by apply fresh_none]|].
  destruct eb as [[i d]|[i d]], b as [[x d']|[x d']]; simpl in Hb; try tauto; destruct Hb as [Hb ->].
  - destruct (h_nav_target s K NPrev i k x H Hst Hb) as (c & Ec & C). simpl in Ec. rewrite Ec. cbn [mbind run_bind]. destruct c as [y|].
    + intros [= <-]. destruct C as (s1 & j & E & G). rewrite E. cbn [mbind run_bind]. exists s1, (Some (Close (j, d'))). split; [reflexivity|].
      exact (fresh_got s s1 k j y false d' G).
    + rewrite C. cbn [mbind run_bind]. destruct (h_nav_target s K NParent i k x H Hst Hb) as (c & Ec' & D). injection Ec' as <-.
      destruct (parent_link (s_nodes s) x) as [y|].
      * destruct D as (s1 & j & E & G). rewrite E. cbn [mbind run_bind]. destruct d' as [|d']; [discriminate|]. intros [= <-].
        exists s1, (Some (Open (j, d'))). split; [reflexivity|]. exact (fresh_got s s1 k j y true d' G).
      * rewrite D. cbn [mbind run_bind]. intros [= <-]. exists s, None. split; [reflexivity|by apply fresh_none].
  - destruct (decide (max = Some d')).
    + intros [= <-]. destruct (h_clone_ok s i k x H Hb) as (s1 & j & E & G). rewrite E. cbn [mbind run_bind].
      exists s1, (Some (Open (j, d'))). split; [reflexivity|]. exact (fresh_got s s1 k j x true d' G).
    + destruct (h_nav_target s K NLastChild i k x H Hst Hb) as (c & Ec & C). simpl in Ec. rewrite Ec. cbn [mbind run_bind]. destruct c as [y|].
      * intros [= <-]. destruct C as (s1 & j & E & G). rewrite E. cbn [mbind run_bind]. exists s1, (Some (Close (j, S d'))). split; [reflexivity|].
        exact (fresh_got s s1 k j y false (S d') G).
      * intros [= <-]. rewrite C. cbn [mbind run_bind]. destruct (h_clone_ok s i k x H Hb) as (s1 & j & E & G). rewrite E. cbn [mbind run_bind].
        exists s1, (Some (Open (j, d'))). split; [reflexivity|]. exact (fresh_got s s1 k j x true d' G).
Qed.

(** ** The invariant *)
Definition all_events max (t : rose nid) : list (dft (nid * nat)) := dfs_events (rose_depths 0 (rose_cut max t)).
Lemma all_events_nodes max t e : e ∈ all_events max t -> (ev_val e).1 ∈ rose_nodes t.
Proof.
  intros He. apply dfs_events_elem in He. eapply elem_of_submseteq; [|apply sublist_submseteq, (nodes_cut t max)].
  rewrite <- (nodes_depths (rose_cut max t) 0). by apply elem_of_list_fmap_1.
Qed.
Lemma Psh_infix (h : heap T) K max x t l1 l l2 a b : rep h K -> wf K -> shape K x t -> all_events max t = l1 ++ l ++ l2 ->
  head l = Some a -> last l = Some b -> Psh h K max (Some (a, b)) l.
Proof.
  intros Hr Hw Hs E Ha Hb. pose proof (Psh_start h K max x t Hr Hw Hs) as (_ & _ & P1 & P2 & P3). fold (all_events max t) in *.
  rewrite E in *. split; [exact Ha|]. split; [exact Hb|]. rewrite !adj_app in P1. split; [apply P1|].
  rewrite !map_app in P2. apply NoDup_app in P2 as (_ & _ & P2). apply NoDup_app in P2 as (P2 & _). split; [exact P2|].
  intros e He. apply P3. apply elem_of_app. right. apply elem_of_app. by left.
Qed.
Definition sh_inv max t s (st : hsh_state) (l : list (dft (nid * nat))) : Prop :=
  match st with
  | None => l = []
  | Some (e, eb) => exists a b l1 l2, stable s t /\ names_at s Frozen e a /\ names_at s Frozen eb b /\ (ev_val e).1 <> (ev_val eb).1 /\
      head l = Some a /\ last l = Some b /\ all_events max t = l1 ++ l ++ l2
  end.
Lemma head_in {A} (l : list A) a : head l = Some a -> a ∈ l.
Proof. destruct l; [discriminate|]. intros [= ->]. left. Qed.
Lemma sh_inv_nodes max t l1 l l2 a b : all_events max t = l1 ++ l ++ l2 -> head l = Some a -> last l = Some b ->
  (ev_val a).1 ∈ rose_nodes t /\ (ev_val b).1 ∈ rose_nodes t.
Proof.
  intros E Ha Hb. split; apply (all_events_nodes max); rewrite E; apply elem_of_app; right; apply elem_of_app; left; [by apply head_in|by apply elem_of_last].
Qed.
Lemma sh_inv_others max t s st l s1 : reach s -> others (hsh_owns st) s s1 -> sh_inv max t s st l -> reach s1 /\ sh_inv max t s1 st l.
Proof.
  intros H Ho Hi. destruct (others_ok _ _ _ Ho H) as [H1 Hk]. split; [exact H1|]. destruct st as [[e eb]|]; [|exact Hi].
  destruct Hi as (a & b & l1 & l2 & Hs & He & Hb & Hd & Ha & Hl & HL). destruct (sh_inv_nodes _ _ _ _ _ _ _ HL Ha Hl) as [Hna _].
  exists a, b, l1, l2. split; [|split; [|split; [|by split]]].
  - eapply stable_others; [exact Ho|exact H| |exact (proj1 (names_at_val s Frozen e a He))|exact Hna|exact Hs]. simpl. left.
  - apply (names_at_keep s); [exact He|]. intros hd. apply Hk. simpl. left.
  - apply (names_at_keep s); [exact Hb|]. intros hd. apply Hk. simpl. right. left.
Qed.
Lemma stable_view s s1 t : same_view s s1 -> stable s t -> stable s1 t.
Proof.
  intros V (u & K & A & B & C). exists u, K. split; [exact (sv_stores _ _ V K A)|]. split; [exact B|].
  intros y Hy. rewrite (sv_tree _ _ V y). by apply C.
Qed.

Lemma sh_inv_next max t s st l : reach s -> sh_inv max t s st l ->
  exists s2 r st', hsh_next max s st = Ret (s2, r, st') /\ reach s2 /\ undisturbed (hsh_owns st) s s2 /\ same_view s s2 /\
    match head l with None => r = None /\ s2 = s | Some j => exists i, r = Some i /\ names_at s2 Frozen i j end /\
    sh_inv max t s2 st' (tail l).
Proof.
  intros H Hi. destruct st as [[e eb]|].
  2:{ simpl in Hi. subst l. exists s, None, None. split; [reflexivity|]. split; [exact H|]. split; [apply undisturbed_refl|]. split; [apply view_refl|]. by repeat split. }
  destruct Hi as (a & b & l1 & l2 & Hs & He & Hb & Hd & Ha & Hl & HL). destruct (sh_inv_nodes _ _ _ _ _ _ _ HL Ha Hl) as [Hna Hnb].
  pose proof Hs as (u & K & Hst & Hsh & Htr).
  pose proof (Psh_infix (s_nodes s) K max _ t l1 l l2 a b (proj1 Hst) (proj2 Hst) Hsh HL Ha Hl) as HP.
  destruct (Psh_next (s_nodes s) K max (Some (a, b)) l (proj1 Hst) (proj2 Hst) HP) as (q & E & HP'). unfold sh_next in E.
  destruct (sh_forward (s_nodes s) max (Some (a, b))) as [o| |] eqn:Ef; [|discriminate E|discriminate E]. injection E as _ <-.
  destruct (hsh_forward_ok s K Frozen max e eb a b o H Hst He Hb Ef) as (s1 & r & E1 & R & V & X & C).
  assert (names_at s1 Frozen e a) as He1 by (apply (names_at_keep s); [exact He|]; intros hd; apply X).
  assert (names_at s1 Frozen eb b) as Hb1 by (apply (names_at_keep s); [exact Hb|]; intros hd; apply X).
  unfold hsh_next. rewrite E1. cbn [mbind run_bind]. rewrite Ha. destruct r as [e'|], o as [a'|]; try (exfalso; exact C).
  - destruct C as [Hn' Hnew]. exists s1, (Some e), (Some (e', eb)). split; [reflexivity|]. split; [exact R|]. split; [by apply undisturbed_ext|].
    split; [exact V|]. split; [by exists e|]. destruct HP' as (Ha' & Hl' & _). exists a', b, (l1 ++ [a]), l2.
    split; [exact (stable_view s s1 t V Hs)|]. split; [exact Hn'|]. split; [exact Hb1|]. split.
    { intros Ee. rewrite Ee in Hnew. rewrite (proj1 (names_at_val s Frozen eb b Hb)) in Hnew. discriminate Hnew. }
    split; [exact Ha'|]. split; [exact Hl'|]. rewrite HL, <- app_assoc. destruct l as [|z l]; [discriminate Ha|]. injection Ha as ->. done.
  - subst s1. destruct (h_drop_view s (ev_val eb).1 (ev_val e).1 Frozen Frozen (ev_val b).1 (ev_val a).1 H) as (s2 & E2 & R2 & Hh & V2).
    + apply (names_at_val s Frozen eb b Hb). + intros Ee. by apply Hd. + apply (names_at_val s Frozen e a He). + by rewrite !Htr.
    + rewrite E2. cbn [mbind run_bind]. exists s2, (Some e), None. split; [reflexivity|]. split; [exact R2|].
      split; [eapply undisturbed_drop; [apply extends_refl| |exact Hh]; simpl; clear; set_solver|]. split; [exact V2|].
      split; [|exact HP']. exists e. split; [reflexivity|]. apply (names_at_keep s); [exact He|]. intros hd Hhd. rewrite Hh, lookup_delete_ne; [exact Hhd|].
      intros Ee. by apply Hd.
Qed.
Lemma sh_inv_next_back max t s st l : reach s -> sh_inv max t s st l ->
  exists s2 r st', hsh_next_back max s st = Ret (s2, r, st') /\ reach s2 /\ undisturbed (hsh_owns st) s s2 /\ same_view s s2 /\
    match last l with None => r = None /\ s2 = s | Some j => exists i, r = Some i /\ names_at s2 Frozen i j end /\
    sh_inv max t s2 st' (take (length l - 1) l).
Proof.
  intros H Hi. destruct st as [[e eb]|].
  2:{ simpl in Hi. subst l. exists s, None, None. split; [reflexivity|]. split; [exact H|]. split; [apply undisturbed_refl|]. split; [apply view_refl|]. by repeat split. }
  destruct Hi as (a & b & l1 & l2 & Hs & He & Hb & Hd & Ha & Hl & HL). destruct (sh_inv_nodes _ _ _ _ _ _ _ HL Ha Hl) as [Hna Hnb].
  pose proof Hs as (u & K & Hst & Hsh & Htr).
  pose proof (Psh_infix (s_nodes s) K max _ t l1 l l2 a b (proj1 Hst) (proj2 Hst) Hsh HL Ha Hl) as HP.
  destruct (Psh_next_back (s_nodes s) K max (Some (a, b)) l (proj1 Hst) (proj2 Hst) HP) as (q & E & HP'). unfold sh_next_back in E.
  destruct (sh_backward (s_nodes s) max (Some (a, b))) as [o| |] eqn:Ef; [|discriminate E|discriminate E]. injection E as _ <-.
  destruct (hsh_backward_ok s K Frozen max e eb a b o H Hst He Hb Ef) as (s1 & r & E1 & R & V & X & C).
  assert (names_at s1 Frozen e a) as He1 by (apply (names_at_keep s); [exact He|]; intros hd; apply X).
  assert (names_at s1 Frozen eb b) as Hb1 by (apply (names_at_keep s); [exact Hb|]; intros hd; apply X).
  unfold hsh_next_back. rewrite E1. cbn [mbind run_bind]. rewrite Hl. destruct r as [e'|], o as [b'|]; try (exfalso; exact C).
  - destruct C as [Hn' Hnew]. exists s1, (Some eb), (Some (e, e')). split; [reflexivity|]. split; [exact R|]. split; [by apply undisturbed_ext|].
    split; [exact V|]. split; [by exists eb|]. destruct HP' as (Ha' & Hl' & _). exists a, b', l1, (b :: l2).
    split; [exact (stable_view s s1 t V Hs)|]. split; [exact He1|]. split; [exact Hn'|]. split.
    { intros Ee. rewrite <- Ee in Hnew. rewrite (proj1 (names_at_val s Frozen e a He)) in Hnew. discriminate Hnew. }
    split; [exact Ha'|]. split; [exact Hl'|]. rewrite HL. f_equal.
    destruct (list_snoc_inv l) as [->|(l' & z & ->)]; [discriminate Hl|]. rewrite last_snoc in Hl. injection Hl as ->.
    rewrite app_length, Nat.add_sub, take_app, <- app_assoc. done.
  - subst s1. destruct (h_drop_view s (ev_val e).1 (ev_val eb).1 Frozen Frozen (ev_val a).1 (ev_val b).1 H) as (s2 & E2 & R2 & Hh & V2).
    + apply (names_at_val s Frozen e a He). + exact Hd. + apply (names_at_val s Frozen eb b Hb). + by rewrite !Htr.
    + rewrite E2. cbn [mbind run_bind]. exists s2, (Some eb), None. split; [reflexivity|]. split; [exact R2|].
      split; [eapply undisturbed_drop; [apply extends_refl| |exact Hh]; simpl; clear; set_solver|]. split; [exact V2|].
      split; [|exact HP']. exists eb. split; [reflexivity|]. apply (names_at_keep s); [exact Hb|]. intros hd Hhd. rewrite Hh, lookup_delete_ne; [exact Hhd|].
      exact Hd.
Qed.

Lemma sh_withstands max t bs : forall s st l, reach s -> sh_inv max t s st l ->
  withstands (hsh_next max) (hsh_next_back max) hsh_owns (fun s => names_at s Frozen) bs s st l.
Proof.
  induction bs as [|d bs IH]; intros s st l H Hi; [exact Logic.I|]. intros s1 Ho.
  destruct (sh_inv_others max t s st l s1 H Ho Hi) as [H1 Hi1]. destruct d.
  - destruct (sh_inv_next max t s1 st l H1 Hi1) as (s2 & r & st' & E & R & U & V & C & I2). exists s2, r, st'.
    split; [exact E|]. split; [exact R|]. split; [exact U|]. split; [exact V|]. split; [exact C|]. by apply IH.
  - destruct (sh_inv_next_back max t s1 st l H1 Hi1) as (s2 & r & st' & E & R & U & V & C & I2). exists s2, r, st'.
    split; [exact E|]. split; [exact R|]. split; [exact U|]. split; [exact V|]. split; [exact C|]. by apply IH.
Qed.

Lemma hsh_yields s K i x t max : reach s -> stores s K -> s_hands s !! i = Some (HNode Frozen x) -> shape K x t ->
  exists s1 st, hsh_start s i = Ret (s1, st) /\ reach s1 /\ same_view s s1 /\ extends s s1 /\
    forall bs, withstands (hsh_next max) (hsh_next_back max) hsh_owns (fun s => names_at s Frozen) bs s1 st
      (dfs_events (rose_depths 0 (rose_cut max t))).
Proof.
  intros H Hst Hi Hsh. destruct (h_clone_ok s i Frozen x H Hi) as (s1 & j & E & [R V X N Hj]).
  exists s1, (Some (Open (j, 0), Close (i, 0))). split; [unfold hsh_start; by rewrite E|]. split; [exact R|]. split; [exact V|]. split; [exact X|].
  intros bs. apply (sh_withstands max t); [exact R|]. exists (Open (x, 0)), (Close (x, 0)), [], [].
  assert (rose_root (rose_depths 0 (rose_cut max t)) = (x, 0)) as Hroot by (by rewrite depths_root, cut_root, (shape_root _ _ _ Hsh)).
  split.
  { destruct (ApiFacts7.handle_tree s K i Frozen x H Hst Hi) as (u & _ & _ & _ & Eu & _). exists u, K. split; [exact (sv_stores _ _ V K Hst)|].
    split; [by rewrite (shape_root _ _ _ Hsh)|]. intros y Hy. rewrite (sv_tree _ _ V y), <- Eu. apply (shape_nodes K x t y Hsh) in Hy.
    pose proof (s_child _ _ (i_s _ _ (reach_stores_inv s K H Hst))) as Hc. clear -Hy Hc.
    induction Hy as [|p c _ IH Hpc]; [done|]. rewrite <- IH. by apply Hc. }
  split; [by split|]. split; [split; [exact (X _ _ Hi)|done]|]. split; [simpl; congruence|].
  rewrite head_events, last_events, Hroot, app_nil_r. done.
Qed.
End HIterFacts3.
