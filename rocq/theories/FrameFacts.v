(** * FrameFacts: no function looks at, or changes, what it cannot reach. *)
From Verif Require Import Heap Edit Traverse System SysSpec ApiSpec HIterSpec Spec FrameSpec.
From Coq Require Import Lia.

(** Results of the whole and of the part: the part may run out of fuel earlier. *)
Definition ronr {A B} (f : A -> B) (r : run A) : run B := match r with Ret a => Ret (f a) | Panic => Panic | NoFuel => NoFuel end.
Definition J {A B} (Q : A -> Prop) (g : A -> B) (m : run A) (m' : run B) : Prop :=
  (forall a, m = Ret a -> Q a) /\ (m' = NoFuel \/ m' = ronr g m).

Lemma J_ret {A B} (Q : A -> Prop) (g : A -> B) a a' : Q a -> a' = g a -> J Q g (Ret a) (Ret a').
Proof. intros H ->. split; [intros ? [= <-]; done|by right]. Qed.
Lemma J_panic {A B} (Q : A -> Prop) (g : A -> B) : J Q g Panic Panic. Proof. split; [done|by right]. Qed.
Lemma J_nofuel {A B} (Q : A -> Prop) (g : A -> B) : J Q g NoFuel NoFuel. Proof. split; [done|by right]. Qed.
Lemma J_bind {A B C D} (Q : A -> Prop) (g : A -> B) (Q' : C -> Prop) (g' : C -> D) m m' (k : A -> run C) (k' : B -> run D) :
  J Q g m m' -> (forall a, Q a -> J Q' g' (k a) (k' (g a))) -> J Q' g' (mbind k m) (mbind k' m').
Proof. intros [H1 H2] H. destruct m as [a| |]; cbn [mbind run_bind ronr] in *.
  - specialize (H a (H1 a eq_refl)). destruct H2 as [-> | ->]; cbn [mbind run_bind]; [|done]. split; [apply H|by left].
  - destruct H2 as [-> | ->]; cbn [mbind run_bind]; split; try done; [by left|by right].
  - destruct H2 as [-> | ->]; cbn [mbind run_bind]; split; try done; by left. Qed.
Definition idr {A} (a : A) : A := a.
Lemma J_bind_id {A C D} (Q : A -> Prop) (Q' : C -> Prop) (g' : C -> D) m m' (k : A -> run C) (k' : A -> run D) :
  J Q idr m m' -> (forall a, Q a -> J Q' g' (k a) (k' a)) -> J Q' g' (mbind k m) (mbind k' m').
Proof. intros H1 H2. exact (J_bind Q idr Q' g' m m' k k' H1 H2). Qed.
Lemma J_weaken {A B} (Q Q' : A -> Prop) (g : A -> B) m m' : J Q g m m' -> (forall a, Q a -> Q' a) -> J Q' g m m'.
Proof. intros [H1 H2] H. split; [intros a E; by apply H, H1|done]. Qed.
(** Less fuel: [NoFuel] or the same. *)
Definition le_run {A} (m m' : run A) : Prop := m = NoFuel \/ m = m'.
Lemma J_fuel {A B} (Q : A -> Prop) (g : A -> B) m m' m'' : J Q g m m' -> le_run m'' m' -> J Q g m m''.
Proof. intros [H1 H2] H. split; [done|]. destruct H as [-> | ->]; [by left|done]. Qed.
Lemma le_bind {A B} (m m' : run A) (k k' : A -> run B) : le_run m m' -> (forall a, le_run (k a) (k' a)) -> le_run (mbind k m) (mbind k' m').
Proof. intros [-> | ->] H; [by left|]. destruct m' as [a| |]; cbn [mbind run_bind]; [apply H|by right|by right]. Qed.
Lemma le_refl_run {A} (m : run A) : le_run m m. Proof. by right. Qed.

Section Frame.
Context {T : Type} (p : nat -> bool) (b : bool) (oh : heap T) (ot : gmap tid tree) (oj : gmap nat handle).
Implicit Types (h : heap T) (s : sys T) (x y n : nid) (M : nat) (t : tid).

Definition okn M (x : nat) : Prop := x < M /\ p x = b.
Definition oko M (o : option nat) : Prop := forall x, o = Some x -> okn M x.
Definition okl M (l : list nat) : Prop := forall x, x ∈ l -> okn M x.
Definition oke M (e : dft nid) : Prop := okn M (ev_val e).
Definition okeo M (o : option (dft nid)) : Prop := forall e, o = Some e -> oke M e.
Definition okst M (o : dfs_state) : Prop := forall e x, o = Some (e, x) -> oke M e /\ okn M x.
Definition okm M (m : membership) : Prop := forall t, m = MWeak (Some t) \/ (exists rc lk, m = MStrong t rc lk) -> okn M t.
Definition okh M h : Prop :=
  (forall x nd, h !! x = Some nd -> x < M /\ forall y, refers nd y -> y < M /\ p y = p x) /\
  filter (fun kv => p kv.1 = negb b) h = oh.
Definition okd M (d : insert_as) : Prop := okn M match d with FirstChildOf q => q | LastChildOf q => q | PreviousSiblingOf q => q | NextSiblingOf q => q end.
Definition cuth h : heap T := filter (fun kv => p kv.1 = b) h.

Lemma okp M x : okn M x -> p x = b. Proof. by intros []. Qed.
Lemma oko_some M x : okn M x -> oko M (Some x). Proof. by intros H ? [= <-]. Qed.
Lemma oko_none M : oko M None. Proof. done. Qed.
Lemma oko_inv M x : oko M (Some x) -> okn M x. Proof. intros H. by apply H. Qed.
Lemma okl_nil M : okl M []. Proof. intros x H. by apply elem_of_nil in H. Qed.
Lemma okl_cons M x l : okn M x -> okl M l -> okl M (x :: l). Proof. intros H H' y [-> | ?]%elem_of_cons; auto. Qed.
Lemma okl_app M l l' : okl M l -> okl M l' -> okl M (l ++ l'). Proof. intros H H' y [? | ?]%elem_of_app; auto. Qed.
Lemma okn_mono M M' x : okn M x -> M <= M' -> okn M' x. Proof. unfold okn. intros [] ?. split; [lia|done]. Qed.
Lemma okm_weak M t : okn M t -> okm M (MWeak (Some t)). Proof. intros H u [[= <-] | (? & ? & [=])]. done. Qed.
Lemma okm_strong M t rc lk : okn M t -> okm M (MStrong t rc lk). Proof. intros H u [[=] | (? & ? & [= <- <- <-])]. done. Qed.
Lemma okm_weak_inv M t : okm M (MWeak (Some t)) -> okn M t. Proof. intros H. apply H. by left. Qed.
Lemma okm_strong_inv M t rc lk : okm M (MStrong t rc lk) -> okn M t. Proof. intros H. apply H. right. eauto. Qed.
Lemma okeo_some M e : okn M (ev_val e) -> okeo M (Some e). Proof. intros H ? [= <-]. done. Qed.
Lemma okeo_none M : okeo M None. Proof. done. Qed.
Hint Resolve okp oko_some oko_none okl_nil okl_cons okl_app okm_weak okm_strong okeo_some okeo_none : okdb.

(** ** Lookups *)
Lemma c_look h x : p x = b -> cuth h !! x = h !! x.
Proof. intros H. unfold cuth. destruct (h !! x) as [nd|] eqn:E.
  - by apply map_filter_lookup_Some.
  - apply map_filter_lookup_None. by left. Qed.
Lemma c_alive h x : p x = b -> alive (cuth h) x = alive h x. Proof. intros H. unfold alive. by rewrite c_look. Qed.
Lemma c_fparent h x : p x = b -> fparent (cuth h) x = fparent h x. Proof. intros H. unfold fparent. by rewrite c_look. Qed.
Lemma c_ffirst h x : p x = b -> ffirst (cuth h) x = ffirst h x. Proof. intros H. unfold ffirst. by rewrite c_look. Qed.
Lemma c_fnext h x : p x = b -> fnext (cuth h) x = fnext h x. Proof. intros H. unfold fnext. by rewrite c_look. Qed.
Lemma c_fprev h x : p x = b -> fprev (cuth h) x = fprev h x. Proof. intros H. unfold fprev. by rewrite c_look. Qed.
Lemma c_fnch h x : p x = b -> fnch (cuth h) x = fnch h x. Proof. intros H. unfold fnch. by rewrite c_look. Qed.
Lemma c_size h : size (cuth h) <= size h.
Proof. unfold cuth. rewrite <- !size_dom. apply subseteq_size. intros x (nd & [E _]%map_filter_lookup_Some)%elem_of_dom. apply elem_of_dom. eauto. Qed.

Lemma ok_field M h x y nd : okh M h -> p x = b -> h !! x = Some nd -> refers nd y -> okn M y.
Proof. intros [H _] Hx E R. destruct (H x nd E) as [_ H2]. destruct (H2 y R). split; [done|congruence]. Qed.
Ltac fld := intros H Hx y E; unfold fparent, ffirst, fnext, fprev in E;
  apply bind_Some in E as (nd & E1 & E2); apply (ok_field _ _ _ _ _ H Hx E1); unfold refers; tauto.
Lemma ok_fparent M h x : okh M h -> p x = b -> oko M (fparent h x). Proof. fld. Qed.
Lemma ok_ffirst M h x : okh M h -> p x = b -> oko M (ffirst h x). Proof. fld. Qed.
Lemma ok_fnext M h x : okh M h -> p x = b -> oko M (fnext h x). Proof. fld. Qed.
Lemma ok_fprev M h x : okh M h -> p x = b -> oko M (fprev h x). Proof. fld. Qed.
Hint Resolve ok_fparent ok_ffirst ok_fnext ok_fprev : okdb.

(** ** Updates *)
Lemma c_alter h x f : p x = b -> alter f x (cuth h) = cuth (alter f x h).
Proof. intros H. unfold cuth. apply map_eq. intros y. destruct (decide (y = x)) as [->|N].
  - rewrite lookup_alter. fold (cuth h). fold (cuth (alter f x h)). by rewrite !c_look, lookup_alter.
  - rewrite lookup_alter_ne by done. apply option_eq. intros nd. rewrite !map_filter_lookup_Some, lookup_alter_ne by done. done. Qed.
Lemma ok_alter M h x (f : node T -> node T) : okh M h -> okn M x ->
  (forall nd y, refers (f nd) y -> refers nd y \/ okn M y) -> okh M (alter f x h).
Proof. intros [H1 H2] [Hx1 Hx2] H. split.
  - intros z nd E. destruct (decide (z = x)) as [->|N].
    + rewrite lookup_alter in E. destruct (h !! x) as [nd0|] eqn:E0; [|done]. simpl in E. injection E as <-. destruct (H1 x nd0 E0) as [_ H3].
      split; [done|]. intros y R. destruct (H _ _ R) as [R0 | [? ?]]; [by apply H3|]. split; [done|congruence].
    + rewrite lookup_alter_ne in E by done. by apply H1.
  - rewrite <- H2. apply map_eq. intros z. apply option_eq. intros nd. rewrite !map_filter_lookup_Some. destruct (decide (z = x)) as [->|N].
    + simpl. split; intros [_ E]; exfalso; rewrite Hx2 in E; by destruct b.
    + by rewrite lookup_alter_ne. Qed.
Ltac alt := intros H Hx Hw; apply ok_alter; [done|done|]; unfold refers; simpl; intros nd y R;
  repeat match goal with R : _ \/ _ |- _ => destruct R as [R|R] end; try tauto;
  right; subst; try (by apply Hw); try (apply Hw; by left); destruct R as (? & ? & R); subst; apply Hw; right; eauto.
Lemma ok_set_parent M h x w : okh M h -> okn M x -> oko M w -> okh M (set_parent h x w). Proof. alt. Qed.
Lemma ok_set_prev M h x w : okh M h -> okn M x -> oko M w -> okh M (set_prev h x w). Proof. alt. Qed.
Lemma ok_set_next M h x w : okh M h -> okn M x -> oko M w -> okh M (set_next h x w). Proof. alt. Qed.
Lemma ok_set_first M h x w : okh M h -> okn M x -> oko M w -> okh M (set_first h x w). Proof. alt. Qed.
Lemma ok_set_nch M h x w : okh M h -> okn M x -> okh M (set_nch h x w).
Proof. intros H Hx. apply ok_alter; [done|done|]. unfold refers. simpl. intros nd y R. tauto. Qed.
Lemma ok_set_data M h x d : okh M h -> okn M x -> okh M (set_data h x d).
Proof. intros H Hx. apply ok_alter; [done|done|]. unfold refers. simpl. intros nd y R. tauto. Qed.
Lemma ok_set_lend M h x d : okh M h -> okn M x -> okh M (set_lend h x d).
Proof. intros H Hx. apply ok_alter; [done|done|]. unfold refers. simpl. intros nd y R. tauto. Qed.
Lemma ok_set_mem M h x m : okh M h -> okn M x -> okm M m -> okh M (set_mem h x m). Proof. alt. Qed.
Hint Resolve ok_set_parent ok_set_prev ok_set_next ok_set_first ok_set_nch ok_set_data ok_set_lend ok_set_mem : okdb.
Lemma ok_delete M h x : okh M h -> p x = b -> okh M (delete x h).
Proof. intros [H1 H2] Hx. split.
  - intros z nd [_ E]%lookup_delete_Some. by apply H1.
  - rewrite <- H2. apply map_eq. intros z. apply option_eq. intros nd. rewrite !map_filter_lookup_Some, lookup_delete_Some. simpl. split; [tauto|].
    intros [E Hz]. repeat split; try done. intros ->. rewrite Hx in Hz. by destruct b. Qed.
Lemma ok_alloc M h n d m : okh M h -> okn M n -> okm M m -> okh M (alloc h n d m).
Proof. intros [H1 H2] [Hn1 Hn2] Hm. split.
  - unfold alloc. intros z nd [[<- <-] | [N E]]%lookup_insert_Some; [|by apply H1]. split; [done|]. unfold refers. simpl. intros y R.
    assert (K : okn M y). { repeat destruct R as [R|R]; try done; [by injection R as <-|apply Hm; by left|apply Hm; by right]. } destruct K. split; [done|congruence].
  - rewrite <- H2. apply map_eq. intros z. apply option_eq. intros nd. unfold alloc. rewrite !map_filter_lookup_Some. simpl. destruct (decide (z = n)) as [->|N].
    + split; intros [_ E]; exfalso; rewrite Hn2 in E; by destruct b.
    + by rewrite lookup_insert_ne. Qed.
Hint Resolve ok_delete ok_alloc : okdb.
Lemma okh_mono M M' h : okh M h -> M <= M' -> okh M' h.
Proof. intros [H1 H2] L. split; [|done]. intros x nd E. destruct (H1 x nd E) as [A B]. split; [lia|]. intros y R. destruct (B y R). split; [lia|done]. Qed.

Ltac sk := solve [eauto 60 with okdb].
Lemma c_set_parent h x w : p x = b -> set_parent (cuth h) x w = cuth (set_parent h x w). Proof. apply c_alter. Qed.
Lemma c_set_first h x w : p x = b -> set_first (cuth h) x w = cuth (set_first h x w). Proof. apply c_alter. Qed.
Lemma c_set_next h x w : p x = b -> set_next (cuth h) x w = cuth (set_next h x w). Proof. apply c_alter. Qed.
Lemma c_set_prev h x w : p x = b -> set_prev (cuth h) x w = cuth (set_prev h x w). Proof. apply c_alter. Qed.
Lemma c_set_nch h x w : p x = b -> set_nch (cuth h) x w = cuth (set_nch h x w). Proof. apply c_alter. Qed.
Lemma c_set_mem h x w : p x = b -> set_mem (cuth h) x w = cuth (set_mem h x w). Proof. apply c_alter. Qed.
Lemma c_set_data h x w : p x = b -> set_data (cuth h) x w = cuth (set_data h x w). Proof. apply c_alter. Qed.
Lemma c_set_lend h x w : p x = b -> set_lend (cuth h) x w = cuth (set_lend h x w). Proof. apply c_alter. Qed.
Lemma c_alloc h n d m : p n = b -> alloc (cuth h) n d m = cuth (alloc h n d m).
Proof. intros H. unfold alloc, cuth. apply map_eq. intros z. apply option_eq. intros nd. rewrite map_filter_lookup_Some, !lookup_insert_Some, map_filter_lookup_Some. simpl. naive_solver. Qed.
Lemma c_delete h x : delete x (cuth h) = cuth (delete x h).
Proof. unfold cuth. apply map_eq. intros z. apply option_eq. intros nd. rewrite map_filter_lookup_Some, !lookup_delete_Some, map_filter_lookup_Some. simpl. naive_solver. Qed.
Hint Rewrite c_alive c_fparent c_ffirst c_fnext c_fprev c_fnch c_set_parent c_set_first c_set_next c_set_prev c_set_nch c_set_mem c_set_data c_set_lend using sk : ct.
Hint Rewrite c_delete : ct.

(** ** Links *)
Lemma c_upgrade M h w : oko M w -> upgrade (cuth h) w = upgrade h w.
Proof. intros H. unfold upgrade. destruct w as [x|]; [|done]. rewrite c_alive; [done|]. by eapply okp, H. Qed.
Lemma ok_upgrade M h w : oko M w -> oko M (upgrade h w).
Proof. intros H x E. unfold upgrade in E. destruct w as [y|]; [|done]. destruct (alive h y); [|done]. by apply H. Qed.
Hint Resolve ok_upgrade : okdb.
Lemma c_parent_link M h x : okh M h -> p x = b -> parent_link (cuth h) x = parent_link h x.
Proof. intros H Hx. unfold parent_link. rewrite c_fparent by done. apply (c_upgrade M). sk. Qed.
Lemma ok_parent_link M h x : okh M h -> p x = b -> oko M (parent_link h x). Proof. intros. unfold parent_link. sk. Qed.
Hint Resolve ok_parent_link : okdb.
Lemma c_is_root M h x : okh M h -> p x = b -> is_root (cuth h) x = is_root h x.
Proof. intros H Hx. unfold is_root. rewrite c_fparent by done. rewrite (c_upgrade M) by sk. done. Qed.
Lemma c_next_link h x : p x = b -> next_sibling_link (cuth h) x = next_sibling_link h x. Proof. apply c_fnext. Qed.
Lemma c_first_link h x : p x = b -> first_child_link (cuth h) x = first_child_link h x. Proof. apply c_ffirst. Qed.
Lemma ok_next_link M h x : okh M h -> p x = b -> oko M (next_sibling_link h x). Proof. intros. unfold next_sibling_link. sk. Qed.
Lemma ok_first_link M h x : okh M h -> p x = b -> oko M (first_child_link h x). Proof. intros. unfold first_child_link. sk. Qed.
Lemma c_is_last h x : p x = b -> is_last_sibling (cuth h) x = is_last_sibling h x. Proof. intros H. unfold is_last_sibling. by rewrite c_fnext. Qed.
Hint Rewrite c_is_last using sk : ct.

(** The goals [J Q g (f h ..) (f (cuth h) ..)]. *)
Ltac norm := cbn [fst snd ronr] in *; repeat match goal with
  | H : oko _ (Some _) |- _ => apply oko_inv in H
  | H : _ /\ _ |- _ => destruct H
  | H : True |- _ => clear H
  end.
Ltac ctl := match goal with
  | H : okh ?M ?h |- context [parent_link (cuth ?h) _] => rewrite (c_parent_link M h) by sk
  | |- context [parent_link (cuth ?h) _] => erewrite (c_parent_link _ h) by sk
  | |- context [is_root (cuth ?h) _] => erewrite (c_is_root _ h) by sk
  | |- context [upgrade (cuth ?h) _] => erewrite (c_upgrade _ h) by sk
  end.
Ltac dprod a := lazymatch type of a with
  | ((_ * _) * _)%type => let u := fresh "u" in let v := fresh "v" in let w := fresh "w" in destruct a as [[u v] w]
  | (_ * _)%type => let u := fresh "u" in let v := fresh "v" in destruct a as [u v]
  | _ => idtac end.
Ltac jintro := let a := fresh "a" in let H := fresh "Ha" in intros a H; dprod a.
Ltac okdes o := let H := fresh "Hok" in first [ assert (H : oko _ o) by sk; destruct o | destruct o ].
Ltac jstep := first
  [ progress cbv zeta
  | progress unfold next_sibling_link, first_child_link, last_child_link_weak
  | apply J_panic | apply J_nofuel
  | solve [eauto 60 with jdb okdb]
  | progress autorewrite with ct
  | ctl
  | apply J_ret; [cbn [fst snd]; repeat (match goal with |- _ /\ _ => split end); sk | reflexivity]
  | (eapply J_bind_id; [solve [eauto 60 with jdb okdb] | jintro; norm])
  | (eapply J_bind; [solve [eauto 60 with jdb okdb] | jintro; norm])
  | match goal with
    | |- context [match ?o with _ => _ end] =>
        lazymatch o with context [match _ with _ => _ end] => fail | context [cuth] => fail | _ => idtac end;
        okdes o; norm
    end ].
Ltac j := repeat jstep.

Definition tt1 {A} (_ : A) : Prop := True.
Lemma tt1_any {A} (a : A) : tt1 a. Proof. exact Logic.I. Qed.
Hint Resolve tt1_any : okdb.
Notation Jb := (J tt1 idr).
Lemma j_assert (v : bool) : Jb (assertb v) (assertb v). Proof. unfold assertb. destruct v; [|apply J_panic]. by apply J_ret. Qed.
Hint Resolve j_assert : jdb.
Lemma j_cyclic M h x : okh M h -> okn M x -> J (okn M) idr (prev_sibling_cyclic_link h x) (prev_sibling_cyclic_link (cuth h) x).
Proof. intros. unfold prev_sibling_cyclic_link. j. Qed.
Hint Resolve j_cyclic : jdb.
Lemma j_prev M h x : okh M h -> okn M x -> J (oko M) idr (prev_sibling_link h x) (prev_sibling_link (cuth h) x).
Proof. intros. unfold prev_sibling_link. j. Qed.
Lemma j_is_first M h x : okh M h -> okn M x -> Jb (is_first_sibling h x) (is_first_sibling (cuth h) x).
Proof. intros. unfold is_first_sibling. j. Qed.
Lemma j_last_child M h x : okh M h -> okn M x -> J (oko M) idr (last_child_link h x) (last_child_link (cuth h) x).
Proof. intros. unfold last_child_link. j. Qed.
Definition oko2 M (o : option (nid * nid)) : Prop := forall x y, o = Some (x, y) -> okn M x /\ okn M y.
Lemma oko2_some M x y : okn M x -> okn M y -> oko2 M (Some (x, y)). Proof. by intros ? ? ? ? [= <- <-]. Qed.
Lemma oko2_none M : oko2 M None. Proof. done. Qed.
Lemma oko2_inv M x y : oko2 M (Some (x, y)) -> okn M x /\ okn M y. Proof. intros H. by apply H. Qed.
Hint Resolve oko2_some oko2_none : okdb.
Lemma j_first_last M h x : okh M h -> okn M x -> J (oko2 M) idr (first_last_child_link h x) (first_last_child_link (cuth h) x).
Proof. intros. unfold first_last_child_link. j. Qed.
Hint Resolve j_prev j_is_first j_last_child j_first_last : jdb.
Ltac norm ::= cbn [fst snd ronr] in *; repeat match goal with
  | H : oko _ (Some _) |- _ => apply oko_inv in H
  | H : oko2 _ (Some (_, _)) |- _ => apply oko2_inv in H
  | H : okm _ (MWeak (Some _)) |- _ => apply okm_weak_inv in H
  | H : okm _ (MStrong _ _ _) |- _ => apply okm_strong_inv in H
  | H : _ /\ _ |- _ => destruct H
  | H : True |- _ => clear H
  | H : tt1 _ |- _ => clear H
  | p : nid * nid |- _ => destruct p
  end.
Lemma j_first_sibling M h x : okh M h -> okn M x -> J (okn M) idr (first_sibling h x) (first_sibling (cuth h) x).
Proof. intros. unfold first_sibling. j. Qed.
Lemma j_last_sibling M h x : okh M h -> okn M x -> J (okn M) idr (last_sibling h x) (last_sibling (cuth h) x).
Proof. intros. unfold last_sibling. j. Qed.
Hint Resolve j_first_sibling j_last_sibling : jdb.
Lemma c_last_weak M h x : okh M h -> p x = b -> last_child_link_weak (cuth h) x = last_child_link_weak h x.
Proof. intros H Hx. unfold last_child_link_weak. rewrite c_first_link by done. pose proof (ok_first_link M h x H Hx) as Hf. destruct (first_child_link h x); [|done].
  by rewrite c_fprev by sk. Qed.
Lemma c_connect h x y : p x = b -> p y = b -> connect_adjacent_siblings (cuth h) x y = cuth (connect_adjacent_siblings h x y).
Proof. intros. unfold connect_adjacent_siblings. by autorewrite with ct. Qed.
Lemma ok_connect M h x y : okh M h -> okn M x -> okn M y -> okh M (connect_adjacent_siblings h x y).
Proof. intros. unfold connect_adjacent_siblings. sk. Qed.
Lemma c_add h x v : p x = b -> num_children_add (cuth h) x v = cuth (num_children_add h x v).
Proof. intros. unfold num_children_add. by autorewrite with ct. Qed.
Lemma ok_add M h x v : okh M h -> okn M x -> okh M (num_children_add h x v). Proof. intros. unfold num_children_add. sk. Qed.
Hint Resolve ok_connect ok_add : okdb.
Hint Rewrite c_connect c_add using sk : ct.
Lemma j_sub M h x v : okh M h -> okn M x -> J (okh M) cuth (num_children_sub h x v) (num_children_sub (cuth h) x v).
Proof. intros. unfold num_children_sub. j. Qed.
Hint Resolve j_sub : jdb.

Ltac jh := repeat (first [ jstep | match goal with H : okh ?M _ |- J _ _ (mbind _ _) _ => apply (J_bind (okh M) cuth); [|intros ? ?; norm] end ]).
(** ** Edit.v *)
Definition ok1 {A} M (r : heap T * A) : Prop := okh M r.1.
Definition ct1 {A} (r : heap T * A) : heap T * A := (cuth r.1, r.2).
Lemma ok1_intro {A} M h (a : A) : okh M h -> ok1 M (h, a). Proof. done. Qed.
Hint Resolve ok1_intro : okdb.
Ltac norm1 := match goal with
  | H : ok1 _ (_, _) |- _ => unfold ok1 in H; cbn [fst] in H
  | |- context [ct1 (?h, ?v)] => change (ct1 (h, v)) with (cuth h, v)
  end.
Ltac j ::= repeat (first [norm1 | jstep]).
Ltac jh ::= repeat (first [ norm1 | jstep | match goal with H : okh ?M _ |- J _ _ (mbind _ _) _ => apply (J_bind (okh M) cuth); [|intros ? ?; norm] end ]).
Lemma j_unlink M h x : okh M h -> okn M x -> J (ok1 M) ct1 (new_by_unlink h x) (new_by_unlink (cuth h) x).
Proof. intros. unfold new_by_unlink. jh. Qed.
Lemma j_anc M f h x o : okh M h -> oko M o -> Jb (is_ancestor_of f h x o) (is_ancestor_of f (cuth h) x o).
Proof. intros H. revert o. induction f as [|f IH]; intros o Ho; cbn [is_ancestor_of]; j. Qed.
Lemma le_anc m h x : forall n o, m <= n -> le_run (is_ancestor_of m h x o) (is_ancestor_of n h x o).
Proof. induction m as [|m IH]; intros n o L; destruct n as [|n]; try lia; cbn [is_ancestor_of]; (destruct o as [a|]; [|apply le_refl_run]); (destruct (decide (x = a)); [apply le_refl_run|]).
  - by right.
  - by left.
  - apply IH. lia. Qed.
Lemma walk_le h : walk_fuel (cuth h) <= walk_fuel h. Proof. unfold walk_fuel. pose proof (c_size h). lia. Qed.
Lemma j_loop_check M h n v q : okh M h -> okn M q -> Jb (loop_check h n v q) (loop_check (cuth h) n v q).
Proof. intros. unfold loop_check. destruct v; [by apply J_ret|]. eapply J_fuel; [apply (j_anc M (walk_fuel h)); sk|]. apply le_anc, walk_le. Qed.
Hint Resolve j_unlink j_loop_check : jdb.
Lemma j_first_of M h n v q : okh M h -> okn M n -> okn M q -> J (ok1 M) ct1 (insert_as_first_child_of h n v q) (insert_as_first_child_of (cuth h) n v q).
Proof. intros. unfold insert_as_first_child_of. j. Qed.
Lemma j_last_of M h n v q : okh M h -> okn M n -> okn M q -> J (ok1 M) ct1 (insert_as_last_child_of h n v q) (insert_as_last_child_of (cuth h) n v q).
Proof. intros. unfold insert_as_last_child_of. j. Qed.
Lemma j_between M h n q x y : okh M h -> okn M n -> okn M q -> okn M x -> okn M y -> J (okh M) cuth (insert_between h n q x y) (insert_between (cuth h) n q x y).
Proof. intros. unfold insert_between. j. Qed.
Hint Resolve j_first_of j_last_of j_between : jdb.
Lemma j_insert M h n v d : okh M h -> okn M n -> okd M d -> J (ok1 M) ct1 (insert_orphan h n v d) (insert_orphan (cuth h) n v d).
Proof. intros. unfold insert_orphan. destruct d; unfold okd in *; j. Qed.
Hint Resolve j_insert : jdb.
Lemma j_move_same M h n d : okh M h -> okn M n -> okd M d -> J (ok1 M) ct1 (move_inside_same_tree h n d) (move_inside_same_tree (cuth h) n d).
Proof. intros. unfold move_inside_same_tree. j. Qed.
Hint Resolve j_move_same : jdb.
Lemma okd_last M x : okn M x -> okd M (LastChildOf x). Proof. done. Qed.
Hint Resolve okd_last : okdb.
Lemma j_int_parent M h x n : okh M h -> okn M x -> okn M n -> J (ok1 M) ct1 (interrupt_parent h x n) (interrupt_parent (cuth h) x n).
Proof. intros. unfold interrupt_parent. jh. Qed.
Lemma j_reparent M f h (c : option nid) q : okh M h -> oko M c -> okn M q -> J (okh M) cuth (reparent_chain f h c q) (reparent_chain f (cuth h) c q).
Proof. intros H Ho Hq. revert h c H Ho. induction f as [|f IH]; intros h c H Ho; cbn [reparent_chain]; j. Qed.
Lemma le_reparent m q : forall n h c, m <= n -> le_run (reparent_chain (T := T) m h c q) (reparent_chain n h c q).
Proof. induction m as [|m IH]; intros n h c L; destruct n as [|n]; try lia; cbn [reparent_chain]; (destruct c as [a|]; [|apply le_refl_run]).
  - by right.
  - by left.
  - apply IH. lia. Qed.
Lemma j_reparent' M h h'' (c : option nid) q : okh M h -> oko M c -> okn M q -> h'' = cuth h -> J (okh M) cuth (reparent_chain (walk_fuel h) h c q) (reparent_chain (walk_fuel h'') h'' c q).
Proof. intros H Hc Hq ->. eapply J_fuel; [apply (j_reparent M (walk_fuel h)); sk|]. apply le_reparent, walk_le. Qed.
Hint Resolve j_int_parent : jdb.
Hint Extern 1 (J _ _ (reparent_chain (walk_fuel _) _ _ _) _) => (apply j_reparent'; [| | |reflexivity]) : jdb.
Lemma j_int_child M h x n : okh M h -> okn M x -> okn M n -> J (okh M) cuth (interrupt_child h x n) (interrupt_child (cuth h) x n).
Proof. intros. unfold interrupt_child. j. Qed.
Lemma j_nonroot M h x q : okh M h -> okn M x -> okn M q -> J (okh M) cuth (replace_with_children_nonroot h x q) (replace_with_children_nonroot (cuth h) x q).
Proof. intros. unfold replace_with_children_nonroot. jh. Qed.
Lemma c_disconnect h x : p x = b -> disconnect (cuth h) x = cuth (disconnect h x). Proof. intros. unfold disconnect. cbv zeta. by autorewrite with ct. Qed.
Lemma ok_disconnect M h x : okh M h -> okn M x -> okh M (disconnect h x). Proof. intros. unfold disconnect. sk. Qed.
Hint Rewrite c_disconnect using sk : ct.
Hint Resolve ok_disconnect j_int_child j_nonroot : okdb jdb.
Definition okr M (r : heap T * hres (option nid)) : Prop := okh M r.1 /\ forall o, r.2 = HOk o -> oko M o.
Lemma okr_ok M h o : okh M h -> oko M o -> okr M (h, HOk o). Proof. intros ? ?. split; [done|]. by intros ? [= <-]. Qed.
Lemma okr_err M h e : okh M h -> okr M (h, HErr e). Proof. intros ?. split; [done|]. by intros ? [=]. Qed.
Hint Resolve okr_ok okr_err : okdb.
Lemma j_replace M h x : okh M h -> okn M x -> J (okr M) ct1 (replace_with_children h x) (replace_with_children (cuth h) x).
Proof. intros. unfold replace_with_children. j. Qed.
Hint Resolve j_replace : jdb.

(** ** Maps of trees and handles *)
Definition cutm {V} (m : gmap nat V) : gmap nat V := filter (fun kv => p kv.1 = b) m.
Definition restm {V} (m : gmap nat V) : gmap nat V := filter (fun kv => p kv.1 = negb b) m.
Lemma cm_look {V} (m : gmap nat V) (x : nat) : p x = b -> cutm m !! x = m !! x.
Proof. intros H. unfold cutm. destruct (m !! x) as [nd|] eqn:E.
  - by apply map_filter_lookup_Some.
  - apply map_filter_lookup_None. by left. Qed.
Lemma cm_alter {V} (m : gmap nat V) (x : nat) f : p x = b -> alter f x (cutm m) = cutm (alter f x m).
Proof. intros H. apply map_eq. intros y. destruct (decide (y = x)) as [->|N].
  - by rewrite lookup_alter, !cm_look, lookup_alter.
  - rewrite lookup_alter_ne by done. unfold cutm. apply option_eq. intros nd. rewrite !map_filter_lookup_Some, lookup_alter_ne by done. done. Qed.
Lemma cm_insert {V} (m : gmap nat V) (x : nat) v : p x = b -> <[x := v]> (cutm m) = cutm (<[x := v]> m).
Proof. intros H. unfold cutm. apply map_eq. intros z. apply option_eq. intros nd. rewrite map_filter_lookup_Some, !lookup_insert_Some, map_filter_lookup_Some. simpl. naive_solver. Qed.
Lemma cm_delete {V} (m : gmap nat V) (x : nat) : delete x (cutm m) = cutm (delete x m).
Proof. unfold cutm. apply map_eq. intros z. apply option_eq. intros nd. rewrite map_filter_lookup_Some, !lookup_delete_Some, map_filter_lookup_Some. simpl. naive_solver. Qed.
Lemma rest_not x z : p x = b -> p z = negb b -> x <> z. Proof. intros H1 H2 ->. rewrite H1 in H2. by destruct b. Qed.
Lemma rm_alter {V} (m : gmap nat V) (x : nat) f : p x = b -> restm (alter f x m) = restm m.
Proof. intros H. unfold restm. apply map_eq. intros z. apply option_eq. intros nd. rewrite !map_filter_lookup_Some. simpl. split; intros [E Hz]; (split; [|done]); rewrite lookup_alter_ne in *; try done; by apply rest_not. Qed.
Lemma rm_insert {V} (m : gmap nat V) (x : nat) v : p x = b -> restm (<[x := v]> m) = restm m.
Proof. intros H. unfold restm. apply map_eq. intros z. apply option_eq. intros nd. rewrite !map_filter_lookup_Some. simpl. split; intros [E Hz]; (split; [|done]); rewrite lookup_insert_ne in *; try done; by apply rest_not. Qed.
Lemma rm_delete {V} (m : gmap nat V) (x : nat) : p x = b -> restm (delete x m) = restm m.
Proof. intros H. unfold restm. apply map_eq. intros z. apply option_eq. intros nd. rewrite !map_filter_lookup_Some. simpl. split; intros [E Hz]; (split; [|done]); rewrite lookup_delete_ne in *; try done; by apply rest_not. Qed.

(** ** States *)
Definition okt M (tr : tree) : Prop := okn M (t_root tr).
Definition okhd M (hd : handle) : Prop := okn M (hand_target hd).
Record oks M s : Prop := {
  k_nodes : okh M (s_nodes s);
  k_trees : forall t tr, s_trees s !! t = Some tr -> t < M /\ t_root tr < M /\ p (t_root tr) = p t;
  k_trest : restm (s_trees s) = ot;
  k_hands : forall i hd, s_hands s !! i = Some hd -> i < M /\ hand_target hd < M /\ p (hand_target hd) = p i;
  k_hrest : restm (s_hands s) = oj;
  k_fresh : s_fresh s = M;
}.
Definition cuts s : sys T := mkSys (cuth (s_nodes s)) (cutm (s_trees s)) (cutm (s_hands s)) (s_fresh s).
Definition oko_m M (o : option membership) : Prop := forall m, o = Some m -> okm M m.
Definition oko_t M (o : option tree) : Prop := forall tr, o = Some tr -> okt M tr.
Definition oko_h M (o : option handle) : Prop := forall hd, o = Some hd -> okhd M hd.
Definition oko_s M (o : option (sys T)) : Prop := forall s, o = Some s -> oks M s.

Lemma ok_nodes M s : oks M s -> okh M (s_nodes s). Proof. by intros []. Qed.
Hint Resolve ok_nodes : okdb.
Lemma ok_tree M s t : oks M s -> p t = b -> oko_t M (s_trees s !! t).
Proof. intros H Ht tr E. destruct (k_trees _ _ H t tr E) as (_ & A & B). split; [done|congruence]. Qed.
Lemma ok_hand M s i : oks M s -> p i = b -> oko_h M (s_hands s !! i).
Proof. intros H Ht hd E. destruct (k_hands _ _ H i hd E) as (_ & A & B). split; [done|congruence]. Qed.
Lemma ok_memb M s x : oks M s -> p x = b -> oko_m M (n_memb s x).
Proof. intros H Hx m E. unfold n_memb in E. apply fmap_Some in E as (nd & E & ->). intros t Ht. apply (ok_field _ _ _ _ _ (k_nodes _ _ H) Hx E).
  unfold refers. destruct Ht as [-> | (rc & lk & ->)]; eauto 10. Qed.
Hint Resolve ok_tree ok_hand ok_memb : okdb.
Lemma oko_m_inv M m : oko_m M (Some m) -> okm M m. Proof. intros H. by apply H. Qed.
Lemma oko_t_inv M m : oko_t M (Some m) -> okn M (t_root m). Proof. intros H. by apply H. Qed.
Lemma oko_h_inv M m : oko_h M (Some m) -> okn M (hand_target m). Proof. intros H. by apply H. Qed.
Lemma oko_s_inv M m : oko_s M (Some m) -> oks M m. Proof. intros H. by apply H. Qed.
Lemma oko_s_some M s : oks M s -> oko_s M (Some s). Proof. by intros H ? [= <-]. Qed.
Lemma oko_s_none M : oko_s M None. Proof. done. Qed.
Hint Resolve oko_s_some oko_s_none : okdb.

Lemma c_nodes s : s_nodes (cuts s) = cuth (s_nodes s). Proof. reflexivity. Qed.
Lemma c_trees s : s_trees (cuts s) = cutm (s_trees s). Proof. reflexivity. Qed.
Lemma c_hands s : s_hands (cuts s) = cutm (s_hands s). Proof. reflexivity. Qed.
Lemma c_fresh s : s_fresh (cuts s) = s_fresh s. Proof. reflexivity. Qed.
Lemma c_tlook (m : gmap tid tree) t : p t = b -> @lookup tid tree (gmap tid tree) _ t (cutm m) = @lookup tid tree (gmap tid tree) _ t m. Proof. apply (cm_look m t). Qed.
Lemma c_hlook (m : gmap nat handle) (i : nat) : p i = b -> cutm m !! i = m !! i. Proof. apply cm_look. Qed.
Lemma c_memb s x : p x = b -> n_memb (cuts s) x = n_memb s x. Proof. intros H. unfold n_memb. rewrite c_nodes. by rewrite c_look. Qed.
Lemma c_with_nodes s h : with_nodes (cuts s) (cuth h) = cuts (with_nodes s h). Proof. reflexivity. Qed.
Lemma c_tree_alive s t : p t = b -> tree_alive (cuts s) t = tree_alive s t. Proof. intros H. unfold tree_alive. rewrite c_trees. by rewrite cm_look. Qed.
Lemma c_put_mem s x m : p x = b -> put_mem (cuts s) x m = cuts (put_mem s x m). Proof. intros H. unfold put_mem. by rewrite c_nodes, c_set_mem. Qed.
Lemma c_put_cnt s t z : p t = b -> put_cnt (cuts s) t z = cuts (put_cnt s t z). Proof. intros H. unfold put_cnt. by rewrite c_trees, cm_alter. Qed.
Lemma c_put_root s t x : p t = b -> put_root (cuts s) t x = cuts (put_root s t x). Proof. intros H. unfold put_root. by rewrite c_trees, cm_alter. Qed.
Lemma c_del_hand s i : del_hand (cuts s) i = cuts (del_hand s i). Proof. unfold del_hand. by rewrite c_hands, cm_delete. Qed.
Lemma c_del_tree s t : with_trees (cuts s) (delete t (cutm (s_trees s))) = cuts (with_trees s (delete t (s_trees s))). Proof. by rewrite cm_delete. Qed.
Hint Rewrite c_nodes c_trees c_hands c_fresh c_with_nodes c_del_hand c_del_tree : ct.
Hint Rewrite c_tlook c_hlook c_look c_memb c_tree_alive c_put_mem c_put_cnt c_put_root using sk : ct.

Lemma ok_with_nodes M s h : oks M s -> okh M h -> oks M (with_nodes s h). Proof. by intros [] H; constructor. Qed.
Lemma ok_put_mem M s x m : oks M s -> okn M x -> okm M m -> oks M (put_mem s x m).
Proof. intros H Hx Hm. unfold put_mem. apply ok_with_nodes; sk. Qed.
Lemma ok_alter_tree M s t f : oks M s -> p t = b -> (forall tr, okt M tr -> okt M (f tr)) -> oks M (with_trees s (alter f t (s_trees s))).
Proof. intros H Ht Hf. destruct H as [H1 H2 H3 H4 H5 H6]. constructor; simpl; try done; [|by rewrite rm_alter].
  intros u tr E. destruct (decide (u = t)) as [->|N]; [|rewrite lookup_alter_ne in E by done; by apply H2].
  rewrite lookup_alter in E. apply fmap_Some in E as (tr0 & E & ->). destruct (H2 t tr0 E) as (A & B & C).
  destruct (Hf tr0) as [F G]; [split; [done|congruence]|]. repeat split; try done. congruence. Qed.
Lemma ok_put_cnt M s t z : oks M s -> p t = b -> oks M (put_cnt s t z).
Proof. intros H Ht. by apply ok_alter_tree. Qed.
Lemma ok_put_root M s t x : oks M s -> p t = b -> okn M x -> oks M (put_root s t x).
Proof. intros H Ht Hx. by apply ok_alter_tree. Qed.
Lemma ok_del_hand M s i : oks M s -> p i = b -> oks M (del_hand s i).
Proof. intros H Ht. destruct H as [H1 H2 H3 H4 H5 H6]. constructor; simpl; try done; [|by rewrite rm_delete].
  intros j hd [_ E]%lookup_delete_Some. by apply H4. Qed.
Lemma ok_del_tree M s t : oks M s -> p t = b -> oks M (with_trees s (delete t (s_trees s))).
Proof. intros H Ht. destruct H as [H1 H2 H3 H4 H5 H6]. constructor; simpl; try done; [|by rewrite rm_delete].
  intros j hd [_ E]%lookup_delete_Some. by apply H2. Qed.
Hint Resolve ok_with_nodes ok_put_mem ok_put_cnt ok_put_root ok_del_hand ok_del_tree : okdb.

(** ** Deallocation *)
Lemma existsb_cut {V} (m : gmap nat V) (f : nat * V -> bool) : (forall k v, m !! k = Some v -> f (k, v) = true -> p k = b) ->
  existsb f (map_to_list (cutm m)) = existsb f (map_to_list m).
Proof. intros H. apply eq_iff_eq_true. rewrite !existsb_exists. split; intros ([k v] & I & E); exists (k, v); (split; [|done]); apply elem_of_list_In, elem_of_map_to_list in I; apply elem_of_list_In, elem_of_map_to_list.
  - unfold cutm in I. by apply map_filter_lookup_Some in I as [? _].
  - unfold cutm. apply map_filter_lookup_Some. split; [done|]. simpl. by eapply H. Qed.
Lemma opt_is_spec (o : option nid) x : opt_is o x = true -> o = Some x.
Proof. destruct o as [y|]; simpl; [|done]. intros H%bool_decide_eq_true. by subst. Qed.
Lemma c_referenced M s l x : oks M s -> p x = b -> referenced (cuts s) l x = referenced s l x.
Proof. intros H Hx. unfold referenced. rewrite c_nodes, c_trees, c_hands. f_equal; [f_equal; [f_equal|]|]; apply existsb_cut.
  - intros k hd E1 E2. destruct (k_hands _ _ H k hd E1) as (_ & _ & A). unfold hand_on in E2. destruct hd; simpl in *; try done. apply bool_decide_eq_true in E2. subst. congruence.
  - intros k nd E1 E2. destruct (k_nodes _ _ H) as [H1 _]. destruct (H1 k nd E1) as [_ A]. simpl in E2. apply orb_true_iff in E2 as [E2|E2]; apply opt_is_spec in E2; destruct (A x); unfold refers; try tauto; congruence.
  - intros k tr E1 E2. destruct (k_trees _ _ H k tr E1) as (_ & _ & A). simpl in E2. apply bool_decide_eq_true in E2. subst. congruence. Qed.
Lemma c_tree_referenced M s l t : oks M s -> p t = b -> tree_referenced (cuts s) l t = tree_referenced s l t.
Proof. intros H Hx. unfold tree_referenced. rewrite c_nodes, c_hands. f_equal; [f_equal|]; apply existsb_cut.
  - intros k hd E1 E2. destruct (k_hands _ _ H k hd E1) as (_ & _ & A). unfold tree_on in E2. destruct hd; simpl in *; try done. apply bool_decide_eq_true in E2. subst. congruence.
  - intros k nd E1 E2. destruct (k_nodes _ _ H) as [H1 _]. destruct (H1 k nd E1) as [_ A]. simpl in E2. destruct (n_mem nd) eqn:Em; [done|]. apply bool_decide_eq_true in E2. subst.
    destruct (A t); [unfold refers; rewrite Em; eauto 10|congruence]. Qed.

Definition oknd M (nd : node T) : Prop := oko M (n_first nd) /\ oko M (n_next nd) /\ okm M (n_mem nd).
Definition oko_n M (o : option (node T)) : Prop := forall nd, o = Some nd -> oknd M nd.
Lemma ok_node M h x : okh M h -> p x = b -> oko_n M (h !! x).
Proof. intros H Hx nd E. split; [|split].
  - intros y Ey. apply (ok_field _ _ _ _ _ H Hx E). unfold refers. tauto.
  - intros y Ey. apply (ok_field _ _ _ _ _ H Hx E). unfold refers. tauto.
  - intros t Ht. apply (ok_field _ _ _ _ _ H Hx E). unfold refers. destruct Ht as [-> | (rc & lk & ->)]; eauto 10. Qed.
Lemma oko_n_inv M nd : oko_n M (Some nd) -> oko M (n_first nd) /\ oko M (n_next nd) /\ okm M (n_mem nd). Proof. intros H. by apply H. Qed.
Lemma okeo_inv M e : okeo M (Some e) -> okn M (ev_val e). Proof. intros H. by apply H. Qed.
Hint Resolve ok_node : okdb.
Ltac norm ::= cbn [fst snd ronr option_map ev_val] in *; repeat match goal with
  | H : oko _ (Some _) |- _ => apply oko_inv in H
  | H : oko2 _ (Some (_, _)) |- _ => apply oko2_inv in H
  | H : okm _ (MWeak (Some _)) |- _ => apply okm_weak_inv in H
  | H : okm _ (MStrong _ _ _) |- _ => apply okm_strong_inv in H
  | H : oko_m _ (Some _) |- _ => apply oko_m_inv in H
  | H : oko_t _ (Some _) |- _ => apply oko_t_inv in H
  | H : oko_h _ (Some _) |- _ => apply oko_h_inv in H
  | H : oko_s _ (Some _) |- _ => apply oko_s_inv in H
  | H : oko_n _ (Some _) |- _ => apply oko_n_inv in H
  | H : okeo _ (Some _) |- _ => apply okeo_inv in H; cbn [ev_val] in H
  | H : oke _ _ |- _ => unfold oke in H; cbn [ev_val] in H
  | H : _ /\ _ |- _ => destruct H
  | H : True |- _ => clear H
  | H : tt1 _ |- _ => clear H
  | p : nid * nid |- _ => destruct p
  end.
Ltac okdes o ::= let H := fresh "Hok" in
  first [ assert (H : oko _ o) by sk; destruct o | assert (H : oko_m _ o) by sk; destruct o | assert (H : oko_t _ o) by sk; destruct o
        | assert (H : oko_h _ o) by sk; destruct o | assert (H : oko_s _ o) by sk; destruct o | assert (H : oko_n _ o) by sk; destruct o
        | assert (H : okeo _ o) by sk; destruct o | destruct o ].
Ltac ctl ::= match goal with
  | H : okh ?M ?h |- context [parent_link (cuth ?h) _] => rewrite (c_parent_link M h) by sk
  | |- context [parent_link (cuth ?h) _] => erewrite (c_parent_link _ h) by sk
  | |- context [is_root (cuth ?h) _] => erewrite (c_is_root _ h) by sk
  | |- context [upgrade (cuth ?h) _] => erewrite (c_upgrade _ h) by sk
  | |- context [referenced (cuts ?s) _ _] => erewrite (c_referenced _ s) by sk
  | |- context [tree_referenced (cuts ?s) _ _] => erewrite (c_tree_referenced _ s) by sk
  end.
Lemma c_with_nodes' s h : mkSys (cuth h) (s_trees (cuts s)) (s_hands (cuts s)) (s_fresh (cuts s)) = cuts (with_nodes s h). Proof. reflexivity. Qed.
Ltac js := repeat (first [ norm1 | jstep | match goal with
  | H : oks ?M _ |- J _ _ (mbind _ _) _ => apply (J_bind (oks M) cuts); [|intros ? ?; norm]
  end ]).
Lemma j_release M f l : forall s x, oks M s -> okn M x -> J (oks M) cuts (release f l s x) (release f l (cuts s) x).
Proof. induction f as [|f IH]; intros s x H Hx; cbn [release]; js. Qed.
Lemma le_release m l : forall n s x, m <= n -> le_run (release (T := T) m l s x) (release n l s x).
Proof. induction m as [|m IH]; intros n s x L; destruct n as [|n]; try lia; cbn [release]; (destruct (s_nodes s !! x) as [nd|]; [|apply le_refl_run]); (destruct (referenced s l x); [apply le_refl_run|]).
  - by right.
  - by left.
  - destruct (n_mem nd); [|apply le_refl_run]. apply le_bind.
    + destruct (n_first nd); [|apply le_refl_run]. apply IH. lia.
    + intros a. destruct (n_next nd); [|apply le_refl_run]. apply IH. lia. Qed.
Lemma j_release_all M l s x : oks M s -> okn M x -> J (oks M) cuts (release_all s l x) (release_all (cuts s) l x).
Proof. intros. unfold release_all. eapply J_fuel; [apply (j_release M (walk_fuel (s_nodes s))); sk|]. apply le_release, walk_le. Qed.
Hint Resolve j_release_all : jdb.
Lemma c_dft_next M h e : okh M h -> oke M e -> dft_next (cuth h) e = dft_next h e.
Proof. intros H He. unfold dft_next. destruct e as [x|x]; norm; unfold first_child_link, next_sibling_link; autorewrite with ct; [done|]. by rewrite (c_parent_link M) by sk. Qed.
Lemma ok_dft_next M h e : okh M h -> oke M e -> okeo M (dft_next h e).
Proof. intros H He. unfold dft_next. destruct e as [x|x]; norm; unfold first_child_link, next_sibling_link.
  - okdes (ffirst h x); norm; apply okeo_some; simpl; sk.
  - okdes (fnext h x); norm; [apply okeo_some; simpl; sk|]. okdes (parent_link h x); norm; [apply okeo_some; simpl; sk|sk]. Qed.
Lemma oke_intro M e : okn M (ev_val e) -> oke M e. Proof. done. Qed.
Hint Resolve ok_dft_next oke_intro : okdb.
Lemma le_teardown m l : forall n s e, m <= n -> le_run (teardown (T := T) m l s e) (teardown n l s e).
Proof. induction m as [|m IH]; intros n s e L; destruct n as [|n]; try lia; cbn [teardown]; (destruct e as [e|]; [|apply le_refl_run]).
  - by right.
  - by left.
  - destruct e as [v|v]; [apply IH; lia|]. apply le_bind; [apply le_refl_run|]. intros s1. apply le_bind; [apply le_refl_run|]. intros s2. apply IH. lia. Qed.
Lemma dfs_le h : dfs_fuel (cuth h) <= dfs_fuel h. Proof. unfold dfs_fuel, walk_fuel. pose proof (c_size h). lia. Qed.
Lemma j_teardown M f l : forall s e, oks M s -> okeo M e -> J (oks M) cuts (teardown f l s e) (teardown f l (cuts s) e).
Proof. induction f as [|f IH]; intros s e H He; cbn [teardown].
  - destruct e; [apply J_nofuel|by apply J_ret].
  - destruct e as [e|]; [|by apply J_ret]. norm. cbv zeta. rewrite !c_nodes, (c_dft_next M) by sk. pose proof (ok_dft_next M (s_nodes s) e ltac:(sk) ltac:(sk)) as Hn. destruct e as [v|v]; norm.
    + by apply IH.
    + js. Qed.
Definition okpins := okl.
Lemma j_drop_tree M l tl s t : oks M s -> p t = b -> J (oks M) cuts (drop_tree_if_dead l tl s t) (drop_tree_if_dead l tl (cuts s) t).
Proof. intros H Ht. unfold drop_tree_if_dead. rewrite c_trees, c_tlook by done. pose proof (ok_tree M s t H Ht) as Hok. destruct (s_trees s !! t) as [tr|]; [|by apply J_ret]. norm.
  rewrite (c_tree_referenced M) by done. destruct (tree_referenced s tl t); [by apply J_ret|]. eapply J_bind.
  - eapply J_fuel; [apply (j_teardown M (dfs_fuel (s_nodes s))); [done|]|apply le_teardown, dfs_le]. by apply okeo_some.
  - intros s1 H1. cbv zeta. rewrite c_trees, c_del_tree. sk || eauto with jdb okdb. Qed.
Hint Resolve j_drop_tree : jdb.

(** ** Memberships and locks *)
Lemma j_tree_core M s x : oks M s -> okn M x -> J (okn M) idr (tree_core s x) (tree_core (cuts s) x).
Proof. intros. unfold tree_core. j. Qed.
Lemma j_link_core M s x : oks M s -> okn M x -> J (okn M) idr (link_tree_core s x) (link_tree_core (cuts s) x).
Proof. intros. unfold link_tree_core. j. Qed.
Hint Resolve j_tree_core j_link_core : jdb.
Lemma c_incr_ref M s x : oks M s -> okn M x -> incr_ref (cuts s) x = option_map cuts (incr_ref s x).
Proof. intros. unfold incr_ref. rewrite c_memb by sk. pose proof (ok_memb M s x H ltac:(sk)) as Hm. destruct (n_memb s x) as [[[t|]|t rc lk]|]; norm; autorewrite with ct; try done. by destruct (tree_alive s t). Qed.
Lemma ok_incr_ref M s x : oks M s -> okn M x -> oko_s M (incr_ref s x).
Proof. intros. unfold incr_ref. pose proof (ok_memb M s x H ltac:(sk)) as Hm. destruct (n_memb s x) as [[[t|]|t rc lk]|]; norm; try sk. destruct (tree_alive s t); sk. Qed.
Lemma j_incr_nonzero M s x : oks M s -> okn M x -> J (oks M) cuts (incr_nonzero_ref s x) (incr_nonzero_ref (cuts s) x).
Proof. intros. unfold incr_nonzero_ref. j. Qed.
Lemma j_decr_ref M s x : oks M s -> okn M x -> J (oks M) cuts (decr_ref s x) (decr_ref (cuts s) x).
Proof. intros. unfold decr_ref. j. Qed.
Lemma c_lock_tree M s k t : oks M s -> okn M t -> lock_tree (cuts s) k t = option_map cuts (lock_tree s k t).
Proof. intros. unfold lock_tree. rewrite c_trees, c_tlook by sk. destruct (s_trees s !! t) as [tr|]; [|done]. destruct k; [done| |]; autorewrite with ct; by destruct (_ <? _)%Z. Qed.
Lemma ok_lock_tree M s k t : oks M s -> okn M t -> oko_s M (lock_tree s k t).
Proof. intros. unfold lock_tree. destruct (s_trees s !! t) as [tr|]; [|done]. destruct k; [sk| |]; destruct (_ <? _)%Z; sk. Qed.
Hint Resolve ok_incr_ref ok_lock_tree : okdb.
Hint Resolve j_incr_nonzero j_decr_ref : jdb.
Lemma j_unlock_tree M s k t : oks M s -> okn M t -> J (oks M) cuts (unlock_tree s k t) (unlock_tree (cuts s) k t).
Proof. intros. unfold unlock_tree. j. Qed.
Lemma j_release_any M s t : oks M s -> okn M t -> J (oks M) cuts (release_any s t) (release_any (cuts s) t).
Proof. intros. unfold release_any. j. Qed.
Hint Resolve j_unlock_tree j_release_any : jdb.
Lemma c_transfer M s t u : oks M s -> okn M t -> okn M u -> transfer_lock (cuts s) t u = option_map cuts (transfer_lock s t u).
Proof. intros. unfold transfer_lock. rewrite c_trees, c_tlook by sk. destruct (s_trees s !! t) as [tr|]; [|done].
  destruct (t_cnt tr); [done| |]; rewrite (c_lock_tree M) by sk; (destruct (lock_tree s _ u) as [s1|]; [|done]); simpl; rewrite c_tlook by sk; destruct (s_trees s1 !! t); simpl; by autorewrite with ct. Qed.
Lemma ok_transfer M s t u : oks M s -> okn M t -> okn M u -> oko_s M (transfer_lock s t u).
Proof. intros. unfold transfer_lock. destruct (s_trees s !! t) as [tr|]; [|done].
  destruct (t_cnt tr); [sk| |].
  - pose proof (ok_lock_tree M s Hot u ltac:(sk) ltac:(sk)) as Hl. destruct (lock_tree s _ u) as [s1|]; norm; [|done]. simpl. destruct (s_trees s1 !! t); sk.
  - pose proof (ok_lock_tree M s Frozen u ltac:(sk) ltac:(sk)) as Hl. destruct (lock_tree s _ u) as [s1|]; norm; [|done]. simpl. destruct (s_trees s1 !! t); sk. Qed.
Hint Resolve ok_transfer : okdb.
Ltac ctl ::= match goal with
  | H : okh ?M ?h |- context [parent_link (cuth ?h) _] => rewrite (c_parent_link M h) by sk
  | |- context [parent_link (cuth ?h) _] => erewrite (c_parent_link _ h) by sk
  | |- context [is_root (cuth ?h) _] => erewrite (c_is_root _ h) by sk
  | |- context [upgrade (cuth ?h) _] => erewrite (c_upgrade _ h) by sk
  | |- context [referenced (cuts ?s) _ _] => erewrite (c_referenced _ s) by sk
  | |- context [tree_referenced (cuts ?s) _ _] => erewrite (c_tree_referenced _ s) by sk
  | |- context [incr_ref (cuts ?s) _] => erewrite (c_incr_ref _ s) by sk
  | |- context [lock_tree (cuts ?s) _ _] => erewrite (c_lock_tree _ s) by sk
  | |- context [transfer_lock (cuts ?s) _ _] => erewrite (c_transfer _ s) by sk
  | |- context [option_map cuts (Some ?s)] => change (option_map cuts (Some s)) with (Some (cuts s))
  | |- context [option_map cuts None] => change (option_map cuts None) with (@None (sys T))
  end.
Lemma j_acquire M s k x : oks M s -> okn M x -> J (oko_s M) (option_map cuts) (acquire s k x) (acquire (cuts s) k x).
Proof. intros. unfold acquire. j. Qed.
Hint Resolve j_acquire : jdb.
Lemma j_acquire_expect M s k x : oks M s -> okn M x -> J (oks M) cuts (acquire_expect s k x) (acquire_expect (cuts s) k x).
Proof. intros. unfold acquire_expect. j. Qed.
Lemma j_incr_lock M s x : oks M s -> okn M x -> J (oks M) cuts (incr_nonzero_lock s x) (incr_nonzero_lock (cuts s) x).
Proof. intros. unfold incr_nonzero_lock. j. Qed.
Lemma j_decr_lock M s x : oks M s -> okn M x -> J (oks M) cuts (decr_lock s x) (decr_lock (cuts s) x).
Proof. intros. unfold decr_lock. j. Qed.
Hint Resolve j_acquire_expect j_incr_lock j_decr_lock : jdb.

(** ** New identities: all of them belong to the party that makes the call *)
Definition fr M : Prop := forall n, M <= n -> p n = b.
Lemma fr_S M : fr M -> fr (S M). Proof. intros H n L. apply H. lia. Qed.
Lemma fr_new M : fr M -> okn (S M) M. Proof. intros H. split; [lia|]. apply H. lia. Qed.
Lemma oks_mono_fresh M s : oks M s -> oks (S M) (with_fresh s (S M)).
Proof. intros [H1 H2 H3 H4 H5 H6]. constructor; simpl; try done.
  - apply (okh_mono M); [done|lia].
  - intros t tr E. destruct (H2 t tr E) as (A & B & C). repeat split; try done; lia.
  - intros i hd E. destruct (H4 i hd E) as (A & B & C). repeat split; try done; lia. Qed.
Lemma ok_add_hand M s hd : oks M s -> fr M -> okn M (hand_target hd) -> oks (S M) (add_hand s hd).
Proof. intros H F Hh. pose proof (oks_mono_fresh M s H) as [H1 H2 H3 H4 H5 H6]. pose proof (k_fresh _ _ H) as E. unfold add_hand. rewrite E. pose proof (fr_new M F) as [A B]. constructor; simpl in *; try done.
  - intros i hd' [[<- <-] | [N Ei]]%lookup_insert_Some; [|by apply H4]. destruct Hh as [C D]. repeat split; [lia|lia|congruence].
  - by rewrite rm_insert. Qed.
Lemma c_add_hand M s hd : oks M s -> fr M -> add_hand (cuts s) hd = cuts (add_hand s hd).
Proof. intros H F. unfold add_hand. pose proof (k_fresh _ _ H) as E. unfold cuts, with_fresh, with_hands. cbn [s_nodes s_trees s_hands s_fresh]. rewrite E. rewrite (cm_insert (s_hands s) M hd) by (apply F; lia). reflexivity. Qed.
Definition oks1 {A} M (r : sys T * A) : Prop := oks M r.1.
Definition cts1 {A} (r : sys T * A) : sys T * A := (cuts r.1, r.2).
Lemma oks1_intro {A} M s (a : A) : oks M s -> oks1 M (s, a). Proof. done. Qed.
Hint Resolve ok_add_hand oks1_intro fr_S : okdb.
Ltac norm1 ::= match goal with
  | H : ok1 _ (_, _) |- _ => unfold ok1 in H; cbn [fst] in H
  | |- context [ct1 (?h, ?v)] => change (ct1 (h, v)) with (cuth h, v)
  | H : oks1 _ (_, _) |- _ => unfold oks1 in H; cbn [fst] in H
  | |- context [cts1 (?h, ?v)] => change (cts1 (h, v)) with (cuts h, v)
  | F : fr ?M, H : oks ?M ?s |- context [add_hand (cuts ?s) ?hd] => rewrite (c_add_hand M s hd H F)
  | F : fr ?M |- context [add_hand (cuts ?s) ?hd] => rewrite (c_add_hand M s hd) by sk
  end.
Lemma j_new_hand M s k x : oks M s -> fr M -> okn M x -> J (oks1 (S M)) cts1 (new_node_hand s k x) (new_node_hand (cuts s) k x).
Proof. intros. unfold new_node_hand. j. Qed.
Lemma j_drop_link M s i x : oks M s -> p i = b -> okn M x -> J (oks M) cuts (drop_link s i x) (drop_link (cuts s) i x).
Proof. intros. unfold drop_link. j. Qed.
Hint Resolve j_new_hand j_drop_link : jdb.
Lemma j_drop_node M s i k x : oks M s -> p i = b -> okn M x -> J (oks M) cuts (drop_node s i k x) (drop_node (cuts s) i k x).
Proof. intros. unfold drop_node. js. Qed.
Lemma j_clone_node M s k x : oks M s -> fr M -> okn M x -> J (oks1 (S M)) cts1 (clone_node s k x) (clone_node (cuts s) k x).
Proof. intros. unfold clone_node. js. Qed.
Hint Resolve j_drop_node j_clone_node : jdb.
Lemma new_tree_ok M s d : oks M s -> fr M -> oks (S (S (S M))) (new_tree s d).1 /\ new_tree (cuts s) d = cts1 (new_tree s d).
Proof. intros H F. pose proof (k_fresh _ _ H) as E. unfold new_tree. cbv zeta. rewrite c_fresh, E. cbn [fst].
  set (s1 := mkSys (alloc (s_nodes s) M d (MStrong (S M) 1 0)) (<[S M := mkTree M 0]> (s_trees s)) (s_hands s) (S (S M))).
  assert (H1 : oks (S (S M)) s1).
  { destruct H as [A1 A2 A3 A4 A5 A6]. assert (okn (S (S M)) M) by (split; [lia|apply F; lia]). assert (okn (S (S M)) (S M)) by (split; [lia|apply F; lia]). constructor; subst s1; cbn [s_nodes s_trees s_hands s_fresh]; try done.
    - apply ok_alloc; [apply (okh_mono M); [done|lia]|done|]. sk.
    - intros t tr [[<- <-] | [N Et]]%lookup_insert_Some.
      + cbn [t_root]. split; [lia|]. split; [lia|]. by rewrite !F by lia.
      + destruct (A2 t tr Et) as (B & C & D). repeat split; try done; lia.
    - rewrite rm_insert; [done|]. apply F. lia.
    - intros i hd Ei. destruct (A4 i hd Ei) as (B & C & D). repeat split; try done; lia. }
  assert (F2 : fr (S (S M))) by sk. split.
  - apply (ok_add_hand (S (S M))); [done|done|]. simpl. split; [lia|apply F; lia].
  - unfold cts1. cbn [fst snd]. rewrite <- (c_add_hand (S (S M)) s1 _ H1 F2). subst s1. unfold cuts. cbn [s_nodes s_trees s_hands s_fresh].
    rewrite <- (c_alloc (s_nodes s) M d (MStrong (S M) 1 0)) by (apply F; lia). rewrite <- (cm_insert (s_trees s) (S M)) by (apply F; lia). reflexivity. Qed.
Definition okorph M (r : sys T * nid * nat) : Prop := oks M r.1.1 /\ okn M r.1.2 /\ okn M r.2.
Lemma j_new_orphan M s d t : oks M s -> fr M -> okn M t -> J (okorph (S (S M))) (fun r => (cuts r.1.1, r.1.2, r.2)) (new_orphan s d t) (new_orphan (cuts s) d t).
Proof. intros H F Ht. pose proof (k_fresh _ _ H) as E. unfold new_orphan. cbv zeta. rewrite c_fresh, E, c_nodes.
  set (s1 := with_fresh (with_nodes s (alloc (s_nodes s) M d (MWeak (Some t)))) (S M)).
  assert (N : okn (S M) M) by by apply fr_new.
  assert (H1 : oks (S M) s1).
  { destruct H as [A1 A2 A3 A4 A5 A6]. constructor; subst s1; cbn [s_nodes s_trees s_hands s_fresh with_fresh with_nodes]; try done.
    - apply ok_alloc; [apply (okh_mono M); [done|lia]|done|]. apply okm_weak. apply (okn_mono M); [done|lia].
    - intros u tr Et. destruct (A2 u tr Et) as (B & C & D). repeat split; try done; lia.
    - intros i hd Ei. destruct (A4 i hd Ei) as (B & C & D). repeat split; try done; lia. }
  replace (with_fresh (with_nodes (cuts s) (alloc (cuth (s_nodes s)) M d (MWeak (Some t)))) (S M)) with (cuts s1) by (subst s1; unfold cuts; cbn [s_nodes s_trees s_hands s_fresh with_fresh with_nodes]; rewrite (c_alloc (s_nodes s) M d (MWeak (Some t))) by sk; reflexivity).
  rewrite (c_incr_ref (S M)) by sk. pose proof (ok_incr_ref (S M) s1 M H1 N) as H2. destruct (incr_ref s1 M) as [s2|]; norm; [|apply J_panic].
  assert (F2 : fr (S M)) by sk. apply J_ret.
  - split; [|split]; cbn [fst snd].
    + apply (ok_add_hand (S M)); [exact H2|exact F2|exact N].
    + apply (okn_mono (S M)); [exact N|lia].
    + rewrite (k_fresh _ _ H2). by apply fr_new.
  - cbn [fst snd]. rewrite (c_add_hand (S M) s2 _ H2 F2). by rewrite c_fresh. Qed.
Lemma j_upgrade_new M s i n k : oks M s -> okn M i -> okn M n -> J (oks M) cuts (upgrade_new s i n k) (upgrade_new (cuts s) i n k).
Proof. intros H Hi Hn. unfold upgrade_new. eapply J_bind; [eauto with jdb|]. intros s1 H1. apply J_ret.
  - destruct H1 as [A1 A2 A3 A4 A5 A6], Hi, Hn. constructor; cbn [s_nodes s_trees s_hands s_fresh with_hands]; try done.
    + intros j hd [[<- <-] | [N Ej]]%lookup_insert_Some; [|by apply A4]. simpl. repeat split; try done. congruence.
    + by rewrite rm_insert.
  - unfold cuts, with_hands. cbn [s_nodes s_trees s_hands s_fresh]. rewrite <- (cm_insert (s_hands s1)) by sk. reflexivity. Qed.
Hint Resolve j_upgrade_new : jdb.
Lemma okd_dest M ad x : okn M x -> okd M (dest_of ad x). Proof. by destruct ad. Qed.
Hint Resolve okd_dest : okdb.
Lemma j_create M s k x d ad : oks M s -> fr M -> okn M x -> J (oks1 (S (S M))) cts1 (create_node_as s k x d ad) (create_node_as (cuts s) k x d ad).
Proof. intros H F Hx. unfold create_node_as. eapply J_bind_id; [eauto with jdb|]. intros t Ht. eapply J_bind; [by apply j_new_orphan|]. intros [[s1 n] i] (H1 & Hn & Hi). cbn [fst snd] in *.
  assert (okn (S (S M)) x) by (apply (okn_mono M); [done|lia]). j. Qed.
Lemma j_create_ip M s k x d : oks M s -> fr M -> okn M x -> J (oks1 (S (S M))) cts1 (create_interrupting_parent s k x d) (create_interrupting_parent (cuts s) k x d).
Proof. intros H F Hx. unfold create_interrupting_parent. eapply J_bind_id; [eauto with jdb|]. intros t Ht. eapply J_bind; [by apply j_new_orphan|]. intros [[s1 n] i] (H1 & Hn & Hi). cbn [fst snd] in *.
  assert (okn (S (S M)) x) by (apply (okn_mono M); [done|lia]). assert (okn (S (S M)) t) by (apply (okn_mono M); [done|lia]). j. Qed.
Lemma j_create_ic M s k x d : oks M s -> fr M -> okn M x -> J (oks1 (S (S M))) cts1 (create_interrupting_child s k x d) (create_interrupting_child (cuts s) k x d).
Proof. intros H F Hx. unfold create_interrupting_child. eapply J_bind_id; [eauto with jdb|]. intros t Ht. eapply J_bind; [by apply j_new_orphan|]. intros [[s1 n] i] (H1 & Hn & Hi). cbn [fst snd] in *.
  assert (okn (S (S M)) x) by (apply (okn_mono M); [done|lia]). j. Qed.
Hint Resolve j_create j_create_ip j_create_ic : jdb.

(** ** Changing trees *)
Lemma j_set_core M s l tl x t : oks M s -> okn M x -> okn M t -> J (oko_s M) (option_map cuts) (set_tree_core s l tl x t) (set_tree_core (cuts s) l tl x t).
Proof. intros H Hx Ht. unfold set_tree_core. rewrite c_memb by sk. pose proof (ok_memb M s x H ltac:(sk)) as Hm. destruct (n_memb s x) as [[u|u rc lk]|]; norm; [| |apply J_panic].
  - autorewrite with ct. apply J_ret; [sk|done].
  - rewrite (c_transfer M) by sk. destruct (Nat.eqb lk 0).
    + autorewrite with ct. js.
    + pose proof (ok_transfer M s u t H ltac:(sk) Ht) as Hu. destruct (transfer_lock s u t) as [s1|]; norm; [|apply J_ret; [sk|done]]. autorewrite with ct. js. Qed.
Hint Resolve j_set_core : jdb.
Definition okdfs M (r : option (dft nid) * dfs_state) : Prop := okeo M r.1 /\ okst M r.2.
Lemma j_link_dfs M h st : okh M h -> okst M st -> J (okdfs M) idr (link_dfs_next h st) (link_dfs_next (cuth h) st).
Proof. intros H Hs. unfold link_dfs_next. destruct st as [[e x]|]; [|apply J_ret; [by split|done]]. destruct (Hs e x eq_refl) as [He Hx].
  destruct (decide (e = Close x)); [apply J_ret; [by split|done]|]. rewrite (c_dft_next M) by sk. apply J_ret; [|done]. split; cbn [fst snd]; [by apply okeo_some|].
  pose proof (ok_dft_next M h e H He) as Hn. destruct (dft_next h e) as [e'|]; simpl; [|done]. intros ? ? [= <- <-]. split; [by apply Hn|done]. Qed.
Lemma j_set_membs M f tl t : forall s st, oks M s -> okst M st -> okn M t -> J (oko_s M) (option_map cuts) (set_memberships f s tl st t) (set_memberships f (cuts s) tl st t).
Proof. induction f as [|f IH]; intros s st H Hs Ht; cbn [set_memberships]; (eapply J_bind_id; [rewrite c_nodes; apply (j_link_dfs M); sk|]); intros [ev st'] [He Hs']; cbn [fst snd] in *; (destruct ev as [e|]; [|apply J_ret; [sk|done]]).
  - apply J_nofuel.
  - norm. cbv zeta. eapply (J_bind (oko_s M) (option_map cuts)).
    + destruct e as [y|y]; cbn [ev_val] in He; [by apply j_set_core|apply J_ret; [sk|done]].
    + intros [s1|] H1; norm; [|apply J_ret; [sk|done]]. eapply J_bind; [apply (j_release_all M); sk|]. intros s2 H2. by apply IH. Qed.
Lemma le_set_membs m tl t : forall n s st, m <= n -> le_run (set_memberships (T := T) m s tl st t) (set_memberships n s tl st t).
Proof. induction m as [|m IH]; intros n s st L; destruct n as [|n]; try lia; cbn [set_memberships]; (apply le_bind; [apply le_refl_run|]); intros [ev st']; (destruct ev as [e|]; [|apply le_refl_run]).
  - by right.
  - by left.
  - apply le_bind; [apply le_refl_run|]. intros [s1|]; [|apply le_refl_run]. apply le_bind; [apply le_refl_run|]. intros s2. apply IH. lia. Qed.
Lemma j_set_subtree M s tl x t : oks M s -> okn M x -> okn M t -> J (oko_s M) (option_map cuts) (set_subtree_tree s tl x t) (set_subtree_tree (cuts s) tl x t).
Proof. intros H Hx Ht. unfold set_subtree_tree. eapply J_fuel; [apply (j_set_membs M (dfs_fuel (s_nodes s))); [done| |done]|apply le_set_membs, dfs_le]. by intros ? ? [= <- <-]. Qed.
Hint Resolve j_set_subtree : jdb.
Lemma j_create_tree M s tl x : oks M s -> fr M -> okn M x -> J (oks (S M)) cuts (create_new_tree s tl x) (create_new_tree (cuts s) tl x).
Proof. intros H F Hx. pose proof (k_fresh _ _ H) as E. unfold create_new_tree. cbv zeta. rewrite c_fresh, E.
  set (s1 := with_fresh (with_trees s (<[M := mkTree x 0]> (s_trees s))) (S M)). pose proof (fr_new M F) as N. assert (Hx' : okn (S M) x) by (apply (okn_mono M); [done|lia]).
  assert (H1 : oks (S M) s1).
  { pose proof (oks_mono_fresh M s H) as [A1 A2 A3 A4 A5 A6]. constructor; subst s1; cbn [s_nodes s_trees s_hands s_fresh with_fresh with_trees] in *; try done.
    - intros u tr [[<- <-] | [Nu Et]]%lookup_insert_Some; [|by apply A2]. destruct Hx', N. cbn [t_root]. split; [lia|]. split; [done|congruence].
    - rewrite rm_insert by sk. done. }
  replace (with_fresh (with_trees (cuts s) (<[M:=mkTree x 0]> (s_trees (cuts s)))) (S M)) with (cuts s1) by (subst s1; unfold cuts; cbn [s_nodes s_trees s_hands s_fresh with_fresh with_trees]; rewrite <- (cm_insert (s_trees s) M) by sk; reflexivity).
  eapply J_bind; [apply (j_set_subtree (S M)); sk|]. intros [s2|] H2; norm; [|apply J_panic]. by apply J_ret. Qed.
Hint Resolve j_create_tree : jdb.
Lemma oks_any M s : oks M s -> fr M -> J (oks M) cuts (Ret s) (Ret (cuts s)). Proof. intros. by apply J_ret. Qed.
(** The counter may or may not move. *)
Definition okx M s : Prop := oks M s \/ oks (S M) s.
Lemma okx_l M s : oks M s -> okx M s. Proof. by left. Qed.
Lemma okx_r M s : oks (S M) s -> okx M s. Proof. by right. Qed.
Lemma j_detach M s x : oks M s -> fr M -> okn M x -> J (okx M) cuts (detach_subtree s x) (detach_subtree (cuts s) x).
Proof. intros H F Hx. unfold detach_subtree. rewrite c_nodes, (c_is_root M) by sk. destruct (is_root (s_nodes s) x); [apply J_ret; [by left|done]|].
  eapply J_bind; [apply (j_unlink M); sk|]. intros [h' v] H1. unfold ok1 in H1. cbn [fst] in H1. unfold ct1. cbn [fst snd]. rewrite c_with_nodes. eapply J_weaken; [apply (j_create_tree M); sk|]. by right. Qed.
Definition okx1 {A} M (r : sys T * A) : Prop := okx M r.1.
Lemma j_replace_node M s x : oks M s -> fr M -> okn M x -> J (okx1 M) cts1 (replace_node s x) (replace_node (cuts s) x).
Proof. intros H F Hx. unfold replace_node. eapply J_bind_id; [eauto with jdb|]. intros t Ht. eapply J_bind; [rewrite c_nodes; apply (j_replace M); sk|]. intros [h' r] [H1 H2]. unfold ct1. cbn [fst snd] in *. cbv zeta. rewrite c_with_nodes.
  destruct r as [o|e]; [|apply J_ret; [left; cbn [fst]; sk|done]]. specialize (H2 o eq_refl).
  assert (Ht' : okn (S M) t) by (apply (okn_mono M); [done|lia]).
  destruct o as [c|]; norm; autorewrite with ct; (eapply (J_bind (oks (S M)) cuts); [apply (j_create_tree M); sk|]); intros s3 H3; (eapply J_bind; [apply (j_drop_tree (S M)); sk|]); intros s4 H4; (apply J_ret; [right; cbn [fst]; done|done]). Qed.
Lemma j_move_other M s x d t : oks M s -> okn M x -> okd M d -> okn M t -> J (oks1 M) cts1 (move_to_another_tree s x d t) (move_to_another_tree (cuts s) x d t).
Proof. intros. unfold move_to_another_tree. j. Qed.
Hint Resolve j_move_other : jdb.
Lemma j_move M s x ad y : oks M s -> okn M x -> okn M y -> J (oks1 M) cts1 (move_subtree s x ad y) (move_subtree (cuts s) x ad y).
Proof. intros. unfold move_subtree. j. Qed.
Lemma j_nav M s v x : oks M s -> okn M x -> J (oko M) idr (nav_target s v x) (nav_target (cuts s) v x).
Proof. intros. unfold nav_target. destruct v; j. Qed.
Hint Resolve j_move j_nav : jdb.

(** ** The calls *)
Definition okf M (r : sys T * out T) : Prop := exists M', M <= M' /\ oks M' r.1.
Lemma okf_intro M M' s (r : out T) : M <= M' -> oks M' s -> okf M (s, r). Proof. intros. exists M'. done. Qed.
Lemma jf_ret M M' s (r : out T) : M <= M' -> oks M' s -> J (okf M) cts1 (Ret (s, r)) (Ret (cuts s, r)).
Proof. intros L H. apply J_ret; [by apply (okf_intro M M')|done]. Qed.
Lemma jf_ill M s : oks M s -> J (okf M) cts1 (ill s) (ill (cuts s)). Proof. intros H. by apply (jf_ret M M). Qed.
Lemma jf_new M M' s s' i : M <= M' -> oks M' s -> s' = cuts s -> J (okf M) cts1 (ret_hand (s, i)) (ret_hand (s', i)).
Proof. intros L H ->. by apply (jf_ret M M'). Qed.
Lemma jf_hand M M' m m' : M <= M' -> J (oks1 M') cts1 m m' -> J (okf M) cts1 (r ← m; ret_hand r) (r ← m'; ret_hand r).
Proof. intros L H. eapply J_bind; [exact H|]. intros [s1 i] H1. by apply (jf_ret M M'). Qed.
Lemma jf_out_hand M M' m m' : M <= M' -> J (oks1 M') cts1 m m' -> J (okf M) cts1 (r ← m; out_of_hand r) (r ← m'; out_of_hand r).
Proof. intros L H. eapply J_bind; [exact H|]. intros [s1 i] H1. by apply (jf_ret M M'). Qed.
Lemma jf_unit M M' m m' (r : out T) : M <= M' -> J (oks M') cuts m m' -> J (okf M) cts1 (s1 ← m; Ret (s1, r)) (s1 ← m'; Ret (s1, r)).
Proof. intros L H. eapply J_bind; [exact H|]. intros s1 H1. by apply (jf_ret M M'). Qed.
Lemma jf_add M s hd : oks M s -> fr M -> okn M (hand_target hd) -> J (okf M) cts1 (Ret (add_hand s hd, OutHandle (s_fresh s))) (Ret (add_hand (cuts s) hd, OutHandle (s_fresh (cuts s)))).
Proof. intros H F Hh. rewrite (c_add_hand M) by done. apply (jf_ret M (S M)); [lia|]. by apply ok_add_hand. Qed.
Lemma jf_clone_token M s k t hd : oks M s -> fr M -> okn M t -> hand_target hd = t -> J (okf M) cts1 (clone_token s k t hd) (clone_token (cuts s) k t hd).
Proof. intros H F Ht E. unfold clone_token. rewrite c_tree_alive by sk. destruct (tree_alive s t); [|apply jf_add; by rewrite ?E].
  rewrite (c_lock_tree M) by sk. pose proof (ok_lock_tree M s k t H Ht) as Hl. destruct (lock_tree s k t) as [s1|]; norm; [apply (jf_add M s1); by rewrite ?E|by apply (jf_ret M M)]. Qed.
Lemma target_token k t : hand_target (token k t) = t. Proof. by destruct k. Qed.
Lemma jf_new_token M s k t : oks M s -> fr M -> okn M t -> J (okf M) cts1 (new_token s k t) (new_token (cuts s) k t).
Proof. intros H F Ht. unfold new_token. rewrite (c_lock_tree M) by sk. pose proof (ok_lock_tree M s k t H Ht) as Hl.
  destruct k; [by apply jf_ill| |]; (destruct (lock_tree s _ t) as [s1|]; norm; [apply (jf_add M s1); by rewrite ?target_token|by apply (jf_ret M M)]). Qed.
Lemma j_drop_token M s k t i : oks M s -> p i = b -> okn M t -> J (oks M) cuts (drop_token s k t i) (drop_token (cuts s) k t i).
Proof. intros. unfold drop_token. js. Qed.
Lemma j_with_auth M s a f f' : oks M s -> (forall i, i ∈ auth_args a -> p i = b) -> (forall k x, okn M x -> J (okf M) cts1 (f k x) (f' k x)) ->
  J (okf M) cts1 (with_auth s a f) (with_auth (cuts s) a f').
Proof. intros H Ha Hf. unfold with_auth. rewrite c_hands. destruct a as [i|i g].
  - assert (Hi : p i = b) by (apply Ha; simpl; left). rewrite c_hlook by done. pose proof (ok_hand M s i H Hi) as Hh. destruct (s_hands s !! i) as [[[]| | | | |]|]; try (by apply jf_ill). norm. by apply Hf.
  - assert (Hi : p i = b) by (apply Ha; simpl; left). assert (Hg : p g = b) by (apply Ha; simpl; right; left). rewrite !c_hlook by done. pose proof (ok_hand M s i H Hi) as Hh. pose proof (ok_hand M s g H Hg) as Hh2.
    destruct (s_hands s !! i) as [[[] x| | | | |]|]; try (by apply jf_ill). destruct (s_hands s !! g) as [[]|]; try (by apply jf_ill). norm.
    eapply J_bind_id; [apply (j_tree_core M); [done|exact Hh]|]. intros t' Ht'. destruct (decide (t' = t)); [by apply Hf|apply J_panic]. Qed.
Lemma jf_exchange M s1 k x i : oks M s1 -> fr M -> p i = b -> okn M x ->
  J (okf M) cts1 (Ret (add_hand (del_hand s1 i) (HNode k x), OutHandle (s_fresh s1))) (Ret (add_hand (del_hand (cuts s1) i) (HNode k x), OutHandle (s_fresh (cuts s1)))).
Proof. intros H F Hi Hx. rewrite c_del_hand. apply (jf_add M (del_hand s1 i)); [sk|done|done]. Qed.

Lemma step_frame M s o : oks M s -> fr M -> call_of p b o -> J (okf M) cts1 (step s o) (step (cuts s) o).
Proof. intros H F C. unfold call_of in C. destruct o; cbn [step op_args] in *.
  - destruct (new_tree_ok M s d H F) as [A B]. rewrite B. destruct (new_tree s d) as [s1 i]. cbn [fst] in A. apply (jf_new M (S (S (S M)))); [lia|done|done].
  - assert (Hi : p i = b) by (apply C; left). rewrite c_hands, c_hlook by done. pose proof (ok_hand M s i H Hi) as Hh. destruct (s_hands s !! i) as [[k x|t|t|t|x|t]|]; norm; cbn [hand_target] in *; try (by apply jf_ill); try (by apply jf_add); try (by apply jf_clone_token).
    apply (jf_hand M (S M)); [lia|]. by apply j_clone_node.
  - assert (Hi : p i = b) by (apply C; left). rewrite c_hands, c_hlook by done. pose proof (ok_hand M s i H Hi) as Hh. destruct (s_hands s !! i) as [[k x|t|t|t|x|t]|]; norm; cbn [hand_target] in *; try (by apply jf_ill).
    + apply (jf_unit M M); [lia|]. by apply j_drop_node.
    + rewrite c_del_hand. apply (jf_unit M M); [lia|]. apply j_drop_tree; sk.
    + apply (jf_unit M M); [lia|]. by apply j_drop_token.
    + apply (jf_unit M M); [lia|]. by apply j_drop_token.
    + rewrite c_del_hand. apply (jf_ret M M); [lia|sk].
    + rewrite c_del_hand. apply (jf_ret M M); [lia|sk].
  - assert (Hi : p i = b) by (apply C; left). rewrite c_hands, c_hlook by done. pose proof (ok_hand M s i H Hi) as Hh. destruct (s_hands s !! i) as [[k x|t|t|t|x|t]|]; norm; cbn [hand_target] in *; try (by apply jf_ill).
    eapply J_bind_id; [by apply (j_nav M)|]. intros [y|] Hy; norm; [|by apply (jf_ret M M)]. apply (jf_hand M (S M)); [lia|]. by apply j_new_hand.
  - assert (Hi : p i = b) by (apply C; left). rewrite c_hands, c_hlook by done. pose proof (ok_hand M s i H Hi) as Hh. destruct (s_hands s !! i) as [[k x|t|t|t|x|t]|]; norm; cbn [hand_target] in *; try (by apply jf_ill).
    eapply J_bind_id; [by apply (j_tree_core M)|]. intros t Ht. by apply jf_add.
  - assert (Hi : p i = b) by (apply C; left). rewrite c_hands, c_hlook by done. pose proof (ok_hand M s i H Hi) as Hh. destruct (s_hands s !! i) as [[k x|t|t|t|x|t]|]; norm; cbn [hand_target] in *; try (by apply jf_ill).
    rewrite c_trees, c_tlook by sk. pose proof (ok_tree M s t H ltac:(sk)) as Ht. destruct (s_trees s !! t) as [tr|]; norm; [|apply J_panic]. apply (jf_hand M (S M)); [lia|]. by apply j_new_hand.
  - assert (Hi : p i = b) by (apply C; left). rewrite c_hands, c_hlook by done. pose proof (ok_hand M s i H Hi) as Hh. destruct (s_hands s !! i) as [[k0 x|t|t|t|x|t]|]; norm; cbn [hand_target] in *; try (by apply jf_ill).
    by apply jf_new_token.
  - assert (Hi : p i = b) by (apply C; left). rewrite c_hands, c_hlook by done. pose proof (ok_hand M s i H Hi) as Hh. destruct (s_hands s !! i) as [[[] x|t|t|t|x|t]|]; norm; cbn [hand_target] in *; try (by apply jf_ill).
    destruct (is_lock_kind k); [|by apply jf_ill]. eapply J_bind; [by apply (j_acquire M)|]. intros [s1|] H1; norm; [by apply jf_exchange|]. apply (jf_unit M M); [lia|]. by apply j_drop_node.
  - assert (Hi : p i = b) by (apply C; left). assert (Hj : p j = b) by (apply C; right; left). rewrite c_hands, !c_hlook by done. pose proof (ok_hand M s i H Hi) as Hh. pose proof (ok_hand M s j H Hj) as Hh2.
    destruct (s_hands s !! i) as [[[] x|t|t|t|x|t]|]; norm; cbn [hand_target] in *; try (by apply jf_ill). destruct (s_hands s !! j) as [[k0 z|t|t|t|z|t]|]; norm; cbn [hand_target] in *; try (by apply jf_ill).
    + eapply J_bind_id; [by apply (j_tree_core M)|]. intros t' Ht'. destruct (decide (t' = t)); [|apply J_panic]. eapply J_bind; [by apply (j_acquire_expect M)|]. intros s1 H1. by apply jf_exchange.
    + eapply J_bind_id; [by apply (j_tree_core M)|]. intros t' Ht'. destruct (decide (t' = t)); [|apply J_panic]. eapply J_bind; [by apply (j_acquire_expect M)|]. intros s1 H1. by apply jf_exchange.
  - assert (Hi : p i = b) by (apply C; left). rewrite c_hands, c_hlook by done. pose proof (ok_hand M s i H Hi) as Hh. destruct (s_hands s !! i) as [[k x|t|t|t|x|t]|]; norm; cbn [hand_target] in *; try (by apply jf_ill).
    destruct (is_lock_kind k); [|by apply jf_ill]. apply (jf_hand M (S M)); [lia|]. by apply j_clone_node.
  - assert (Hi : p i = b) by (apply C; left). rewrite c_hands, c_hlook by done. pose proof (ok_hand M s i H Hi) as Hh. destruct (s_hands s !! i) as [[k x|t|t|t|x|t]|]; norm; cbn [hand_target] in *; try (by apply jf_ill).
    destruct (is_lock_kind k); [|by apply jf_ill]. eapply J_bind_id; [by apply (j_tree_core M)|]. intros t Ht. eapply J_bind; [by apply (jf_new_token M)|]. intros [s1 o1] (M' & L & H1). unfold cts1. cbn [fst snd] in *.
    destruct o1; try apply J_panic; by apply (jf_ret M M').
  - assert (Hi : p i = b) by (apply C; left). rewrite c_hands, c_hlook by done. pose proof (ok_hand M s i H Hi) as Hh. destruct (s_hands s !! i) as [[[] x|t|t|t|x|t]|]; norm; cbn [hand_target] in *; try (by apply jf_ill); by apply jf_add.
  - assert (Hi : p i = b) by (apply C; left). rewrite c_hands, c_hlook by done. pose proof (ok_hand M s i H Hi) as Hh. destruct (s_hands s !! i) as [[k x|t|t|t|x|t]|]; norm; cbn [hand_target] in *; try (by apply jf_ill).
    + rewrite c_nodes, c_alive by sk. destruct (alive (s_nodes s) x); [|by apply (jf_ret M M)]. apply (jf_hand M (S M)); [lia|]. by apply j_new_hand.
    + rewrite c_tree_alive by sk. destruct (tree_alive s t); [by apply jf_add|by apply (jf_ret M M)].
  - apply j_with_auth; [done|done|]. intros k x Hx. apply (jf_out_hand M (S (S M))); [lia|]. by apply j_create.
  - apply j_with_auth; [done|done|]. intros k x Hx. apply (jf_hand M (S (S M))); [lia|]. by apply j_create_ip.
  - apply j_with_auth; [done|done|]. intros k x Hx. apply (jf_hand M (S (S M))); [lia|]. by apply j_create_ic.
  - apply j_with_auth; [done|done|]. intros k x Hx. eapply J_bind; [by apply (j_replace_node M)|]. intros [s1 r] [H1|H1]; cbn [fst] in H1; unfold cts1; cbn [fst snd]; unfold out_of; cbn [fst snd]; [by apply (jf_ret M M)|apply (jf_ret M (S M)); [lia|done]].
  - apply j_with_auth; [done|done|]. intros k x Hx. eapply J_bind; [by apply (j_detach M)|]. intros s1 [H1|H1]; [by apply (jf_ret M M)|apply (jf_ret M (S M)); [lia|done]].
  - assert (Hj : p j = b) by (apply C, elem_of_app; right; left). rewrite c_hands, c_hlook by done. pose proof (ok_hand M s j H Hj) as Hh. destruct (s_hands s !! j) as [[[] y|t|t|t|y|t]|]; norm; cbn [hand_target] in *; try (by apply jf_ill).
    apply j_with_auth; [done|intros i Hi; apply C, elem_of_app; by left|]. intros k x Hx. eapply J_bind; [by apply (j_move M)|]. intros [s1 r] H1. unfold oks1 in H1. cbn [fst] in H1. unfold cts1, out_of. cbn [fst snd]. by apply (jf_ret M M).
  - assert (Hi : p i = b) by (apply C; left). rewrite c_hands, c_hlook by done. pose proof (ok_hand M s i H Hi) as Hh. destruct (s_hands s !! i) as [[k x|t|t|t|x|t]|]; norm; cbn [hand_target] in *; try (by apply jf_ill).
    rewrite c_nodes, c_look by sk. destruct (s_nodes s !! x) as [nd|]; [|apply J_panic]. by apply (jf_ret M M).
  - assert (Hi : p i = b) by (apply C; left). rewrite c_hands, c_hlook by done. pose proof (ok_hand M s i H Hi) as Hh. destruct (s_hands s !! i) as [[k x|t|t|t|x|t]|]; norm; cbn [hand_target] in *; try (by apply jf_ill).
    rewrite c_nodes, c_look by sk. destruct (s_nodes s !! x) as [nd|]; [|apply J_panic]. destruct (negb (n_free nd)); [by apply (jf_ret M M)|]. rewrite c_set_data, c_with_nodes by sk. apply (jf_ret M M); [lia|sk].
  - assert (Hi : p i = b) by (apply C; left). rewrite c_hands, c_hlook by done. pose proof (ok_hand M s i H Hi) as Hh. destruct (s_hands s !! i) as [[k x|t|t|t|x|t]|]; norm; cbn [hand_target] in *; try (by apply jf_ill).
    rewrite c_nodes, c_look by sk. destruct (s_nodes s !! x) as [nd|]; [|apply J_panic]. destruct (lend _ _) as [l|]; [|by apply (jf_ret M M)]. rewrite c_set_lend, c_with_nodes by sk. apply (jf_ret M M); [lia|sk].
Qed.
End Frame.
