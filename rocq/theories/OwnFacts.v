(** * OwnFacts: the iterators hand over what they return and keep track of the rest. *)
From Verif Require Import HIter HIter2 OwnSpec HeapFacts SysFacts GenSpec GenFacts3 GenFacts5 HIterFacts QueryFacts Spec.

Section OwnFacts.
Context {T : Type}.
Implicit Types (s : sys T) (i j : nat) (a b c f : list nat).

(** ** Rules *)
Lemma ho_refl a s : owned a s -> hands_over a s a s.
Proof. intros [N H]. split; [exact N|]. split; [intros j Hj; split; [by apply H|by left]|]. split; [intros j A B; by destruct A|done]. Qed.
Lemma ho_owned a s b s' : hands_over a s b s' -> owned b s'.
Proof. intros (N & H & _). split; [exact N|]. intros j Hj. by apply H. Qed.
Lemma ho_trans a s b s1 c s2 : hands_over a s b s1 -> hands_over b s1 c s2 -> hands_over a s c s2.
Proof.
  intros (N1 & A1 & D1 & U1) (N2 & A2 & D2 & U2). split; [exact N2|]. split; [|split].
  - intros j Hj. destruct (A2 j Hj) as [L O]. split; [exact L|]. destruct (decide (j ∈ b)) as [Hb|Hb]; [exact (proj2 (A1 j Hb))|].
    destruct O as [O|O]; [by destruct Hb|]. destruct (decide (j ∈ a)) as [Ha|Ha]; [by left|]. right. by rewrite <- (U1 j Hb Ha).
  - intros j Hc Ha. destruct (decide (j ∈ b)) as [Hb|Hb]; [by apply D2|]. rewrite (U2 j Hc Hb). by apply D1.
  - intros j Hc Ha. destruct (decide (j ∈ b)) as [Hb|Hb]; [|by rewrite (U2 j Hc Hb), (U1 j Hb Ha)].
    rewrite (D2 j Hc Hb). destruct (A1 j Hb) as [_ [F|F]]; [by destruct Ha|done].
Qed.
Lemma ho_frame a s b s' f : hands_over a s b s' -> owned (a ++ f) s -> hands_over (a ++ f) s (b ++ f) s'.
Proof.
  intros (N & A & D & U) [Nf Hf]. apply NoDup_app in Nf as (_ & Da & Nf).
  assert (X : forall j, j ∈ f -> j ∉ b /\ j ∉ a).
  { intros j Hj. assert (j ∉ a) as Ha by (intros F; exact (Da j F Hj)). split; [|exact Ha]. intros F. destruct (A j F) as [_ [G|G]]; [exfalso; exact (Ha G)|].
    destruct (Hf j) as [hd E]; [by apply elem_of_app; right|]. rewrite E in G. discriminate G. }
  split; [apply NoDup_app; split; [exact N|]; split; [intros j Hb Hj; exact (proj1 (X j Hj) Hb)|exact Nf]|]. split; [|split].
  - intros j Hj. apply elem_of_app in Hj as [Hj|Hj].
    + destruct (A j Hj) as [L [O|O]]; (split; [exact L|]); [left; by apply elem_of_app; left|by right].
    + destruct (X j Hj) as [Xb Xa]. split; [rewrite (U j Xb Xa); apply Hf; by apply elem_of_app; right|]. left. by apply elem_of_app; right.
  - intros j Hn Hj. apply not_elem_of_app in Hn as [Hb Hnf]. apply elem_of_app in Hj as [Hj|Hj]; [by apply D|by destruct Hnf].
  - intros j Hn Hj. apply not_elem_of_app in Hn as [Hb _]. apply not_elem_of_app in Hj as [Ha _]. by apply U.
Qed.
Lemma ho_perm a s b s' a' b' : a ≡ₚ a' -> b ≡ₚ b' -> hands_over a s b s' -> hands_over a' s b' s'.
Proof.
  intros Ea Eb (N & A & D & U). split; [by rewrite <- Eb|]. split; [|split]; intros j; rewrite <- Ea, <- Eb; [apply A|apply D|apply U].
Qed.
Lemma owned_perm a a' s : a ≡ₚ a' -> owned a s -> owned a' s.
Proof. intros E [N H]. split; [by rewrite <- E|]. intros j. rewrite <- E. apply H. Qed.

(** Reaching [c] in [s'] while owning [a] in [s]. *)
Definition turns a s c s' : Prop := any s' /\ hands_over a s c s'.
Lemma t_done a s c : any s -> owned a s -> a ≡ₚ c -> turns a s c s.
Proof. intros H O E. split; [exact H|]. apply (ho_perm a s a s); [done|exact E|]. by apply ho_refl. Qed.
Lemma t_step f a s a1 b1 s1 c s2 : owned a s -> a ≡ₚ a1 ++ f -> turns a1 s b1 s1 ->
  (any s1 -> owned (b1 ++ f) s1 -> turns (b1 ++ f) s1 c s2) -> turns a s c s2.
Proof.
  intros O E [H1 T1] T2. pose proof (ho_frame a1 s b1 s1 f T1 (owned_perm _ _ _ E O)) as F.
  destruct (T2 H1 (ho_owned _ _ _ _ F)) as [H2 G]. split; [exact H2|]. eapply ho_trans; [|exact G]. by apply (ho_perm (a1 ++ f) s (b1 ++ f) s1).
Qed.
Lemma t_perm a s c c' s' : c ≡ₚ c' -> turns a s c s' -> turns a s c' s'.
Proof. intros E [H F]. split; [exact H|]. by apply (ho_perm a s c s'). Qed.
Lemma t_own a a' s c s' : a ≡ₚ a' -> turns a s c s' -> turns a' s c s'.
Proof. intros E [H F]. split; [exact H|]. by apply (ho_perm a s c s'). Qed.

(** ** Calls *)
Lemma ho_new s s' j hd : s_hands s !! j = None -> s_hands s' = <[j := hd]> (s_hands s) -> hands_over [] s [j] s'.
Proof.
  intros Hj E. split; [apply NoDup_singleton|]. split; [|split].
  - intros k ->%elem_of_list_singleton. rewrite E, lookup_insert. split; [by eexists|by right].
  - intros k _ F. by apply elem_of_nil in F.
  - intros k Hk _. rewrite E, lookup_insert_ne; [done|]. intros ->. apply Hk. by apply elem_of_list_singleton.
Qed.
Lemma ho_same s s' : s_hands s' = s_hands s -> hands_over [] s [] s'.
Proof. intros E. split; [apply NoDup_nil_2|]. split; [intros j F; by apply elem_of_nil in F|]. split; [intros j _ F; by apply elem_of_nil in F|]. intros j _ _. by rewrite E. Qed.
Lemma after_fine s o s' r : any s -> step s o = Ret (s', r) -> any s' /\ hands_after s o s' r.
Proof. intros H E. split; [exact (any_step s o s' r H E)|]. exact (proj2 (proj2 (step_fine s o s' r (any_ok s H) E))). Qed.
Lemma t_nav s v i s' r : any s -> h_nav s v i = Ret (s', r) -> turns [] s (option_list r) s'.
Proof.
  intros H. unfold h_nav. destruct (step s (OpNav v i)) as [[s1 o]| |] eqn:E; [|discriminate|discriminate]. cbn [mbind run_bind].
  destruct (after_fine s _ s1 o H E) as [H1 A]. destruct o as [j| | | | | | |]; try discriminate; intros [= <- <-]; (split; [exact H1|]); simpl in A.
  - destruct A as [Hj [hd A]]. exact (ho_new s s1 j hd Hj A).
  - exact (ho_same s s1 A).
Qed.
Lemma t_nav1 s v i s' j : any s -> h_nav1 s v i = Ret (s', j) -> turns [] s [j] s'.
Proof.
  intros H. unfold h_nav1. destruct (h_nav s v i) as [[s1 o]| |] eqn:E; [|discriminate|discriminate]. cbn [mbind run_bind].
  destruct o as [k|]; [|discriminate]. intros [= <- <-]. exact (t_nav s v i s1 (Some k) H E).
Qed.
Lemma t_clone s i s' j : any s -> h_clone s i = Ret (s', j) -> turns [] s [j] s'.
Proof.
  intros H. unfold h_clone, call_hand. destruct (step s (OpClone i)) as [[s1 o]| |] eqn:E; [|discriminate|discriminate]. cbn [mbind run_bind].
  destruct (after_fine s _ s1 o H E) as [H1 A]. destruct o as [k| | | | | | |]; try discriminate; intros [= <- <-]; (split; [exact H1|]); simpl in A.
  destruct A as [Hj [hd A]]. exact (ho_new s s1 k hd Hj A).
Qed.
Lemma t_drop s i s' : any s -> owned [i] s -> h_drop s i = Ret s' -> turns [i] s [] s'.
Proof.
  intros H [_ Hi]. unfold h_drop, drop_opt. destruct (step s (OpDrop i)) as [[s1 o]| |] eqn:E; [|discriminate|discriminate]. cbn [mbind run_bind]. intros [= <-].
  destruct (after_fine s _ s1 o H E) as [H1 A]. split; [exact H1|].
  destruct (Hi i) as [hd Hh]; [by apply elem_of_list_singleton|].
  assert (o = OutUnit) as ->. { revert E. cbn [step]. rewrite Hh. destruct hd; intros E; repeat lazymatch type of E with (mbind _ ?x) = _ => destruct x as [?| |]; cbn [mbind run_bind] in E; try discriminate E | _ => idtac end; by injection E as _ <-. }
  simpl in A. split; [apply NoDup_nil_2|]. split; [intros j F; by apply elem_of_nil in F|]. split.
  - intros j _ ->%elem_of_list_singleton. rewrite A. apply lookup_delete.
  - intros j _ Hj. rewrite A, lookup_delete_ne; [done|]. intros ->. apply Hj. by apply elem_of_list_singleton.
Qed.
Lemma t_drop_opt s (o : option nat) s' : any s -> owned (option_list o) s -> drop_opt s o = Ret s' -> turns (option_list o) s [] s'.
Proof. destruct o as [i|]; intros H O; [exact (t_drop s i s' H O)|]. intros [= <-]. by apply t_done. Qed.
Lemma t_new a s b s1 c s2 : owned a s -> turns [] s b s1 -> (any s1 -> owned (b ++ a) s1 -> turns (b ++ a) s1 c s2) -> turns a s c s2.
Proof. intros O. apply t_step; done. Qed.
Lemma t_rm f a s i s1 c s2 : any s -> owned a s -> a ≡ₚ i :: f -> h_drop s i = Ret s1 -> (any s1 -> owned f s1 -> turns f s1 c s2) -> turns a s c s2.
Proof.
  intros H O E D N. eapply (t_step f a s [i] []); [exact O|exact E| |exact N]. apply t_drop; [exact H| |exact D].
  destruct (owned_perm _ _ _ E O) as [_ A]. split; [apply NoDup_singleton|]. intros j ->%elem_of_list_singleton. apply A. left.
Qed.
Lemma owned_nil s : owned [] s. Proof. split; [apply NoDup_nil_2|]. intros j F. by apply elem_of_nil in F. Qed.

Ltac bi E p E1 := match type of E with mbind _ ?m = _ => destruct m as [p| |] eqn:E1; [cbn [mbind run_bind] in E|discriminate E|discriminate E] end.

Definition o_ev {I} (v : I -> nat) (r : option I) : list nat := match r with Some e => [v e] | None => [] end.
Lemma t_evnext s (e : dft nat) s' r : any s -> hev_next s e = Ret (s', r) -> turns [] s (o_ev ev_val r) s'.
Proof.
  intros H E. destruct e as [i|i]; simpl in E; bi E p E1; destruct p as [s1 o]; pose proof (t_nav _ _ _ _ _ H E1) as T1.
  - destruct o as [j|]; [injection E as <- <-; exact T1|]. bi E p E2. destruct p as [s2 j]. injection E as <- <-.
    eapply t_new; [apply owned_nil|exact T1|]. intros H1 _. exact (t_clone _ _ _ _ H1 E2).
  - destruct o as [j|]; [injection E as <- <-; exact T1|]. bi E p E2. destruct p as [s2 o]. injection E as <- <-.
    eapply t_new; [apply owned_nil|exact T1|]. intros H1 _. pose proof (t_nav _ _ _ _ _ H1 E2) as T2. by destruct o.
Qed.
Lemma t_evprev s (e : dft nat) s' r : any s -> hev_prev s e = Ret (s', r) -> turns [] s (o_ev ev_val r) s'.
Proof.
  intros H E. destruct e as [i|i]; simpl in E; bi E p E1; destruct p as [s1 o]; pose proof (t_nav _ _ _ _ _ H E1) as T1.
  - destruct o as [j|]; [injection E as <- <-; exact T1|]. bi E p E2. destruct p as [s2 o]. injection E as <- <-.
    eapply t_new; [apply owned_nil|exact T1|]. intros H1 _. pose proof (t_nav _ _ _ _ _ H1 E2) as T2. by destruct o.
  - destruct o as [j|]; [injection E as <- <-; exact T1|]. bi E p E2. destruct p as [s2 j]. injection E as <- <-.
    eapply t_new; [apply owned_nil|exact T1|]. intros H1 _. exact (t_clone _ _ _ _ H1 E2).
Qed.
Lemma t_drops s l s' : any s -> owned l s -> h_drops s l = Ret s' -> turns l s [] s'.
Proof.
  revert s. induction l as [|i l IH]; intros s H O E; [injection E as <-; by apply t_done|]. simpl in E. bi E s1 E1.
  eapply (t_rm l); [exact H|exact O|done|exact E1|]. intros H1 O1. exact (IH s1 H1 O1 E).
Qed.

(** ** Iterators *)
Definition dv (e : dft (nat * nat)) : nat := (ev_val e).1.
Lemma own_dfs_next : passes any (@hdfs_next T) hdfs_owns (fun e => [ev_val e]).
Proof.
  intros s st s' r st' H O E. change (turns (hdfs_owns st) s (o_ev ev_val r ++ hdfs_owns st') s'). destruct st as [[e start]|]; [|injection E as <- <- <-; by apply t_done].
  unfold hdfs_next in E. bi E fi E1. destruct fi.
  - bi E s1 E2. injection E as <- <- <-. eapply (t_rm [ev_val e]); [exact H|exact O|apply Permutation_swap|exact E2|]. intros H1 O1. by apply t_done.
  - bi E p E2. destruct p as [s1 o]. pose proof (t_evnext _ _ _ _ H E2) as T1. destruct o as [e'|].
    + injection E as <- <- <-. eapply t_new; [exact O|exact T1|]. intros H1 O1. apply t_done; [done|done|]. apply Permutation_swap.
    + bi E s2 E3. injection E as <- <- <-. eapply t_new; [exact O|exact T1|]. intros H1 O1.
      eapply (t_rm [ev_val e]); [exact H1|exact O1|apply Permutation_swap|exact E3|]. intros H2 O2. by apply t_done.
Qed.
Lemma own_rdfs_next : passes any (@hrdfs_next T) hdfs_owns (fun e => [ev_val e]).
Proof.
  intros s st s' r st' H O E. change (turns (hdfs_owns st) s (o_ev ev_val r ++ hdfs_owns st') s'). destruct st as [[e start]|]; [|injection E as <- <- <-; by apply t_done].
  unfold hrdfs_next in E. bi E fi E1. destruct fi.
  - bi E s1 E2. injection E as <- <- <-. eapply (t_rm [ev_val e]); [exact H|exact O|apply Permutation_swap|exact E2|]. intros H1 O1. by apply t_done.
  - bi E p E2. destruct p as [s1 o]. pose proof (t_evprev _ _ _ _ H E2) as T1. destruct o as [e'|].
    + injection E as <- <- <-. eapply t_new; [exact O|exact T1|]. intros H1 O1. apply t_done; [done|done|]. apply Permutation_swap.
    + bi E s2 E3. injection E as <- <- <-. eapply t_new; [exact O|exact T1|]. intros H1 O1.
      eapply (t_rm [ev_val e]); [exact H1|exact O1|apply Permutation_swap|exact E3|]. intros H2 O2. by apply t_done.
Qed.
Lemma own_sib_next v : passes any (@hsib_next T v) hsib_owns (fun i => [i]).
Proof.
  intros s st s' r st' H O E. destruct st as [i|]; [|injection E as <- <- <-; by apply t_done]. unfold hsib_next in E. bi E p E1. destruct p as [s1 o].
  injection E as <- <- <-. eapply t_new; [exact O|exact (t_nav _ _ _ _ _ H E1)|]. intros H1 O1. apply t_done; [done|done|]. apply Permutation_app_comm.
Qed.
Lemma own_pair_next {I} (g : sys T -> I -> run (sys T * option I)) v :
  (forall s e s' r, any s -> g s e = Ret (s', r) -> turns [] s (o_ev v r) s') -> passes any (hpair_next g v) (hpair_owns v) (fun e => [v e]).
Proof.
  intros G s st s' r st' H O E. change (turns (hpair_owns v st) s (o_ev v r ++ hpair_owns v st') s'). destruct st as [[x y]|]; [|injection E as <- <- <-; by apply t_done].
  unfold hpair_next in E. bi E p E1. destruct p as [s1 o]. pose proof (G _ _ _ _ H E1) as T1. destruct o as [x'|].
  - injection E as <- <- <-. eapply t_new; [exact O|exact T1|]. intros H1 O1. apply t_done; [done|done|]. apply Permutation_swap.
  - bi E s2 E2. injection E as <- <- <-. eapply t_new; [exact O|exact T1|]. intros H1 O1.
    eapply (t_rm [v x]); [exact H1|exact O1|apply Permutation_swap|exact E2|]. intros H2 O2. by apply t_done.
Qed.
Lemma own_pair_back {I} (g : sys T -> I -> run (sys T * option I)) v :
  (forall s e s' r, any s -> g s e = Ret (s', r) -> turns [] s (o_ev v r) s') -> passes any (hpair_back g v) (hpair_owns v) (fun e => [v e]).
Proof.
  intros G s st s' r st' H O E. change (turns (hpair_owns v st) s (o_ev v r ++ hpair_owns v st') s'). destruct st as [[x y]|]; [|injection E as <- <- <-; by apply t_done].
  unfold hpair_back in E. bi E p E1. destruct p as [s1 o]. pose proof (G _ _ _ _ H E1) as T1. destruct o as [y'|].
  - injection E as <- <- <-. eapply t_new; [exact O|exact T1|]. intros H1 O1. apply t_done; [done|done|]. simpl.
    exact (Permutation_rev [v y'; v x; v y]).
  - bi E s2 E2. injection E as <- <- <-. eapply t_new; [exact O|exact T1|]. intros H1 O1.
    eapply (t_rm [v y]); [exact H1|exact O1|apply Permutation_refl|exact E2|]. intros H2 O2. by apply t_done.
Qed.
Lemma nav_ev s v i s' r : any s -> h_nav s v i = Ret (s', r) -> turns [] s (o_ev hss_val r) s'.
Proof. intros H E. pose proof (t_nav _ _ _ _ _ H E) as X. by destruct r. Qed.
Lemma own_ss_next : passes any (@hss_next T) hss_owns (fun i => [i]).
Proof. apply (own_pair_next _ hss_val). intros s e s' r. apply nav_ev. Qed.
Lemma own_ss_back : passes any (@hss_next_back T) hss_owns (fun i => [i]).
Proof. apply (own_pair_back _ hss_val). intros s e s' r. apply nav_ev. Qed.
Lemma own_sdfs_next : passes any (@hsdfs_next T) hsdfs_owns (fun e => [ev_val e]).
Proof. apply own_pair_next. apply t_evnext. Qed.
Lemma own_sdfs_back : passes any (@hsdfs_next_back T) hsdfs_owns (fun e => [ev_val e]).
Proof. apply own_pair_back. apply t_evprev. Qed.

Lemma t_shforward s max e eb s' r : any s -> hsh_forward s max e eb = Ret (s', r) -> turns [] s (o_ev dv r) s'.
Proof.
  intros H E. unfold hsh_forward in E. bi E same E1. destruct same; [injection E as <- <-; apply t_done; [done|apply owned_nil|done]|].
  destruct e as [[i d]|[i d]].
  - destruct (decide (max = Some d)).
    + bi E p E2. destruct p as [s1 j]. injection E as <- <-. exact (t_clone _ _ _ _ H E2).
    + bi E p E2. destruct p as [s1 o]. pose proof (t_nav _ _ _ _ _ H E2) as T1. destruct o as [j|]; [injection E as <- <-; exact T1|].
      bi E p E3. destruct p as [s2 j]. injection E as <- <-. eapply t_new; [apply owned_nil|exact T1|]. intros H1 _. exact (t_clone _ _ _ _ H1 E3).
  - bi E p E2. destruct p as [s1 o]. pose proof (t_nav _ _ _ _ _ H E2) as T1. destruct o as [j|]; [injection E as <- <-; exact T1|].
    bi E p E3. destruct p as [s2 o]. eapply t_new; [apply owned_nil|exact T1|]. intros H1 _. pose proof (t_nav _ _ _ _ _ H1 E3) as T2.
    destruct o as [q|]; [|injection E as <- <-; exact T2]. destruct d as [|d]; [discriminate E|]. injection E as <- <-. exact T2.
Qed.
Lemma t_shbackward s max e eb s' r : any s -> hsh_backward s max e eb = Ret (s', r) -> turns [] s (o_ev dv r) s'.
Proof.
  intros H E. unfold hsh_backward in E. bi E same E1. destruct same; [injection E as <- <-; apply t_done; [done|apply owned_nil|done]|].
  destruct eb as [[i d]|[i d]].
  - bi E p E2. destruct p as [s1 o]. pose proof (t_nav _ _ _ _ _ H E2) as T1. destruct o as [j|]; [injection E as <- <-; exact T1|].
    bi E p E3. destruct p as [s2 o]. eapply t_new; [apply owned_nil|exact T1|]. intros H1 _. pose proof (t_nav _ _ _ _ _ H1 E3) as T2.
    destruct o as [q|]; [|injection E as <- <-; exact T2]. destruct d as [|d]; [discriminate E|]. injection E as <- <-. exact T2.
  - destruct (decide (max = Some d)).
    + bi E p E2. destruct p as [s1 j]. injection E as <- <-. exact (t_clone _ _ _ _ H E2).
    + bi E p E2. destruct p as [s1 o]. pose proof (t_nav _ _ _ _ _ H E2) as T1. destruct o as [j|]; [injection E as <- <-; exact T1|].
      bi E p E3. destruct p as [s2 j]. injection E as <- <-. eapply t_new; [apply owned_nil|exact T1|]. intros H1 _. exact (t_clone _ _ _ _ H1 E3).
Qed.
Lemma own_sh_next max : passes any (@hsh_next T max) hsh_owns (fun e => [(ev_val e).1]).
Proof.
  intros s st s' r st' H O E. change (turns (hsh_owns st) s (o_ev dv r ++ hsh_owns st') s'). destruct st as [[x y]|]; [|injection E as <- <- <-; by apply t_done].
  unfold hsh_next in E. bi E p E1. destruct p as [s1 o]. pose proof (t_shforward _ _ _ _ _ _ H E1) as T1. destruct o as [x'|].
  - injection E as <- <- <-. eapply t_new; [exact O|exact T1|]. intros H1 O1. apply t_done; [done|done|]. apply Permutation_swap.
  - bi E s2 E2. injection E as <- <- <-. eapply t_new; [exact O|exact T1|]. intros H1 O1.
    eapply (t_rm [dv x]); [exact H1|exact O1|apply Permutation_swap|exact E2|]. intros H2 O2. by apply t_done.
Qed.
Lemma own_sh_back max : passes any (@hsh_next_back T max) hsh_owns (fun e => [(ev_val e).1]).
Proof.
  intros s st s' r st' H O E. change (turns (hsh_owns st) s (o_ev dv r ++ hsh_owns st') s'). destruct st as [[x y]|]; [|injection E as <- <- <-; by apply t_done].
  unfold hsh_next_back in E. bi E p E1. destruct p as [s1 o]. pose proof (t_shbackward _ _ _ _ _ _ H E1) as T1. destruct o as [y'|].
  - injection E as <- <- <-. eapply t_new; [exact O|exact T1|]. intros H1 O1. apply t_done; [done|done|]. simpl.
    exact (Permutation_rev [dv y'; dv x; dv y]).
  - bi E s2 E2. injection E as <- <- <-. eapply t_new; [exact O|exact T1|]. intros H1 O1.
    eapply (t_rm [dv y]); [exact H1|exact O1|apply Permutation_refl|exact E2|]. intros H2 O2. by apply t_done.
Qed.
End OwnFacts.
