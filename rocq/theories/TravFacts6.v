(** * TravFacts6: the size hints that are wrong, exactly. *)
From Verif Require Import IterSpec LooseSpec Spec HeapFacts SpecFacts NavFacts NavFacts2 EditFacts2 EditFacts3 RoseFacts AdjFacts IterFacts TravFacts TravFacts2 TravFacts3 TravFacts4 TravFacts5.
From Coq Require Import Lia.

Section Hints.
Context {T : Type}.
Implicit Types (h : heap T) (K : forest).

Lemma link_step h start s l : Pdfs h start s l ->
  exists r s', link_dfs_next h s = Ret (r, s') /\ Pdfs h start s' (tail l).
Proof.
  intros HP. destruct s as [[e st]|]; [|simpl in *; subst l; by exists None, None].
  destruct (Pdfs_step h start _ l HP) as (s' & E & HP'). cbn [link_dfs_next]. cbn [dfs_next] in E.
  destruct HP as (-> & Hh & _ & Hn & Hl). case_decide as Hd.
  - subst e. exists None, None. split; [done|]. pose proof (nodup_head_last l _ Hn Hh Hl). destruct l as [|a [|b l]]; simpl in *; try lia. done.
  - injection E as E1 E2. subst s'. eexists _, _. split; [done|exact HP'].
Qed.
Lemma link_hints_exact h K x ts : rep h K -> wf K -> shape K x (Rose x ts) ->
  forall n, exists s', after (link_dfs_next h) n (dfs_start (Some x)) = Ret s' /\
    bounds (link_dfs_size_hint s') (S (length (Open x :: concat (map dfs_events ts))) - n).
Proof.
  intros Hr Hw Hs n. pose proof (Pdfs_start h K x _ Hr Hw Hs) as HP.
  replace (S (length (Open x :: concat (map dfs_events ts)))) with (length (dfs_events (Rose x ts))) by (cbn; rewrite app_length; cbn; lia).
  revert HP. generalize (dfs_start (Some x)) as s. generalize (dfs_events (Rose x ts)) as l. induction n as [|n IH]; intros l s HP.
  - exists s. split; [done|]. rewrite Nat.sub_0_r. destruct s as [[e st]|]; [|simpl in HP; subst l; split; simpl; lia].
    destruct HP as (-> & Hh & _ & Hn & Hl). destruct e as [y|y]; simpl.
    + split; [|done]. simpl. eapply head_last_ge2; eauto.
    + destruct (decide (y = x)) as [->|Hne].
      * rewrite (nodup_head_last l (Close x)) by done. split; simpl; lia.
      * split; [|done]. simpl. destruct l; [done|]. simpl. lia.
  - destruct (link_step h x s l HP) as (r & s' & E & HP'). destruct (IH _ _ HP') as (s2 & E2 & B). exists s2. cbn [after]. rewrite E. cbn [mbind run_bind].
    split; [exact E2|]. destruct l; simpl in *; [by replace (0 - n) with 0 in B by lia|done].
Qed.

Lemma sh_hint_exact h K max s l : Psh h K max s l ->
  exists b, sh_size_hint s = Ret b /\
    match head l, last l with
    | Some (Open v), Some (Close w) => if decide (v = w) then b = (2, Some 2) else bounds b (length l)
    | _, _ => bounds b (length l)
    end.
Proof.
  intros HP. destruct (sh_hint h K max s l HP) as (b & Eb & H1 & H2). exists b. split; [exact Eb|].
  destruct s as [[e eb]|]; simpl in HP; [|subst l; simpl in *; injection Eb as <-; split; simpl; lia].
  destruct HP as (Hh & Hl & Ha & Hn & _). rewrite Hh, Hl.
  assert (forall e' eb', e = e' -> eb = eb' -> sh_size_hint (Some (e', eb')) = Ret b) as Eb' by (intros ? ? -> ->; exact Eb). clear Eb.
  destruct e as [[x d]|[x d]], eb as [[y d']|[y d']]; specialize (Eb' _ _ eq_refl eq_refl); cbn [sh_size_hint] in Eb'.
  - destruct (decide (x = y)).
    + destruct (bool_decide (d = d')); [|discriminate Eb']. cbn in Eb'. injection Eb' as <-. split; [exact H1|]. simpl in *. destruct H2 as [H2|H2]; [discriminate H2|exact H2].
    + injection Eb' as <-. split; [exact H1|exact Logic.I].
  - destruct (Nat.ltb_spec d' d) as [L|L].
    + injection Eb' as <-. case_decide as E; [injection E as _ E; lia|]. split; [exact H1|exact Logic.I].
    + destruct (Nat.eqb_spec d d') as [->|N].
      * destruct (decide (x = y)) as [->|N]; injection Eb' as <-; [by rewrite decide_True|]. rewrite decide_False by congruence. split; [exact H1|exact Logic.I].
      * injection Eb' as <-. rewrite decide_False by congruence. split; [exact H1|exact Logic.I].
  - destruct (Nat.ltb_spec d' d); [injection Eb' as <-; split; [exact H1|exact Logic.I]|].
    destruct (Nat.eqb_spec d d'); injection Eb' as <-; (split; [exact H1|exact Logic.I]).
  - destruct (decide (x = y)).
    + destruct (bool_decide (d = d')); [|discriminate Eb']. cbn in Eb'. injection Eb' as <-. split; [exact H1|]. simpl in *. destruct H2 as [H2|H2]; [discriminate H2|exact H2].
    + injection Eb' as <-. split; [exact H1|exact Logic.I].
Qed.
Lemma sh_hints_exact h K max x t : rep h K -> wf K -> shape K x t -> forall bs, exists s' b,
  after2 (sh_next h max) (sh_next_back h max) (sh_start (Some x)) bs = Ret s' /\ sh_size_hint s' = Ret b /\
  let l := deque_left (dfs_events (rose_depths 0 (rose_cut max t))) bs in
  match head l, last l with
  | Some (Open v), Some (Close w) => if decide (v = w) then b = (2, Some 2) else bounds b (length l)
  | _, _ => bounds b (length l)
  end.
Proof.
  intros Hr Hw Hs bs. pose proof (Psh_start h K max x t Hr Hw Hs) as HP. revert HP.
  generalize (sh_start (Some x)) as s. generalize (dfs_events (rose_depths 0 (rose_cut max t))) as l.
  induction bs as [|b bs IH]; intros l s HP.
  - destruct (sh_hint_exact h K max s l HP) as (b & Eb & H). exists s, b. done.
  - assert (exists s' r, (if b then sh_next h max s else sh_next_back h max s) = Ret (r, s') /\ Psh h K max s' (if b then tail l else take (length l - 1) l))
      as (s' & r & Es & HP').
    { destruct b.
      - destruct (Psh_next h K max s l Hr Hw HP) as (s' & Es & H'). by exists s', (head l).
      - destruct (Psh_next_back h K max s l Hr Hw HP) as (s' & Es & H'). by exists s', (last l). }
    destruct (IH _ _ HP') as (s2 & hb & E2 & Eb & H). exists s2, hb. cbn [after2]. rewrite Es. cbn [mbind run_bind]. split; [exact E2|]. split; [exact Eb|].
    destruct b; exact H.
Qed.
End Hints.
