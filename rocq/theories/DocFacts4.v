(** * DocFacts4: the calls that leave a misled link behind do the same to documents: the events of a forward
    traversal do not depend on that link. *)
From Verif Require Import Heap Traverse System SysSpec SpecFacts RoseFacts IterSpec IterFacts TravFacts ApiSpec ApiFacts ApiFacts2 ApiFacts3 ApiFacts6 MisledSpec Misled8 MoveFacts DocSpec EditFacts2 DocFacts DocFacts2 DocFacts3 Spec.

Section DocFacts4.
Context {T : Type}.
Implicit Types (s g : sys T) (K : forest).

Lemma misled_alive g f x s' y : misled g f x s' -> is_Some (s_nodes s' !! y) <-> is_Some (s_nodes g !! y).
Proof.
  intros M. destruct (decide (y = f)) as [->|Hne]; [|by rewrite (ml_rest _ _ _ _ M y Hne)]. rewrite (ml_node _ _ _ _ M). destruct (s_nodes g !! f); cbn; split; intros H; try done; by eexists.
Qed.
Lemma misled_next g f x s' e : misled g f x s' -> dft_next (s_nodes s') e = dft_next (s_nodes g) e.
Proof.
  intros M. assert (Al : forall y, alive (s_nodes s') y = alive (s_nodes g) y).
  { intros y. unfold alive. pose proof (misled_alive g f x s' y M) as H. destruct (s_nodes s' !! y), (s_nodes g !! y); try done; exfalso; [by destruct (proj1 H ltac:(by eexists))|by destruct (proj2 H ltac:(by eexists))]. }
  assert (Fi : forall y, ffirst (s_nodes s') y = ffirst (s_nodes g) y /\ fnext (s_nodes s') y = fnext (s_nodes g) y /\ fparent (s_nodes s') y = fparent (s_nodes g) y).
  { intros y. unfold ffirst, fnext, fparent. destruct (decide (y = f)) as [->|Hne]; [|by rewrite (ml_rest _ _ _ _ M y Hne)]. rewrite (ml_node _ _ _ _ M). by destruct (s_nodes g !! f). }
  destruct e as [y|y]; cbn [dft_next]; unfold first_child_link, next_sibling_link, parent_link; destruct (Fi y) as (E1 & E2 & E3); rewrite ?E1, ?E2, ?E3; [done|].
  unfold upgrade. destruct (fnext (s_nodes g) y); [done|]. destruct (fparent (s_nodes g) y) as [p|]; [|done]. pose proof (Al p) as Ap. unfold alive in Ap. rewrite ?Al.
  destruct (s_nodes s' !! p), (s_nodes g !! p); done.
Qed.
Lemma misled_reads g f x s' r E : misled g f x s' -> reads g r E -> reads s' r E.
Proof.
  intros M H n. rewrite <- (H n). clear H. generalize (dfs_start (Some r)). induction n as [|n IH]; intros st; [done|]. cbn [calls].
  assert (En : dfs_next (s_nodes s') st = dfs_next (s_nodes g) st). { destruct st as [[e st]|]; [|done]. cbn [dfs_next]. by rewrite (misled_next g f x s' e M). }
  rewrite En. destruct (dfs_next (s_nodes g) st) as [[o st']| |]; [|done..]. cbn. by rewrite IH.
Qed.

(** [x] is the last of several siblings: the row of its parent. *)
Lemma last_row K x : wf K -> last_not_first K x -> exists p f m, K !! p = Some (f :: m ++ [x]) /\ unlinked K x (<[p := f :: m]> K).
Proof.
  intros W (p & ks & Hp & Hl & Hh). apply last_Some in Hl as [l ->]. destruct l as [|f m]; [done|]. exists p, f, m. split; [done|].
  exists p, (f :: m ++ [x]). split; [done|]. split; [set_solver|].
  pose proof (wf_nodup _ W _ _ Hp) as N. assert (Hf : x ∉ f :: m). { apply (NoDup_app (f :: m)) in N as (_ & N & _). intros F. apply (N _ F). apply elem_of_list_here. }
  f_equal. pose proof (without_split x (f :: m) [] Hf (not_elem_of_nil x)) as E. rewrite app_nil_r in E. by symmetry.
Qed.
Lemma lnf_cases K x : wf K -> is_Some (K !! x) -> last_not_first K x \/ ~ last_not_first K x.
Proof.
  intros W Hx. destruct (top_or K x Hx) as [Ht|(p & ks & Hp & Hin)].
  - right. intros (q & ks & Hq & Hl & _). apply (proj2 Ht q). exists ks. split; [done|]. apply last_Some in Hl as [l ->]. apply elem_of_app. right. apply elem_of_list_here.
  - destruct (decide (last ks = Some x)) as [Hl|Hl]; [destruct (decide (head ks = Some x)) as [Hh|Hh]|].
    + right. intros (q & ks' & Hq & Hl' & Hh'). assert (q = p) as -> by (eapply (wf_uniq _ W _ _ x); [exists ks'; split; [done|]; by eapply last_Some_elem_of|by exists ks]). congruence.
    + left. by exists p, ks.
    + right. intros (q & ks' & Hq & Hl' & Hh'). assert (q = p) as -> by (eapply (wf_uniq _ W _ _ x); [exists ks'; split; [done|]; by eapply last_Some_elem_of|by exists ks]). congruence.
Qed.

Lemma doc_detach_any s a k x : reach s -> receiver s a k x ->
  exists s', step s (OpDetach a) = Ret (s', OutUnit) /\
  forall r E, is_Some (s_nodes s !! r) -> is_Some (s_nodes s' !! r) -> reads s r E -> exists E', cut x E E' /\ reads s' r E'.
Proof.
  intros R Hr. destruct (reach_stores s R) as [K S]. pose proof (reach_stores_inv s K R S) as I. destruct (receiver_facts s K a k x I Hr) as (_ & _ & _ & _ & _ & _ & Hx & _).
  pose proof (alive_K s K x S Hx) as HxK. destruct (lnf_cases K x (proj2 S) HxK) as [Hl|Hl].
  - destruct (last_row K x (proj2 S) Hl) as (p & f & m & Hp & Hu). destruct (detach_exact s K a k x p f m R S Hr Hp) as (s' & g & t & t' & K2 & Es & _ & Sp & _ & M & _).
    exists s'. split; [done|]. intros r E Ha Ha' HE. apply (reads_docs s K) in HE; [|done..]. apply (misled_alive _ _ _ _ r M) in Ha'.
    destruct (cut_docs K r E x _ (proj2 S) HE Hu) as (E' & Cu & D). exists E'. split; [done|]. eapply misled_reads; [exact M|].
    pose proof (sp_stores _ _ _ _ _ _ _ Sp) as S'. eapply docs_reads; [exact S'|]. eapply docs_less; [exact D|exact (proj2 S')|by eapply alive_K|].
    exact (carries_less _ _ _ _ _ _ _ (sp_carries _ _ _ _ _ _ _ Sp)).
  - apply (doc_detach s K a k x R S Hr). intros k' x' Hr' Hl'. destruct (receiver_unique _ _ _ _ _ _ Hr Hr') as [-> ->]. done.
Qed.

Lemma doc_replace_any s a k x s' : reach s -> receiver s a k x -> step s (OpReplace a) = Ret (s', OutUnit) ->
  forall r E, is_Some (s_nodes s !! r) -> is_Some (s_nodes s' !! r) -> reads s r E -> exists E', unwrapped x E E' /\ reads s' r E'.
Proof.
  intros R Hr Es r E Ha Ha' HE. destruct (reach_stores s R) as [K S]. pose proof (reach_stores_inv s K R S) as I. destruct (receiver_facts s K a k x I Hr) as (_ & _ & _ & _ & _ & _ & Hx & _).
  pose proof (alive_K s K x S Hx) as HxK. pose proof HxK as [cs Hc]. destruct (lnf_cases K x (proj2 S) HxK) as [Hl|Hl]; [destruct cs as [|c cs]|].
  - destruct (last_row K x (proj2 S) Hl) as (p & f & m & Hp & Hu). destruct (replace_exact s K a k x p f m R S Hr Hp Hc) as (s1 & g & t & t' & K2 & E1 & _ & Sp & M & _).
    rewrite Es in E1. injection E1 as <-. apply (reads_docs s K) in HE; [|done..]. apply (misled_alive _ _ _ _ r M) in Ha'.
    assert (Hin : x ∈ f :: m ++ [x]) by set_solver.
    destruct (unwrap_docs K r E x p _ [] (proj2 S) HE Hc Hp Hin) as (E' & U & D). exists E'. split; [done|]. eapply misled_reads; [exact M|].
    assert (D2 : docs (<[p := f :: m]> K) [r] E').
    { eapply docs_agree; [exact D|]. intros z _. rewrite (splice_last K p f m x (proj2 S) Hp). pose proof (row_ne _ _ _ _ (proj2 S) Hp Hin) as Hxp.
      destruct (decide (z = x)) as [->|Hzx]; [rewrite lookup_insert, lookup_insert_ne by done; exact Hc|]. by rewrite (lookup_insert_ne _ x z) by done. }
    pose proof (sp_stores _ _ _ _ _ _ _ Sp) as S'. eapply docs_reads; [exact S'|]. eapply docs_less; [exact D2|exact (proj2 S')|by eapply alive_K|].
    exact (carries_less _ _ _ _ _ _ _ (sp_carries _ _ _ _ _ _ _ Sp)).
  - eapply doc_replace; [exact R|exact S|exact Hr| |exact Es|done..]. intros k' x' Hr' Hl' F. destruct (receiver_unique _ _ _ _ _ _ Hr Hr') as [-> ->]. congruence.
  - eapply doc_replace; [exact R|exact S|exact Hr| |exact Es|done..]. intros k' x' Hr' Hl' F. destruct (receiver_unique _ _ _ _ _ _ Hr Hr') as [-> ->]. done.
Qed.

Lemma doc_move_any s K a k x ad j y : reach s -> stores s K -> receiver s a k x -> s_hands s !! j = Some (HNode Hot y) ->
  (exists p, child_of K p x) -> ~ below K x y -> has_place K ad y -> ~ stays_last K x ad y ->
  exists s', step s (OpMove a ad j) = Ret (s', OutUnit) /\ moves_doc s x ad y s'.
Proof.
  intros R St Hr Hj Hpar Hnb Hpl Hst. pose proof (reach_stores_inv s K R St) as I. destruct (receiver_facts s K a k x I Hr) as (_ & _ & _ & _ & _ & _ & Hx & _).
  pose proof (alive_K s K x St Hx) as HxK. destruct (lnf_cases K x (proj2 St) HxK) as [Hl|Hl]; [|by eapply doc_move].
  destruct (last_row K x (proj2 St) Hl) as (p & f & m & Hp & Hu).
  assert (Mis : forall g f' s', misled g f' x s' -> moves_doc s x ad y g -> moves_doc s x ad y s').
  { intros g f' s' M H S HS. destruct (H S HS) as [H1 H2]. split; [by eapply misled_reads|]. intros r E Ha Ha' HE. apply (misled_alive _ _ _ _ r M) in Ha'.
    destruct (H2 r E Ha Ha' HE) as (E1 & E' & ? & ? & ?). exists E1, E'. split; [done|]. split; [done|]. by eapply misled_reads. }
  destruct (decide (tree_of s x = tree_of s y)) as [Ht|Ht].
  - destruct (move_same_exact s K a k x ad j y p f m R St Hr Hj Hp Ht Hnb Hpl) as (K' & ks' & (K1 & Hu' & At) & Hk & Hsh & C).
    destruct C as (s' & g & f' & Es & _ & Re & M & _).
    { intros F. apply Hst. exists p, f, m. split; [done|]. eapply (last_place_dest K x ad y K' p f m ks'); [exact (proj2 St)|done|by exists K1|done..]. }
    exists s'. split; [done|]. eapply Mis; [exact M|]. apply (moves_doc_intro s K x ad y K1 K' K'); [done..|exact (re_stores _ _ _ Re)|done].
  - destruct (move_other_exact s K a k x ad j y p f m R St Hr Hj Hp Ht Hpl) as (s' & g & t & t' & K2 & K3 & Es & _ & _ & Ca & At & S3 & Hsh & M & _).
    exists s'. split; [done|]. eapply Mis; [exact M|]. destruct (attached_more _ K2 x _ K3 At (carries_less _ _ _ _ _ _ _ Ca)) as (K3' & At' & Hless).
    by apply (moves_doc_intro s K x ad y (<[p := f :: m]> K) K3 K3').
Qed.
End DocFacts4.

(** A traversal that was run to its end. *)
Fixpoint run_dfs {T} (h : heap T) (st : dfs_state) (l : doc) : bool :=
  match st, l with
  | None, [] => true
  | Some (e, start), e' :: l' => bool_decide (e = e') && run_dfs h (if decide (e = Close start) then None else option_map (fun e2 => (e2, start)) (dft_next h e)) l'
  | _, _ => false
  end.
Lemma run_enumerates_st {T} (h : heap T) l : forall st, run_dfs h st l = true -> enumerates (dfs_next h) st l.
Proof.
  induction l as [|e l IH]; intros [[e1 start]|] H; cbn [run_dfs] in H; try done.
  - by apply enumerates_nil.
  - apply andb_true_iff in H as [H1 H2]. apply bool_decide_eq_true in H1 as ->. eapply enumerates_cons; [reflexivity|by apply IH].
Qed.
Lemma run_enumerates {T} (h : heap T) r l : run_dfs h (dfs_start (Some r)) l = true -> enumerates (dfs_next h) (dfs_start (Some r)) l.
Proof. apply run_enumerates_st. Qed.

(** ** The descriptions in DocSpec.v determine the new document *)
Lemma open_in x (A M B : doc) : Open x ∈ A ++ Open x :: M ++ Close x :: B.
Proof. apply elem_of_app. right. apply elem_of_list_here. Qed.
Ltac det1 N := repeat match goal with
  | H : inside ?E ?x _ _ _, F : not_inside ?E ?x |- _ => destruct (F _ _ _ H)
  | H : inside _ _ _ _ _ |- _ => destruct H as [H ?]
  end; subst;
  repeat match goal with
  | H : ?E = ?F |- _ => let P := fresh in pose proof (doc_at _ _ _ _ _ _ _ N H) as P; destruct P as (-> & -> & ->); clear H
  end.
Lemma cut_det x E E1 E2 : NoDup E -> cut x E E1 -> cut x E E2 -> E1 = E2.
Proof. intros N [A M B H|H] H2; destruct H2 as [A2 M2 B2 H2|H2]; det1 N; done. Qed.
Lemma wrapped_det n x E E1 E2 : NoDup E -> wrapped n x E E1 -> wrapped n x E E2 -> E1 = E2.
Proof. intros N [A M B H|H] H2; destruct H2 as [A2 M2 B2 H2|H2]; det1 N; done. Qed.
Lemma lined_det n x E E1 E2 : NoDup E -> lined n x E E1 -> lined n x E E2 -> E1 = E2.
Proof.
  intros N [A M B H|H] H2; destruct H2 as [A2 M2 B2 H2|H2]; [det1 N; done|subst; exfalso; eauto using open_in..|done].
Qed.
Lemma unwrapped_det x E E1 E2 : NoDup E -> unwrapped x E E1 -> unwrapped x E E2 -> E1 = E2.
Proof.
  assert (R : forall A M B M2, NoDup (A ++ Open x :: M ++ Close x :: B) -> inside (A ++ Open x :: M ++ Close x :: B) x A M B -> A ++ Open x :: M ++ Close x :: B = Open x :: M2 ++ [Close x] -> False).
  { intros A M B M2 N [_ HA] H. destruct (doc_at x A M B [] M2 [] N H) as [<- _]. done. }
  intros N [A M B H|M H|H] H2; destruct H2 as [A2 M2 B2 H2|M2 H2|H2]; try done.
  - det1 N. done.
  - exfalso. pose proof H as [-> _]. by eapply R.
  - exfalso. destruct H as [-> _]. eauto using open_in.
  - exfalso. pose proof H2 as [-> _]. by eapply R.
  - exfalso. subst. apply H2. apply elem_of_list_here.
  - exfalso. destruct H2 as [-> _]. eauto using open_in.
  - exfalso. subst. apply H. apply elem_of_list_here.
Qed.
Lemma pasted_det S y E ad E1 E2 : NoDup E -> pasted S y E ad E1 -> pasted S y E ad E2 -> E1 = E2.
Proof.
  intros N H1 H2.
  destruct H1 as [A M B H|A M B H|A M B H|A M B H|ad D H|ad D H];
    (inversion H2 as [A2 M2 B2 H'|A2 M2 B2 H'|A2 M2 B2 H'|A2 M2 B2 H'|ad2 D' H'|ad2 D' H']; subst; try done).
  all: try (by det1 N).
  all: try (destruct D as [?|?]; discriminate).
  all: try (destruct D' as [?|?]; discriminate).
  all: try (destruct D as [?|?]; destruct D' as [?|?]; subst; discriminate).
  all: exfalso; eauto using open_in.
Qed.
Lemma reads_nodup_any {T} (s : sys T) r E : reach s -> is_Some (s_nodes s !! r) -> reads s r E -> NoDup E.
Proof. intros R Hr H. destruct (reach_stores s R) as [K HK]. eapply docs_nodup; [exact (proj2 HK)|]. by eapply reads_docs. Qed.
Lemma cut_nodup x E E1 : NoDup E -> cut x E E1 -> NoDup E1.
Proof.
  intros N [A M B [-> _]|_]; [|done]. apply NoDup_app in N as (N1 & N2 & N3). apply NoDup_cons in N3 as [_ N3].
  apply NoDup_app in N3 as (_ & _ & N3). apply NoDup_cons in N3 as [_ N3]. apply NoDup_app. split; [done|]. split; [|done].
  intros z Hz Hb. apply (N2 z Hz). apply elem_of_list_further. apply elem_of_app. right. by apply elem_of_list_further.
Qed.
Lemma doc_determined {T} (s : sys T) r E : reach s -> is_Some (s_nodes s !! r) -> reads s r E ->
  (forall S y ad E1 E2, pasted S y E ad E1 -> pasted S y E ad E2 -> E1 = E2) /\
  (forall n x E1 E2, wrapped n x E E1 -> wrapped n x E E2 -> E1 = E2) /\
  (forall n x E1 E2, lined n x E E1 -> lined n x E E2 -> E1 = E2) /\
  (forall x E1 E2, unwrapped x E E1 -> unwrapped x E E2 -> E1 = E2) /\
  (forall x E1 E2, cut x E E1 -> cut x E E2 -> E1 = E2) /\
  (forall x S y ad Ea Eb E1 E2, cut x E Ea -> pasted S y Ea ad E1 -> cut x E Eb -> pasted S y Eb ad E2 -> E1 = E2).
Proof.
  intros R Hr H. pose proof (reads_nodup_any s r E R Hr H) as N. split_and!; intros.
  - by eapply pasted_det.
  - by eapply wrapped_det.
  - by eapply lined_det.
  - by eapply unwrapped_det.
  - by eapply cut_det.
  - assert (Ea = Eb) as <- by (by eapply cut_det). eapply pasted_det; [|done..]. by eapply cut_nodup.
Qed.
