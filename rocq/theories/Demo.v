(** * Demo: reading off the forest of a concrete state, and checking that a
    concrete history is one of those of [reach]; used by the non-vacuity examples
    and by the counterexamples. *)
From Verif Require Import Heap Edit System SysSpec HeapFacts SpecFacts NavFacts ApiSpec ApiFacts ApiFacts2 ApiFacts3 Examples Spec.

Section Demo.
Context {T : Type}.
Implicit Types (h : heap T) (s : sys T).

(** Following [next_sibling] from [o]. *)
Fixpoint chain_list (fuel : nat) h (o : option nid) : list nid :=
  match fuel, o with
  | S f, Some x => x :: chain_list f h (fnext h x)
  | _, _ => []
  end.
Definition forest_of h : forest := map_imap (fun (x : nid) nd => Some (chain_list (size h) h (n_first nd))) h.

Lemma chain_list_ok h p pv l : chain h p pv l None -> forall f, length l <= f -> chain_list f h (head l) = l.
Proof.
  revert pv. induction l as [|c l IH]; intros pv H f Hf; [by destruct f|].
  destruct f as [|f]; [simpl in Hf; lia|]. apply chain_cons in H as (_ & _ & H3 & H4). simpl. f_equal.
  assert (fnext h c = head l) as -> by (rewrite H3; exact (hd_or_None l)). apply (IH c); [done|simpl in Hf; lia].
Qed.

Lemma forest_of_ok h K : rep h K -> wf K -> forest_of h = K.
Proof.
  intros Hr Hw. apply map_eq. intros x. unfold forest_of. rewrite map_lookup_imap.
  destruct (h !! x) as [nd|] eqn:E; simpl.
  - assert (is_Some (K !! x)) as [ks Hk] by (apply (rep_dom h K Hr); eauto). rewrite Hk. f_equal.
    assert (n_first nd = head ks) as -> by (pose proof (rep_first h K Hr x ks Hk) as H; unfold ffirst in H; rewrite E in H; exact H).
    apply (chain_list_ok h x (default x (last ks))); [by apply rep_chain with K|].
    assert (NoDup ks) as Hnd by (by eapply wf_nodup).
    rewrite <-size_dom, <-(size_list_to_set (C := gset nid) ks) by done. apply subseteq_size.
    intros c Hc. apply elem_of_list_to_set in Hc. apply elem_of_dom, (rep_dom h K Hr). eapply wf_dom; [done|]. exists ks. eauto.
  - destruct (K !! x) eqn:E2; [|done]. assert (is_Some (h !! x)) as [? ?]; [|congruence]. apply (rep_dom h K Hr). eauto.
Qed.

(** ** Checking [safe] *)
Definition auth_node s (a : auth) : option nid :=
  match a with
  | ByHot i => match s_hands s !! i with Some (HNode Hot x) => Some x | _ => None end
  | ByGrant i _ => match s_hands s !! i with Some (HNode Plain x) => Some x | _ => None end
  end.
Definition lnf_b (K : forest) (x : nid) : bool :=
  existsb (fun kv : nid * list nid => bool_decide (last kv.2 = Some x) && bool_decide (head kv.2 <> Some x)) (map_to_list K).
Definition kid_b (K : forest) (x : nid) : bool :=
  existsb (fun kv : nid * list nid => bool_decide (x ∈ kv.2)) (map_to_list K).
(** [x] does not occur from [y] upwards. *)
Fixpoint not_above (fuel : nat) h (x y : nid) : bool :=
  match fuel with
  | 0 => false
  | S f => bool_decide (x <> y) && match fparent h y with None => true | Some p => not_above f h x p end
  end.
Definition place_b (K : forest) (ad : adopt_as) (y : nid) : bool :=
  match ad with AFirstChild | ALastChild => true | _ => kid_b K y end.
(** No handle but those on [x] itself keeps its tree. *)
Definition alone_b s (x : nid) : bool :=
  forallb (fun ih => match ih.2 with
    | HTree t => bool_decide (tree_of s x <> Some t)
    | HNode _ y => bool_decide (y = x) || bool_decide (tree_of s y <> tree_of s x)
    | _ => true end) (map_to_list (s_hands s)).
Lemma alone_b_ok s K x : alone_b s x = true -> alone s K x.
Proof.
  unfold alone_b. rewrite forallb_forall. intros H t Ht. split.
  - intros i Hi. specialize (H (i, HTree t)). simpl in H. assert (bool_decide (tree_of s x <> Some t) = true) as E.
    { apply H. apply elem_of_list_In, elem_of_map_to_list. exact Hi. }
    by apply bool_decide_eq_true in E.
  - intros i k y Hi Hy. specialize (H (i, HNode k y)). simpl in H.
    assert (bool_decide (y = x) || bool_decide (tree_of s y <> tree_of s x) = true) as E.
    { apply H. apply elem_of_list_In, elem_of_map_to_list. exact Hi. }
    apply orb_true_iff in E as [E|E]; apply bool_decide_eq_true in E; [subst; constructor|congruence].
Qed.
Definition safe_b s (o : op T) : bool :=
  let K := forest_of (s_nodes s) in
  match o with
  | OpDetach a => match auth_node s a with Some x => negb (lnf_b K x) | None => true end
  | OpReplace a => match auth_node s a with Some x => negb (lnf_b K x) || bool_decide (K !! x <> Some []) | None => true end
  | OpMove a ad j =>
      match auth_node s a, s_hands s !! j with
      | Some x, Some (HNode Hot y) =>
          (bool_decide (is_Some (K !! x)) && negb (kid_b K x) && bool_decide (tree_of s x = tree_of s y)) ||
          (kid_b K x && negb (lnf_b K x) && not_above (S (size K)) (s_nodes s) x y && place_b K ad y) ||
          (negb (kid_b K x) && bool_decide (K !! x = Some []) && bool_decide (tree_of s x <> tree_of s y) && alone_b s x && place_b K ad y)
      | _, _ => true
      end
  | _ => true
  end.

Lemma receiver_auth s a k x : receiver s a k x -> auth_node s a = Some x.
Proof. destruct a; simpl; [intros [-> ->]|intros (-> & -> & _)]; done. Qed.
Lemma lnf_b_ok K x : lnf_b K x = false -> ~ last_not_first K x.
Proof.
  intros H (q & ks & H1 & H2 & H3). enough (lnf_b K x = true) by congruence. unfold lnf_b. apply existsb_exists.
  exists (q, ks). split; [apply elem_of_list_In, elem_of_map_to_list; done|]. simpl.
  rewrite !bool_decide_eq_true_2 by done. done.
Qed.
Lemma kid_b_ok K x : kid_b K x = true <-> exists p, child_of K p x.
Proof.
  unfold kid_b. rewrite existsb_exists. split.
  - intros ([p ks] & H1 & H2). apply elem_of_list_In, elem_of_map_to_list in H1. apply bool_decide_eq_true in H2.
    exists p, ks. done.
  - intros (p & ks & H1 & H2). exists (p, ks). split; [apply elem_of_list_In, elem_of_map_to_list; done|].
    apply bool_decide_eq_true. done.
Qed.
Lemma not_above_ok f h K x : rep h K -> forall y, not_above f h x y = true -> ~ below K x y.
Proof.
  intros Hr. induction f as [|f IH]; intros y H; [done|]. simpl in H. apply andb_true_iff in H as [H1 H2].
  apply bool_decide_eq_true in H1. intros Hb. apply below_parent_inv in Hb as [->|(p & Hp & Hb)]; [done|].
  rewrite (fparent_child h K p y Hr Hp) in H2. exact (IH p H2 Hb).
Qed.

Lemma safe_b_ok s K o : stores s K -> safe_b s o = true -> safe s K o.
Proof.
  intros [Hr Hw] H. assert (forest_of (s_nodes s) = K) as EK by (by apply forest_of_ok).
  unfold safe_b in H. rewrite EK in H. destruct o; simpl; try exact Logic.I.
  - intros k x Hx. apply receiver_auth in Hx. rewrite Hx in H. intros Hl. apply orb_true_iff in H as [H|H].
    + apply negb_true_iff in H. by apply lnf_b_ok in H.
    + intros e. by apply bool_decide_eq_true in H.
  - intros k x Hx. apply receiver_auth in Hx. rewrite Hx in H. apply negb_true_iff in H. intros Hl. exfalso. by eapply lnf_b_ok.
  - intros k x y Hx Hy. apply receiver_auth in Hx. rewrite Hx, Hy in H. apply orb_true_iff in H as [H|H]; [apply orb_true_iff in H as [H|H]|].
    + left. apply andb_true_iff in H as [H H3]. apply andb_true_iff in H as [H1 H2].
      apply bool_decide_eq_true in H1, H3. apply negb_true_iff in H2. split; [|done].
      split; [done|]. intros p Hp. enough (kid_b K x = true) by congruence. apply kid_b_ok. eauto.
    + right. left. apply andb_true_iff in H as [H H4]. apply andb_true_iff in H as [H H3]. apply andb_true_iff in H as [H1 H2].
      split; [by apply kid_b_ok|]. split; [apply negb_true_iff in H2; intros Hl; exfalso; by eapply lnf_b_ok|].
      split; [eapply not_above_ok; [exact Hr|exact H3]|]. destruct ad; try exact Logic.I; by apply kid_b_ok.
    + right. right. apply andb_true_iff in H as [H H5]. apply andb_true_iff in H as [H H4]. apply andb_true_iff in H as [H H3]. apply andb_true_iff in H as [H1 H2].
      apply bool_decide_eq_true in H2, H3. apply negb_true_iff in H1. split; [split; [eauto|]|].
      { intros p Hp. enough (kid_b K x = true) by congruence. apply kid_b_ok. eauto. }
      split; [done|]. split; [done|]. split; [by apply alone_b_ok|]. destruct ad; try exact Logic.I; by apply kid_b_ok.
Qed.

Fixpoint safe_steps s (os : list (op T)) : run (sys T * list (out T)) :=
  match os with
  | [] => Ret (s, [])
  | o :: os' =>
      if safe_b s o then
        '(s1, r) ← step s o;
        '(s2, rs) ← safe_steps s1 os';
        Ret (s2, r :: rs)
      else Panic
  end.
Lemma safe_steps_reach os : forall s s' rs, reach s -> safe_steps s os = Ret (s', rs) -> reach s'.
Proof.
  induction os as [|o os IH]; intros s s' rs H E; simpl in E; [congruence|].
  destruct (safe_b s o) eqn:Es; [|done]. destruct (step s o) as [[s1 r]| |] eqn:E1; try done. simpl in E.
  destruct (safe_steps s1 os) as [[s2 rs2]| |] eqn:E2; try done. simpl in E.
  assert (s2 = s') as <- by congruence.
  apply (IH s1 s2 rs2); [|done]. destruct (reach_stores s H) as [K HK].
  eapply reach_step; [exact H|exact HK|by apply safe_b_ok|exact E1].
Qed.

(** The state after a history; meaningful when the history succeeds. *)
Definition after (os : list (op T)) : sys T :=
  match safe_steps init os with Ret (s, _) => s | _ => init end.
Lemma after_reach os : reach (after os).
Proof.
  unfold after. destruct (safe_steps init os) as [[s rs]| |] eqn:E; [|constructor|constructor].
  eapply safe_steps_reach; [constructor|exact E].
Qed.
Lemma after_stores os : stores (after os) (forest_of (s_nodes (after os))).
Proof.
  destruct (reach_stores _ (after_reach os)) as [K HK].
  rewrite (forest_of_ok _ K); [exact HK|apply HK|apply HK].
Qed.

End Demo.

(** ** The standard history: a tree 0 -> [4; 6; 8], 4 -> [10; 12], 8 -> [14] all of
    whose nodes have a hot handle, and a second tree 16 -> [20]. *)
Definition demo_ops : list (op nat) :=
  [ OpNewTree 100; OpBundle Hot 2;
    OpCreate (ByHot 3) 104 ALastChild; OpCreate (ByHot 3) 106 ALastChild; OpCreate (ByHot 3) 108 ALastChild;
    OpCreate (ByHot 5) 110 ALastChild; OpCreate (ByHot 5) 112 ALastChild; OpCreate (ByHot 9) 114 AFirstChild;
    OpNewTree 116; OpBundle Hot 18; OpCreate (ByHot 19) 120 AFirstChild ].
Definition demo : sys nat := after demo_ops.

Lemma demo_reach : reach demo. Proof. apply after_reach. Qed.
Definition demoK : forest := Eval vm_compute in forest_of (s_nodes demo).
Lemma demo_stores : stores demo demoK.
Proof. replace demoK with (forest_of (s_nodes demo)) by (vm_compute; reflexivity). apply after_stores. Qed.
Example demo_shape : demoK !! 0 = Some [4; 6; 8] /\ demoK !! 4 = Some [10; 12] /\ demoK !! 8 = Some [14] /\
  demoK !! 16 = Some [20] /\ size demoK = 9 /\ s_hands demo !! 5 = Some (HNode Hot 4).
Proof. vm_compute. done. Qed.

(** The state after an unrestricted history, and after one more call. *)
Definition ran (os : list (op nat)) : sys nat := match steps init os with Ret (s, _) => s | _ => init end.
Definition outs (os : list (op nat)) : list (out nat) := match steps init os with Ret (_, rs) => rs | _ => [] end.
Lemma ran_ok os : match steps init os with Ret _ => true | _ => false end = true -> steps init os = Ret (ran os, outs os).
Proof. unfold ran, outs. by destruct (steps init os) as [[]| |]. Qed.
Definition nxt (s : sys nat) (o : op nat) : sys nat := match step s o with Ret (s', _) => s' | _ => s end.
Definition nxt_out (s : sys nat) (o : op nat) : out nat := match step s o with Ret (_, r) => r | _ => OutIll end.
Lemma nxt_ok s o r : match step s o with Ret _ => true | _ => false end = true -> nxt_out s o = r -> step s o = Ret (nxt s o, r).
Proof. unfold nxt, nxt_out. destruct (step s o) as [[]| |]; [|done|done]. by intros _ <-. Qed.
