(** * PropIter2: the other iterators of a frozen tree while other calls are made (C42).

    [loosely_begins] and [outlasting] (HIter2Spec.v): the method that makes the iterator changes nothing, and then, whatever safe calls ([others]) are made between
    the calls of [next] and [next_back], the items are those of the lists given here, fixed when the iterator was made. *)
From Verif Require Import IterSpec HIter HIter2 HIterSpec HIter2Spec HIter2Facts2 HIter2Facts3 Demo PropMove PropLock Spec.

Notation on_frozen := (fun s i x => s_hands s !! i = Some (HNode Frozen x)).
Notation sib_begins start := (loosely_begins start hss_next hss_next_back hss_owns on_frozen).

(** Children and siblings.  The two ends behave as described by C15_siblings_exact. *)
Theorem C42_children_partial : forall (T : Type) (s : sys T) K i x ks, reach s -> stores s K -> s_hands s !! i = Some (HNode Frozen x) -> K !! x = Some ks ->
  sib_begins (hchildren_stable s i) s ks (rev ks).
Proof. exact @children_begin. Qed.
Print Assumptions C42_children_partial.
Theorem C42_siblings_partial : forall (T : Type) (s : sys T) K i c p l1 l2, reach s -> stores s K -> s_hands s !! i = Some (HNode Frozen c) ->
  K !! p = Some (l1 ++ c :: l2) ->
  sib_begins (hsiblings_stable s i) s (l1 ++ c :: l2) (rev (l1 ++ c :: l2)) /\
  sib_begins (hfollowing_or_self_stable s i) s (c :: l2) (rev (l1 ++ c :: l2)) /\
  sib_begins (hfollowing_stable s i) s l2 (rev (l1 ++ c :: l2)) /\
  sib_begins (hpreceding_or_self_stable s i) s (l1 ++ c :: l2) (c :: rev l1) /\
  sib_begins (hpreceding_stable s i) s (tail (l1 ++ c :: l2)) (c :: rev l1).
Proof. exact @siblings_begin. Qed.
Print Assumptions C42_siblings_partial.
Theorem C42_root_siblings_partial : forall (T : Type) (s : sys T) K i x, reach s -> stores s K -> s_hands s !! i = Some (HNode Frozen x) -> is_top K x ->
  sib_begins (hsiblings_stable s i) s [x] [x] /\ sib_begins (hfollowing_or_self_stable s i) s [x] [x] /\ sib_begins (hfollowing_stable s i) s [] [x] /\
  sib_begins (hpreceding_or_self_stable s i) s [x] [x] /\ sib_begins (hpreceding_stable s i) s [] [x].
Proof. exact @root_siblings_begin. Qed.
Print Assumptions C42_root_siblings_partial.
(** The events of the whole tree [t] with root [r], front and back starting at [x] (see C15_depth_first_exact). *)
Theorem C42_depth_first_partial : forall (T : Type) (s : sys T) K i x r t e1 e2 b1 b2, reach s -> stores s K -> s_hands s !! i = Some (HNode Frozen x) ->
  is_top K r -> shape K r t -> dfs_events t = e1 ++ Open x :: e2 -> dfs_events t = b1 ++ Close x :: b2 ->
  loosely_begins (hsdfs_start s i) hsdfs_next hsdfs_next_back hsdfs_owns (fun s => names s Frozen) s (Open x :: e2) (Close x :: rev b1).
Proof. exact @events_begin. Qed.
Print Assumptions C42_depth_first_partial.
(** Breadth first, from depth [d] on. *)
Theorem C42_breadth_first_partial : forall (T : Type) (s : sys T) K i x t d, reach s -> stores s K -> s_hands s !! i = Some (HNode Frozen x) -> shape K x t ->
  outlasting (hnbf_start s i d) hnbf_next hnbf_owns (fun s p q => s_hands s !! p.1 = Some (HNode Frozen q.1) /\ p.2 = q.2) s (level_order d t) /\
  outlasting (habf_start s i d) habf_next habf_owns (fun s p q => s_hands s !! p.1 = Some (HNode Frozen q.1) /\ p.2 = q.2) s (level_order d t).
Proof. intros T s K i x t d H Hst Hi Hsh. exact (conj (nbf_begin s K i x t d H Hst Hi Hsh) (abf_begin s K i x t d H Hst Hi Hsh)). Qed.
Print Assumptions C42_breadth_first_partial.

(** The tree 22 -> [26] with the frozen handle 29: all kinds of iterators, with an edit of another tree and an attempt to lock this tree for editing in between. *)
Definition between (s : sys nat) : run (sys nat * list (out nat)) := steps s [OpLock Hot 30; OpCreate (ByHot 11) 124 AFirstChild].
Definition ftrav2 : run (sys nat * list (option nat) * list (option (dft nat)) * list (option (nat * nat)) * list (out nat)) :=
  '(s1, st) ← hchildren_stable frozen_demo 29;
  '(s2, r) ← between s1;
  '(s3, a, st2) ← hss_next s2 st;
  '(s4, b, st3) ← hss_next s3 st2;
  '(s5, d1) ← hsdfs_start s4 29;
  '(s6, c1, d2) ← hsdfs_next s5 d1;
  '(s7, r2) ← between s6;
  '(s8, c2, d3) ← hsdfs_next s7 d2;
  '(s9, c3, d4) ← hsdfs_next_back s8 d3;
  '(s10, n1) ← hnbf_start s9 29 0;
  '(s11, e1, n2) ← hnbf_next s10 n1;
  '(s12, r3) ← between s11;
  '(s13, e2, n3) ← hnbf_next s12 n2;
  '(s14, e3, n4) ← hnbf_next s13 n3;
  '(s15, q1) ← habf_start s14 29 1;
  '(s16, f1, q2) ← habf_next s15 q1;
  '(s17, f2, q3) ← habf_next s16 q2;
  Ret (s17, [a; b], [c1; c2; c3], [e1; e2; e3; f1; f2], r ++ r2 ++ r3).
Example C42_more_nonvacuous : reach frozen_demo /\ stores frozen_demo frozenK /\ s_hands frozen_demo !! 29 = Some (HNode Frozen 22) /\
  frozenK !! 22 = Some [26] /\ is_top frozenK 22 /\ shape frozenK 22 (Rose 22 [Rose 26 []]) /\
  dfs_events (Rose 22 [Rose 26 []]) = [] ++ Open 22 :: [Open 26; Close 26; Close 22] /\ dfs_events (Rose 22 [Rose 26 []]) = [Open 22; Open 26; Close 26] ++ Close 22 :: [] /\
  match ftrav2 with
  | Ret (s, l, e, p, r) =>
      (map (fun o => match o with OutLockErr => true | _ => false end) r = [true; false; true; false; true; false]) /\
      (map (option_map (fun i => s_hands s !! i)) l = [Some (Some (HNode Frozen 26)); None]) /\
      (map (option_map (ev_map (fun i => s_hands s !! i))) e = [Some (Open (Some (HNode Frozen 22))); Some (Open (Some (HNode Frozen 26))); Some (Close (Some (HNode Frozen 22)))]) /\
      (map (option_map (fun v => (s_hands s !! fst v, snd v))) p =
       [Some (Some (HNode Frozen 22), 0); Some (Some (HNode Frozen 26), 1); None; Some (Some (HNode Frozen 26), 1); None])
  | _ => False
  end.
Proof.
  split; [exact frozen_reach|]. split; [exact frozen_stores|]. split; [vm_compute; reflexivity|]. split; [vm_compute; reflexivity|]. split.
  { apply top_b_ok; by vm_compute. }
  split; [constructor; [vm_compute; reflexivity|]; constructor; [|constructor]; constructor; [vm_compute; reflexivity|constructor]|].
  split; [done|]. split; [done|]. vm_compute. done.
Qed.
