(** * Misled3: detaching, or replacing by nothing, the last of several siblings. *)
From Verif Require Import Heap Edit System SysSpec CardFacts HeapFacts SpecFacts NavFacts NavFacts2 EditFacts EditFacts2 EditFacts3 EditFacts4 EditFacts5 IterSpec RoseFacts AdjFacts TravFacts TdFacts TdFacts2 SysFacts SysFacts2 SysFacts3 SysFacts4 SysFacts5 SysFacts6 SysFacts7 SysFacts8 SysFacts9 SysFacts10 SysFacts11 SysFacts12 SysFacts13 SysFacts14 SysFacts15 Misled Misled2 Spec.

Section Misled3.
Context {T : Type}.
Implicit Types (h : heap T) (s g : sys T) (K : forest).

Lemma last_list (ks : list nid) x : last ks = Some x -> head ks <> Some x -> exists f m, ks = f :: m ++ [x].
Proof.
  intros Hl Hh. destruct (list_snoc_inv ks) as [->|(l & a & ->)]; [done|]. rewrite last_snoc in Hl. injection Hl as ->.
  destruct l as [|f m]; [done|]. by exists f, m.
Qed.
Lemma last_unlinked K p f m x : wf K -> K !! p = Some (f :: m ++ [x]) -> unlinked K x (<[p := f :: m]> K).
Proof.
  intros Hw Hp. exists p, (f :: m ++ [x]). split; [done|]. split; [set_solver|]. f_equal. change (f :: m ++ [x]) with ((f :: m) ++ x :: []).
  pose proof (wf_nodup _ Hw _ _ Hp) as Hnd. change (f :: m ++ [x]) with ((f :: m) ++ x :: []) in Hnd.
  apply NoDup_app in Hnd as (_ & Hd & _). rewrite without_split; [by rewrite app_nil_r| |set_solver]. intros Hin. apply (Hd x Hin). left.
Qed.

Lemma last_stray s K i k x t0 p f m h1 : inv s K -> s_hands s !! i = Some (HNode k x) -> tree_of s x = Some t0 -> thawed s (s_hands s) t0 ->
  K !! p = Some (f :: m ++ [x]) -> cut (s_nodes s) p (f :: m) x h1 ->
  exists h', h1 = set_prev h' f (Some x) /\ same_meta (s_nodes s) h' /\ stray (with_nodes s h') (<[p := f :: m]> K) x t0.
Proof.
  intros H Hi Ht Hth Hp C. pose proof (i_s _ _ H) as Hs.
  destruct (cut_rep _ K p f m x h1 (s_rep _ _ Hs) (s_wf _ _ Hs) Hp C) as (h' & Hr & M & E).
  exists h'. split; [done|]. split; [done|]. pose proof (last_unlinked K p f m x (s_wf _ _ Hs) Hp) as Hu.
  exact (unlink_stray s K i k x t0 h' _ H Hi Ht Hth Hu Hr (proj1 (unlinked_wf _ _ _ (s_wf _ _ Hs) Hu)) M).
Qed.

Lemma detach_last s K i k x t0 p f m : inv s K -> s_hands s !! i = Some (HNode k x) -> tree_of s x = Some t0 -> thawed s (s_hands s) t0 ->
  K !! p = Some (f :: m ++ [x]) ->
  exists g t' K', detach_subtree s x = Ret (sp f (Some x) g) /\ rehomed s (<[p := f :: m]> K) x t0 t' g K'.
Proof.
  intros H Hi Ht Hth Hp. pose proof (i_s _ _ H) as Hs.
  destruct (unlink_cut _ K p f m x (s_rep _ _ Hs) (s_wf _ _ Hs) Hp) as (h1 & E & C).
  destruct (last_stray s K i k x t0 p f m h1 H Hi Ht Hth Hp C) as (h' & -> & M & S).
  destruct (shape_exists _ x (p_wf _ _ _ (st_pinv _ _ _ _ S)) (proj1 (st_top _ _ _ _ S))) as [ro Hro].
  destruct (create_new_tree_ok _ _ _ _ [] ro S Hro) as (s1 & g & K' & Es1 & E' & B & M').
  exists g, (s_fresh s), K'. split.
  - unfold detach_subtree. destruct (is_root (s_nodes s) x) eqn:Er.
    + apply (is_root_spec s K x H) in Er; [|by eapply handle_alive]. exfalso. apply (proj2 Er p). exists (f :: m ++ [x]). split; [done|set_solver].
    + rewrite E. cbn [mbind run_bind]. change (with_nodes s (set_prev h' f (Some x))) with (sp f (Some x) (with_nodes s h')).
      rewrite sp_create_new_tree, E'. done.
  - eapply rehomed_relink; [exact M|]. exact (mid_rehomed (with_nodes s h') _ x t0 ro s1 g K' S Hro Es1 B M').
Qed.

Lemma replace_last s K i k x t0 p f m : inv s K -> s_hands s !! i = Some (HNode k x) -> tree_of s x = Some t0 -> thawed s (s_hands s) t0 ->
  K !! p = Some (f :: m ++ [x]) -> K !! x = Some [] ->
  exists g t' K', replace_node s x = Ret (sp f (Some x) g, HOk tt) /\ rehomed s (<[p := f :: m]> K) x t0 t' g K'.
Proof.
  intros H Hi Ht Hth Hp Hx. pose proof (i_s _ _ H) as Hs.
  destruct (replace_cut _ K p f m x (s_rep _ _ Hs) (s_wf _ _ Hs) Hp Hx) as (h1 & E & C).
  destruct (last_stray s K i k x t0 p f m h1 H Hi Ht Hth Hp C) as (h' & -> & M & S).
  destruct (finish_replace _ _ _ _ S) as (s3 & g & t' & K' & E3 & E4 & R).
  exists g, t', K'. split.
  - unfold replace_node. destruct (SysFacts5.handle_tree s K i k x H Hi) as (t1 & tr & A1 & A2 & _ & A4 & _). assert (t1 = t0) as -> by congruence.
    rewrite A4. cbn [mbind run_bind]. rewrite E. cbn [mbind run_bind].
    change (with_nodes s (set_prev h' f (Some x))) with (sp f (Some x) (with_nodes s h')).
    rewrite sp_create_new_tree, E3. unfold rsp. cbn [mbind run_bind]. rewrite sp_drop_tree, E4. done.
  - eapply rehomed_relink; [exact M|exact R].
Qed.

End Misled3.
