(** * DepthFacts7: no call in a reachable state nests destructors. *)
From Verif Require Import Heap Edit System SysSpec ApiSpec CardFacts HeapFacts SpecFacts NavFacts NavFacts2 EditFacts EditFacts2 EditFacts3 EditFacts4 EditFacts5 IterSpec RoseFacts AdjFacts TravFacts TdFacts TdFacts2 SysFacts SysFacts2 SysFacts3 SysFacts4 SysFacts5 SysFacts6 SysFacts7 SysFacts8 SysFacts9 SysFacts10 SysFacts11 SysFacts12 SysFacts13 SysFacts14 SysFacts15 Misled Misled2 Misled3 ApiFacts ApiFacts2 Depth DepthFacts DepthFacts2 DepthFacts3 DepthFacts4 DepthFacts5 DepthFacts6 Spec.

Section DepthFacts7.
Context {T : Type}.
Implicit Types (h : heap T) (s : sys T) (hm : gmap nat handle).

Lemma upto_with s K a f g : inv s K -> (forall k x, receiver s a k x -> f k x = g k x) -> with_auth s a f = with_auth s a g.
Proof.
  intros H Hf. unfold with_auth. destruct a as [i|i gr].
  - destruct (s_hands s !! i) as [[[] x| | | | |]|] eqn:Hi; try reflexivity. apply Hf. done.
  - destruct (s_hands s !! i) as [[[] x| | | | |]|] eqn:Hi; try reflexivity.
    destruct (s_hands s !! gr) as [[| |t| | |]|] eqn:Hg; try reflexivity.
    destruct (SysFacts5.handle_tree s K i Plain x H Hi) as (t1 & tr & A1 & A2 & _ & A4 & _). rewrite A4. cbn [mbind run_bind].
    destruct (decide (t1 = t)) as [->|]; [|reflexivity]. apply Hf. simpl. eauto.
Qed.

(** A whole tree is not grafted onto another one. *)
Definition not_grafting s K (o : op T) : Prop :=
  match o with
  | OpMove a ad j => forall k x y, receiver s a k x -> s_hands s !! j = Some (HNode Hot y) -> is_top K x -> tree_of s x = tree_of s y
  | _ => True
  end.

Lemma depth_step n s K o : inv s K -> not_grafting s K o -> step_upto (S n) s o = step s o.
Proof.
  intros H Hg. pose proof (inv_wf s K H) as W. destruct o; try reflexivity.
  - by apply (upto_step_drop n s K).
  - by apply (upto_step_bundle n s K).
  - cbn [step_upto step]. apply (upto_with s K _ _ _ H). intros k x Hrc.
    destruct (receiver_facts s K a k x H Hrc) as (i & t & Hi & Et & Ht & Hth & Ha & Hk & _).
    pose proof (proj1 (inv_alive s K x H) Ha) as HKx.
    destruct (has_place_dec K ad x W HKx) as [Hp|[Htop Had]].
    + destruct (create_ok s K k i x t d ad H Ha Et Hk Hp) as (s' & nn & j & K' & E & _). by rewrite (upto_create_ok n s k x d ad s' j E).
    + by rewrite (upto_create_err n s K k x t d ad H Ha Et Htop Had (i_held _ _ H t Ht)).
  - cbn [step_upto step]. apply (upto_with s K _ _ _ H). intros k x Hrc.
    destruct (receiver_facts s K a k x H Hrc) as (i & t & Hi & Et & Ht & Hth & Ha & Hk & _).
    destruct (proj1 (inv_alive s K x H) Ha) as [cs Hcs].
    destruct (top_or_child K x W (ex_intro _ cs Hcs)) as [Htop|(p & ks & Hp & Hin)].
    + destruct (decide (length cs = 1)) as [Hl|Hl].
      * destruct cs as [|c [|]]; try done. by rewrite (upto_replace_root n s K i k x t c H Hi Et Hth Htop Hcs).
      * by rewrite (upto_replace_err n s K i k x t cs H Hi Et Htop Hcs Hl).
    + destruct (lnf_dec K p ks x W Hp Hin) as [(f & m & -> & _)|Hok].
      * destruct (decide (cs = [])) as [->|Hne].
        -- by rewrite (upto_replace_last n s K i k x t p f m H Hi Et Hth Hp Hcs).
        -- by rewrite (upto_replace_child n s K i k x t p _ cs H Hi Et Hth Hp Hin Hcs (or_intror (or_intror Hne))).
      * rewrite (upto_replace_child n s K i k x t p ks cs H Hi Et Hth Hp Hin Hcs); [done|]. destruct Hok; [by left|by right; left].
  - cbn [step_upto step]. apply (upto_with s K _ _ _ H). intros k x Hrc.
    destruct (receiver_facts s K a k x H Hrc) as (i & t & Hi & Et & Ht & Hth & Ha & Hk & _).
    destruct (top_or_child K x W (proj1 (inv_alive s K x H) Ha)) as [Htop|(p & ks & Hp & Hin)].
    + rewrite upto_detach_root; [done|]. by apply (is_root_spec s K x H Ha).
    + destruct (lnf_dec K p ks x W Hp Hin) as [(f & m & -> & _)|Hok].
      * by rewrite (upto_detach_last n s K i k x t p f m H Hi Et Hth Hp).
      * destruct (child_unlinked K p x) as [K1 Hu]. { by exists ks. }
        by rewrite (upto_detach_ok n s K i k x t K1 H Hi Et Hth Hu (not_lnf K p ks x W Hp Hin Hok)).
  - cbn [step_upto step]. destruct (s_hands s !! j) as [[[] y| | | | |]|] eqn:Hj; lazymatch goal with |- ill _ = _ => reflexivity | _ => idtac end.
    apply (upto_with s K _ _ _ H). intros k x Hrc.
    destruct (receiver_facts s K a k x H Hrc) as (i & t & Hi & Et & Ht & Hth & Ha & Hk & El).
    destruct (receiver_facts s K (ByHot j) Hot y H (conj eq_refl Hj)) as (j' & t' & Hj' & Et' & Ht' & Hth' & Ha' & _ & El').
    unfold move_upto, move_subtree. rewrite El, El'. cbn [mbind run_bind]. destruct (decide (t = t')) as [->|Hne]; [reflexivity|].
    destruct (top_or_child K x W (proj1 (inv_alive s K x H) Ha)) as [Htop|(p & ks & Hp & Hin)].
    + exfalso. pose proof (Hg k x y Hrc Hj Htop) as E. congruence.
    + by rewrite (upto_move_ok n s K i k x t j' Hot y t' ad p ks H Hi Et Hth Hj' Et' Hth' Hne Hp Hin).
Qed.

End DepthFacts7.
