(** * ApiFacts2: edits have the effect ApiSpec asks for; reachable states are consistent. *)
From Verif Require Import Heap Edit System SysSpec CardFacts HeapFacts SpecFacts NavFacts NavFacts2 EditFacts EditFacts2 EditFacts3 EditFacts4 EditFacts5 IterSpec RoseFacts AdjFacts TravFacts TdFacts TdFacts2 SysFacts SysFacts2 SysFacts3 SysFacts4 SysFacts5 SysFacts6 SysFacts7 SysFacts8 SysFacts9 SysFacts10 SysFacts11 SysFacts12 SysFacts13 SysFacts14 SysFacts15 GraftFacts Misled Misled2 Misled3 Misled4 Misled5 ApiSpec ApiFacts Spec.

Section ApiFacts2.
Context {T : Type}.
Implicit Types (h : heap T) (s : sys T) (hm : gmap nat handle).

(** ** Authorisation *)
Lemma auth_cases s K a (f : kind -> nid -> run (sys T * out T)) : inv s K -> typed_auth s a ->
  (exists k x, receiver s a k x /\ with_auth s a f = f k x) \/ (unauthorised s a /\ with_auth s a f = Panic).
Proof.
  intros H Ha. destruct a as [i|i g]; simpl in Ha.
  - destruct Ha as [x Hi]. left. exists Hot, x. split; [by split|]. simpl. by rewrite Hi.
  - destruct Ha as (x & tg & Hi & Hg). destruct (handle_tree s K i Plain x H Hi) as (t & tr & Et & Ht & _ & Ec & _).
    assert (with_auth s (ByGrant i g) f = if decide (t = tg) then f Plain x else Panic) as -> by (simpl; by rewrite Hi, Hg, Ec).
    destruct (decide (t = tg)) as [e|Hne].
    + left. exists Plain, x. split; [|done]. split; [done|]. split; [exact Hi|]. exists t. split; [exact Et|]. by rewrite e.
    + right. split; [|done]. exists x, tg. split; [exact Hi|]. split; [exact Hg|]. congruence.
Qed.
Lemma receiver_not_unauth s a k x : receiver s a k x -> ~ unauthorised s a.
Proof.
  destruct a as [i|i g]; simpl; [tauto|]. intros (_ & Hi & t & Et & Hg) (x' & t' & Hi' & Hg' & Hne).
  assert (x' = x) as -> by congruence. congruence.
Qed.
Lemma receiver_typed s a k x : receiver s a k x -> typed_auth s a.
Proof. destruct a as [i|i g]; simpl; [intros [_ H]; eauto|]. intros (_ & Hi & t & Et & Hg). eauto. Qed.
Lemma receiver_unique s a k x k' x' : receiver s a k x -> receiver s a k' x' -> k' = k /\ x' = x.
Proof. destruct a as [i|i g]; simpl; [intros [-> H] [-> H']|intros (-> & H & _) (-> & H' & _)]; split; congruence. Qed.

Lemma receiver_facts s K a k x : inv s K -> receiver s a k x ->
  exists i t, s_hands s !! i = Some (HNode k x) /\ tree_of s x = Some t /\ is_Some (s_trees s !! t) /\
    thawed s (s_hands s) t /\ is_Some (s_nodes s !! x) /\ (k = Plain \/ s_hands s !! i = Some (HNode k x)) /\ link_tree_core s x = Ret t.
Proof.
  intros H Hr. destruct a as [i|i g]; simpl in Hr.
  - destruct Hr as [-> Hi]. destruct (handle_tree s K i Hot x H Hi) as (t & tr & Et & Ht & _ & _ & El). exists i, t.
    split; [exact Hi|]. split; [exact Et|]. split; [eauto|]. split.
    + apply thawed_holders. exact (handle_excl s K i Hot x t H Hi ltac:(done) Et).
    + split; [by eapply handle_alive|]. split; [by right|exact El].
  - destruct Hr as (-> & Hi & t & Et & Hg). destruct (handle_tree s K i Plain x H Hi) as (t1 & tr & Et1 & Ht & _ & _ & El).
    assert (t1 = t) as -> by congruence. exists i, t.
    split; [exact Hi|]. split; [exact Et|]. split; [eauto|]. split.
    + apply thawed_holders. exact (token_excl s K g Hot t H Hg ltac:(done) ltac:(eauto)).
    + split; [by eapply handle_alive|]. split; [by left|exact El].
Qed.

(** ** Conversions *)
Lemma created_adds s s' K' t n d k i : created s s' K' t n d k i -> adds s s' K' t n d k i.
Proof.
  intros C. split.
  - apply inv_stores. apply (cr_inv _ _ _ _ _ _ _ _ C).
  - exact (cr_new _ _ _ _ _ _ _ _  C).
  - exact (cr_unm _ _ _ _ _ _ _ _ C).
  - exact (cr_hand_new _ _ _ _ _ _ _ _  C).
  - exact (cr_hands _ _ _ _ _ _ _ _  C).
  - exact (cr_data _ _ _ _ _ _ _ _  C).
  - exact (cr_tree_n _ _ _ _ _ _ _ _  C).
  - exact (cr_other _ _ _ _ _ _ _ _  C).
  - exact (cr_tree _ _ _ _ _ _ _ _  C).
  - exact (cr_trees _ _ _ _ _ _ _ _  C).
Qed.
Lemma reshaped_reshapes s s' K' : reshaped s s' K' -> reshapes s s' K'.
Proof.
  intros C. split.
  - apply inv_stores. apply (rs_inv _ _ _ C).
  - exact (rs_hands _ _ _  C).
  - exact (rs_payload _ _ _  C).
  - exact (rs_tree _ _ _  C).
  - exact (rs_trees _ _ _  C).
Qed.
Lemma carried_carries s K x t t' s' K2 K3 : inv s' K3 -> carried s K x t t' s' K2 -> carries s K x t t' s' K2.
Proof.
  intros I C. split.
  - exact (ca_hands _ _ _ _ _ _ _  C).
  - exact (ca_in _ _ _ _ _ _ _  C).
  - exact (ca_out _ _ _ _ _ _ _  C).
  - exact (ca_payload _ _ _ _ _ _ _  C).
  - exact (ca_trees _ _ _ _ _ _ _  C).
  - exact (ca_dest _ _ _ _ _ _ _  C).
  - destruct (ca_fate _ _ _ _ _ _ _ C) as [(A & B)|(A & B & L & HL & E)].
    + left. split; [by apply (i_held _ _ I)|]. split; [exact A|exact B].
    + right. split; [exact B|]. split; [exact A|]. intros y. rewrite E, prune_lookup. split.
      * intros Hy. rewrite decide_False; [done|]. intros Hin. apply HL in Hin as (_ & A1 & A2). by destruct Hy.
      * intros Hy. destruct (decide (y ∈ L)) as [|Hny]; [done|]. destruct (K !! y) eqn:Ey; [|done]. exfalso. apply Hny.
        apply HL. split; [eauto|]. split; [intros Hb; apply Hy; by left|]. destruct (decide (tree_of s y = Some t)) as [e|Hne]; [exact e|].
        exfalso. apply Hy. by right.
Qed.
Lemma rehomed_splits s K x t t' s' K2 : rehomed s K x t t' s' K2 -> splits s K x t t' s' K2.
Proof.
  intros R. split.
  - eapply carried_carries; [apply (rh_inv _ _ _ _ _ _ _ R)|apply (rh_carried _ _ _ _ _ _ _ R)].
  - apply inv_stores. apply (rh_inv _ _ _ _ _ _ _ R).
  - exact (rh_new _ _ _ _ _ _ _ R).
  - exact (rh_unm _ _ _ _ _ _ _ R).
  - exact (rh_root _ _ _ _ _ _ _ R).
Qed.

Lemma apart_child K x K1 : wf K -> apart K x K1 ->
  (forall p c, child_of K1 p c <-> child_of K p c /\ c <> x) /\ (forall z, is_Some (K1 !! z) <-> is_Some (K !! z)).
Proof.
  intros W [Hu|(Ht & _ & ->)].
  - destruct (unlinked_child K x K1 W Hu) as (A & B & _). done.
  - split; [|done]. intros p c. split; [|by intros [? _]]. intros Hc. split; [done|]. intros ->. by apply (proj2 Ht p).
Qed.
Lemma apart_wf K x K1 : wf K -> apart K x K1 -> wf K1 /\ is_top K1 x.
Proof. intros W [Hu|(Ht & _ & ->)]; [by eapply unlinked_wf|done]. Qed.

(** ** The last of several siblings *)
Lemma lnf_dec K p ks x : wf K -> K !! p = Some ks -> x ∈ ks ->
  (exists f m, ks = f :: m ++ [x] /\ last_not_first K x) \/ (head ks = Some x \/ last ks <> Some x).
Proof.
  intros Hw Hp Hin. destruct (decide (head ks = Some x)) as [|Hh]; [by right; left|]. destruct (decide (last ks = Some x)) as [Hl|]; [left|by right; right].
  destruct (last_list ks x Hl Hh) as (f & m & ->). exists f, m. split; [done|]. by exists p, (f :: m ++ [x]).
Qed.
Lemma not_lnf K p ks x : wf K -> K !! p = Some ks -> x ∈ ks -> head ks = Some x \/ last ks <> Some x -> ~ last_not_first K x.
Proof.
  intros Hw Hp Hin Ho (q & ks' & Hq & Hl & Hh). assert (q = p) as -> by (eapply wf_uniq; [exact Hw| |by exists ks]; exists ks'; split; [done|by apply elem_of_last]).
  assert (ks' = ks) as -> by congruence. naive_solver.
Qed.
Lemma splice_last K p f m x : wf K -> K !! p = Some (f :: m ++ [x]) -> splice x [] (f :: m ++ [x]) = f :: m.
Proof.
  intros Hw Hp. pose proof (wf_nodup _ Hw _ _ Hp) as Hnd. clear Hp. revert Hnd. change (f :: m ++ [x]) with ((f :: m) ++ [x]). generalize (f :: m). intros l.
  induction l as [|a l IH]; intros Hnd; simpl in *; [by rewrite decide_True|]. apply NoDup_cons in Hnd as [Ha Hnd].
  rewrite decide_False; [by rewrite IH|]. intros ->. apply Ha. set_solver.
Qed.
Lemma first_outside K p f m x : wf K -> K !! p = Some (f :: m ++ [x]) -> ~ below K x f.
Proof.
  intros Hw Hp Hb. assert (child_of K p f) as Hpf by (exists (f :: m ++ [x]); split; [done|left]).
  assert (child_of K p x) as Hpx by (exists (f :: m ++ [x]); split; [done|set_solver]).
  inversion Hb as [e|q c Hq Hc e]; [subst|].
  - pose proof (wf_nodup _ Hw _ _ Hp) as Hnd. apply NoDup_cons in Hnd as [Hnd _]. apply Hnd. set_solver.
  - assert (q = p) as -> by exact (wf_uniq _ Hw q p f Hc Hpf). by eapply (no_cycle K p x).
Qed.
Lemma sibling_tree s K p f m x t : inv s K -> K !! p = Some (f :: m ++ [x]) -> tree_of s x = Some t -> tree_of s f = Some t.
Proof.
  intros H Hp Ht. assert (child_of K p f) as Hpf by (exists (f :: m ++ [x]); split; [done|left]).
  assert (child_of K p x) as Hpx by (exists (f :: m ++ [x]); split; [done|set_solver]).
  rewrite (s_child _ _ (i_s _ _ H) _ _ Hpf), <-(s_child _ _ (i_s _ _ H) _ _ Hpx). done.
Qed.
Lemma carried_alone_sp s K x K1 t t' g K2 K3 f : inv s K -> unlinked K x K1 -> carried s K1 x t t' g K2 -> inv g K3 -> t' <> t ->
  tree_of s x = Some t -> alone s K x -> ~ below K x f -> tree_of s f = Some t -> sp f (Some x) g = g.
Proof.
  intros H Hu C I Hne Et A Hb Hf. apply sp_dead. eapply carried_gone; [exact H|exact Hu|exact C|exact I|exact Hne| |exact Hf|exact Hb].
  destruct (A t Et) as [A1 A2]. eapply carried_alone; [exact H|exact Hu|exact C|exact I|exact Hne|exact A1|].
  intros i k y Hi Hy. pose proof (A2 i k y Hi Hy) as Hxy. destruct Hu as (q & ks & Hq & Hin & ->).
  clear -Hxy Hq Hin H. pose proof (s_wf _ _ (i_s _ _ H)) as Hw. assert (child_of K q x) as Hqx by (by exists ks).
  induction Hxy as [|z c Hz IH (l & Hl & Hc)]; [constructor|]. econstructor; [exact IH|]. exists l. split; [|done].
  rewrite lookup_insert_ne; [done|]. intros <-. by eapply (no_cycle K q x).
Qed.
Lemma rehomed_alone s K x K1 t t' g K2 f : inv s K -> unlinked K x K1 -> rehomed s K1 x t t' g K2 ->
  tree_of s x = Some t -> alone s K x -> ~ below K x f -> tree_of s f = Some t -> sp f (Some x) g = g.
Proof.
  intros H Hu R Et A Hb Hf. eapply carried_alone_sp; [exact H|exact Hu|apply R|apply R| |exact Et|exact A|exact Hb|exact Hf].
  intros ->. by apply (rh_unused _ _ _ _ _ _ _ R x).
Qed.

(** ** Each edit *)
Lemma inv_wf s K : inv s K -> wf K.
Proof. intros H. apply (i_s _ _ H). Qed.

Lemma new_tree_step s K d : inv s K -> outcome s K (OpNewTree d).
Proof.
  intros H. destruct (new_tree_ok s K d H) as (s' & n & t & E & En & Ett & Hn & Ht & I & Hh & Hf & Hp & Hpo & Et & Eto & Etr).
  exists s', (OutHandle (S (S n))), (<[n := []]> K). split; [unfold step; rewrite E; done|]. split; [exact I|]. right. right.
  exists n, t, (S (S n)). split; [done|]. split; [exact Ht|].
  split. { intros j hd Hj. apply (f_hands _ (i_f _ _ H)) in Hj as [_ Hj]. lia. }
  split. { intros j hd Hj. apply (f_hands _ (i_f _ _ H)) in Hj as [_ Hj]. lia. }
  split. { destruct (s_nodes s !! n) eqn:Ex; [|done]. exfalso. assert (is_Some (K !! n)) as [? ?]; [|congruence]. apply (inv_alive s K n H). eauto. }
  split; [exact Hf|]. split; [exact Hh|]. split; [by apply inv_stores|]. split; [exact Hp|]. split; [exact Et|].
  split; [intros y Hy; split; [by apply Hpo|by apply Eto]|].
  intros u. rewrite Etr. rewrite lookup_insert_is_Some'. naive_solver.
Qed.

Lemma has_place_dec K ad x : wf K -> is_Some (K !! x) -> has_place K ad x \/ (is_top K x /\ (ad = APreviousSibling \/ ad = ANextSibling)).
Proof. intros W Hx. destruct ad; simpl; [by left|by left|..]; (destruct (top_or_child K x W Hx) as [?|?]; [right; split; [done|tauto]|by left]). Qed.

Lemma create_step s K a k x d ad : inv s K -> receiver s a k x ->
  exists s' r K', (r0 ← create_node_as s k x d ad; out_of_hand r0) = Ret (s', r) /\ inv s' K' /\ edit_effect s K (OpCreate a d ad) s' r.
Proof.
  intros H Hr. destruct (receiver_facts s K a k x H Hr) as (i & t & Hi & Et & Ht & Hth & Ha & Hk & _).
  pose proof (proj1 (inv_alive s K x H) Ha) as HKx.
  destruct (has_place_dec K ad x (inv_wf s K H) HKx) as [Hp|[Htop Had]].
  - destruct (create_ok s K k i x t d ad H Ha Et Hk Hp) as (s' & n & j & K' & E & At & Hn & C).
    exists s', (OutHandle j), K'. split; [by rewrite E|]. split; [exact (cr_inv _ _ _ _ _ _ _ _ C)|].
    exists k, x, t. split; [exact Hr|]. split; [exact Et|]. left. split; [exact Hp|]. exists n, j, K'. split; [done|]. split; [exact At|].
    by apply created_adds.
  - destruct (create_err s K k x t d ad H Ha Et Htop Had (i_held _ _ H t Ht)) as [E I].
    eexists _, (OutErr SiblingsWithoutParent), K. split; [by rewrite E|]. split; [exact I|].
    exists k, x, t. split; [exact Hr|]. split; [exact Et|]. right. split; [|done]. destruct Had as [-> | ->]; intros [p Hp]; by apply (proj2 Htop p).
Qed.

Lemma interrupt_parent_step s K a k x d : inv s K -> receiver s a k x ->
  exists s' r K', (r0 ← create_interrupting_parent s k x d; ret_hand r0) = Ret (s', r) /\ inv s' K' /\ edit_effect s K (OpInterruptParent a d) s' r.
Proof.
  intros H Hr. destruct (receiver_facts s K a k x H Hr) as (i & t & Hi & Et & Ht & Hth & Ha & Hk & _).
  pose proof (proj1 (inv_alive s K x H) Ha) as HKx.
  destruct (top_or_child K x (inv_wf s K H) HKx) as [Htop|(p & ks & Hp & Hin)].
  - destruct (interrupt_parent_root_step s K k i x t d H Ha Et Hk Htop) as (s' & n & j & E & Hn & C).
    eexists s', (OutHandle j), _. split; [by rewrite E|]. split; [exact (cr_inv _ _ _ _ _ _ _ _ C)|].
    exists k, x, t, n, j. split; [exact Hr|]. split; [exact Et|]. split; [done|]. left. split; [exact Htop|]. by apply created_adds.
  - destruct (interrupt_parent_child_step s K k i x t d p ks H Ha Et Hk Hp Hin) as (s' & n & j & E & Hn & C).
    eexists s', (OutHandle j), _. split; [by rewrite E|]. split; [exact (cr_inv _ _ _ _ _ _ _ _ C)|].
    exists k, x, t, n, j. split; [exact Hr|]. split; [exact Et|]. split; [done|]. right. exists p, ks. split; [exact Hp|]. split; [exact Hin|]. by apply created_adds.
Qed.

Lemma interrupt_child_op_step s K a k x d : inv s K -> receiver s a k x ->
  exists s' r K', (r0 ← create_interrupting_child s k x d; ret_hand r0) = Ret (s', r) /\ inv s' K' /\ edit_effect s K (OpInterruptChild a d) s' r.
Proof.
  intros H Hr. destruct (receiver_facts s K a k x H Hr) as (i & t & Hi & Et & Ht & Hth & Ha & Hk & _).
  destruct (proj1 (inv_alive s K x H) Ha) as [ks Hks].
  destruct (interrupt_child_step s K k i x t d ks H Ha Et Hk Hks) as (s' & n & j & E & Hn & C).
  eexists s', (OutHandle j), _. split; [by rewrite E|]. split; [exact (cr_inv _ _ _ _ _ _ _ _ C)|].
  exists k, x, t, n, j, ks. split; [exact Hr|]. split; [exact Et|]. split; [done|]. split; [exact Hks|]. by apply created_adds.
Qed.

Lemma replace_step s K a k x : inv s K -> receiver s a k x -> (last_not_first K x -> K !! x = Some [] -> alone s K x) ->
  exists s' r K', (r0 ← replace_node s x; out_of r0) = Ret (s', r) /\ inv s' K' /\ edit_effect s K (OpReplace a) s' r.
Proof.
  intros H Hr Hsafe. destruct (receiver_facts s K a k x H Hr) as (i & t & Hi & Et & Ht & Hth & Ha & Hk & _).
  destruct (proj1 (inv_alive s K x H) Ha) as [cs Hcs].
  destruct (top_or_child K x (inv_wf s K H) (ex_intro _ cs Hcs)) as [Htop|(p & ks & Hp & Hin)].
  - destruct (decide (length cs = 1)) as [Hl|Hl].
    + destruct cs as [|c [|]]; try done.
      destruct (replace_root_step s K i k x t c H Hi Et Hth Htop Hcs) as (s' & t' & K2 & E & R & Rr).
      exists s', OutUnit, K2. split; [by rewrite E|]. split; [exact (rh_inv _ _ _ _ _ _ _ R)|].
      exists k, x, t, [c]. split; [exact Hr|]. split; [exact Et|]. split; [exact Hcs|]. right. left. split; [exact Htop|].
      exists c, t', K2. split; [done|]. split; [done|]. split; [by apply rehomed_splits|exact Rr].
    + pose proof (replace_err s K i k x t cs H Hi Et Htop Hcs Hl) as E.
      eexists s, _, K. rewrite E. split; [done|]. split; [exact H|].
      exists k, x, t, cs. split; [exact Hr|]. split; [exact Et|]. split; [exact Hcs|]. right. right.
      destruct (decide (cs = [])) as [->|Hne]; [left; done|right]. split; [exact Htop|]. split; [|done].
      destruct cs as [|? [|? ?]]; simpl in *; try done; lia.
  - destruct (lnf_dec K p ks x (inv_wf s K H) Hp Hin) as [(f & m & -> & Hlnf)|Hlnf]; [destruct (decide (cs = [])) as [->|Hcs0]|].
    1:{ destruct (replace_last s K i k x t p f m H Hi Et Hth Hp Hcs) as (g & t' & K2 & E & R).
      assert (splice x [] (f :: m ++ [x]) = f :: m) as Esp by (by eapply splice_last; [apply (inv_wf s K H)|]).
      rewrite (rehomed_alone s K x _ t t' g K2 f H (last_unlinked K p f m x (inv_wf s K H) Hp) R Et (Hsafe Hlnf Hcs)) in E.
      2:{ eapply first_outside; [apply (inv_wf s K H)|exact Hp]. }
      2:{ eapply sibling_tree; [exact H|exact Hp|exact Et]. }
      exists g, OutUnit, K2. split; [by rewrite E|]. split; [exact (rh_inv _ _ _ _ _ _ _ R)|].
      exists k, x, t, []. split; [exact Hr|]. split; [exact Et|]. split; [exact Hcs|]. left.
      exists p, (f :: m ++ [x]), t', K2. split; [exact Hp|]. split; [exact Hin|]. split; [done|]. rewrite Esp.
      rewrite (insert_id (<[p := f :: m]> K)); [by apply rehomed_splits|]. rewrite lookup_insert_ne; [exact Hcs|].
      intros ->. eapply (child_irrefl K x); [apply (inv_wf s K H)|]. by eexists. }
    all: destruct (replace_child_step s K i k x t p _ cs H Hi Et Hth Hp Hin Hcs) as (s' & t' & K2 & E & R); [first [right; right; exact Hcs0|destruct Hlnf; [by left|by right; left]]|].
    all: exists s', OutUnit, K2; split; [by rewrite E|]; split; [exact (rh_inv _ _ _ _ _ _ _ R)|].
    all: exists k, x, t, cs; split; [exact Hr|]; split; [exact Et|]; split; [exact Hcs|]; left.
    all: eexists p, _, t', K2; split; [exact Hp|]; split; [exact Hin|]; split; [done|]; by apply rehomed_splits.
Qed.

Lemma child_unlinked K p x : child_of K p x -> exists K1, unlinked K x K1.
Proof. intros (ks & Hp & Hin). eexists. exists p, ks. done. Qed.

Lemma detach_step s K a k x : inv s K -> receiver s a k x -> (last_not_first K x -> alone s K x) ->
  exists s' r K', (s1 ← detach_subtree s x; Ret (s1, OutUnit)) = Ret (s', r) /\ inv s' K' /\ edit_effect s K (OpDetach a) s' r.
Proof.
  intros H Hr Hsafe. destruct (receiver_facts s K a k x H Hr) as (i & t & Hi & Et & Ht & Hth & Ha & Hk & _).
  pose proof (proj1 (inv_alive s K x H) Ha) as HKx.
  destruct (top_or_child K x (inv_wf s K H) HKx) as [Htop|(p & Hp)].
  - exists s, OutUnit, K. rewrite (detach_root s K x H Ha Htop). split; [done|]. split; [exact H|].
    exists k, x, t. split; [exact Hr|]. split; [exact Et|]. split; [done|]. by left.
  - pose proof Hp as (ks & Hks & Hin). destruct (lnf_dec K p ks x (inv_wf s K H) Hks Hin) as [(f & m & -> & Hlnf)|Hlnf].
    1:{ destruct (detach_last s K i k x t p f m H Hi Et Hth Hks) as (g & t' & K2 & E & R).
      pose proof (last_unlinked K p f m x (inv_wf s K H) Hks) as Hu.
      rewrite (rehomed_alone s K x _ t t' g K2 f H Hu R Et (Hsafe Hlnf)) in E.
      2:{ eapply first_outside; [apply (inv_wf s K H)|exact Hks]. }
      2:{ eapply sibling_tree; [exact H|exact Hks|exact Et]. }
      exists g, OutUnit, K2. rewrite E. split; [done|]. split; [exact (rh_inv _ _ _ _ _ _ _ R)|].
      exists k, x, t. split; [exact Hr|]. split; [exact Et|]. split; [done|]. right. exists (<[p := f :: m]> K), t', K2. split; [exact Hu|]. by apply rehomed_splits. }
    assert (~ last_not_first K x) as Hsafe'. { apply (not_lnf K p ks x (inv_wf s K H) Hks Hin). exact Hlnf. }
    destruct (child_unlinked K p x Hp) as [K1 HK1].
    destruct (detach_ok s K i k x t K1 H Hi Et Hth HK1 Hsafe') as (s' & t' & K2 & E & R).
    exists s', OutUnit, K2. rewrite E. split; [done|]. split; [exact (rh_inv _ _ _ _ _ _ _ R)|].
    exists k, x, t. split; [exact Hr|]. split; [exact Et|]. split; [done|]. right. exists K1, t', K2. split; [exact HK1|]. by apply rehomed_splits.
Qed.

Lemma adoptable_place K ad y : has_place K ad y -> adoptable K ad y.
Proof. by destruct ad. Qed.
Lemma dest_of_anchor ad y : dest_anchor (dest_of ad y) = y.
Proof. by destruct ad. Qed.

Lemma move_step s K a k x ad j y : inv s K -> receiver s a k x -> s_hands s !! j = Some (HNode Hot y) ->
  ((is_top K x /\ tree_of s x = tree_of s y) \/
   ((exists p, child_of K p x) /\ (last_not_first K x -> alone s K x) /\ ~ below K x y /\ has_place K ad y) \/
   (is_top K x /\ K !! x = Some [] /\ tree_of s x <> tree_of s y /\ alone s K x /\ has_place K ad y)) ->
  exists s' r K', (r0 ← move_subtree s x ad y; out_of r0) = Ret (s', r) /\ inv s' K' /\ edit_effect s K (OpMove a ad j) s' r.
Proof.
  intros H Hr Hj Hsafe. destruct (receiver_facts s K a k x H Hr) as (i & t & Hi & Et & Ht & Hth & Ha & Hk & El).
  destruct (handle_tree s K j Hot y H Hj) as (t' & tr' & Et' & Ht' & _ & _ & El').
  pose proof (handle_alive s K j Hot y H Hj) as Hya. pose proof (proj1 (inv_alive s K y H) Hya) as HKy.
  assert (thawed s (s_hands s) t') as Hth'.
  { apply thawed_holders. exact (handle_excl s K j Hot y t' H Hj ltac:(done) Et'). }
  unfold move_subtree. rewrite El, El'. simpl. destruct Hsafe as [[Htop Etree]|[(Hp & Hlnf & Hb & Hpl)|(Htop & Hk0 & Hne & Hal & Hpl)]].
  - assert (t' = t) as -> by congruence. rewrite decide_True by done. unfold move_inside_same_tree.
    rewrite (proj2 (is_root_spec s K x H Ha) Htop). simpl. exists s, OutUnit, K.
    split; [by destruct s|]. split; [exact H|]. exists k, x, y, t, t. split; [exact Hr|]. split; [exact Hj|]. split; [exact Et|]. split; [exact Et'|]. split; [done|].
    by left.
  - destruct (decide (t = t')) as [e|Hne].
    + subst t'. assert (~ last_not_first K x) as Hlnf'.
      { intros Hx. destruct (Hlnf Hx t Et) as [_ A]. apply Hb. by eapply A. }
      destruct (moved_exists K x (dest_of ad y) (inv_wf s K H) Hp) as [K' Hm].
      { by rewrite dest_of_anchor. } { by rewrite dest_of_anchor. } { by destruct ad. }
      destruct (move_same_ok s K x (dest_of ad y) K' H Hm Hlnf') as (h' & E & R).
      { by rewrite dest_of_anchor. } { rewrite dest_of_anchor. congruence. }
      eexists _, OutUnit, K'. rewrite E. split; [done|]. split; [exact (rs_inv _ _ _ R)|].
      exists k, x, y, t, t. split; [exact Hr|]. split; [exact Hj|]. split; [exact Et|]. split; [exact Et'|]. split; [done|].
      right. left. split; [done|]. exists K'. split; [exact Hm|]. by apply reshaped_reshapes.
    + destruct Hp as [p Hp]. pose proof Hp as (ks & Hks & Hin). destruct (lnf_dec K p ks x (inv_wf s K H) Hks Hin) as [(f & m & -> & Hx)|Hx].
      1:{ destruct (move_other_last s K i k x t j Hot y t' ad p f m H Hi Et Hth Hj Et' Hth' Hne Hks (adoptable_place _ _ _ Hpl)) as (g & K2 & K3 & E & C & At & I).
        pose proof (last_unlinked K p f m x (inv_wf s K H) Hks) as Hu.
        rewrite (carried_alone_sp s K x _ t t' g K2 K3 f H Hu C I ltac:(done) Et (Hlnf Hx)) in E.
        2:{ eapply first_outside; [apply (inv_wf s K H)|exact Hks]. }
        2:{ eapply sibling_tree; [exact H|exact Hks|exact Et]. }
        exists g, OutUnit, K3. rewrite E. split; [done|]. split; [exact I|].
        exists k, x, y, t, t'. split; [exact Hr|]. split; [exact Hj|]. split; [exact Et|]. split; [exact Et'|]. split; [done|].
        right. right. split; [exact Hne|]. eexists _, K2, K3. split; [left; exact Hu|]. split; [by eapply carried_carries|]. split; [exact At|]. by apply inv_stores. }
      assert (~ last_not_first K x) as Hlnf'. { apply (not_lnf K p ks x (inv_wf s K H) Hks Hin). exact Hx. }
      destruct (child_unlinked K p x Hp) as [K1 HK1].
      destruct (move_other_ok s K i k x t j Hot y t' ad K1 H Hi Et Hth Hj Et' Hth' Hne HK1 Hlnf' (adoptable_place _ _ _ Hpl))
        as (s' & K2 & K3 & E & C & At & I).
      exists s', OutUnit, K3. rewrite E. split; [done|]. split; [exact I|].
      exists k, x, y, t, t'. split; [exact Hr|]. split; [exact Hj|]. split; [exact Et|]. split; [exact Et'|]. split; [done|].
      right. right. split; [exact Hne|]. exists K1, K2, K3. split; [left; exact HK1|]. split; [by eapply carried_carries|]. split; [exact At|]. by apply inv_stores.
  - assert (t <> t') as Htt by congruence. rewrite decide_False by done.
    assert (grafting s K x t y t') as G.
    { split; [exact H|exact Htop|by exists i, k|by exists j, Hot|exact Et|exact Et'|exact Htt|exact Hth|exact Hth']. }
    destruct (graft_leaf s K x t y t' ad G (adoptable_place _ _ _ Hpl) Hk0 (proj1 (Hal t Et))) as (s' & K3 & E & C & At & I).
    exists s', OutUnit, K3. rewrite E. split; [done|]. split; [exact I|].
    exists k, x, y, t, t'. split; [exact Hr|]. split; [exact Hj|]. split; [exact Et|]. split; [exact Et'|]. split; [done|].
    right. right. split; [exact Htt|]. exists K, K, K3. split; [by right|]. split; [by eapply carried_carries|]. split; [exact At|]. by apply inv_stores.
Qed.

(** ** All calls *)
Theorem step_effect s K o : inv s K -> safe s K o -> well_typed s o ->
  (must_panic s o /\ step s o = Panic) \/ (~ must_panic s o /\ outcome s K o).
Proof.
  intros H Hs Hw. destruct o as [d|i|i|v i|i|i|k i|k i|i j|i|i|i|i|a d ad|a d|a d|a|a|a ad j|i|i d|i b].
  - right. split; [intros []|]. by apply new_tree_step.
  - right. split; [intros []|]. destruct Hw as [hd Hi]. by eapply clone_step.
  - right. split; [intros []|]. destruct Hw as [hd Hi]. by eapply drop_step.
  - right. split; [intros []|]. destruct Hw as (k & x & Hi). by eapply nav_step.
  - right. split; [intros []|]. destruct Hw as (k & x & Hi). by eapply tree_step.
  - right. split; [intros []|]. destruct Hw as (t & Hi). by eapply root_step.
  - right. split; [intros []|]. destruct Hw as (Hk & t & Hi). by eapply lock_step.
  - right. split; [intros []|]. destruct Hw as (Hk & x & Hi). by eapply bundle_step.
  - destruct Hw as (x & k & t & Hi & Hk & Hj). destruct (bundle_with_step s K k i j x t H Hi Hk Hj) as [[A B]|[A B]].
    + left. split; [|exact B]. by exists k, x, t.
    + right. split; [|exact B]. intros (k' & x' & t' & Hi' & Hk' & Hj' & Hne). assert (x' = x) as -> by congruence.
      destruct k, k'; simpl in *; simplify_eq; congruence.
  - right. split; [intros []|]. destruct Hw as (k & x & Hk & Hi). by eapply plain_step.
  - right. split; [intros []|]. destruct Hw as (k & x & Hk & Hi). by eapply extract_step.
  - right. split; [intros []|]. by apply downgrade_step.
  - right. split; [intros []|]. by apply upgrade_step.
  - destruct (auth_cases s K a (fun k x => r0 ← create_node_as s k x d ad; out_of_hand r0) H Hw) as [(k & x & Hr & E)|[A B]]; [|by left].
    right. split; [by eapply receiver_not_unauth|]. destruct (create_step s K a k x d ad H Hr) as (s' & r & K' & E' & I & Ef).
    exists s', r, K'. split; [exact (eq_trans E E')|]. split; [exact I|]. right. right. exact Ef.
  - destruct (auth_cases s K a (fun k x => r0 ← create_interrupting_parent s k x d; ret_hand r0) H Hw) as [(k & x & Hr & E)|[A B]]; [|by left].
    right. split; [by eapply receiver_not_unauth|]. destruct (interrupt_parent_step s K a k x d H Hr) as (s' & r & K' & E' & I & Ef).
    exists s', r, K'. split; [exact (eq_trans E E')|]. split; [exact I|]. right. right. exact Ef.
  - destruct (auth_cases s K a (fun k x => r0 ← create_interrupting_child s k x d; ret_hand r0) H Hw) as [(k & x & Hr & E)|[A B]]; [|by left].
    right. split; [by eapply receiver_not_unauth|]. destruct (interrupt_child_op_step s K a k x d H Hr) as (s' & r & K' & E' & I & Ef).
    exists s', r, K'. split; [exact (eq_trans E E')|]. split; [exact I|]. right. right. exact Ef.
  - destruct (auth_cases s K a (fun _ x => r0 ← replace_node s x; out_of r0) H Hw) as [(k & x & Hr & E)|[A B]]; [|by left].
    right. split; [by eapply receiver_not_unauth|]. destruct (replace_step s K a k x H Hr (Hs k x Hr)) as (s' & r & K' & E' & I & Ef).
    exists s', r, K'. split; [exact (eq_trans E E')|]. split; [exact I|]. right. right. exact Ef.
  - destruct (auth_cases s K a (fun _ x => s1 ← detach_subtree s x; Ret (s1, OutUnit)) H Hw) as [(k & x & Hr & E)|[A B]]; [|by left].
    right. split; [by eapply receiver_not_unauth|]. destruct (detach_step s K a k x H Hr (Hs k x Hr)) as (s' & r & K' & E' & I & Ef).
    exists s', r, K'. split; [exact (eq_trans E E')|]. split; [exact I|]. right. right. exact Ef.
  - destruct Hw as (Hw & y & Hj).
    destruct (auth_cases s K a (fun _ x => r0 ← move_subtree s x ad y; out_of r0) H Hw) as [(k & x & Hr & E)|[A B]].
    + right. split; [intros [Hu _]; revert Hu; by eapply receiver_not_unauth|].
      destruct (move_step s K a k x ad j y H Hr Hj (Hs k x y Hr Hj)) as (s' & r & K' & E' & I & Ef).
      exists s', r, K'. split; [simpl; rewrite Hj; exact (eq_trans E E')|]. split; [exact I|]. right. right. exact Ef.
    + left. split; [split; [exact A|by exists y]|]. simpl. rewrite Hj. exact B.
  - right. split; [intros []|]. by apply data_step.
  - right. split; [intros []|]. by apply data_step.
  - right. split; [intros []|]. by apply data_step.
Qed.

Theorem step_ill s o : ~ well_typed s o -> step s o = Ret (s, OutIll).
Proof.
  intros H. assert (forall a f, ~ typed_auth s a -> with_auth s a f = ill s) as Ha.
  { intros [i|i g] f Hn; simpl in *.
    - destruct (s_hands s !! i) as [[[]| | | | |]|] eqn:E; try done. exfalso. apply Hn. eauto.
    - destruct (s_hands s !! i) as [[[]| | | | |]|] eqn:E; try done.
      destruct (s_hands s !! g) as [[[]| | | | |]|] eqn:E2; try done. exfalso. apply Hn. eauto. }
  destruct o as [d|i|i|v i|i|i|k i|k i|i j|i|i|i|i|a d ad|a d|a d|a|a|a ad j|i|i d|i b]; simpl in H.
  all: try (by apply Ha).
  all: try (simpl; destruct (s_hands s !! i) as [[k0 x| | | | |]|] eqn:E; try done; exfalso; apply H; eauto; fail).
  - exfalso. by apply H.
  - simpl. destruct (s_hands s !! i) as [[k0 x| | | | |]|] eqn:E; try done. destruct k; try done; exfalso; apply H; split; eauto; done.
  - simpl. destruct (s_hands s !! i) as [[[] x| | | | |]|] eqn:E; try done. destruct k; try done; exfalso; apply H; split; eauto; done.
  - simpl. destruct (s_hands s !! i) as [[[] x| | | | |]|] eqn:E; try done. destruct (s_hands s !! j) as [hd|] eqn:E2; try done.
    destruct hd as [[]| |t|t| |]; try done; exfalso; apply H.
    + exists x, Hot, t. done.
    + exists x, Frozen, t. done.
  - simpl. destruct (s_hands s !! i) as [[k x| | | | |]|] eqn:E; try done. destruct k; try done; exfalso; apply H; eexists _, x; (split; [|done]); done.
  - simpl. destruct (s_hands s !! i) as [[k x| | | | |]|] eqn:E; try done. destruct k; try done; exfalso; apply H; eexists _, x; (split; [|done]); done.
  - simpl. destruct (s_hands s !! i) as [[[] x| | | | |]|] eqn:E; try done; exfalso; apply H; eauto.
  - simpl. destruct (s_hands s !! j) as [[[] y| | | | |]|] eqn:E; try done. apply Ha. intros Hn. apply H. eauto.
Qed.

Lemma well_typed_dec s o : well_typed s o \/ ~ well_typed s o.
Proof.
  assert (forall a, typed_auth s a \/ ~ typed_auth s a) as Ha.
  { intros [i|i g]; simpl.
    - destruct (s_hands s !! i) as [[[] x| | | | |]|] eqn:E; try (right; intros (? & ?); congruence). left; eauto.
    - destruct (s_hands s !! i) as [[[] x| | | | |]|] eqn:E; try (right; intros (? & ? & ? & ?); congruence).
      destruct (s_hands s !! g) as [[[]| | | | |]|] eqn:E2; try (right; intros (? & ? & ? & ?); congruence). left; eauto. }
  destruct o as [d|i|i|v i|i|i|k i|k i|i j|i|i|i|i|a d ad|a d|a d|a|a|a ad j|i|i d|i b]; simpl; try apply Ha.
  - by left.
  - destruct (s_hands s !! i); [left; eauto|right; by intros [? ?]].
  - destruct (s_hands s !! i); [left; eauto|right; by intros [? ?]].
  - destruct (s_hands s !! i) as [[]|] eqn:E; try (right; intros (? & ? & ?); congruence). left; eauto.
  - destruct (s_hands s !! i) as [[]|] eqn:E; try (right; intros (? & ? & ?); congruence). left; eauto.
  - destruct (s_hands s !! i) as [[]|] eqn:E; try (right; intros (? & ?); congruence). left; eauto.
  - destruct (s_hands s !! i) as [[]|] eqn:E; try (right; intros (? & ? & ?); congruence).
    destruct k; [right; by intros [[] _]|left; split; [done|eauto]..].
  - destruct (s_hands s !! i) as [[[] x| | | | |]|] eqn:E; try (right; intros (? & ? & ?); congruence).
    destruct k; [right; by intros [[] _]|left; split; [done|eauto]..].
  - destruct (s_hands s !! i) as [[[] x| | | | |]|] eqn:E; try (right; intros (? & ? & ? & ? & ?); congruence).
    destruct (s_hands s !! j) as [[| |t|t| |]|] eqn:E2.
    3: { left. by exists x, Hot, t. }
    3: { left. by exists x, Frozen, t. }
    all: right; intros (? & [] & ? & ? & ? & ?); simpl in *; congruence.
  - destruct (s_hands s !! i) as [[k x| | | | |]|] eqn:E; try (right; intros (? & ? & ? & ?); congruence).
    destruct k; [right; intros (? & ? & Hk & ?); apply Hk; congruence|left; eexists _, x; (split; [|done]); done..].
  - destruct (s_hands s !! i) as [[k x| | | | |]|] eqn:E; try (right; intros (? & ? & ? & ?); congruence).
    destruct k; [right; intros (? & ? & Hk & ?); apply Hk; congruence|left; eexists _, x; (split; [|done]); done..].
  - destruct (s_hands s !! i) as [[[] x| | | | |]|] eqn:E; try (right; intros [[? ?]|[? ?]]; congruence); left; eauto.
  - destruct (s_hands s !! i) as [[[] x| | | | |]|] eqn:E; try (right; intros [[? ?]|[? ?]]; congruence); left; eauto.
  - destruct (Ha a) as [A|A]; [|right; tauto]. destruct (s_hands s !! j) as [[[] y| | | | |]|] eqn:E; try (right; intros (? & ? & ?); congruence). left; eauto.
  - destruct (s_hands s !! i) as [[]|] eqn:E; try (right; intros (? & ? & ?); congruence). left; eauto.
  - destruct (s_hands s !! i) as [[]|] eqn:E; try (right; intros (? & ? & ?); congruence). left; eauto.
  - destruct (s_hands s !! i) as [[]|] eqn:E; try (right; intros (? & ? & ?); congruence). left; eauto.
Qed.

Lemma inv_init : inv (init : sys T) ∅.
Proof.
  split.
  - split.
    + split.
      * intros x. simpl. rewrite lookup_empty. split; intros [? Hx]; by rewrite ?lookup_empty in Hx.
      * intros x ks. by rewrite lookup_empty.
      * intros x ks. by rewrite lookup_empty.
      * intros x ks. by rewrite lookup_empty.
      * intros x [[? Hx] _]. by rewrite lookup_empty in Hx.
    + split.
      * intros p c (ks & Hp & _). by rewrite lookup_empty in Hp.
      * intros p ks. by rewrite lookup_empty.
      * intros p q c (ks & Hp & _). by rewrite lookup_empty in Hp.
      * intros c. constructor. intros y (ks & Hp & _). by rewrite lookup_empty in Hp.
    + intros p c (ks & Hp & _). by rewrite lookup_empty in Hp.
    + intros x [[? Hx] _]. by rewrite lookup_empty in Hx.
    + intros t tr. simpl. by rewrite lookup_empty.
  - split.
    + intros x o. unfold n_memb. simpl. by rewrite lookup_empty.
    + intros x t rc lk. unfold n_memb. simpl. by rewrite lookup_empty.
    + intros i k x. simpl. by rewrite lookup_empty.
    + intros i t. simpl. by rewrite lookup_empty.
    + intros t tr. simpl. by rewrite lookup_empty.
  - intros t. simpl. rewrite lookup_empty. by intros [? ?].
  - split.
    + intros x. simpl. rewrite lookup_empty. by intros [? ?].
    + intros x. simpl. rewrite lookup_empty. by intros [? ?].
    + intros i hd. simpl. by rewrite lookup_empty.
    + intros x t. unfold tree_of, n_memb. simpl. by rewrite lookup_empty.
Qed.

Theorem reach_inv s : reach s -> exists K, inv s K.
Proof.
  induction 1 as [|s K o s' r Hr [K0 IH] Hst Hs E].
  - exists ∅. exact inv_init.
  - assert (K0 = K) as ->. { apply (stores_unique s); [by apply inv_stores|exact Hst]. }
    destruct (well_typed_dec s o) as [Hw|Hw].
    + destruct (step_effect s K o IH Hs Hw) as [[_ E']|[_ (s1 & r1 & K' & E' & I & _)]]; rewrite E' in E; [done|].
      inversion E. subst. eauto.
    + rewrite (step_ill s o Hw) in E. inversion E. subst. eauto.
Qed.

Theorem reach_stores_inv s K : reach s -> stores s K -> inv s K.
Proof. intros Hr Hst. destruct (reach_inv s Hr) as [K' I]. assert (K' = K) as <- by (apply (stores_unique s); [by apply inv_stores|exact Hst]). exact I. Qed.

End ApiFacts2.
