(** * PrettyFacts2: the pretty printer with an implementation of [Display] that may fail. *)
From Verif Require Import PrettySpec NavFacts SpecFacts RoseFacts IterFacts TravFacts TravFacts4 TdFacts2 EqFacts PrettyFacts Spec.

Section Fail.
Context {T : Type} (show : T -> list text * bool).
Implicit Types (h : heap T) (K : forest).
Notation chunks := (fun d => (show d).1).

Definition failsb h (y : nid) : bool := match h !! y with Some nd => negb (n_mut nd) && negb (show (n_data nd)).2 | None => false end.
Lemma failsb_ok h y : failsb h y = true <-> show_fails show h y.
Proof.
  unfold failsb. split.
  - destruct (h !! y) as [nd|] eqn:E; [|done]. intros [H1 H2]%andb_true_iff. exists (n_data nd). split; [by exists nd|]. split.
    + intros (nd' & E' & Hm). assert (nd' = nd) as -> by congruence. by rewrite Hm in H1.
    + by apply negb_true_iff.
  - intros (d & (nd & E & <-) & Hb & Hf). rewrite E, Hf. simpl. destruct (n_mut nd) eqn:Em; [|done]. exfalso. apply Hb. by exists nd.
Qed.
Lemma try_write_eq h w y : try_write_data show h w y = (w1 ← write_data chunks h w y; Ret (w1, negb (failsb h y))).
Proof.
  unfold try_write_data, write_data, try_borrow, failsb. destruct (h !! y) as [nd|]; [|done]. cbn [mbind run_bind].
  destruct (n_mut nd); cbn [negb andb].
  - done.
  - rewrite negb_involutive. done.
Qed.

(** The loop up to the end, and up to the first failure. *)
Lemma try_runs_end h l w w' : runs chunks h l w w' -> length l < dfs_fuel h -> (forall y, Open y ∈ l -> failsb h y = false) ->
  forall st fuel pf, enumerates (link_dfs_next h) st l -> length l < fuel -> length l < pf ->
  ('(o, w1, st1) ← prepare_next pf h w st;
   match o with None => Ret (w1, true) | Some y => '(w2, ok) ← try_write_data show h w1 y; if (ok : bool) then try_print_loop show fuel h w2 st1 else Ret (w2, false) end) = Ret (w', true).
Proof.
  induction 1 as [w|y l w w1 w' E H IH|y l w w1 w' E H IH]; intros Hd HO st fuel pf He Hf Hp.
  - destruct pf as [|pf]; [simpl in Hp; lia|]. cbn [prepare_next]. destruct (enumerates_inv _ _ _ He) as (st1 & -> & _). done.
  - simpl in *. destruct pf as [|pf]; [lia|]. cbn [prepare_next]. destruct (enumerates_inv _ _ _ He) as (st1 & -> & He1). cbn [mbind run_bind head].
    rewrite try_write_eq, E. cbn [mbind run_bind]. rewrite (HO y) by left. cbn [negb]. destruct fuel as [|f]; [lia|]. cbn [try_print_loop].
    apply IH; [lia|intros z Hz; apply HO; by right|exact He1|lia|lia].
  - simpl in *. destruct pf as [|pf]; [lia|]. cbn [prepare_next]. destruct (enumerates_inv _ _ _ He) as (st1 & -> & He1). cbn [mbind run_bind head].
    rewrite E. apply IH; [lia|intros z Hz; apply HO; by right|exact He1|lia|lia].
Qed.
Lemma try_runs_stop h l w w' z l2 w2 : runs chunks h l w w' -> length l < dfs_fuel h -> (forall y, Open y ∈ l -> failsb h y = false) ->
  failsb h z = true -> write_data chunks h (open_item w' (is_last_sibling h z)) z = Ret w2 ->
  forall st fuel pf, enumerates (link_dfs_next h) st (l ++ Open z :: l2) -> length l < fuel -> length l < pf ->
  ('(o, w1, st1) ← prepare_next pf h w st;
   match o with None => Ret (w1, true) | Some y => '(w2, ok) ← try_write_data show h w1 y; if (ok : bool) then try_print_loop show fuel h w2 st1 else Ret (w2, false) end) = Ret (w2, false).
Proof.
  intros R. induction R as [w|y l w w1 w' E H IH|y l w w1 w' E H IH]; intros Hd HO Hz E2 st fuel pf He Hf Hp.
  - destruct pf as [|pf]; [simpl in Hp; lia|]. cbn [prepare_next app] in *. destruct (enumerates_inv _ _ _ He) as (st1 & -> & _). cbn [mbind run_bind head].
    rewrite try_write_eq, E2. cbn [mbind run_bind]. by rewrite Hz.
  - simpl in *. destruct pf as [|pf]; [lia|]. cbn [prepare_next]. destruct (enumerates_inv _ _ _ He) as (st1 & -> & He1). cbn [mbind run_bind head].
    rewrite try_write_eq, E. cbn [mbind run_bind]. rewrite (HO y) by left. cbn [negb]. destruct fuel as [|f]; [lia|]. cbn [try_print_loop].
    apply IH; [lia|intros u Hu; apply HO; by right|exact Hz|exact E2|exact He1|lia|lia].
  - simpl in *. destruct pf as [|pf]; [lia|]. cbn [prepare_next]. destruct (enumerates_inv _ _ _ He) as (st1 & -> & He1). cbn [mbind run_bind head].
    rewrite E. apply IH; [lia|intros u Hu; apply HO; by right|exact Hz|exact E2|exact He1|lia|lia].
Qed.

(** ** What has been written before the [k]-th node *)
Lemma rest_prefix_snoc path b : rest_prefix (path ++ [b]) = rest_prefix path ++ rest_mark b.
Proof. unfold rest_prefix. rewrite map_app, concat_app. cbn [map concat]. rewrite app_nil_r. by destruct b. Qed.
Lemma first_prefix_snoc path b : first_prefix (path ++ [b]) = rest_prefix path ++ mark b.
Proof. unfold first_prefix. rewrite last_snoc, removelast_snoc. by destruct b. Qed.

(** [before h l w ls k ms us ns]: [l] is cut at the opening of the [k]-th of the nodes [ns]; the
    items of the nodes before it are added to [ls], with the marks [ms] and the texts [us]. *)
Definition before h (l : list (dft nid)) (w : writer) (ls : list text) (ms : list (list bool)) (us : list text) (ns : list nid) : Prop :=
  forall k z, ns !! k = Some z -> exists l1 l2 w1 ind pa, l = l1 ++ Open z :: l2 /\ runs chunks h l1 w w1 /\
    (forall y, Open y ∈ l1 -> y ∈ take k ns) /\
    wrote (open_item w1 (is_last_sibling h z)) (ls ++ concat (zip_with item (take k ms) (take k us)), false, ind) /\
    ms !! k = Some pa /\ full ind = first_prefix pa /\ full (unfirst ind) = rest_prefix pa.

Lemma kids_before h K p : rep h K -> forall ts tts, Forall2 (rose_rel (label chunks h)) ts tts -> forall pre path, K !! p = Some (pre ++ map rose_root ts) ->
  Forall (fun t => shape K (rose_root t) t) ts ->
  Forall (fun t => forall tt w ls cont ind, rose_rel (label chunks h) t tt -> wrote w (ls, cont, ind) -> full (unfirst ind) = rest_prefix path ->
    before h (dfs_events t) w ls (marks (path ++ [is_last_sibling h (rose_root t)]) tt) (rose_nodes tt) (rose_nodes t)) ts ->
  forall w ls cont ind, wrote w (ls, cont, ind) -> full (unfirst ind) = rest_prefix path ->
    before h (concat (map dfs_events ts)) w ls (marks_kids path tts) (concat (map rose_nodes tts)) (concat (map rose_nodes ts)).
Proof.
  intros Hr. induction 1 as [|t tt ts tts Ht Hts IH]; intros pre path Hp Hs HF w ls cont ind Hw Hi k z Hk; [cbn [map concat] in Hk; by rewrite lookup_nil in Hk|].
  apply Forall_cons in HF as [HF HFs]. apply Forall_cons in Hs as [Hs Hss]. simpl in Hp.
  assert (is_last_sibling h (rose_root t) = match tts with [] => true | _ => false end) as Hl.
  { unfold is_last_sibling. rewrite (fnext_split h K p pre (rose_root t) (map rose_root ts) Hr Hp). destruct Hts; done. }
  assert (length (rose_nodes tt) = length (rose_nodes t)) as Hlen by (symmetry; exact (Forall2_length _ _ _ (rose_rel_nodes _ _ _ Ht))).
  cbn [map concat marks_kids] in Hk |- *. rewrite <-Hl. set (b := is_last_sibling h (rose_root t)) in *.
  apply lookup_app_Some in Hk as [Hk|[Hge Hk]].
  - destruct (HF tt w ls cont ind Ht Hw Hi k z Hk) as (l1 & l2 & w1 & ind1 & pa & -> & R & HO & Hw1 & Hm & Hf). pose proof (lookup_lt_Some _ _ _ Hk) as Hlt.
    exists l1, (l2 ++ concat (map dfs_events ts)), w1, ind1, pa. split; [by rewrite <-app_assoc|]. split; [exact R|].
    split; [intros y Hy; rewrite take_app_le by lia; by apply HO|]. split; [|split; [|exact Hf]].
    + rewrite take_app_le by (rewrite marks_length; lia). rewrite take_app_le by lia. exact Hw1.
    + rewrite lookup_app_l by (rewrite marks_length; lia). exact Hm.
  - destruct (tree_run chunks h K Hr t (rose_root t) tt w ls cont ind Hs Ht Hw) as (w1 & R1 & Hw1).
    destruct (IH (pre ++ [rose_root t]) path ltac:(rewrite <-app_assoc; exact Hp) Hss HFs w1 _ _ _ Hw1 ltac:(rewrite unfirst_idem; exact Hi) _ z Hk)
      as (l1 & l2 & w2 & ind1 & pa & E & R & HO & Hw2 & Hm & Hf).
    exists (dfs_events t ++ l1), l2, w2, ind1, pa. split; [rewrite E; by rewrite app_assoc|]. split; [by eapply runs_app|]. split; [|split; [|split; [|exact Hf]]].
    + intros y [Hy|Hy]%elem_of_app; rewrite take_app_ge by lia; apply elem_of_app.
      * left. by apply dfs_events_elem in Hy.
      * right. by apply HO.
    + rewrite !take_app_ge by (rewrite ?marks_length; lia). rewrite marks_length, Hlen.
      rewrite zip_with_app by apply marks_length. rewrite concat_app, <-draw_items_at, first_prefix_snoc, rest_prefix_snoc, <-Hi.
      rewrite app_assoc. exact Hw2.
    + rewrite lookup_app_r by (rewrite marks_length; lia). rewrite marks_length, Hlen. exact Hm.
Qed.

Lemma tree_before h K : rep h K -> forall t y tt w ls cont ind path, shape K y t -> rose_rel (label chunks h) t tt -> wrote w (ls, cont, ind) -> full (unfirst ind) = rest_prefix path ->
  before h (dfs_events t) w ls (marks (path ++ [is_last_sibling h y]) tt) (rose_nodes tt) (rose_nodes t).
Proof.
  intros Hr. induction t as [y0 ts IH] using rose_ind2. intros y tt w ls cont ind path Hs Ht Hw Hi k z Hk.
  inversion Hs as [? ? Hkd Hts]; subst. inversion Ht as [? s ? tts Hy Hf]; subst. rename y0 into y.
  set (b := is_last_sibling h y). set (i1 := unfirst ind ++ [mkBlock b true]).
  pose proof (open_item_ok w ls cont ind b Hw) as Ho. fold i1 in Ho.
  assert (full i1 = first_prefix (path ++ [b])) as F1 by (unfold i1; rewrite full_app, first_prefix_snoc, Hi; unfold full; simpl; by rewrite app_nil_r).
  assert (full (unfirst i1) = rest_prefix (path ++ [b])) as F2 by (unfold i1; rewrite unfirst_snoc, full_app, rest_prefix_snoc, Hi; unfold full; simpl; by rewrite app_nil_r).
  rewrite marks_eq. cbn [rose_nodes dfs_events] in *. destruct k as [|k].
  - cbn [lookup list_lookup] in Hk. injection Hk as <-. exists [], (concat (map dfs_events ts) ++ [Close y]), w, i1, (path ++ [b]).
    split; [done|]. split; [constructor|]. split; [intros u Hu; by apply elem_of_nil in Hu|]. split; [|done]. cbn [take zip_with concat]. rewrite app_nil_r. exact Ho.
  - cbn [lookup list_lookup] in Hk. destruct (write_data_ok chunks h _ _ y s Hy Ho) as (w1 & E1 & Hw1).
    destruct (fold_lines s ls i1) as [(i2 & E2 & Hi2) _].
    assert (wrote w1 (ls ++ own (full i1) (full (unfirst i1)) (lines s), open_ended s, i2)) as Hw1' by (rewrite <-E2; exact Hw1).
    assert (unfirst i2 = unfirst i1) as Hu by (destruct Hi2 as [->| ->]; [done|apply unfirst_idem]).
    destruct (kids_before h K y Hr ts tts Hf [] (path ++ [b]) Hkd Hts) with (w := w1) (ls := ls ++ own (full i1) (full (unfirst i1)) (lines s)) (cont := open_ended s) (ind := i2) (k := k) (z := z)
      as (l1 & l2 & w2 & ind1 & pa & E & R & HO & Hw2 & Hm & Hf2).
    { rewrite Forall_forall in IH, Hts |- *. intros t Hin tt' w0 ls0 c0 i0 Ht' Hw0 Hi0. eapply (IH t Hin); [by apply Hts|exact Ht'|exact Hw0|exact Hi0]. }
    { exact Hw1'. }
    { rewrite Hu. exact F2. }
    { exact Hk. }
    exists (Open y :: l1), (l2 ++ [Close y]), w2, ind1, pa. split; [rewrite E; cbn [app]; by rewrite <-app_assoc|]. split; [by eapply runs_open|]. split; [|split; [|split; [exact Hm|exact Hf2]]].
    + intros u [Hu1|Hu1]%elem_of_cons; cbn [take]; [injection Hu1 as ->; left|right; by apply HO].
    + cbn [take zip_with concat]. rewrite F1, F2 in Hw2. rewrite app_assoc. exact Hw2.
Qed.

(** ** The theorem *)
Lemma find_first {A} (f : A -> bool) (l : list A) : (forall a, a ∈ l -> f a = false) \/ exists k a, l !! k = Some a /\ f a = true /\ forall b, b ∈ take k l -> f b = false.
Proof.
  induction l as [|a l IH]; [left; intros a Ha; by apply elem_of_nil in Ha|]. destruct (f a) eqn:E.
  - right. exists 0, a. split; [done|]. split; [done|]. intros b Hb. by apply elem_of_nil in Hb.
  - destruct IH as [H|(k & b & H1 & H2 & H3)].
    + left. intros b [->|Hb]%elem_of_cons; [done|by apply H].
    + right. exists (S k), b. split; [done|]. split; [done|]. intros c [->|Hc]%elem_of_cons; [done|by apply H3].
Qed.

Theorem pretty_try_ok h K x t tt : rep h K -> wf K -> shape K x t -> rose_rel (label chunks h) t tt ->
  ((forall y, y ∈ rose_nodes t -> ~ show_fails show h y) /\ pretty_try show h x = Ret (printed tt, true)) \/
  exists k y s, rose_nodes t !! k = Some y /\ rose_nodes tt !! k = Some s /\ show_fails show h y /\ (forall z, z ∈ take k (rose_nodes t) -> ~ show_fails show h z) /\
    pretty_try show h x = Ret (broken_off (S k) s tt, false).
Proof.
  intros Hr Hw Hs Ht.
  assert (forall y, failsb h y = false -> ~ show_fails show h y) as Hnf by (intros y E H; apply failsb_ok in H; congruence).
  pose proof (pretty_ok chunks h K x t tt Hr Hw Hs Ht) as [HP _].
  destruct t as [x0 ts]. inversion Hs as [? ? Hk Hts]; subst. inversion Ht as [? s ? tts Hy Hf]; subst. try rename x0 into x.
  pose proof (link_dfs_enum h K x ts Hr Hw Hs) as He. destruct (enumerates_inv _ _ _ He) as (st & E & He1). simpl in He1.
  unfold pretty in HP. rewrite E in HP. cbn [mbind run_bind] in HP.
  unfold pretty_try. rewrite E. cbn [mbind run_bind].
  destruct (write_data_ok chunks h w_new ([], false, []) x s Hy) as (w1 & E1 & Hw1); [done|]. rewrite E1 in HP. rewrite try_write_eq, E1. cbn [mbind run_bind] in HP |- *.
  destruct (fold_lines s [] []) as [(i2 & E2 & Hi2) _]. assert (i2 = []) as -> by (destruct Hi2; done).
  assert (wrote w1 (own [] [] (lines s), open_ended s, [])) as Hw1'.
  { assert (foldl step_char ([], false, []) s = (own [] [] (lines s), open_ended s, [])) as E3 by exact E2. rewrite <-E3. exact Hw1. }
  assert (length (concat (map dfs_events ts)) < dfs_fuel h) as Hlen.
  { pose proof (fold_fuel_h h K x _ Hr Hw Hs) as H. simpl in H. rewrite app_length in H. simpl in H. lia. }
  assert (item [] s = own [] [] (lines s)) as Hit by reflexivity.
  destruct (failsb h x) eqn:Efx; cbn [negb].
  { right. exists 0, x, s. split; [done|]. split; [done|]. split; [by apply failsb_ok|]. split; [intros z Hz; by apply elem_of_nil in Hz|].
    do 2 f_equal. unfold broken_off, first_items. rewrite marks_eq. cbn [take zip_with concat rose_nodes]. rewrite app_nil_r, Hit.
    destruct (open_ended s).
    - destruct Hw1' as (_ & _ & l0 & l & Hl & -> & _). rewrite Hl. by rewrite unlines_open_app.
    - by destruct Hw1' as (_ & _ & ->). }
  destruct (find_first (failsb h) (concat (map rose_nodes ts))) as [Hall|(k & z & Hkz & Hz & Hbef)].
  - left. split.
    { intros y [->|Hy2]%elem_of_cons; apply Hnf; [done|by apply Hall]. }
    destruct (kids_run chunks h K x Hr ts tts Hf [] Hk) with (w := w1) (ls := own [] [] (lines s)) (cont := open_ended s) (ind := @nil iblock) as (w2 & i3 & R2 & Hi3 & Hw2).
    { rewrite Forall_forall in Hts |- *. intros t Hin tt' w0 ls0 c0 i0 Ht' Hw0. apply (tree_run chunks h K Hr); [by apply Hts|done|done]. }
    { exact Hw1'. }
    assert (forall y, Open y ∈ concat (map dfs_events ts) -> failsb h y = false) as HO.
    { intros y Hy2. apply Hall. apply elem_of_concat_map in Hy2 as (t & Hin & Hy2). apply elem_of_concat_map. exists t. split; [done|]. by apply dfs_events_elem in Hy2. }
    pose proof (fold_fuel_h h K x _ Hr Hw Hs) as HL. simpl in HL. rewrite app_length in HL. simpl in HL.
    assert (try_print_loop show (dfs_fuel h) h w1 st = Ret (w2, true)) as ->.
    { pose proof (try_runs_end h _ w1 w2 R2 Hlen HO st) as H. destruct (dfs_fuel h) as [|f] eqn:Ef; [lia|]. cbn [try_print_loop]. rewrite Ef. apply H; [exact He1|lia|lia]. }
    assert (print_loop chunks (dfs_fuel h) h w1 st = Ret w2) as EP.
    { destruct (dfs_fuel h) as [|f] eqn:Ef; [lia|]. cbn [print_loop]. apply (print_runs chunks h _ w1 w2 R2); [lia|exact He1|lia|lia]. }
    rewrite EP in HP. cbn [mbind run_bind] in HP |- *. injection HP as ->. done.
  - right. destruct (kids_before h K x Hr ts tts Hf [] [] Hk Hts) with (w := w1) (ls := own [] [] (lines s)) (cont := open_ended s) (ind := @nil iblock) (k := k) (z := z)
      as (l1 & l2 & w2 & ind1 & pa & El & R & HO & Hw2 & Hm & Hf1 & Hf2).
    { rewrite Forall_forall in Hts |- *. intros t Hin tt' w0 ls0 c0 i0 Ht' Hw0 Hi0. eapply (tree_before h K Hr); [by apply Hts|exact Ht'|exact Hw0|exact Hi0]. }
    { exact Hw1'. }
    { done. }
    { exact Hkz. }
    assert (Forall2 (label chunks h) (concat (map rose_nodes ts)) (concat (map rose_nodes tts))) as HL.
    { pose proof (rose_rel_nodes _ _ _ Ht) as H. cbn [rose_nodes] in H. by apply Forall2_cons in H as [_ H]. }
    destruct (Forall2_lookup_l _ _ _ _ _ HL Hkz) as (u & Hu & Hlu).
    destruct (write_data_ok chunks h _ _ z u Hlu Hw2) as (w3 & E3 & Hw3).
    match type of Hw3 with wrote _ (foldl _ (?L, _, _) _) => set (ls := L) in * end.
    destruct (fold_lines u ls ind1) as [(i2 & E4 & _) _].
    assert (wrote w3 (ls ++ own (full ind1) (full (unfirst ind1)) (lines u), open_ended u, i2)) as Hw3' by (rewrite <-E4; exact Hw3).
    exists (S k), z, u. split; [exact Hkz|]. split; [exact Hu|]. split; [by apply failsb_ok|]. split.
    { intros v [->|Hv]%elem_of_cons; apply Hnf; [done|by apply Hbef]. }
    assert (length l1 < length (concat (map dfs_events ts))) as Hl1 by (rewrite El, app_length; simpl; lia).
    rewrite El in He1.
    assert (try_print_loop show (dfs_fuel h) h w1 st = Ret (w3, false)) as ->.
    { pose proof (fold_fuel_h h K x _ Hr Hw Hs) as HLn. simpl in HLn. rewrite app_length in HLn. simpl in HLn.
      pose proof (try_runs_stop h l1 w1 w2 z l2 w3 R ltac:(lia) (fun y Hy => Hbef y (HO y Hy)) Hz E3 st) as H.
      destruct (dfs_fuel h) as [|f] eqn:Ef; [lia|]. cbn [try_print_loop]. rewrite Ef. apply H; [exact He1|lia|lia]. }
    cbn [mbind run_bind]. do 2 f_equal. unfold broken_off, first_items. rewrite marks_eq. cbn [rose_nodes]. cbn [take zip_with concat].
    assert (zip_with item (take (S k) (marks_kids [] tts)) (take (S k) (concat (map rose_nodes tts))) =
      zip_with item (take k (marks_kids [] tts)) (take k (concat (map rose_nodes tts))) ++ [item pa u]) as Ez.
    { rewrite (take_S_r _ _ _ Hm), (take_S_r _ _ _ Hu). rewrite zip_with_app; [done|]. rewrite !take_length.
      pose proof (lookup_lt_Some _ _ _ Hm). pose proof (lookup_lt_Some _ _ _ Hu). lia. }
    cbn [take] in Ez. rewrite Ez, concat_app, app_assoc. cbn [concat]. rewrite app_nil_r, Hit. fold ls.
    assert (item pa u = own (full ind1) (full (unfirst ind1)) (lines u)) as -> by (rewrite Hf1, Hf2; reflexivity).
    destruct (open_ended u).
    + destruct Hw3' as (_ & _ & m0 & m & Hl & -> & _). rewrite Hl. by rewrite unlines_open_app.
    + by destruct Hw3' as (_ & _ & ->).
Qed.

Theorem pretty_try_total h K x t : rep h K -> wf K -> shape K x t -> exists tt, rose_rel (label chunks h) t tt /\
  (((forall y, y ∈ rose_nodes t -> ~ show_fails show h y) /\ pretty_try show h x = Ret (printed tt, true)) \/
   exists k y s, rose_nodes t !! k = Some y /\ rose_nodes tt !! k = Some s /\ show_fails show h y /\ (forall z, z ∈ take k (rose_nodes t) -> ~ show_fails show h z) /\
     pretty_try show h x = Ret (broken_off (S k) s tt, false)).
Proof.
  intros Hr Hw Hs. destruct (pretty_total chunks h K x t Hr Hw Hs) as (tt & Htt & _). exists tt. split; [exact Htt|]. exact (pretty_try_ok h K x t tt Hr Hw Hs Htt).
Qed.
End Fail.
