(** * DocFacts2: what edits of the forest do to its documents. *)
From Verif Require Import Heap Traverse System SpecFacts RoseFacts IterSpec DocSpec EditFacts2 DocFacts Spec.

Lemma nodup_parts x (A M B : doc) : NoDup (A ++ Open x :: M ++ Close x :: B) -> Open x ∉ A /\ Open x ∉ M /\ Open x ∉ B.
Proof.
  intros N. apply NoDup_app in N as (_ & N1 & N2). apply NoDup_cons in N2 as [N2 _]. rewrite elem_of_app, elem_of_cons in N2.
  split; [|tauto]. intros F. apply (N1 _ F). apply elem_of_list_here.
Qed.
Lemma nodup_within x y (A M B : doc) : NoDup (A ++ Open x :: M ++ Close x :: B) -> Open y ∈ A -> Open y ∉ M /\ y <> x.
Proof.
  intros N Hy. apply NoDup_app in N as (_ & N1 & _). pose proof (N1 _ Hy) as F. rewrite elem_of_cons, elem_of_app in F. split; [tauto|]. intros ->. tauto.
Qed.
Lemma docs_one K x cs M : K !! x = Some cs -> docs K cs M -> docs K [x] (Open x :: M ++ [Close x]).
Proof. intros H D. econstructor; [exact H|exact D|constructor]. Qed.
Lemma row_ne K p ks x : wf K -> K !! p = Some ks -> x ∈ ks -> x <> p.
Proof. intros Hw Hp Hx ->. apply (no_cycle K p p Hw); [by exists ks|constructor]. Qed.

Lemma paste_docs K r E n S ad y K' : wf K -> docs K [r] E -> docs K [n] S -> attached K n (dest_of ad y) K' ->
  (forall q, dest_parent K (dest_of ad y) q -> Open q ∉ S) -> exists E', pasted S y E ad E' /\ docs K' [r] E'.
Proof.
  intros Hw D DS At Hq. pose proof (docs_nodup _ _ _ Hw D) as N.
  destruct ad; cbn [dest_of] in *; inversion At as [p ks Hp E1 E2|p ks Hp E1 E2|z p ks Hp Hin E1 E2|z p ks Hp Hin E1 E2]; subst; cbn [dest_parent] in Hq.
  - assert (HS : docs (<[y := n :: ks]> K) [n] S).
    { eapply docs_agree; [exact DS|]. intros z Hz. rewrite lookup_insert_ne; [done|]. intros ->. by apply (Hq z). }
    destruct (decide (Open y ∈ E)) as [Hy|Hy].
    + destruct (docs_hole _ _ _ _ D Hy) as (A & M & B & cs & -> & Hy' & DM & _ & Hh). assert (cs = ks) as -> by congruence. destruct (nodup_parts _ _ _ _ N) as (NA & NM & NB).
      exists (A ++ Open y :: S ++ M ++ Close y :: B). split; [by constructor|].
      rewrite (app_assoc S). apply (Hh _ (n :: ks)).
      * apply lookup_insert.
      * apply (docs_app _ [n] S ks M HS). eapply docs_agree; [exact DM|]. intros z Hz. rewrite lookup_insert_ne; [done|]. by intros ->.
      * intros z Hz. rewrite lookup_insert_ne; [done|]. intros ->. rewrite elem_of_app in Hz. tauto.
    + exists E. split; [apply p_none_child; auto|]. eapply docs_agree; [exact D|]. intros z Hz. rewrite lookup_insert_ne; [done|]. by intros ->.
  - assert (HS : docs (<[y := ks ++ [n]]> K) [n] S).
    { eapply docs_agree; [exact DS|]. intros z Hz. rewrite lookup_insert_ne; [done|]. intros ->. by apply (Hq z). }
    destruct (decide (Open y ∈ E)) as [Hy|Hy].
    + destruct (docs_hole _ _ _ _ D Hy) as (A & M & B & cs & -> & Hy' & DM & _ & Hh). assert (cs = ks) as -> by congruence. destruct (nodup_parts _ _ _ _ N) as (NA & NM & NB).
      exists (A ++ Open y :: M ++ S ++ Close y :: B). split; [by constructor|].
      rewrite (app_assoc M). apply (Hh _ (ks ++ [n])).
      * apply lookup_insert.
      * apply docs_app; [|exact HS]. eapply docs_agree; [exact DM|]. intros z Hz. rewrite lookup_insert_ne; [done|]. by intros ->.
      * intros z Hz. rewrite lookup_insert_ne; [done|]. intros ->. rewrite elem_of_app in Hz. tauto.
    + exists E. split; [apply p_none_child; auto|]. eapply docs_agree; [exact D|]. intros z Hz. rewrite lookup_insert_ne; [done|]. by intros ->.
  - assert (HS : docs (<[p := ins_before y n ks]> K) [n] S).
    { eapply docs_agree; [exact DS|]. intros z Hz. rewrite lookup_insert_ne; [done|]. intros ->. apply (Hq z); [by exists ks|done]. }
    destruct (decide (Open p ∈ E)) as [Hy|Hy].
    + destruct (docs_row _ _ _ _ _ _ Hw D Hp Hin Hy) as (A & M & B & l1 & l2 & cs & [-> HA] & -> & H1 & H2 & Hc & DM & HpA & Hh).
      exists (A ++ S ++ Open y :: M ++ Close y :: B). split; [by constructor|].
      replace (A ++ S ++ Open y :: M ++ Close y :: B) with (A ++ (S ++ Open y :: M ++ [Close y]) ++ B) by (repeat (rewrite <- app_assoc || cbn [app]); done).
      apply (Hh _ (n :: [y])).
      * rewrite lookup_insert, ins_before_split by done. done.
      * apply (docs_app _ [n] S [y]); [exact HS|]. eapply docs_agree; [by apply (docs_one K y cs)|]. intros z Hz. rewrite lookup_insert_ne; [done|]. intros ->.
        destruct (nodup_within _ _ _ _ _ N HpA) as [F1 F2]. apply elem_of_cons in Hz as [[= ->]|Hz]; [done|]. apply elem_of_app in Hz as [Hz|Hz]; [done|]. by apply elem_of_list_singleton in Hz.
      * intros z _ Hz. by rewrite lookup_insert_ne.
    + exists E. split.
      * apply p_none_sibling; [auto|]. intros A M B Hi. destruct (inside_parent _ _ _ _ _ _ _ D Hw Hi) as (q & ks' & Hq' & Hin' & Hqe).
        assert (q = p) as -> by (eapply (wf_uniq _ Hw _ _ y); [by exists ks'|by exists ks]). done.
      * eapply docs_agree; [exact D|]. intros z Hz. rewrite lookup_insert_ne; [done|]. by intros ->.
  - assert (HS : docs (<[p := ins_after y n ks]> K) [n] S).
    { eapply docs_agree; [exact DS|]. intros z Hz. rewrite lookup_insert_ne; [done|]. intros ->. apply (Hq z); [by exists ks|done]. }
    destruct (decide (Open p ∈ E)) as [Hy|Hy].
    + destruct (docs_row _ _ _ _ _ _ Hw D Hp Hin Hy) as (A & M & B & l1 & l2 & cs & [-> HA] & -> & H1 & H2 & Hc & DM & HpA & Hh).
      exists (A ++ Open y :: M ++ Close y :: S ++ B). split; [by constructor|].
      replace (A ++ Open y :: M ++ Close y :: S ++ B) with (A ++ ((Open y :: M ++ [Close y]) ++ S) ++ B) by (repeat (rewrite <- app_assoc || cbn [app]); done).
      apply (Hh _ (y :: [n])).
      * rewrite lookup_insert, ins_after_split by done. done.
      * apply (docs_app _ [y] _ [n]); [|exact HS]. eapply docs_agree; [by apply (docs_one K y cs)|]. intros z Hz. rewrite lookup_insert_ne; [done|]. intros ->.
        destruct (nodup_within _ _ _ _ _ N HpA) as [F1 F2]. apply elem_of_cons in Hz as [[= ->]|Hz]; [done|]. apply elem_of_app in Hz as [Hz|Hz]; [done|]. by apply elem_of_list_singleton in Hz.
      * intros z _ Hz. by rewrite lookup_insert_ne.
    + exists E. split.
      * apply p_none_sibling; [auto|]. intros A M B Hi. destruct (inside_parent _ _ _ _ _ _ _ D Hw Hi) as (q & ks' & Hq' & Hin' & Hqe).
        assert (q = p) as -> by (eapply (wf_uniq _ Hw _ _ y); [by exists ks'|by exists ks]). done.
      * eapply docs_agree; [exact D|]. intros z Hz. rewrite lookup_insert_ne; [done|]. by intros ->.
Qed.

Lemma not_inside_row K r E p ks x : wf K -> docs K [r] E -> K !! p = Some ks -> x ∈ ks -> Open p ∉ E -> not_inside E x.
Proof.
  intros Hw D Hp Hin Hy A M B Hi. destruct (inside_parent _ _ _ _ _ _ _ D Hw Hi) as (q & ks' & Hq' & Hin' & Hqe).
  assert (q = p) as -> by (eapply (wf_uniq _ Hw _ _ x); [by exists ks'|by exists ks]). done.
Qed.
Lemma not_inside_top K r E x : wf K -> docs K [r] E -> is_top K x -> not_inside E x.
Proof. intros Hw D [_ Ht] A M B Hi. destruct (inside_parent _ _ _ _ _ _ _ D Hw Hi) as (q & ks' & Hq' & Hin' & Hqe). apply (Ht q). by exists ks'. Qed.
Lemma not_inside_same K r E x : wf K -> docs K [r] E -> Open x ∉ E -> not_inside E x.
Proof. intros Hw D Hx A M B [-> _]. apply Hx. apply elem_of_app. right. apply elem_of_list_here. Qed.

Lemma cut_docs K r E x K1 : wf K -> docs K [r] E -> unlinked K x K1 -> exists E1, cut x E E1 /\ docs K1 [r] E1.
Proof.
  intros Hw D (p & ks & Hp & Hin & ->). destruct (decide (Open p ∈ E)) as [Hy|Hy].
  - destruct (docs_row _ _ _ _ _ _ Hw D Hp Hin Hy) as (A & M & B & l1 & l2 & cs & Hi & -> & H1 & H2 & Hc & DM & HpA & Hh).
    exists (A ++ B). split; [by econstructor|]. apply (Hh _ [] []); [|constructor|].
    + rewrite lookup_insert, without_split by done. done.
    + intros z _ Hz. by rewrite lookup_insert_ne.
  - exists E. split; [apply cut_none; by eapply not_inside_row|]. eapply docs_agree; [exact D|]. intros z Hz. rewrite lookup_insert_ne; [done|]. by intros ->.
Qed.

Lemma wrap_docs K r E x n p ks : wf K -> docs K [r] E -> K !! n = None -> K !! p = Some ks -> x ∈ ks ->
  exists E1, wrapped n x E E1 /\ docs (<[n := [x]]> (<[p := subst_child x n ks]> K)) [r] E1.
Proof.
  intros Hw D Hn Hp Hin. set (K' := <[n := [x]]> _). destruct (decide (Open p ∈ E)) as [Hy|Hy].
  - destruct (docs_row _ _ _ _ _ _ Hw D Hp Hin Hy) as (A & M & B & l1 & l2 & cs & Hi & -> & H1 & H2 & Hc & DM & HpA & Hh).
    exists (A ++ Open n :: Open x :: M ++ Close x :: Close n :: B). split; [by constructor|]. destruct Hi as [-> HA].
    pose proof (docs_nodup _ _ _ Hw D) as N. destruct (nodup_within _ _ _ _ _ N HpA) as [F1 F2].
    replace (A ++ Open n :: Open x :: M ++ Close x :: Close n :: B) with (A ++ (Open n :: (Open x :: M ++ [Close x]) ++ [Close n]) ++ B) by (repeat (rewrite <- app_assoc || cbn [app]); done).
    apply (Hh _ [n]).
    + unfold K'. rewrite lookup_insert_ne by congruence. rewrite lookup_insert. unfold subst_child. by rewrite splice_split.
    + apply (docs_one _ n [x]); [apply lookup_insert|]. eapply docs_agree; [by apply (docs_one K x cs)|]. intros z Hz.
      assert (Hz2 : is_Some (K !! z)) by (eapply (docs_dom K [x]); [by apply (docs_one K x cs)|exact Hz]).
      unfold K'. rewrite lookup_insert_ne by (intros ->; rewrite Hn in Hz2; by destruct Hz2). rewrite lookup_insert_ne; [done|]. intros ->.
      apply elem_of_cons in Hz as [[= ->]|Hz]; [done|]. apply elem_of_app in Hz as [Hz|Hz]; [done|]. by apply elem_of_list_singleton in Hz.
    + intros z Hz Hzp. assert (Hz2 : is_Some (K !! z)). { eapply docs_dom; [exact D|]. revert Hz. rewrite !elem_of_app, elem_of_cons, elem_of_app, elem_of_cons. tauto. }
      unfold K'. rewrite lookup_insert_ne by (intros ->; rewrite Hn in Hz2; by destruct Hz2). by rewrite lookup_insert_ne.
  - exists E. split; [apply wr_none; by eapply not_inside_row|]. eapply docs_agree; [exact D|]. intros z Hz.
    pose proof (docs_dom _ _ _ _ D Hz) as Hz2. unfold K'. rewrite lookup_insert_ne by (intros ->; rewrite Hn in Hz2; by destruct Hz2). rewrite lookup_insert_ne; [done|]. by intros ->.
Qed.
Lemma wrap_top_docs K r E x n : wf K -> docs K [r] E -> K !! n = None -> is_top K x ->
  exists E1, wrapped n x E E1 /\ docs (<[n := [x]]> K) [r] E1.
Proof.
  intros Hw D Hn Ht. exists E. split; [apply wr_none; by eapply not_inside_top|]. eapply docs_agree; [exact D|]. intros z Hz.
  pose proof (docs_dom _ _ _ _ D Hz) as Hz2. by rewrite lookup_insert_ne by (intros ->; rewrite Hn in Hz2; by destruct Hz2).
Qed.

Lemma line_docs K r E x n ks : wf K -> docs K [r] E -> K !! n = None -> K !! x = Some ks ->
  exists E1, lined n x E E1 /\ docs (<[x := [n]]> (<[n := ks]> K)) [r] E1.
Proof.
  intros Hw D Hn Hx. assert (Hne : n <> x) by (intros ->; congruence). set (K' := <[x := [n]]> _).
  assert (Ha : forall z, is_Some (K !! z) -> z <> x -> K' !! z = K !! z).
  { intros z Hz Hzx. unfold K'. rewrite lookup_insert_ne by done. rewrite lookup_insert_ne; [done|]. intros ->. rewrite Hn in Hz. by destruct Hz. }
  destruct (decide (Open x ∈ E)) as [Hy|Hy].
  - destruct (docs_hole _ _ _ _ D Hy) as (A & M & B & cs & -> & Hy' & DM & _ & Hh). assert (cs = ks) as -> by congruence.
    destruct (nodup_parts _ _ _ _ (docs_nodup _ _ _ Hw D)) as (NA & NM & NB).
    exists (A ++ Open x :: Open n :: M ++ Close n :: Close x :: B). split; [by constructor|].
    replace (A ++ Open x :: Open n :: M ++ Close n :: Close x :: B) with (A ++ Open x :: (Open n :: M ++ [Close n]) ++ Close x :: B) by (repeat (rewrite <- app_assoc || cbn [app]); done).
    apply (Hh _ [n]).
    + apply lookup_insert.
    + apply (docs_one _ n ks). { unfold K'. rewrite lookup_insert_ne by done. apply lookup_insert. }
      eapply docs_agree; [exact DM|]. intros z Hz. apply Ha; [by eapply docs_dom|by intros ->].
    + intros z Hz. apply Ha; [|intros ->; rewrite elem_of_app in Hz; tauto]. eapply docs_dom; [exact D|]. revert Hz. rewrite !elem_of_app, elem_of_cons, elem_of_app, elem_of_cons. tauto.
  - exists E. split; [by apply ln_none|]. eapply docs_agree; [exact D|]. intros z Hz. apply Ha; [by eapply docs_dom|by intros ->].
Qed.

Lemma docs_self K x cs E : K !! x = Some cs -> docs K [x] E -> exists M, E = Open x :: M ++ [Close x] /\ docs K cs M.
Proof.
  intros Hx D. destruct (docs_shape _ _ _ D) as ([z ts] & Ht & ->). inversion Ht as [? ? Hk Hf]; subst.
  exists (concat (map dfs_events ts)). split; [done|]. assert (cs = map rose_root ts) as -> by congruence.
  clear -Hf. induction ts as [|t ts IH]; [constructor|]. inversion Hf; subst. cbn [map concat]. apply (docs_app _ [rose_root t]); [by apply docs_of_shape|by apply IH].
Qed.
Lemma unwrap_docs K r E x p ks cs : wf K -> docs K [r] E -> K !! x = Some cs -> K !! p = Some ks -> x ∈ ks ->
  exists E1, unwrapped x E E1 /\ docs (<[x := []]> (<[p := splice x cs ks]> K)) [r] E1.
Proof.
  intros Hw D Hx Hp Hin. pose proof (row_ne _ _ _ _ Hw Hp Hin) as Hxp. destruct (decide (Open p ∈ E)) as [Hy|Hy].
  - destruct (docs_row _ _ _ _ _ _ Hw D Hp Hin Hy) as (A & M & B & l1 & l2 & cs' & Hi & -> & H1 & H2 & Hc & DM & HpA & Hh). assert (cs' = cs) as -> by congruence.
    exists (A ++ M ++ B). split; [by econstructor|]. destruct Hi as [-> HA]. pose proof (docs_nodup _ _ _ Hw D) as N.
    destruct (nodup_parts _ _ _ _ N) as (NA & NM & NB). destruct (nodup_within _ _ _ _ _ N HpA) as [F1 F2]. apply (Hh _ cs).
    + rewrite lookup_insert_ne by done. rewrite lookup_insert. by rewrite splice_split.
    + eapply docs_agree; [exact DM|]. intros z Hz. rewrite !lookup_insert_ne; [done|intros ->; done..].
    + intros z Hz Hzp. rewrite !lookup_insert_ne; [done|done|]. intros ->. rewrite elem_of_app in Hz. tauto.
  - destruct (decide (Open x ∈ E)) as [Hxe|Hxe].
    + destruct (docs_up _ _ _ _ D Hxe) as [Hi|(q & (ks' & Hq & Hin') & Hqe)].
      * apply elem_of_list_singleton in Hi as <-. destruct (docs_self _ _ _ _ Hx D) as (M & -> & DM). exists [Open x; Close x]. split; [by econstructor|].
        apply (docs_one _ x [] []); [apply lookup_insert|constructor].
      * assert (q = p) as -> by (eapply (wf_uniq _ Hw _ _ x); [by exists ks'|by exists ks]). done.
    + exists E. split; [by apply un_none|]. eapply docs_agree; [exact D|]. intros z Hz. rewrite !lookup_insert_ne; [done|intros ->; done..].
Qed.
Lemma unwrap_top_docs K r E x cs : wf K -> docs K [r] E -> K !! x = Some cs -> is_top K x ->
  exists E1, unwrapped x E E1 /\ docs (<[x := []]> K) [r] E1.
Proof.
  intros Hw D Hx Ht. destruct (decide (Open x ∈ E)) as [Hxe|Hxe].
  - destruct (docs_up _ _ _ _ D Hxe) as [Hi|(q & Hq & Hqe)]; [|by destruct (proj2 Ht q)].
    apply elem_of_list_singleton in Hi as <-. destruct (docs_self _ _ _ _ Hx D) as (M & -> & DM). exists [Open x; Close x]. split; [by econstructor|].
    apply (docs_one _ x [] []); [apply lookup_insert|constructor].
  - exists E. split; [by apply un_none|]. eapply docs_agree; [exact D|]. intros z Hz. rewrite lookup_insert_ne; [done|by intros ->].
Qed.
(** A forest that lost whole trees. *)
Lemma docs_less K K2 r E : docs K [r] E -> wf K2 -> is_Some (K2 !! r) -> (forall y ks, K2 !! y = Some ks -> K !! y = Some ks) -> docs K2 [r] E.
Proof.
  intros D Hw Hr Hs. destruct (docs_exist K2 r Hw Hr) as [E2 D2].
  assert (docs K [r] E2) as D3. { eapply docs_agree; [exact D2|]. intros y Hy. destruct (docs_dom _ _ _ _ D2 Hy) as [ks Hk]. rewrite Hk. by apply Hs. }
  by rewrite (docs_fun _ _ _ D _ D3).
Qed.
