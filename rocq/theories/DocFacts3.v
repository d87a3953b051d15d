(** * DocFacts3: what the calls do to documents. *)
From Verif Require Import Heap Traverse System SysSpec SpecFacts RoseFacts IterSpec IterFacts TravFacts ApiSpec ApiFacts ApiFacts2 ApiFacts3 ApiFacts6 DocSpec EditFacts2 DocFacts DocFacts2 Spec.

Section DocFacts3.
Context {T : Type}.
Implicit Types (s : sys T) (K : forest).

Lemma top_or K x : is_Some (K !! x) -> is_top K x \/ exists p ks, K !! p = Some ks /\ x ∈ ks.
Proof. intros H. destruct (SpecFacts.top_or_child K x H) as [|(p & ks & Hp)]; [by left|right; by exists p, ks]. Qed.
Lemma docs_reads s K r E : stores s K -> docs K [r] E -> reads s r E.
Proof. intros [R W] D. destruct (docs_shape _ _ _ D) as (t & Ht & ->). by eapply dfs_enum. Qed.
Lemma reads_docs s K r E : stores s K -> is_Some (s_nodes s !! r) -> reads s r E -> docs K [r] E.
Proof.
  intros S Hr H. apply (rep_dom _ _ (proj1 S)) in Hr. destruct (docs_exist K r (proj2 S) Hr) as [E2 D]. pose proof (docs_reads s K r E2 S D) as H2.
  by rewrite (enumerates_unique _ _ _ _ H H2).
Qed.
Lemma alive_K s K r : stores s K -> is_Some (s_nodes s !! r) -> is_Some (K !! r).
Proof. intros S. apply (rep_dom _ _ (proj1 S)). Qed.
Lemma new_K s K n : stores s K -> s_nodes s !! n = None -> K !! n = None.
Proof. intros S H. apply eq_None_not_Some. intros F. apply (rep_dom _ _ (proj1 S)) in F. rewrite H in F. by destruct F. Qed.

Lemma wf_alone K n : wf K -> K !! n = None -> wf (<[n := []]> K).
Proof.
  intros W Hn. assert (C : forall p c, child_of (<[n := []]> K) p c -> child_of K p c).
  { intros p c (ks & Hp & Hin). destruct (decide (p = n)) as [->|Hne]; [rewrite lookup_insert in Hp; injection Hp as <-; by apply elem_of_nil in Hin|].
    rewrite lookup_insert_ne in Hp by done. by exists ks. }
  split.
  - intros p c H. apply C in H. destruct (wf_dom _ W p c H) as [ks Hk]. rewrite lookup_insert_ne by (intros ->; congruence). by eexists.
  - intros p ks Hp. destruct (decide (p = n)) as [->|Hne]; [rewrite lookup_insert in Hp; injection Hp as <-; constructor|]. rewrite lookup_insert_ne in Hp by done. by eapply wf_nodup.
  - intros p q c H1 H2. by eapply (wf_uniq _ W); apply C.
  - intros x. induction (wf_acyclic _ W x) as [x _ IH]. constructor. intros c H. apply IH. by apply C.
Qed.

Lemma doc_create s a k x d ad s' i : reach s -> receiver s a k x -> step s (OpCreate a d ad) = Ret (s', OutHandle i) ->
  exists n, s_hands s' !! i = Some (HNode k n) /\ s_nodes s !! n = None /\ payload s' n = Some (d, Lent 0) /\ reads s' n [Open n; Close n] /\
    forall r E, is_Some (s_nodes s !! r) -> reads s r E -> exists E', pasted [Open n; Close n] x E ad E' /\ reads s' r E'.
Proof.
  intros R Hr Es. destruct (reach_stores s R) as [K S]. destruct (create_effect s K a k x d ad R S Hr) as (s1 & r1 & t & E1 & Ht & C).
  rewrite Es in E1. injection E1 as <- <-. destruct C as [(Hpl & n & i' & K' & [= <-] & At & Ad)|(_ & F & _)]; [|done].
  pose proof (new_K s K n S (ad_new _ _ _ _ _ _ _ _ Ad)) as Hn. pose proof (ad_stores _ _ _ _ _ _ _ _ Ad) as S'.
  pose proof (wf_alone K n (proj2 S) Hn) as Wn.
  assert (Dn : docs (<[n := []]> K) [n] [Open n; Close n]) by (apply (docs_one _ n [] []); [apply lookup_insert|constructor]).
  assert (Hne : forall q, dest_parent (<[n:=[]]> K) (dest_of ad x) q -> q <> n).
  { destruct (receiver_facts s K a k x (reach_stores_inv s K R S) Hr) as (_ & _ & _ & _ & _ & _ & Hx & _). pose proof (ad_new _ _ _ _ _ _ _ _ Ad) as Hnew.
    assert (Hxn : x <> n) by (intros ->; rewrite Hnew in Hx; by destruct Hx).
    intros q Hq ->. destruct ad; cbn [dest_of dest_parent] in Hq; [by subst..| |];
      (destruct Hq as (ks & Hk & Hin); rewrite lookup_insert in Hk; injection Hk as <-; by apply elem_of_nil in Hin). }
  assert (P : forall q, dest_parent (<[n:=[]]> K) (dest_of ad x) q -> Open q ∉ [Open n; Close n]).
  { intros q Hq F. apply elem_of_cons in F as [[= F]|F]; [by apply (Hne q)|]. by apply elem_of_list_singleton in F. }
  exists n. split; [rewrite (ad_hands _ _ _ _ _ _ _ _ Ad); apply lookup_insert|]. split; [exact (ad_new _ _ _ _ _ _ _ _ Ad)|].
  split; [exact (ad_data _ _ _ _ _ _ _ _ Ad)|]. split.
  - apply (docs_reads s' K'); [done|]. eapply docs_agree; [exact Dn|]. intros z Hz. apply elem_of_cons in Hz as [[= ->]|Hz]; [|by apply elem_of_list_singleton in Hz].
    inversion At as [p ks Hp E1 E2|p ks Hp E1 E2|y p ks Hp Hin E1 E2|y p ks Hp Hin E1 E2]; subst; (rewrite lookup_insert_ne; [done|]); apply Hne; rewrite <- E1; cbn; try done; by exists ks.
  - intros r E Hra HE. apply (reads_docs s K) in HE; [|done..].
    assert (D : docs (<[n := []]> K) [r] E). { eapply docs_agree; [exact HE|]. intros z Hz. rewrite lookup_insert_ne; [done|]. intros ->. destruct (docs_dom _ _ _ _ HE Hz). congruence. }
    destruct (paste_docs _ r E n [Open n; Close n] ad x K' Wn D Dn At P) as (E' & HP & D'). exists E'. split; [done|]. by eapply docs_reads.
Qed.

Lemma doc_wrap s a k x d : reach s -> receiver s a k x ->
  exists s' n i, step s (OpInterruptParent a d) = Ret (s', OutHandle i) /\ s_hands s' !! i = Some (HNode k n) /\ s_nodes s !! n = None /\ payload s' n = Some (d, Lent 0) /\
    (forall E, reads s x E -> reads s' n (Open n :: E ++ [Close n])) /\
    forall r E, is_Some (s_nodes s !! r) -> reads s r E -> exists E', wrapped n x E E' /\ reads s' r E'.
Proof.
  intros R Hr. destruct (reach_stores s R) as [K S]. pose proof (reach_stores_inv s K R S) as I. destruct (receiver_facts s K a k x I Hr) as (_ & _ & _ & _ & _ & _ & Hx & _).
  pose proof (alive_K s K x S Hx) as HxK. destruct (interrupt_parent_api s K a k x d R S Hr) as [C1 C2].
  assert (Hn0 : forall n, s_nodes s !! n = None -> forall E z, docs K [x] E -> Open z ∈ E -> z <> n).
  { intros n Hn E z D Hz ->. destruct (docs_dom _ _ _ _ D Hz). rewrite (new_K s K n S Hn) in *. done. }
  destruct (top_or K x HxK) as [Ht|(p & ks & Hp & Hin)].
  - destruct (C2 Ht) as (s' & n & i & t & E1 & _ & Ad & _). pose proof (ad_new _ _ _ _ _ _ _ _ Ad) as Hn. pose proof (new_K s K n S Hn) as HnK. pose proof (ad_stores _ _ _ _ _ _ _ _ Ad) as S'.
    exists s', n, i. split; [done|]. split; [rewrite (ad_hands _ _ _ _ _ _ _ _ Ad); apply lookup_insert|]. split; [done|]. split; [exact (ad_data _ _ _ _ _ _ _ _ Ad)|]. split.
    + intros E HE. apply (reads_docs s K) in HE; [|done..]. eapply docs_reads; [exact S'|]. apply (docs_one _ n [x]); [apply lookup_insert|].
      eapply docs_agree; [exact HE|]. intros z Hz. rewrite lookup_insert_ne; [done|]. intros ->. by eapply (Hn0 z).
    + intros r E Hra HE. apply (reads_docs s K) in HE; [|done..]. destruct (wrap_top_docs K r E x n (proj2 S) HE HnK Ht) as (E' & W & D). exists E'. split; [done|]. by eapply docs_reads.
  - destruct (C1 p ks Hp Hin) as (s' & n & i & t & E1 & _ & Ad). pose proof (ad_new _ _ _ _ _ _ _ _ Ad) as Hn. pose proof (new_K s K n S Hn) as HnK. pose proof (ad_stores _ _ _ _ _ _ _ _ Ad) as S'.
    exists s', n, i. split; [done|]. split; [rewrite (ad_hands _ _ _ _ _ _ _ _ Ad); apply lookup_insert|]. split; [done|]. split; [exact (ad_data _ _ _ _ _ _ _ _ Ad)|]. split.
    + intros E HE. apply (reads_docs s K) in HE; [|done..]. eapply docs_reads; [exact S'|]. apply (docs_one _ n [x]); [apply lookup_insert|].
      eapply docs_agree; [exact HE|]. intros z Hz. rewrite lookup_insert_ne by (intros ->; by eapply (Hn0 z)). rewrite lookup_insert_ne; [done|]. intros ->.
      destruct (docs_row _ _ _ _ _ _ (proj2 S) HE Hp Hin Hz) as (A & M & B & _ & _ & _ & [EE HA] & _). destruct HxK as [cs Hc]. destruct (docs_self _ _ _ _ Hc HE) as (M0 & -> & _).
      pose proof (docs_nodup _ _ _ (proj2 S) HE) as N. destruct (doc_at x [] M0 [] A M B) as [-> _]; [exact N|exact EE|done].
    + intros r E Hra HE. apply (reads_docs s K) in HE; [|done..]. destruct (wrap_docs K r E x n p ks (proj2 S) HE HnK Hp Hin) as (E' & W & D). exists E'. split; [done|]. by eapply docs_reads.
Qed.

Lemma doc_line s a k x d : reach s -> receiver s a k x ->
  exists s' n i, step s (OpInterruptChild a d) = Ret (s', OutHandle i) /\ s_hands s' !! i = Some (HNode k n) /\ s_nodes s !! n = None /\ payload s' n = Some (d, Lent 0) /\
    (forall M, reads s x (Open x :: M ++ [Close x]) -> reads s' n (Open n :: M ++ [Close n])) /\
    forall r E, is_Some (s_nodes s !! r) -> reads s r E -> exists E', lined n x E E' /\ reads s' r E'.
Proof.
  intros R Hr. destruct (reach_stores s R) as [K S]. pose proof (reach_stores_inv s K R S) as I. destruct (receiver_facts s K a k x I Hr) as (_ & _ & _ & _ & _ & _ & Hx & _).
  destruct (alive_K s K x S Hx) as [ks HxK]. destruct (interrupt_child_api s K a k x ks d R S Hr HxK) as (s' & n & i & t & E1 & _ & Ad).
  pose proof (ad_new _ _ _ _ _ _ _ _ Ad) as Hn. pose proof (new_K s K n S Hn) as HnK. pose proof (ad_stores _ _ _ _ _ _ _ _ Ad) as S'. assert (Hne : n <> x) by (intros ->; congruence).
  exists s', n, i. split; [done|]. split; [rewrite (ad_hands _ _ _ _ _ _ _ _ Ad); apply lookup_insert|]. split; [done|]. split; [exact (ad_data _ _ _ _ _ _ _ _ Ad)|]. split.
  - intros M HE. apply (reads_docs s K) in HE; [|done..]. destruct (docs_self _ _ _ _ HxK HE) as (M0 & EM & DM). injection EM as EM. apply app_inj_2 in EM as [<- _]; [|done].
    eapply docs_reads; [exact S'|]. apply (docs_one _ n ks). { rewrite lookup_insert_ne by done. apply lookup_insert. }
    pose proof (docs_nodup _ _ _ (proj2 S) HE) as N. destruct (nodup_parts x [] M [] N) as (_ & NM & _).
    eapply docs_agree; [exact DM|]. intros z Hz. rewrite lookup_insert_ne by (intros ->; done). rewrite lookup_insert_ne; [done|]. intros ->. destruct (docs_dom _ _ _ _ DM Hz). congruence.
  - intros r E Hra HE. apply (reads_docs s K) in HE; [|done..]. destruct (line_docs K r E x n ks (proj2 S) HE HnK HxK) as (E' & W & D). exists E'. split; [done|]. by eapply docs_reads.
Qed.

Lemma carries_less s K1 x t t' s' K2 : carries s K1 x t t' s' K2 -> forall y ks, K2 !! y = Some ks -> K1 !! y = Some ks.
Proof.
  intros C y ks Hy. destruct (cy_rest _ _ _ _ _ _ _ C) as [(_ & _ & ->)|(_ & _ & Ho)]; [done|]. destruct (Ho y) as [H1 H2].
  destruct (decide (K1 !! y = Some ks)) as [|Hne]; [done|]. exfalso. assert (~ ~ (below K1 x y \/ tree_of s y <> Some t)) as F by (intros F; rewrite (H2 F) in Hy; done).
  apply F. intros P. rewrite (H1 P) in Hy. done.
Qed.

Lemma doc_replace s K a k x s' : reach s -> stores s K -> receiver s a k x -> safe s K (OpReplace a) -> step s (OpReplace a) = Ret (s', OutUnit) ->
  forall r E, is_Some (s_nodes s !! r) -> is_Some (s_nodes s' !! r) -> reads s r E -> exists E', unwrapped x E E' /\ reads s' r E'.
Proof.
  intros R S Hr Hs Es r E Ha Ha' HE. pose proof (reach_stores_inv s K R S) as I. destruct (receiver_facts s K a k x I Hr) as (_ & _ & _ & _ & _ & _ & Hx & _).
  pose proof (alive_K s K x S Hx) as HxK. pose proof HxK as [cs Hc]. apply (reads_docs s K) in HE; [|done..]. destruct (replace_api s K a k x cs R S Hr Hc) as (C1 & C2 & C3 & C4).
  assert (Fin : forall K1 K2 t t' E', splits s K1 x t t' s' K2 -> docs K1 [r] E' -> reads s' r E').
  { intros K1 K2 t t' E' Sp D. pose proof (sp_stores _ _ _ _ _ _ _ Sp) as S'. eapply docs_reads; [exact S'|]. eapply docs_less; [exact D|exact (proj2 S')|by eapply alive_K|].
    exact (carries_less _ _ _ _ _ _ _ (sp_carries _ _ _ _ _ _ _ Sp)). }
  destruct (top_or K x HxK) as [Ht|(p & ks & Hp & Hin)].
  - destruct cs as [|c [|c2 cs]].
    + rewrite (C3 Ht eq_refl) in Es. done.
    + destruct (C2 c Ht eq_refl) as (s1 & t & t' & K2 & E1 & _ & Sp & _). rewrite Es in E1. injection E1 as <-.
      destruct (unwrap_top_docs K r E x _ (proj2 S) HE Hc Ht) as (E' & U & D). exists E'. split; [done|]. by eapply Fin.
    + rewrite (C4 Ht) in Es; [done|]. cbn. lia.
  - destruct (C1 p ks Hp Hin) as (s1 & t & t' & K2 & E1 & _ & Sp).
    { intros Hl ->. by eapply (Hs k x). }
    rewrite Es in E1. injection E1 as <-. destruct (unwrap_docs K r E x p ks cs (proj2 S) HE Hc Hp Hin) as (E' & U & D). exists E'. split; [done|]. by eapply Fin.
Qed.

Lemma doc_detach s K a k x : reach s -> stores s K -> receiver s a k x -> safe s K (OpDetach a) ->
  exists s', step s (OpDetach a) = Ret (s', OutUnit) /\
  forall r E, is_Some (s_nodes s !! r) -> is_Some (s_nodes s' !! r) -> reads s r E -> exists E', cut x E E' /\ reads s' r E'.
Proof.
  intros R S Hr Hs. pose proof (reach_stores_inv s K R S) as I. destruct (receiver_facts s K a k x I Hr) as (_ & _ & _ & _ & _ & _ & Hx & _).
  pose proof (alive_K s K x S Hx) as HxK. destruct (detach_api s K a k x R S Hr) as (C1 & C2).
  destruct (top_or K x HxK) as [Ht|(p & ks & Hp & Hin)].
  - exists s. split; [by apply C1|]. intros r E Ha _ HE. exists E. split; [|done]. apply cut_none. apply (reads_docs s K) in HE; [|done..]. eapply not_inside_top; [exact (proj2 S)|exact HE|done].
  - destruct (C2 p ks Hp Hin) as (s' & t & t' & K2 & E1 & _ & Sp). { by eapply (Hs k x). }
    exists s'. split; [done|]. intros r E Ha Ha' HE. apply (reads_docs s K) in HE; [|done..].
    destruct (cut_docs K r E x _ (proj2 S) HE ltac:(by exists p, ks)) as (E' & Cu & D). exists E'. split; [done|].
    pose proof (sp_stores _ _ _ _ _ _ _ Sp) as S'. eapply docs_reads; [exact S'|]. eapply docs_less; [exact D|exact (proj2 S')|by eapply alive_K|].
    exact (carries_less _ _ _ _ _ _ _ (sp_carries _ _ _ _ _ _ _ Sp)).
Qed.

Lemma attached_more K K2 n dest K3 : attached K2 n dest K3 -> (forall y ks, K2 !! y = Some ks -> K !! y = Some ks) ->
  exists K3', attached K n dest K3' /\ forall y ks, K3 !! y = Some ks -> K3' !! y = Some ks.
Proof.
  intros At Hs. assert (L : forall p ks ks', K2 !! p = Some ks -> forall y l, <[p := ks']> K2 !! y = Some l -> <[p := ks']> K !! y = Some l).
  { intros p ks ks' _ y l. destruct (decide (y = p)) as [->|Hne]; [by rewrite !lookup_insert|]. rewrite !lookup_insert_ne by done. apply Hs. }
  inversion At as [p ks Hp|p ks Hp|y p ks Hp Hin|y p ks Hp Hin]; subst; (eexists; split; [constructor; [by apply Hs|done..]|by apply (L _ ks)]).
Qed.
Lemma docs_below K x E z : wf K -> docs K [x] E -> Open z ∈ E -> below K x z.
Proof. intros Hw D Hz. destruct (docs_shape _ _ _ D) as (t & Ht & ->). apply dfs_events_elem in Hz. by apply (shape_nodes K x t). Qed.

Lemma move_docs K K1 K3 K3' x ad y S : wf K -> unlinked K x K1 -> attached K1 x (dest_of ad y) K3' -> (forall z ks, K3 !! z = Some ks -> K3' !! z = Some ks) -> wf K3 ->
  docs K [x] S -> ~ below K x y ->
  forall r E, docs K [r] E -> is_Some (K3 !! r) -> exists E1 E', cut x E E1 /\ pasted S y E1 ad E' /\ docs K3 [r] E'.
Proof.
  intros W Hu At Hless W3 HS Hnb. destruct (docs_shape _ _ _ HS) as (tr & Htr & ES). destruct (unlinked_wf K x K1 W Hu) as [W1 _].
  assert (D1 : docs K1 [x] S). { rewrite ES. apply docs_of_shape. exact (ApiFacts6.unlinked_shape K x K1 tr W Hu Htr). }
  assert (Kc : forall p c, child_of K1 p c -> child_of K p c).
  { destruct Hu as (q & ks & Hq & Hin & ->). intros p c (l & Hl & Hc). destruct (decide (p = q)) as [->|Hne].
    - rewrite lookup_insert in Hl. injection Hl as <-. exists ks. split; [done|]. unfold without in Hc. by apply elem_of_list_filter in Hc as [_ Hc].
    - rewrite lookup_insert_ne in Hl by done. by exists l. }
  assert (P : forall q, dest_parent K1 (dest_of ad y) q -> Open q ∉ S).
  { intros q Hq F. pose proof (docs_below K x S q W HS F) as Hb. destruct ad; cbn [dest_of dest_parent] in Hq; [by subst|by subst|..]; apply Hnb; (econstructor; [exact Hb|by apply Kc]). }
  intros r E HE Hr. destruct (cut_docs K r E x K1 W HE Hu) as (E1 & Cu & D).
  destruct (paste_docs K1 r E1 x S ad y K3' W1 D D1 At P) as (E' & Pa & D'). exists E1, E'. split; [done|]. split; [done|].
  eapply docs_less; [exact D'|exact W3|exact Hr|exact Hless].
Qed.

(** What a move has to do. *)
Definition moves_doc s x ad y s' : Prop := forall S, reads s x S -> reads s' x S /\
  forall r E, is_Some (s_nodes s !! r) -> is_Some (s_nodes s' !! r) -> reads s r E -> exists E1 E', cut x E E1 /\ pasted S y E1 ad E' /\ reads s' r E'.

Lemma moves_doc_intro s K x ad y K1 K3 K3' s' : stores s K -> is_Some (s_nodes s !! x) -> ~ below K x y ->
  unlinked K x K1 -> attached K1 x (dest_of ad y) K3' -> (forall z ks, K3 !! z = Some ks -> K3' !! z = Some ks) -> stores s' K3 -> (forall tr, shape K x tr -> shape K3 x tr) -> moves_doc s x ad y s'.
Proof.
  intros St Hx Hnb Hu At Hl S3 Hsh S HS. apply (reads_docs s K) in HS; [|done..]. destruct (docs_shape _ _ _ HS) as (tr & Htr & ES).
  split; [rewrite ES; apply (docs_reads s' K3 _ _ S3), docs_of_shape; by apply Hsh|].
  intros r E Ha Ha' HE. apply (reads_docs s K) in HE; [|done..].
  destruct (move_docs K K1 K3 K3' x ad y S (proj2 St) Hu At Hl (proj2 S3) HS Hnb r E HE (alive_K _ _ _ S3 Ha')) as (E1 & E' & H1 & H2 & H3).
  exists E1, E'. split; [done|]. split; [done|]. by eapply docs_reads.
Qed.

Lemma doc_move s K a k x ad j y : reach s -> stores s K -> receiver s a k x -> s_hands s !! j = Some (HNode Hot y) ->
  (exists p, child_of K p x) -> (last_not_first K x -> alone s K x) -> ~ below K x y -> has_place K ad y ->
  exists s', step s (OpMove a ad j) = Ret (s', OutUnit) /\ moves_doc s x ad y s'.
Proof.
  intros R St Hr Hj Hpar Hal Hnb Hpl. pose proof (reach_stores_inv s K R St) as I. destruct (receiver_facts s K a k x I Hr) as (_ & _ & _ & _ & _ & _ & Hx & _).
  destruct (move_shape_api s K a k x ad j y R St Hr Hj Hpar Hal Hnb Hpl) as (s' & t & t' & Es & _ & _ & Cs & Cd). exists s'. split; [done|].
  destruct (decide (t = t')) as [Ht|Ht].
  - destruct (Cs Ht) as (K' & (K1 & Hu & At) & Re & Hsh). apply (moves_doc_intro s K x ad y K1 K' K'); [done..|exact (re_stores _ _ _ Re)|done].
  - destruct (Cd Ht) as (K1 & K2 & K3 & Hu & Ca & At & S3 & Hsh). destruct (attached_more K1 K2 x _ K3 At (carries_less _ _ _ _ _ _ _ Ca)) as (K3' & At' & Hl).
    by apply (moves_doc_intro s K x ad y K1 K3 K3').
Qed.
End DocFacts3.
