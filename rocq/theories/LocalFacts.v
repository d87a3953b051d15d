(** * LocalFacts: locality of the functions of the model. *)
From Verif Require Import Heap Edit Traverse System LocalSpec.
From Coq Require Import Lia.

Section Loc.
Context {T : Type}.
Implicit Types (h g : heap T) (l : list nid) (x n p : nid).

Definition agree l h g : Prop := forall x, x ∈ l -> h !! x = g !! x.
Definition keeps l h h' : Prop := forall x, x ∉ l -> h' !! x = h !! x.

Definition rdl {V} (k : nat) (f : heap T -> V) : Prop :=
  forall h, exists l, length l <= k /\ forall g, agree l h g -> f g = f h.
Definition pw (k : nat) (W : heap T -> heap T) : Prop :=
  exists (w : nid -> option (node T) -> option (node T)) l, length l <= k /\ (forall h x, W h !! x = w x (h !! x)) /\
    forall h x, x ∉ l -> W h !! x = h !! x.
Definition fails {B} (b : bool) : run B := if b then Panic else NoFuel.
Definition loc {A B} (mk : heap T -> A -> B) (k : nat) (m : heap T -> run B) : Prop :=
  forall h, exists l, length l <= k /\
    ((exists h' a, m h = Ret (mk h' a) /\ keeps l h h' /\
       forall g, agree l h g -> exists g', m g = Ret (mk g' a) /\ agree l h' g' /\ keeps l g g') \/
     (exists b, m h = fails b /\ forall g, agree l h g -> m g = fails b)).

Lemma agree_app l l' h g : agree (l ++ l') h g -> agree l h g /\ agree l' h g.
Proof. intros H. split; intros x Hx; apply H, elem_of_app; auto. Qed.
Lemma agree_grow l l' h g h' g' : agree (l ++ l') h g -> agree l h' g' -> keeps l h h' -> keeps l g g' -> agree (l ++ l') h' g'.
Proof. intros A A' K K' x Hx. destruct (decide (x ∈ l)) as [I|I]; [by apply A'|]. rewrite K, K' by exact I. by apply A. Qed.
Lemma keeps_l l l' h h' : keeps l h h' -> keeps (l ++ l') h h'.
Proof. intros K x [N _]%not_elem_of_app. by apply K. Qed.
Lemma keeps_r l l' h h' : keeps l' h h' -> keeps (l ++ l') h h'.
Proof. intros K x [_ N]%not_elem_of_app. by apply K. Qed.

Lemma loc_rd {A B V} (mk : heap T -> A -> B) (F : V -> heap T -> run B) (f : heap T -> V) c k :
  rdl c f -> c <= k -> (forall v, loc mk (k - c) (F v)) -> loc mk k (fun h => F (f h) h).
Proof. intros R L H h. destruct (R h) as (l & Hl & E). destruct (H (f h) h) as (l' & Hl' & E').
  exists (l ++ l'). split; [rewrite app_length; lia|]. destruct E' as [(h' & a & E1 & K1 & N)|(bb & E1 & N)]; [left|right].
  - exists h', a. split; [exact E1|]. split; [by apply keeps_r|]. intros g Ag. pose proof (agree_app _ _ _ _ Ag) as [A1 A2].
    rewrite (E g A1). destruct (N g A2) as (g' & E2 & A' & K2). exists g'. split; [exact E2|]. split; [|by apply keeps_r].
    intros x Hx. destruct (decide (x ∈ l')) as [I|I]; [by apply A'|]. rewrite K1, K2 by exact I. by apply Ag.
  - exists bb. split; [exact E1|]. intros g [A1 A2]%agree_app. rewrite (E g A1). by apply N. Qed.
Lemma loc_bind {A B A' B'} (mk : heap T -> A -> B) (mk' : heap T -> A' -> B') (m : heap T -> run B) (K : B -> run B') c k :
  loc mk c m -> c <= k -> (forall a, loc mk' (k - c) (fun h => K (mk h a))) -> loc mk' k (fun h => mbind K (m h)).
Proof. intros R L H h. destruct (R h) as (l & Hl & [(h' & a & E1 & K1 & N)|(bb & E1 & N)]).
  - destruct (H a h') as (l' & Hl' & E'). exists (l ++ l'). split; [rewrite app_length; lia|].
    destruct E' as [(h2 & a2 & E2 & K2 & N2)|(bb & E2 & N2)]; [left|right].
    + exists h2, a2. rewrite E1. split; [exact E2|]. split.
      { intros x Nx. pose proof (proj1 (not_elem_of_app _ _ _) Nx) as [Nx1 Nx2]. rewrite K2 by exact Nx2. by apply K1. }
      intros g Ag. pose proof (agree_app _ _ _ _ Ag) as [A1 A2]. destruct (N g A1) as (g' & Eg & Ag' & Kg).
      pose proof (agree_grow l l' h g h' g' Ag Ag' K1 Kg) as Ag2. destruct (N2 g' (proj2 (agree_app _ _ _ _ Ag2))) as (g2 & Eg2 & A3 & K3).
      exists g2. rewrite Eg. split; [exact Eg2|]. split.
      * intros x Hx. destruct (decide (x ∈ l')) as [I|I]; [by apply A3|]. rewrite K2, K3 by exact I. by apply Ag2.
      * intros x Nx. pose proof (proj1 (not_elem_of_app _ _ _) Nx) as [Nx1 Nx2]. rewrite K3 by exact Nx2. by apply Kg.
    + exists bb. rewrite E1. split; [exact E2|]. intros g Ag. pose proof (agree_app _ _ _ _ Ag) as [A1 A2]. destruct (N g A1) as (g' & Eg & Ag' & Kg).
      rewrite Eg. apply N2. apply (agree_app l l'). by apply (agree_grow l l' h g).
  - exists l. split; [lia|]. right. exists bb. rewrite E1. split; [by destruct bb|]. intros g Ag. rewrite (N g Ag). by destruct bb. Qed.
Lemma loc_wr {A B} (mk : heap T -> A -> B) W a k : pw k W -> loc mk k (fun h => Ret (mk (W h) a)).
Proof. intros (w & l & Hl & E & K) h. exists l. split; [exact Hl|]. left. exists (W h), a. split; [done|]. split; [intros x Nx; by apply K|].
  intros g Ag. exists (W g). split; [done|]. split; [|intros x Nx; by apply K]. intros x Hx. rewrite !E. by rewrite Ag. Qed.
Lemma loc_pre {A B} (mk : heap T -> A -> B) W m c k : pw c W -> c <= k -> loc mk (k - c) m -> loc mk k (fun h => m (W h)).
Proof. intros P L H. exact (loc_bind (fun h (_ : unit) => h) mk (fun h => Ret (W h)) m c k (loc_wr (fun h (_ : unit) => h) W tt c P) L (fun _ => H)). Qed.
Lemma loc_panic {A B} (mk : heap T -> A -> B) k : loc mk k (fun _ => Panic).
Proof. intros h. exists []. split; [cbn; lia|]. right. by exists true. Qed.
Lemma loc_nofuel {A B} (mk : heap T -> A -> B) k : loc mk k (fun _ => NoFuel).
Proof. intros h. exists []. split; [cbn; lia|]. right. by exists false. Qed.
Lemma loc_mono {A B} (mk : heap T -> A -> B) k k' m : loc mk k m -> k <= k' -> loc mk k' m.
Proof. intros H L h. destruct (H h) as (l & Hl & R). exists l. split; [lia|exact R]. Qed.
Lemma loc_ext {A B} (mk : heap T -> A -> B) k m m' : (forall h, m h = m' h) -> loc mk k m' -> loc mk k m.
Proof. intros E H h. destruct (H h) as (l & Hl & [(h' & a & E1 & K1 & N)|(bb & E1 & N)]); exists l; (split; [exact Hl|]); rewrite E.
  - left. exists h', a. split; [exact E1|]. split; [exact K1|]. intros g Ag. rewrite E. by apply N.
  - right. exists bb. split; [exact E1|]. intros g Ag. rewrite E. by apply N. Qed.

Lemma rdl_mono {V} k k' (f : heap T -> V) : rdl k f -> k <= k' -> rdl k' f.
Proof. intros H L h. destruct (H h) as (l & Hl & R). exists l. split; [lia|exact R]. Qed.
Lemma rdl_const {V} k (v : V) : rdl k (fun _ => v).
Proof. intros h. exists []. split; [cbn; lia|done]. Qed.
Lemma rdl_rd {V V'} (F : V' -> heap T -> V) (f : heap T -> V') c k :
  rdl c f -> c <= k -> (forall v, rdl (k - c) (F v)) -> rdl k (fun h => F (f h) h).
Proof. intros R L H h. destruct (R h) as (l & Hl & E). destruct (H (f h) h) as (l' & Hl' & E').
  exists (l ++ l'). split; [rewrite app_length; lia|]. intros g [Ag Ag']%agree_app. rewrite (E g Ag). by apply E'. Qed.
Lemma rdl_pw {V} (f : heap T -> V) W c k : pw c W -> rdl k f -> rdl k (fun h => f (W h)).
Proof. intros (w & l & Hl & E & K) R h. destruct (R (W h)) as (l' & Hl' & E'). exists l'. split; [exact Hl'|].
  intros g Ag. apply E'. intros x Hx. rewrite !E. by rewrite Ag. Qed.
Lemma rdl_lookup x : rdl 1 (fun h => h !! x).
Proof. intros h. exists [x]. split; [done|]. intros g Ag. symmetry. apply Ag. by left. Qed.
Lemma rdl_map {V V'} (F : V -> V') (f : heap T -> V) k : rdl k f -> rdl k (fun h => F (f h)).
Proof. intros R h. destruct (R h) as (l & Hl & E). exists l. split; [exact Hl|]. intros g Ag. by rewrite (E g Ag). Qed.

Lemma pw_id : pw 0 (fun h => h).
Proof. exists (fun _ o => o), []. split; [done|]. split; done. Qed.
Lemma pw_comp W W' k k' : pw k W -> pw k' W' -> pw (k + k') (fun h => W (W' h)).
Proof. intros (w & l & Hl & E & K) (w' & l' & Hl' & E' & K'). exists (fun x o => w x (w' x o)), (l ++ l').
  split; [rewrite app_length; lia|]. split; [intros h x; by rewrite E, E'|]. intros h x [N N']%not_elem_of_app. rewrite K by exact N. by apply K'. Qed.
Lemma pw_alter x F : pw 1 (fun h : heap T => alter F x h).
Proof. exists (fun y o => if decide (x = y) then F <$> o else o), [x]. split; [done|]. split.
  - intros h y. destruct (decide (x = y)) as [-> | N]; [apply lookup_alter|by apply lookup_alter_ne].
  - intros h y N. apply lookup_alter_ne. intros ->. apply N. by left. Qed.
Lemma pw_insert x nd : pw 1 (fun h : heap T => <[x := nd]> h).
Proof. exists (fun y o => if decide (x = y) then Some nd else o), [x]. split; [done|]. split.
  - intros h y. destruct (decide (x = y)) as [-> | N]; [apply lookup_insert|by apply lookup_insert_ne].
  - intros h y N. apply lookup_insert_ne. intros ->. apply N. by left. Qed.
Lemma pw_add x v : pw 1 (fun h => num_children_add h x v).
Proof. exists (fun y o => if decide (x = y) then (fun nd => mkNode (n_data nd) (n_lend nd) (n_parent nd) (n_first nd) (n_next nd) (n_prev nd) (n_nch nd + v) (n_mem nd)) <$> o else o), [x].
  split; [done|]. unfold num_children_add, set_nch, fnch. split.
  - intros h y. destruct (decide (x = y)) as [-> | N]; [|by apply lookup_alter_ne]. rewrite lookup_alter. destruct (h !! y); reflexivity.
  - intros h y N. apply lookup_alter_ne. intros ->. apply N. by left. Qed.
End Loc.

Ltac pw1 := first [apply pw_alter | apply pw_add | apply pw_insert].
Ltac pwt := match goal with
  | |- pw _ (fun h => h) => apply pw_id
  | |- pw _ (fun h => insert ?x ?nd h) => apply pw_insert
  | |- pw _ (fun h => insert ?x ?nd (@?W h)) => apply (pw_comp (fun h => <[x := nd]> h) W); [apply pw_insert|cbv beta; pwt]
  | |- pw _ (fun h => ?f h ?x ?v) => pw1
  | |- pw _ (fun h => ?f (@?W h) ?x ?v) => apply (pw_comp (fun h => f h x v) W); [pw1|cbv beta; pwt]
  end.
Ltac rk := intros ?; exists []; split; [cbn; lia|reflexivity].
Create HintDb rd.
(* a read of (W h): find f, W *)
Ltac rdt := first [ eassumption | solve [eauto 1 with rd nocore]
  | match goal with
    | |- rdl _ (fun h => ?g (@?W h) ?y) => eapply (rdl_pw (fun h => g h y) W); [cbv beta; pwt|]; solve [eauto 1 with rd nocore]
    | |- rdl _ (fun h => lookup ?y (@?W h)) => eapply (rdl_pw (fun h => lookup y h) W); [cbv beta; pwt|]; solve [eauto 1 with rd nocore]
    end ].

Section Fns.
Context {T : Type}.
Implicit Types (h g : heap T) (l : list nid) (x n p : nid).
Lemma r_fparent x : rdl 1 (fun h => fparent h x). Proof. apply (rdl_map (fun o : option (node T) => o ≫= n_parent)), rdl_lookup. Qed.
Lemma r_ffirst x : rdl 1 (fun h => ffirst h x). Proof. apply (rdl_map (fun o : option (node T) => o ≫= n_first)), rdl_lookup. Qed.
Lemma r_fnext x : rdl 1 (fun h => fnext h x). Proof. apply (rdl_map (fun o : option (node T) => o ≫= n_next)), rdl_lookup. Qed.
Lemma r_fprev x : rdl 1 (fun h => fprev h x). Proof. apply (rdl_map (fun o : option (node T) => o ≫= n_prev)), rdl_lookup. Qed.
Lemma r_fnch x : rdl 1 (fun h => fnch h x). Proof. apply (rdl_map (fun o : option (node T) => default 0 (n_nch <$> o))), rdl_lookup. Qed.
Lemma r_alive x : rdl 1 (fun h => alive h x).
Proof. intros h. exists [x]. split; [done|]. intros g Ag. unfold alive. rewrite (Ag x); [done|by left]. Qed.
Lemma r_upgrade o : rdl 1 (fun h => upgrade h o).
Proof. destruct o as [x|]; [|rk]. apply (rdl_map (fun b : bool => if b then Some x else None)), r_alive. Qed.
Lemma r_parent x : rdl 2 (fun h => parent_link h x).
Proof. apply (rdl_rd (fun o h => upgrade h o) _ 1); [apply r_fparent|lia|]. intros. apply r_upgrade. Qed.
Lemma r_is_root x : rdl 2 (fun h => is_root h x).
Proof. apply (rdl_map (fun o : option nid => match o with Some _ => false | None => true end)), r_parent. Qed.
Lemma r_cyc x : rdl 2 (fun h => prev_sibling_cyclic_link h x).
Proof. apply (rdl_map (fun o : option nid => match o with Some y => Ret y | None => Panic end)).
  apply (rdl_rd (fun o h => upgrade h o) _ 1); [apply r_fprev|lia|]. intros. apply r_upgrade. Qed.
Lemma r_next x : rdl 1 (fun h => next_sibling_link h x). Proof. apply r_fnext. Qed.
Lemma r_first x : rdl 1 (fun h => first_child_link h x). Proof. apply r_ffirst. Qed.
Lemma r_prev x : rdl 3 (fun h => prev_sibling_link h x).
Proof. apply (rdl_rd (fun c h => c ← c; Ret (match fnext h c with Some _ => Some c | None => None end)) _ 2); [apply r_cyc|lia|].
  intros [c| |]; [|rk..]. apply (rdl_map (fun o : option nid => Ret (match o with Some _ => Some c | None => None end))), r_fnext. Qed.
Lemma r_isfirst x : rdl 3 (fun h => is_first_sibling h x).
Proof. apply (rdl_rd (fun c h => c ← c; Ret (is_last_sibling h c)) _ 2); [apply r_cyc|lia|].
  intros [c| |]; [|rk..]. apply (rdl_map (fun o : option nid => Ret (match o with Some _ => false | None => true end))), r_fnext. Qed.
Lemma r_last x : rdl 3 (fun h => last_child_link h x).
Proof. apply (rdl_rd (fun f h => match f with None => Ret None | Some f => l ← prev_sibling_cyclic_link h f; Ret (Some l) end) _ 1); [apply r_first|lia|].
  intros [c|]; [|rk]. apply (rdl_map (fun o => l ← o; Ret (Some l))), r_cyc. Qed.
Lemma r_fl x : rdl 3 (fun h => first_last_child_link h x).
Proof. apply (rdl_rd (fun f h => match f with None => Ret None | Some f => l ← prev_sibling_cyclic_link h f; Ret (Some (f, l)) end) _ 1); [apply r_first|lia|].
  intros [c|]; [|rk]. apply (rdl_map (fun o => l ← o; Ret (Some (c, l)))), r_cyc. Qed.
Lemma r_firsts x : rdl 3 (fun h => first_sibling h x).
Proof. apply (rdl_rd (fun q h => match q with Some p => match first_child_link h p with Some f => Ret f | None => Panic end | None => Ret x end) _ 2); [apply r_parent|lia|].
  intros [p|]; [|rk]. apply (rdl_map (fun o : option nid => match o with Some f => Ret f | None => Panic end)), r_first. Qed.
Lemma r_lasts x : rdl 5 (fun h => last_sibling h x).
Proof. apply (rdl_rd (fun q h => match q with Some p => l ← last_child_link h p; match l with Some l => Ret l | None => Panic end | None => Ret x end) _ 2); [apply r_parent|lia|].
  intros [p|]; [|rk]. apply (rdl_map (fun o => l ← o; match l with Some l => Ret l | None => Panic end)), r_last. Qed.
Lemma r_lookup x : rdl 1 (fun h => h !! x). Proof. apply rdl_lookup. Qed.
End Fns.
Global Hint Resolve r_fparent r_ffirst r_fnext r_fprev r_fnch r_alive r_upgrade r_parent r_is_root r_cyc r_next r_first r_prev
  r_isfirst r_last r_fl r_firsts r_lasts r_lookup : rd.

(** One read: the subterm is taken out of the program. *)
Lemma loc_rd' {T A B V} (mk : heap T -> A -> B) (F : heap T -> V -> run B) (f : heap T -> V) c k :
  rdl c f -> c <= k -> (forall v, loc mk (k - c) (fun h => F h v)) -> loc mk k (fun h => F h (f h)).
Proof. exact (loc_rd mk (fun v h => F h v) f c k). Qed.
Ltac rd_go mk k h b t :=
  let G0 := eval pattern t in b in
  match G0 with ?G _ =>
    let F0 := eval pattern h in G in
    let f0 := eval pattern h in t in
    match F0 with ?F _ => match f0 with ?f _ =>
      clear h; eapply (loc_rd' mk F f _ k); [cbv beta; rdt|cbn; lia|cbv beta; cbn [Nat.sub]; intros ?v] end end end.
Ltac head_of b := match b with
  | match ?e with _ => _ end => head_of e
  | mbind _ ?e => head_of e
  | _ => b end.
Ltac ev1 := cbv beta zeta; cbn [mbind run_bind option_bind opt_is fst snd].
Ltac ev := ev1.
Ltac step1 :=
  match goal with |- @loc ?T ?A ?B ?mk ?k ?m =>
    let h := fresh "hh" in pose proof (∅ : heap T) as h;
    let b := eval cbv beta in (m h) in
    let s := head_of b in
    match s with
    | context [match ?e with _ => _ end] => is_var e; clear h; destruct e
    | context [prev_sibling_cyclic_link ?X ?y] => rd_go mk k h b constr:(prev_sibling_cyclic_link X y)
    | context [prev_sibling_link ?X ?y] => rd_go mk k h b constr:(prev_sibling_link X y)
    | context [is_root ?X ?y] => rd_go mk k h b constr:(is_root X y)
    | context [parent_link ?X ?y] => rd_go mk k h b constr:(parent_link X y)
    | context [next_sibling_link ?X ?y] => rd_go mk k h b constr:(next_sibling_link X y)
    | context [first_child_link ?X ?y] => rd_go mk k h b constr:(first_child_link X y)
    | context [last_child_link ?X ?y] => rd_go mk k h b constr:(last_child_link X y)
    | context [first_last_child_link ?X ?y] => rd_go mk k h b constr:(first_last_child_link X y)
    | context [is_first_sibling ?X ?y] => rd_go mk k h b constr:(is_first_sibling X y)
    | context [first_sibling ?X ?y] => rd_go mk k h b constr:(first_sibling X y)
    | context [last_sibling ?X ?y] => rd_go mk k h b constr:(last_sibling X y)
    | context [fparent ?X ?y] => rd_go mk k h b constr:(fparent X y)
    | context [ffirst ?X ?y] => rd_go mk k h b constr:(ffirst X y)
    | context [fnext ?X ?y] => rd_go mk k h b constr:(fnext X y)
    | context [fprev ?X ?y] => rd_go mk k h b constr:(fprev X y)
    | context [fnch ?X ?y] => rd_go mk k h b constr:(fnch X y)
    | context [alive ?X ?y] => rd_go mk k h b constr:(alive X y)
    | context [upgrade ?X ?y] => rd_go mk k h b constr:(upgrade X y)
    | context [@lookup ?ta ?tb ?tc ?td ?y ?X] => match X with context [h] => rd_go mk k h b constr:(@lookup ta tb tc td y X) end
    | Ret _ => fail 1
    | context [h] => fail 1
    | _ => clear h; destruct s
    end end; ev.
Definition mk2 {T A} (h : heap T) (a : A) := (h, a).
Definition mk1 {T} (h : heap T) (_ : unit) := h.
Definition mks {T} (h : heap T) (a : gmap tid tree * gmap nat handle * nat) : sys T := mkSys h a.1.1 a.1.2 a.2.
Definition mks2 {T A} (h : heap T) (a : gmap tid tree * gmap nat handle * nat * A) : sys T * A := (mks h a.1, a.2).
Lemma loc_wr2 {T A} (W : heap T -> heap T) (a : A) k : pw k W -> loc mk2 k (fun h => Ret (W h, a)).
Proof. exact (loc_wr mk2 W a k). Qed.
Lemma loc_wr1 {T} (W : heap T -> heap T) k : pw k W -> loc mk1 k (fun h => Ret (W h)).
Proof. exact (loc_wr mk1 W tt k). Qed.
Lemma loc_wrs {T} (W : heap T -> heap T) tr ha fr k : pw k W -> loc mks k (fun h => Ret (mkSys (W h) tr ha fr)).
Proof. exact (loc_wr mks W (tr, ha, fr) k). Qed.
Lemma loc_wrs2 {T A} (W : heap T -> heap T) tr ha fr (a : A) k : pw k W -> loc mks2 k (fun h => Ret (mkSys (W h) tr ha fr, a)).
Proof. exact (loc_wr mks2 W (tr, ha, fr, a) k). Qed.
Section Binds.
Context {T A' B' : Type} (mk' : heap T -> A' -> B').
Lemma bind2 {A} (m : heap T -> run (heap T * A)) (K : heap T * A -> run B') c k :
  loc mk2 c m -> c <= k -> (forall a, loc mk' (k - c) (fun h => K (h, a))) -> loc mk' k (fun h => mbind K (m h)).
Proof. exact (loc_bind mk2 mk' m K c k). Qed.
Lemma bind1 (m : heap T -> run (heap T)) (K : heap T -> run B') c k :
  loc mk1 c m -> c <= k -> loc mk' (k - c) K -> loc mk' k (fun h => mbind K (m h)).
Proof. intros L H H2. exact (loc_bind mk1 mk' m K c k L H (fun _ => H2)). Qed.
Lemma binds (m : heap T -> run (sys T)) (K : sys T -> run B') c k :
  loc mks c m -> c <= k -> (forall tr ha fr, loc mk' (k - c) (fun h => K (mkSys h tr ha fr))) -> loc mk' k (fun h => mbind K (m h)).
Proof. intros L H H2. exact (loc_bind mks mk' m K c k L H (fun a => H2 a.1.1 a.1.2 a.2)). Qed.
Lemma binds2 {A} (m : heap T -> run (sys T * A)) (K : sys T * A -> run B') c k :
  loc mks2 c m -> c <= k -> (forall tr ha fr a, loc mk' (k - c) (fun h => K (mkSys h tr ha fr, a))) -> loc mk' k (fun h => mbind K (m h)).
Proof. intros L H H2. exact (loc_bind mks2 mk' m K c k L H (fun a => H2 a.1.1.1 a.1.1.2 a.1.2 a.2)). Qed.
End Binds.
Ltac ret := first [ apply loc_panic | apply loc_nofuel |
  match goal with
  | |- loc mk2 _ (fun h => Ret (@?W h, ?a)) => eapply loc_mono; [apply (loc_wr2 W a); cbv beta; pwt|cbn; lia]
  | |- loc mk1 _ (fun h => Ret (@?W h)) => eapply loc_mono; [apply (loc_wr1 W); cbv beta; pwt|cbn; lia]
  | |- loc mks _ (fun h => Ret (mkSys (@?W h) ?tr ?ha ?fr)) => eapply loc_mono; [apply (loc_wrs W tr ha fr); cbv beta; pwt|cbn; lia]
  | |- loc mks2 _ (fun h => Ret (mkSys (@?W h) ?tr ?ha ?fr, ?a)) => eapply loc_mono; [apply (loc_wrs2 W tr ha fr a); cbv beta; pwt|cbn; lia]
  end ].
Ltac steps := repeat (first [ret|step1]).

Section Edits.
Context {T : Type}.
Implicit Types (h g : heap T) (l : list nid) (x n p : nid).
Lemma l_unlink n : loc mk2 24 (fun h : heap T => new_by_unlink h n).
Proof. unfold new_by_unlink, num_children_sub, assertb. ev. steps. Qed.
Lemma l_first n p : loc mk2 10 (fun h : heap T => insert_as_first_child_of h n true p).
Proof. unfold insert_as_first_child_of, loop_check, connect_adjacent_siblings. ev. steps. Qed.
Lemma l_last n p : loc mk2 10 (fun h : heap T => insert_as_last_child_of h n true p).
Proof. unfold insert_as_last_child_of, loop_check, connect_adjacent_siblings. ev. steps. Qed.
Lemma l_between n p a b : loc mk1 20 (fun h : heap T => insert_between h n p a b).
Proof. unfold insert_between, assertb, opt_is. ev. steps. Qed.
Lemma l_orphan n d : loc mk2 26 (fun h : heap T => insert_orphan h n true d).
Proof. unfold insert_orphan. destruct d as [p|p|x|x].
  - eapply loc_mono; [apply l_first|lia].
  - eapply loc_mono; [apply l_last|lia].
  - step1. step1; [|ret]. step1. step1; [|apply loc_panic|apply loc_nofuel]. step1.
    + eapply (bind1 _ (fun h => insert_between h n _ _ x)); [apply l_between|cbn; lia|]. ret.
    + eapply loc_mono; [apply l_first|cbn; lia].
  - step1. step1; [|ret]. step1. step1.
    + eapply (bind1 _ (fun h => insert_between h n _ x _)); [apply l_between|cbn; lia|]. ret.
    + eapply loc_mono; [apply l_last|cbn; lia]. Qed.
Lemma unlink_new h n h' b : is_root h n = false -> new_by_unlink h n = Ret (h', b) -> b = true.
Proof. unfold new_by_unlink. intros ->. cbn [mbind run_bind].
  destruct (prev_sibling_link h n) as [q| |]; cbn [mbind run_bind]; [|discriminate..].
  destruct (prev_sibling_cyclic_link h n) as [c| |]; cbn [mbind run_bind]; [|discriminate..].
  match goal with |- mbind _ ?e = _ -> _ => destruct e as [h1| |] end; cbn [mbind run_bind]; [|discriminate..]. by intros [= _ <-]. Qed.
Lemma l_move n d : loc mk2 52 (fun h : heap T => move_inside_same_tree h n d).
Proof. apply (loc_ext mk2 52 _ (fun h => if is_root h n then Ret (h, HOk tt) else '(h1, _) ← new_by_unlink h n; insert_orphan h1 n true d)).
  { intros h. unfold move_inside_same_tree. destruct (is_root h n) eqn:E; [done|]. destruct (new_by_unlink h n) as [[h1 b]| |] eqn:U; cbn [mbind run_bind]; [|done..].
    by rewrite (unlink_new _ _ _ _ E U). }
  step1. step1; [ret|]. eapply (bind2 _ (fun h => new_by_unlink h n)); [apply l_unlink|cbn; lia|]. intros b. cbn [Nat.sub].
  eapply loc_mono; [apply l_orphan|cbn; lia]. Qed.
Lemma l_ipar x n : loc mk2 80 (fun h : heap T => interrupt_parent h x n).
Proof. unfold interrupt_parent. step1. step1; [|ret]. step1.
  assert (loc mk2 54 (fun h => '(h2, r) ← move_inside_same_tree h x (LastChildOf n); match (r : hres unit) with HOk _ => Ret (h2, false) | HErr _ => Panic end)) as B.
  { eapply (bind2 _ (fun h => move_inside_same_tree h x _)); [apply l_move|cbn; lia|]. intros [u|e]; ev; ret. }
  step1.
  - eapply (bind1 _ (fun h => insert_between h n _ x _)); [apply l_between|cbn; lia|]. eapply loc_mono; [apply B|cbn; lia].
  - assert (forall p, loc mk1 10 (fun h => '(h', r) ← insert_as_last_child_of h n true p; match (r : hres unit) with HOk _ => Ret h' | HErr _ => Panic end)) as B2.
    { intros p. eapply (bind2 _ (fun h => insert_as_last_child_of h n true p)); [apply l_last|cbn; lia|]. intros [u|e]; ev; ret. }
    eapply (bind1 _); [apply B2|cbn; lia|]. eapply loc_mono; [apply B|cbn; lia]. Qed.
End Edits.
