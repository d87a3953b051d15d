(** * BuildFacts3: sequences of events. *)
From Verif Require Import SerialSpec NavFacts SpecFacts RoseFacts EqFacts BracketFacts ApiFacts ApiFacts2 ApiFacts3 ApiFacts6 ApiFacts7 ApiFacts8 BuildFacts BuildFacts2 Spec.

Section Build3.
Context {T : Type} {ts0 : list (rose nid)} {b0 : lending}.
Local Notation grew := (@BuildFacts.grew T ts0 b0).
Implicit Types (s : sys T) (K : forest) (td : rose T) (hm : gmap nat handle) (b : builder) (es : list (event T)).

(** The builder has consumed the brackets [pre] (the root included). *)
Inductive phase hm s0 K0 r p : list (option T) -> sys T -> builder -> Prop :=
| ph_open s K t0 td k cur c pre : grew hm s0 K0 r s K t0 td -> held s hm p c r cur -> rpath k t0 cur ->
    pre ++ replicate (S k) None = brackets td -> phase hm s0 K0 r p pre s (mkBuilder (Some p) (Some c))
| ph_closed s K t0 td pre : grew hm s0 K0 r s K t0 td -> s_hands s = <[p := HNode Plain r]> hm -> hm !! p = None ->
    is_top K0 r -> pre = brackets td -> phase hm s0 K0 r p pre s (mkBuilder (Some p) None)
| ph_out s K t0 td c q pre : grew hm s0 K0 r s K t0 td -> held s hm p c r q -> child_of K0 q r ->
    pre = brackets td -> phase hm s0 K0 r p pre s (mkBuilder (Some p) (Some c)).

Lemma phase_grew hm s0 K0 r p pre s b : phase hm s0 K0 r p pre s b ->
  exists K t0 td, grew hm s0 K0 r s K t0 td.
Proof. intros []; eauto. Qed.

Lemma grew_child hm s0 K0 r s K t0 td q : grew hm s0 K0 r s K t0 td -> wf K0 -> child_of K0 q r -> child_of K q r.
Proof.
  intros G Hr (ks & Hk & Hin). exists ks. split; [|done]. rewrite (g_old _ _ _ _ _ _ _ _ G); [done|eauto|].
  intros ->. apply (no_cycle K0 r r Hr); [by exists ks|constructor].
Qed.
Lemma grew_top hm s0 K0 r s K t0 td : grew hm s0 K0 r s K t0 td -> is_top K0 r -> is_top K r.
Proof.
  intros G [H1 H2]. split; [by eapply grew_alive|]. intros q Hq.
  pose proof (g_stores _ _ _ _ _ _ _ _ G) as [_ Hw]. pose proof (g_shape _ _ _ _ _ _ _ _ G) as Hs.
  destruct Hq as (ks & Hk & Hin). destruct (decide (q ∈ rose_nodes t0)) as [Hq|Hq].
  - apply (full_nodes ts0), (shape_nodes K r _ q Hs) in Hq. apply (no_cycle K q r Hw); [by exists ks|exact Hq].
  - destruct (g_all _ _ _ _ _ _ _ _ G q) as [H|H]; [eauto| |done].
    apply (H2 q). exists ks. split; [|done]. rewrite <-(g_old _ _ _ _ _ _ _ _ G); [done|done|].
    intros ->. apply Hq. apply full_root in Hs. destruct t0. simpl in *. subst. apply elem_of_cons. by left.
Qed.

(** One event, while building. *)
Definition step_brackets (e : event T) : list (option T) :=
  match e with EOpen d => [Some d] | EClose n => replicate n None end.

Lemma push_ok hm s0 K0 r p pre s b e : wf K0 -> is_Some (K0 !! r) -> phase hm s0 K0 r p pre s b ->
  (is_top K0 r \/ exists td post, (pre ++ step_brackets e) ++ post = brackets td) ->
  exists s' b' o, b_push s b e = Ret (s', b', o) /\
    match o with
    | None => phase hm s0 K0 r p (pre ++ step_brackets e) s' b'
    | Some x => x = RootClosed /\ (exists pre', phase hm s0 K0 r p pre' s' b') /\
        exists td post, post <> [] /\ pre ++ step_brackets e = brackets td ++ post /\ exists K t0, grew hm s0 K0 r s' K t0 td
    end.
Proof.
  intros Hw0 HK0 [s' K t0 td k cur c pre' G Hh Hr E|s' K t0 td pre' G Hh Hp Htop ->|s' K t0 td c q pre' G Hh Hq ->] Hok; destruct e as [d|[|j]]; simpl.
  - destruct (open_ok _ _ _ _ _ _ _ _ k cur p c d G Hh Hr) as (s1 & K1 & t1 & td1 & n & c1 & E1 & G1 & Hh1 & Hg & Hgd & _).
    exists s1, (mkBuilder (Some p) (Some c1)), None. split; [exact E1|].
    eapply (ph_open _ _ _ _ _ s1 K1 t1 td1 (S k) n c1); [exact G1|exact Hh1|by eapply grown_rpath|].
    by eapply grown_brackets.
  - exists s', (mkBuilder (Some p) (Some c)), None. split; [done|]. rewrite app_nil_r. by eapply ph_open.
  - destruct (close_ok _ _ _ _ p _ _ _ _ k cur c j G Hh Hr) as (H1 & H2 & H3 & H4).
    destruct (lt_eq_lt_dec j k) as [[Hlt|Heq]|Hgt].
    + destruct (H1 Hlt) as (s1 & c1 & cur1 & E1 & G1 & Hh1 & Hr1). eexists _, _, None. split; [exact E1|].
      eapply ph_open; [exact G1|exact Hh1|exact Hr1|]. rewrite <-E, <-app_assoc. f_equal.
      change (None :: replicate j None) with (replicate (S j) (@None T)). rewrite <-replicate_add. f_equal. lia.
    + subst j. destruct (has_place_dec K0 APreviousSibling r Hw0 ltac:(eauto)) as [[q Hq]|[Htop _]].
      * destruct (H3 eq_refl q (grew_child _ _ _ _ _ _ _ _ q G Hw0 Hq)) as (s1 & c1 & E1 & G1 & Hh1). eexists _, _, None. split; [exact E1|].
        eapply ph_out; [exact G1|exact Hh1|exact Hq|exact E].
      * destruct (H2 eq_refl (grew_top _ _ _ _ _ _ _ _ G Htop)) as (s1 & E1 & G1 & Hh1 & Hp1). eexists _, _, None. split; [exact E1|].
        eapply ph_closed; [exact G1|exact Hh1|exact Hp1|exact Htop|exact E].
    + destruct (H4 Hgt) as (s1 & c1 & E1 & G1 & Hh1). eexists _, _, (Some RootClosed). split; [exact E1|]. split; [done|].
      assert (pre' ++ None :: replicate j None = brackets td ++ replicate (j - k) None) as Epost.
      { change (None :: replicate j None) with (replicate (S j) (@None T)). rewrite <-E, <-app_assoc. f_equal.
        rewrite <-replicate_add. f_equal. lia. }
      split; [|exists td, (replicate (j - k) None); split; [destruct (j - k) eqn:?; [lia|done]|split; [exact Epost|by eexists _, _]]].
      exists (take (length (brackets td) - 1) (brackets td)).
      pose proof (g_shape _ _ _ _ _ _ _ _ G1) as Hs.
      eapply (ph_open _ _ _ _ _ _ _ _ _ 0 r); [exact G1|exact Hh1|apply full_root in Hs; destruct t0; simpl in Hs; subst; constructor|].
      destruct td as [d ts]. simpl. rewrite Nat.sub_0_r. rewrite app_length. simpl. rewrite Nat.add_1_r. simpl.
      rewrite take_app. done.
  - exists s', (mkBuilder (Some p) None), (Some RootClosed). split; [done|]. split; [done|].
    split; [eexists; by eapply ph_closed|]. exists td, [Some d]. split; [done|]. split; [done|by eexists _, _].
  - exists s', (mkBuilder (Some p) None), None. split; [done|]. rewrite app_nil_r. by eapply ph_closed.
  - exists s', (mkBuilder (Some p) None), (Some RootClosed). split; [done|]. split; [done|].
    split; [eexists; by eapply ph_closed|]. exists td, (replicate (S j) None). split; [done|]. split; [done|by eexists _, _].
  - exfalso. destruct Hok as [[_ Ht]|(td' & post & Hok)]; [by apply (Ht q)|].
    rewrite <-(app_nil_r (brackets td')), <-app_assoc in Hok. apply brackets_parse in Hok as [_ Hok]. done.
  - exists s', (mkBuilder (Some p) (Some c)), None. split; [done|]. rewrite app_nil_r. by eapply ph_out.
  - exfalso. destruct Hok as [[_ Ht]|(td' & post & Hok)]; [by apply (Ht q)|].
    rewrite <-(app_nil_r (brackets td')), <-app_assoc in Hok. apply brackets_parse in Hok as [_ Hok]. done.
Qed.
End Build3.
