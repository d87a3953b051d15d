(** * PrettyFacts: the pretty printer draws what [draw] says. *)
From Verif Require Import PrettySpec NavFacts SpecFacts RoseFacts IterFacts TravFacts TravFacts4 TdFacts2 EqFacts Spec.

(** ** Indentation *)
Definition full (ind : list iblock) : text := concat (map as_str ind).
Definition unfirst (ind : list iblock) : list iblock := alter_last (fun b => mkBlock (is_last_item b) false) ind.

Lemma alter_last_app {A} (f : A -> A) l a : alter_last f (l ++ [a]) = l ++ [f a].
Proof. induction l as [|b l IH]; [done|]. simpl. rewrite IH. by destruct l. Qed.
Lemma last_inv {A} (l : list A) : l = [] \/ exists l' a, l = l' ++ [a].
Proof. destruct l using rev_ind; [by left|right; eauto]. Qed.
Lemma unfirst_idem ind : unfirst (unfirst ind) = unfirst ind.
Proof. destruct (last_inv ind) as [->|(l & a & ->)]; [done|]. unfold unfirst. rewrite !alter_last_app. done. Qed.
Lemma full_app a b : full (a ++ b) = full a ++ full b.
Proof. unfold full. by rewrite map_app, concat_app. Qed.

Lemma ws_split (ind : list iblock) : exists a b, ind = a ++ b /\ count_while is_all_whitespace (rev ind) = length b /\
  full b = concat (replicate (length b) (lit "    ")) /\ (a = [] \/ exists a' l, a = a' ++ [l] /\ is_all_whitespace l = false).
Proof.
  induction ind as [|x l IH] using rev_ind; [exists [], []; auto|].
  destruct IH as (a & b & -> & Hc & Hf & Ha). rewrite rev_app_distr. simpl.
  destruct (is_all_whitespace x) eqn:E.
  - exists a, (b ++ [x]). rewrite app_length. simpl. rewrite Nat.add_1_r. split; [by rewrite app_assoc|]. split; [by rewrite Hc|]. split; [|done].
    rewrite full_app, Hf. rewrite <-Nat.add_1_r, replicate_add, concat_app. f_equal.
    destruct x as [[] []]; done.
  - exists ((a ++ b) ++ [x]), []. rewrite app_nil_r. split; [done|]. split; [done|]. split; [done|]. right. eauto.
Qed.

Lemma indent_ok o ln ind pd : complete_partial_indent (let w' := write_indent_partial (mkWriter o ln ind pd) in mkWriter (w_out w') PartialIndent (w_indents w') (w_pending w'))
  = Ret (mkWriter (o ++ full ind) PartialIndent ind 0).
Proof.
  destruct (ws_split ind) as (a & b & -> & Hc & Hf & Ha). unfold write_indent_partial, complete_partial_indent. cbn [w_out w_line w_indents w_pending].
  rewrite Hc. rewrite bool_decide_eq_true_2 by done. cbn [assertb mbind run_bind].
  assert (Nat.leb (length b) (length (a ++ b)) = true) as -> by (apply Nat.leb_le; rewrite app_length; lia). cbn [assertb mbind run_bind].
  assert (length (a ++ b) - length b = length a) as -> by (rewrite app_length; lia).
  rewrite take_app. destruct Ha as [->|(a' & l & -> & Hl)].
  - simpl. rewrite Hf. rewrite !app_nil_r. done.
  - rewrite last_snoc. rewrite app_length. simpl length. assert (length a' + 1 - 1 = length a') as -> by lia. rewrite Nat.add_1_r.
    rewrite take_app. rewrite <-app_assoc. rewrite lookup_app_r by lia. rewrite Nat.sub_diag. change (([l] ++ b) !! 0) with (Some l). cbn [mbind run_bind].
    rewrite <-Hf, !full_app. assert (full [l] = as_str_leading l ++ as_str_trailing_spaces l) as -> by (destruct l as [[] []]; done).
    rewrite <-!app_assoc. done.
Qed.

(** ** Writing, character by character *)
Definition wst : Type := list text * bool * list iblock.
Definition step_char (st : wst) (c : ascii) : wst :=
  let '(ls, cont, ind) := st in
  let ls1 := if cont : bool then ls else ls ++ [full ind] in
  if decide (c = nl) then (ls1, false, unfirst ind) else (alter_last (fun l => l ++ [c]) ls1, true, ind).

(** The writer [w] has written the lines [ls]; the last one is open iff [cont]. *)
Definition wrote (w : writer) (st : wst) : Prop :=
  let '(ls, cont, ind) := st in
  w_indents w = ind /\
  if cont : bool then w_line w = Content /\ exists l0 l, ls = l0 ++ [l] /\ w_out w = unlines l0 ++ l /\ l <> []
  else w_line w = BeforeIndent /\ w_out w = unlines ls.

Lemma unlines_app a b : unlines (a ++ b) = unlines a ++ unlines b.
Proof. unfold unlines. by rewrite map_app, concat_app. Qed.
Lemma unlines_one l : unlines [l] = l ++ [nl].
Proof. unfold unlines. simpl. by rewrite app_nil_r. Qed.
Lemma unlines_open_app l0 l : unlines_open (l0 ++ [l]) = unlines l0 ++ l.
Proof. unfold unlines_open. rewrite unlines_app, unlines_one, app_assoc. apply removelast_last. Qed.

Lemma split_line_ok s : forall a e r, split_line s = (a, e, r) -> s = a ++ r /\ (s <> [] -> a <> []) /\
  (if e then exists l, a = l ++ [nl] /\ nl ∉ l else nl ∉ a /\ r = []).
Proof.
  induction s as [|c s IH]; intros a e r E; simpl in E.
  - injection E as <- <- <-. split; [done|]. split; [done|]. split; [apply not_elem_of_nil|done].
  - destruct (decide (c = nl)) as [->|Hc].
    + injection E as <- <- <-. split; [done|]. split; [done|]. exists []. split; [done|apply not_elem_of_nil].
    + destruct (split_line s) as [[a0 e0] r0]. injection E as <- <- <-. destruct (IH _ _ _ eq_refl) as (-> & _ & H).
      split; [done|]. split; [done|]. destruct e0.
      * destruct H as (l & -> & Hl). exists (c :: l). split; [done|]. rewrite elem_of_cons. intros [?|?]; [congruence|done].
      * destruct H as [H1 H2]. split; [|done]. rewrite elem_of_cons. intros [?|?]; [congruence|done].
Qed.

Lemma fold_plain l ls p ind : nl ∉ l -> foldl step_char (ls ++ [p], true, ind) l = (ls ++ [p ++ l], true, ind).
Proof.
  revert p. induction l as [|c l IH]; intros p Hl; simpl; [by rewrite app_nil_r|].
  rewrite elem_of_cons in Hl. rewrite decide_False by (intros ->; tauto). rewrite alter_last_app, IH by tauto. by rewrite <-app_assoc.
Qed.

Lemma write_content w ls cont ind s a e r : wrote w (ls, cont, ind) -> s <> [] -> split_line s = (a, e, r) ->
  exists w', (w4 ← (let w1 := if decide (w_line w = BeforeIndent) then
                      let w' := write_indent_partial w in
                      mkWriter (w_out w') PartialIndent (w_indents w') (w_pending w')
                    else w in
                 match a with
               | [] => Ret w1
               | _ =>
                   _ ← assertb (bool_decide (w_line w1 <> BeforeIndent));
                   w2 ← (if decide (w_line w1 = PartialIndent) then complete_partial_indent w1 else Ret w1);
                   let ind := alter_last (fun b => mkBlock (is_last_item b) (is_first_line b && negb e)) (w_indents w2) in
                   Ret (mkWriter (w_out w2 ++ a) (if (e : bool) then BeforeIndent else Content) ind (w_pending w2))
               end); Ret w4) = Ret w' /\ wrote w' (foldl step_char (ls, cont, ind) a).
Proof.
  intros Hw Hs Ha. destruct (split_line_ok s a e r Ha) as (_ & Hne & He). specialize (Hne Hs).
  (* the open line after the indentation *)
  assert (exists w2 l0 p, w_indents w2 = ind /\ w_out w2 = unlines l0 ++ p /\
    (let w1 := if decide (w_line w = BeforeIndent) then let w' := write_indent_partial w in mkWriter (w_out w') PartialIndent (w_indents w') (w_pending w') else w in
     (_ ← assertb (bool_decide (w_line w1 <> BeforeIndent)); if decide (w_line w1 = PartialIndent) then complete_partial_indent w1 else Ret w1) = Ret w2) /\
    (if cont then ls else ls ++ [full ind]) = l0 ++ [p]) as (w2 & l0 & p & Hi & Ho & E & Hls).
  { destruct w as [o ln i pd]. destruct cont; destruct Hw as [<- [H1 H2]]; cbn [w_line w_out w_indents] in *; subst ln.
    - destruct H2 as (l0 & l & -> & -> & _). exists (mkWriter (unlines l0 ++ l) Content i pd), l0, l. done.
    - rewrite decide_True by done. cbv zeta. rewrite bool_decide_eq_true_2 by done. cbn [assertb mbind run_bind w_line]. rewrite decide_True by done.
      rewrite indent_ok. exists (mkWriter (o ++ full i) PartialIndent i 0), ls, (full i). subst o. done. }
  cbv zeta in E |- *.
  set (w1 := if decide (w_line w = BeforeIndent) then _ else w) in *.
  destruct a as [|c a]; [done|]. revert E. destruct (assertb (bool_decide (w_line w1 ≠ BeforeIndent))) as [u| |]; cbn [mbind run_bind]; try discriminate.
  intros ->. cbn [mbind run_bind]. eexists. split; [done|]. rewrite Hi, Ho.
  assert (forall b : text, b <> [] -> nl ∉ b -> foldl step_char (ls, cont, ind) b = (l0 ++ [p ++ b], true, ind)) as Hf.
  { intros [|d b] Hb Hnl; [done|]. rewrite elem_of_cons in Hnl. simpl. rewrite decide_False by (intros ->; tauto). rewrite Hls, alter_last_app, fold_plain by tauto.
    by rewrite <-app_assoc. }
  destruct e.
  - destruct He as (l & -> & Hl). rewrite foldl_app. destruct l as [|d l].
    + simpl. rewrite Hls. split; [|split; [done|]].
      * cbn [w_indents]. unfold unfirst. destruct (last_inv ind) as [->|(i' & b & ->)]; [done|]. rewrite !alter_last_app. by rewrite andb_false_r.
      * cbn [w_out]. rewrite unlines_app, unlines_one. by rewrite <-app_assoc.
    + rewrite (Hf (d :: l) ltac:(done) Hl). simpl. split; [|split; [done|]].
      * cbn [w_indents]. unfold unfirst. destruct (last_inv ind) as [->|(i' & b & ->)]; [done|]. rewrite !alter_last_app. by rewrite andb_false_r.
      * cbn [w_out]. rewrite unlines_app, unlines_one. by rewrite <-!app_assoc.
  - destruct He as [Hl _]. rewrite (Hf (c :: a) Hne Hl). split; [|split; [done|]].
    + cbn [w_indents]. destruct (last_inv ind) as [->|(i' & b & ->)]; [done|]. rewrite alter_last_app. destruct b as [? []]; done.
    + exists l0, (p ++ c :: a). split; [done|]. cbn [w_out]. rewrite app_assoc. split; [done|]. by destruct p.
Qed.

Lemma write_str_ok s : forall fuel w st, length s <= fuel -> wrote w st -> exists w', write_str_loop fuel w s = Ret w' /\ wrote w' (foldl step_char st s).
Proof.
  intros fuel. revert s. induction fuel as [|f IH]; intros s w [[ls cont] ind] Hf Hw.
  - destruct s; [|simpl in Hf; lia]. exists w. done.
  - destruct s as [|c s]; [exists w; done|]. cbn [write_str_loop].
    destruct (split_line (c :: s)) as [[a e] r] eqn:Es. destruct (split_line_ok _ _ _ _ Es) as (Hs & Hne & _).
    destruct (write_content w ls cont ind (c :: s) a e r Hw ltac:(done) Es) as (w' & E & Hw').
    cbv zeta in E |- *. destruct a as [|c0 a]; [by destruct Hne|].
    destruct (assertb (bool_decide (w_line _ ≠ BeforeIndent))) as [u| |]; cbn [mbind run_bind] in E |- *; try discriminate E.
    destruct (if decide (w_line _ = PartialIndent) then _ else _) as [w2| |]; cbn [mbind run_bind] in E |- *; try discriminate E.
    injection E as ->. destruct (IH r w' _ ltac:(rewrite Hs, app_length in Hf; simpl in Hf; lia) Hw') as (w'' & E' & Hw'').
    exists w''. split; [exact E'|]. rewrite Hs, foldl_app. exact Hw''.
Qed.

Lemma write_chunks_ok l : forall w st, wrote w st -> exists w', write_chunks w l = Ret w' /\ wrote w' (foldl step_char st (concat l)).
Proof.
  induction l as [|s l IH]; intros w st Hw; [exists w; done|]. cbn [write_chunks concat].
  destruct (write_str_ok s (length s) w st ltac:(done) Hw) as (w1 & E1 & Hw1). unfold write_str. rewrite E1. cbn [mbind run_bind].
  destruct (IH w1 _ Hw1) as (w2 & E2 & Hw2). exists w2. split; [exact E2|]. by rewrite foldl_app.
Qed.

(** ** A whole text *)
Definition own (p1 p2 : text) (ls : list text) : list text := match ls with [] => [] | l :: r => (p1 ++ l) :: map (fun l => p2 ++ l) r end.
Lemma own_same p ls : own p p ls = map (fun l => p ++ l) ls.
Proof. by destruct ls. Qed.
Lemma open_ended_cons c s : open_ended (c :: s) = if decide (s = []) then bool_decide (c <> nl) else open_ended s.
Proof. unfold open_ended. destruct s; [done|]. rewrite decide_False by done. done. Qed.

Lemma fold_lines s : forall ls ind,
  (exists ind', foldl step_char (ls, false, ind) s = (ls ++ own (full ind) (full (unfirst ind)) (lines s), open_ended s, ind') /\ (ind' = ind \/ ind' = unfirst ind)) /\
  forall p, exists ind', foldl step_char (ls ++ [p], true, ind) s =
    (ls ++ match lines s with [] => [p] | l :: r => (p ++ l) :: map (fun l => full (unfirst ind) ++ l) r end, (if decide (s = []) then true else open_ended s), ind') /\ (ind' = ind \/ ind' = unfirst ind).
Proof.
  induction s as [|c s IH]; intros ls ind.
  - split; [exists ind; simpl; rewrite app_nil_r; auto|]. intros p. exists ind. auto.
  - rewrite open_ended_cons. split; [|intros p]; cbn [foldl]; unfold step_char at 2; cbv beta iota zeta; cbn [lines]; destruct (decide (c = nl)) as [->|Hc].
    + destruct (IH (ls ++ [full ind]) (unfirst ind)) as [(ind' & E & Hi) _]. exists ind'. split; [etransitivity; [exact E|]|rewrite unfirst_idem in Hi; tauto].
      rewrite unfirst_idem, own_same. simpl. rewrite <-app_assoc, app_nil_r. simpl. destruct (decide (s = [])) as [->|]; [|done]. done.
    + rewrite alter_last_app. cbv beta. destruct (IH ls ind) as [_ H]. destruct (H (full ind ++ [c])) as (ind' & E & Hi). exists ind'. split; [etransitivity; [exact E|]|tauto].
      destruct (decide (s = [])) as [->|].
      * rewrite bool_decide_eq_true_2 by done. done.
      * destruct (lines s) as [|l r]; [done|]. simpl. by rewrite <-app_assoc.
    + destruct (IH (ls ++ [p]) (unfirst ind)) as [(ind' & E & Hi) _]. exists ind'. split; [etransitivity; [exact E|]|rewrite unfirst_idem in Hi; tauto].
      rewrite unfirst_idem, own_same. rewrite <-app_assoc, app_nil_r. simpl. destruct (decide (s = [])) as [->|]; [|done]. done.
    + rewrite alter_last_app. cbv beta. destruct (IH ls ind) as [_ H]. destruct (H (p ++ [c])) as (ind' & E & Hi). exists ind'. split; [etransitivity; [exact E|]|tauto].
      destruct (decide (s = [])) as [->|].
      * rewrite bool_decide_eq_true_2 by done. done.
      * destruct (lines s) as [|l r]; [done|]. simpl. by rewrite <-app_assoc.
Qed.

(** ** Items *)
Lemma open_item_ok w ls cont ind b : wrote w (ls, cont, ind) -> wrote (open_item w b) (ls, false, unfirst ind ++ [mkBlock b true]).
Proof.
  destruct w as [o ln i pd]. destruct cont; intros [<- [H1 H2]]; cbn [w_line w_out w_indents] in *; subst ln; unfold open_item; cbn [w_line w_out w_indents w_pending].
  - destruct H2 as (l0 & l & -> & -> & _). split; [done|]. split; [done|]. cbn [w_out]. rewrite unlines_app, unlines_one. by rewrite <-app_assoc.
  - rewrite decide_True by done. split; [done|]. split; [done|]. exact H2.
Qed.
Lemma close_item_ok w ls cont ind b : wrote w (ls, cont, ind ++ [b]) -> exists w', close_item w = Some w' /\ wrote w' (ls, cont, ind).
Proof.
  destruct w as [o ln i pd]. intros [Hi H]. cbn [w_indents] in Hi. subst i. unfold close_item. cbn [w_indents].
  eexists. split; [by destruct ind|]. split; [cbn [w_indents]; apply removelast_last|]. exact H.
Qed.

Definition mark (b : bool) : text := as_str (mkBlock b true).
Definition rest_mark (b : bool) : text := as_str (mkBlock b false).
Fixpoint draw_kids (p2 : text) (ts : list (rose text)) : list text :=
  match ts with
  | [] => []
  | t :: ts' => draw (p2 ++ mark (bool_decide (ts' = []))) (p2 ++ rest_mark (bool_decide (ts' = []))) t ++ draw_kids p2 ts'
  end.
Lemma draw_eq p1 p2 s ts : draw p1 p2 (Rose s ts) = own p1 p2 (lines s) ++ draw_kids p2 ts.
Proof.
  cbn [draw]. f_equal. induction ts as [|t ts IH]; [done|]. cbn [draw_kids]. destruct ts as [|u ts].
  - rewrite app_nil_r. done.
  - rewrite bool_decide_eq_false_2 by done. rewrite IH. done.
Qed.
Lemma ended_app cont l1 l2 : ended cont (l1 ++ l2) = ended (ended cont l1) l2.
Proof. unfold ended. destruct (last_inv l2) as [->|(l & a & ->)]; [by rewrite app_nil_r|]. rewrite app_assoc, !last_snoc. done. Qed.

(** Cutting a printed text into lines gives back the lines. *)
Lemma lines_plain l s : nl ∉ l -> lines (l ++ nl :: s) = l :: lines s.
Proof.
  induction l as [|c l IH]; intros H; [simpl; done|]. rewrite elem_of_cons in H. simpl. rewrite decide_False by (intros ->; tauto). rewrite IH by tauto. done.
Qed.
Lemma lines_unlines ls : Forall (fun l => nl ∉ l) ls -> lines (unlines ls) = ls.
Proof.
  induction 1 as [|l ls Hl Hls IH]; [done|]. unfold unlines in *. simpl. rewrite <-app_assoc. simpl. rewrite lines_plain by done. by rewrite IH.
Qed.
Lemma lines_no_nl : forall s, Forall (fun l => nl ∉ l) (lines s).
Proof.
  induction s as [|c s IH]; [constructor|]. simpl. destruct (decide (c = nl)).
  - constructor; [apply not_elem_of_nil|done].
  - destruct (lines s) as [|l ls]; [constructor; [|constructor]; rewrite elem_of_list_singleton; congruence|].
    apply Forall_cons in IH as [H1 H2]. constructor; [|done]. rewrite elem_of_cons. intros [?|?]; [congruence|done].
Qed.
Lemma lines_open l : nl ∉ l -> l <> [] -> lines l = [l].
Proof.
  induction l as [|c l IH]; intros H Hn; [done|]. rewrite elem_of_cons in H. simpl. rewrite decide_False by (intros ->; tauto).
  destruct l as [|d l]; [done|]. rewrite IH by (tauto || done). done.
Qed.
Lemma lines_unlines_open ls l : Forall (fun l => nl ∉ l) ls -> nl ∉ l -> l <> [] -> lines (unlines ls ++ l) = ls ++ [l].
Proof.
  intros H Hl Hn. induction H as [|m ls Hm Hls IH]; [by apply lines_open|]. unfold unlines in *. simpl. rewrite <-!app_assoc. simpl. rewrite lines_plain by done. by rewrite IH.
Qed.
Lemma draw_no_nl : forall t p1 p2, nl ∉ p1 -> nl ∉ p2 -> Forall (fun l => nl ∉ l) (draw p1 p2 t).
Proof.
  induction t as [s ts IH] using rose_ind2. intros p1 p2 H1 H2. rewrite draw_eq. apply Forall_app. split.
  - pose proof (lines_no_nl s) as H. destruct H as [|l ls Hl Hls]; [constructor|]. simpl. constructor; [rewrite elem_of_app; tauto|].
    apply Forall_map. eapply Forall_impl; [exact Hls|]. intros m Hm. cbv beta in *. rewrite elem_of_app. intros [?|?]; contradiction.
  - induction IH as [|t ts Ht Hts IH2]; [constructor|]. cbn [draw_kids]. apply Forall_app. split; [|exact IH2].
    assert (forall b, nl ∉ mark b /\ nl ∉ rest_mark b) as Hb.
    { intros []; split; apply (bool_decide_eq_true_1 _); vm_compute; done. }
    destruct (Hb (bool_decide (ts = []))) as [Hb1 Hb2]. apply Ht; rewrite elem_of_app; intros [?|?]; contradiction.
Qed.

Section Tree.
Context {T : Type} (chunks : T -> list text).
Implicit Types (h : heap T) (K : forest).

Inductive runs h : list (dft nid) -> writer -> writer -> Prop :=
| runs_nil w : runs h [] w w
| runs_open y l w w1 w' : write_data chunks h (open_item w (is_last_sibling h y)) y = Ret w1 -> runs h l w1 w' -> runs h (Open y :: l) w w'
| runs_close y l w w1 w' : close_item w = Some w1 -> runs h l w1 w' -> runs h (Close y :: l) w w'.
Lemma runs_app h l1 l2 w w1 w2 : runs h l1 w w1 -> runs h l2 w1 w2 -> runs h (l1 ++ l2) w w2.
Proof. intros H H2. induction H; [done| |]; simpl; econstructor; eauto. Qed.

Lemma print_runs h l w w' : runs h l w w' -> length l < dfs_fuel h -> forall st fuel pf, enumerates (link_dfs_next h) st l -> length l < fuel -> length l < pf ->
  ('(o, w1, st1) ← prepare_next pf h w st;
   match o with None => Ret w1 | Some y => w2 ← write_data chunks h w1 y; print_loop chunks fuel h w2 st1 end) = Ret w'.
Proof.
  induction 1 as [w|y l w w1 w' E H IH|y l w w1 w' E H IH]; intros Hd st fuel pf He Hf Hp.
  - destruct pf as [|pf]; [simpl in Hp; lia|]. cbn [prepare_next]. destruct (enumerates_inv _ _ _ He) as (st1 & -> & _). done.
  - simpl in *. destruct pf as [|pf]; [lia|]. cbn [prepare_next]. destruct (enumerates_inv _ _ _ He) as (st1 & -> & He1). cbn [mbind run_bind head].
    rewrite E. cbn [mbind run_bind]. destruct fuel as [|f]; [lia|]. cbn [print_loop]. apply IH; [lia|exact He1|lia|lia].
  - simpl in *. destruct pf as [|pf]; [lia|]. cbn [prepare_next]. destruct (enumerates_inv _ _ _ He) as (st1 & -> & He1). cbn [mbind run_bind head].
    rewrite E. apply IH; [lia|exact He1|lia|lia].
Qed.

Lemma write_data_ok h w st y s : label chunks h y s -> wrote w st -> exists w', write_data chunks h w y = Ret w' /\ wrote w' (foldl step_char st s).
Proof.
  intros (d & (nd & En & <-) & Hs) Hw. unfold write_data, try_borrow. rewrite En. cbn [mbind run_bind].
  destruct Hs as [[Hb ->]|[(nd' & En' & Hm) ->]].
  - destruct (n_mut nd) eqn:E; [exfalso; apply Hb; by exists nd|]. by apply write_chunks_ok.
  - assert (nd' = nd) as -> by congruence. rewrite Hm. unfold write_str. by apply write_str_ok.
Qed.

Lemma unfirst_snoc ind b : unfirst (ind ++ [b]) = ind ++ [mkBlock (is_last_item b) false].
Proof. unfold unfirst. by rewrite alter_last_app. Qed.

Lemma kids_run h K p : rep h K -> forall ts tts, Forall2 (rose_rel (label chunks h)) ts tts -> forall pre, K !! p = Some (pre ++ map rose_root ts) ->
  Forall (fun t => forall tt w ls cont ind, rose_rel (label chunks h) t tt -> wrote w (ls, cont, ind) ->
    exists w', runs h (dfs_events t) w w' /\
      wrote w' (ls ++ draw (full (unfirst ind) ++ mark (is_last_sibling h (rose_root t))) (full (unfirst ind) ++ rest_mark (is_last_sibling h (rose_root t))) tt,
                ended cont (rose_nodes tt), unfirst ind)) ts ->
  forall w ls cont ind, wrote w (ls, cont, ind) -> exists w' ind', runs h (concat (map dfs_events ts)) w w' /\ (ind' = ind \/ ind' = unfirst ind) /\
    wrote w' (ls ++ draw_kids (full (unfirst ind)) tts, ended cont (concat (map rose_nodes tts)), ind').
Proof.
  intros Hr. induction 1 as [|t tt ts tts Ht Hts IH]; intros pre Hp HF w ls cont ind Hw.
  - exists w, ind. split; [constructor|]. split; [by left|]. simpl. rewrite app_nil_r. exact Hw.
  - apply Forall_cons in HF as [HF HFs]. simpl in Hp.
    assert (is_last_sibling h (rose_root t) = bool_decide (tts = [])) as Hl.
    { unfold is_last_sibling. rewrite (fnext_split h K p pre (rose_root t) (map rose_root ts) Hr Hp). destruct Hts; done. }
    destruct (HF tt w ls cont ind Ht Hw) as (w1 & R1 & Hw1). rewrite Hl in Hw1.
    destruct (IH (pre ++ [rose_root t]) ltac:(rewrite <-app_assoc; exact Hp) HFs w1 _ _ _ Hw1) as (w2 & ind' & R2 & Hi & Hw2).
    rewrite unfirst_idem in Hi, Hw2. exists w2, ind'. split; [simpl; by eapply runs_app|]. split; [tauto|].
    cbn [map concat draw_kids]. rewrite ended_app. rewrite <-app_assoc in Hw2. exact Hw2.
Qed.

Lemma tree_run h K : rep h K -> forall t y tt w ls cont ind, shape K y t -> rose_rel (label chunks h) t tt -> wrote w (ls, cont, ind) ->
  exists w', runs h (dfs_events t) w w' /\
    wrote w' (ls ++ draw (full (unfirst ind) ++ mark (is_last_sibling h y)) (full (unfirst ind) ++ rest_mark (is_last_sibling h y)) tt,
              ended cont (rose_nodes tt), unfirst ind).
Proof.
  intros Hr. induction t as [y0 ts IH] using rose_ind2. intros y tt w ls cont ind Hs Ht Hw.
  inversion Hs as [? ? Hk Hts]; subst. inversion Ht as [? s ? tts Hy Hf]; subst. rename y0 into y.
  set (b := is_last_sibling h y).
  destruct (write_data_ok h _ _ y s Hy (open_item_ok w ls cont ind b Hw)) as (w1 & E1 & Hw1).
  set (i1 := unfirst ind ++ [mkBlock b true]) in *.
  destruct (fold_lines s ls i1) as [(i2 & E2 & Hi2) _].
  assert (wrote w1 (ls ++ own (full i1) (full (unfirst i1)) (lines s), open_ended s, i2)) as Hw1' by (rewrite <-E2; exact Hw1).
  assert (unfirst i2 = unfirst i1) as Hu by (destruct Hi2 as [->| ->]; [done|apply unfirst_idem]).
  destruct (kids_run h K y Hr ts tts Hf [] Hk) with (w := w1) (ls := ls ++ own (full i1) (full (unfirst i1)) (lines s)) (cont := open_ended s) (ind := i2) as (w2 & i3 & R2 & Hi3 & Hw2).
  { rewrite Forall_forall in IH, Hts |- *. intros t Hin tt' w0 ls0 c0 i0 Ht' Hw0. apply (IH t Hin); [|done|done]. by apply Hts. }
  { exact Hw1'. }
  assert (exists b', i3 = unfirst ind ++ [b']) as (b' & ->).
  { assert (unfirst i1 = unfirst ind ++ [mkBlock b false]) as E by (unfold i1; by rewrite unfirst_snoc).
    destruct Hi3 as [->| ->]; [destruct Hi2 as [->| ->]|]; [by eexists|rewrite E; by eexists|rewrite Hu, E; by eexists]. }
  destruct (close_item_ok w2 _ _ _ _ Hw2) as (w3 & E3 & Hw3).
  exists w3. split.
  - simpl. eapply runs_open; [exact E1|]. eapply runs_app; [exact R2|]. eapply runs_close; [exact E3|constructor].
  - rewrite Hu in Hw3. rewrite draw_eq. rewrite app_assoc.
    assert (full i1 = full (unfirst ind) ++ mark b) as <- by (unfold i1; rewrite full_app; unfold full at 2; simpl; by rewrite app_nil_r).
    assert (full (unfirst i1) = full (unfirst ind) ++ rest_mark b) as <- by (unfold i1; rewrite unfirst_snoc, full_app; unfold full at 2; simpl; by rewrite app_nil_r).
    assert (ended cont (rose_nodes (Rose s tts)) = ended (open_ended s) (concat (map rose_nodes tts))) as -> by (exact (ended_app cont [s] _)).
    exact Hw3.
Qed.

Lemma fold_fuel_h h K x t : rep h K -> wf K -> shape K x t -> length (dfs_events t) < dfs_fuel h.
Proof. intros Hr Hw Hs. pose proof (nodes_length_le _ _ _ _ Hr Hw Hs). rewrite dfs_events_length. unfold dfs_fuel. lia. Qed.

Theorem pretty_ok h K x t tt : rep h K -> wf K -> shape K x t -> rose_rel (label chunks h) t tt ->
  pretty chunks h x = Ret (printed tt) /\ lines (printed tt) = draw [] [] tt.
Proof.
  intros Hr Hw Hs Ht. unfold printed. destruct t as [x0 ts]. inversion Hs as [? ? Hk Hts]; subst. inversion Ht as [? s ? tts Hy Hf]; subst. try rename x0 into x.
  pose proof (link_dfs_enum h K x ts Hr Hw Hs) as He. destruct (enumerates_inv _ _ _ He) as (st & E & He1). simpl in He1.
  unfold pretty. rewrite E. cbn [mbind run_bind].
  destruct (write_data_ok h w_new ([], false, []) x s Hy) as (w1 & E1 & Hw1); [done|]. rewrite E1. cbn [mbind run_bind].
  destruct (fold_lines s [] []) as [(i2 & E2 & Hi2) _]. assert (i2 = []) as -> by (destruct Hi2; done).
  assert (wrote w1 (own [] [] (lines s), open_ended s, [])) as Hw1'.
  { assert (foldl step_char ([], false, []) s = (own [] [] (lines s), open_ended s, [])) as E3 by exact E2. rewrite <-E3. exact Hw1. }
  destruct (kids_run h K x Hr ts tts Hf [] Hk) with (w := w1) (ls := own [] [] (lines s)) (cont := open_ended s) (ind := @nil iblock) as (w2 & i3 & R2 & Hi3 & Hw2).
  { rewrite Forall_forall in Hts |- *. intros t Hin tt' w0 ls0 c0 i0 Ht' Hw0. apply (tree_run h K Hr); [by apply Hts|done|done]. }
  { exact Hw1'. }
  assert (length (concat (map dfs_events ts)) < dfs_fuel h) as Hlen.
  { pose proof (fold_fuel_h h K x _ Hr Hw Hs) as H. simpl in H. rewrite app_length in H. simpl in H. lia. }
  assert (print_loop chunks (dfs_fuel h) h w1 st = Ret w2) as ->.
  { destruct (dfs_fuel h) as [|f] eqn:Ef; [lia|]. cbn [print_loop]. apply (print_runs h _ w1 w2 R2); [lia|exact He1| |lia].
    pose proof (fold_fuel_h h K x _ Hr Hw Hs) as H. simpl in H. rewrite app_length in H. simpl in H. rewrite Ef in H. lia. }
  cbn [mbind run_bind]. pose proof (draw_no_nl (Rose s tts) [] [] ltac:(apply not_elem_of_nil) ltac:(apply not_elem_of_nil)) as Hnn. rewrite draw_eq in *.
  assert (ended false (rose_nodes (Rose s tts)) = ended (open_ended s) (concat (map rose_nodes tts))) as -> by (exact (ended_app false [s] _)).
  assert (full (unfirst []) = []) as Hn by done. rewrite Hn in Hw2.
  destruct (ended (open_ended s) (concat (map rose_nodes tts))).
  - destruct Hw2 as (_ & _ & l0 & l & Hl & -> & Hne). rewrite Hl in Hnn |- *. rewrite unlines_open_app. split; [done|].
    apply Forall_app in Hnn as [Hn1 Hn2]. apply Forall_cons in Hn2 as [Hn2 _]. by apply lines_unlines_open.
  - destruct Hw2 as (_ & _ & ->). split; [done|]. by apply lines_unlines.
Qed.
End Tree.

(** ** Consequences *)
Section More.
Context {T : Type}.
Implicit Types (h : heap T) (K : forest).

Lemma label_exists chunks h y : is_Some (h !! y) -> exists s, label chunks h y s.
Proof.
  intros [nd E]. destruct (n_mut nd) eqn:Em.
  - exists (lit "(borrowed)"), (n_data nd). split; [by exists nd|]. right. split; [by exists nd|done].
  - exists (concat (chunks (n_data nd))), (n_data nd). split; [by exists nd|]. left. split; [|done]. intros (nd' & E' & Hm). congruence.
Qed.
Lemma label_unique chunks h y s1 s2 : label chunks h y s1 -> label chunks h y s2 -> s1 = s2.
Proof.
  intros (d1 & (n1 & E1 & <-) & H1) (d2 & (n2 & E2 & <-) & H2). assert (n2 = n1) as -> by congruence.
  destruct H1 as [[? ->]|[? ->]], H2 as [[? ->]|[? ->]]; done.
Qed.
Lemma rose_rel_exists {A B} (R : A -> B -> Prop) : forall t, (forall a, a ∈ rose_nodes t -> exists b, R a b) -> exists u, rose_rel R t u.
Proof.
  induction t as [a ts IH] using rose_ind2. intros H. destruct (H a) as [b Hb]; [left|].
  assert (exists us, Forall2 (rose_rel R) ts us) as [us Hus].
  { assert (forall t, t ∈ ts -> exists u, rose_rel R t u) as Hall.
    { rewrite Forall_forall in IH. intros t Ht. apply (IH t Ht). intros c Hc. apply H. right. apply elem_of_concat_map. eauto. }
    clear -Hall. induction ts as [|t ts IH]; [exists []; constructor|].
    destruct (Hall t) as [u Hu]; [left|]. destruct IH as [us Hus]; [intros t' Ht'; apply Hall; by right|]. exists (u :: us). by constructor. }
  exists (Rose b us). by constructor.
Qed.

Theorem pretty_total chunks h K x t : rep h K -> wf K -> shape K x t -> exists tt, rose_rel (label chunks h) t tt /\
  pretty chunks h x = Ret (printed tt) /\ lines (printed tt) = draw [] [] tt.
Proof.
  intros Hr Hw Hs. destruct (rose_rel_exists (label chunks h) t) as [tt Htt].
  - intros y Hy. apply label_exists, (rep_dom h K Hr). apply (shape_nodes K x t y Hs) in Hy. eapply below_dom; [exact Hw| |exact Hy].
    inversion Hs; subst. eauto.
  - exists tt. split; [done|]. by eapply pretty_ok.
Qed.

(** How the text of a datum is cut into pieces does not matter. *)
Theorem pretty_pieces ch1 ch2 h K x : rep h K -> wf K -> is_Some (K !! x) -> (forall d : T, concat (ch1 d) = concat (ch2 d)) -> pretty ch1 h x = pretty ch2 h x.
Proof.
  intros Hr Hw Hx He. destruct (shape_exists K x Hw Hx) as [t Hs]. destruct (pretty_total ch1 h K x t Hr Hw Hs) as (tt & Ht & E & _). rewrite E.
  symmetry. eapply (pretty_ok ch2 h K x t); [exact Hr|exact Hw|exact Hs|]. eapply rose_rel_mono; [|exact Ht].
  intros y s (d & Hd & H). exists d. split; [done|]. rewrite <-He. exact H.
Qed.

(** The number of lines. *)
Lemma draw_length : forall t p1 p2, length (draw p1 p2 t) = length (concat (map lines (rose_nodes t))).
Proof.
  induction t as [s ts IH] using rose_ind2. intros p1 p2. rewrite draw_eq. cbn [rose_nodes map concat]. rewrite !app_length. f_equal.
  - destruct (lines s); [done|]. simpl. by rewrite map_length.
  - induction IH as [|t ts Ht Hts IH2]; [done|]. cbn [draw_kids map concat]. rewrite map_app, concat_app, !app_length. f_equal; [apply Ht|exact IH2].
Qed.

End More.

(** ** Node by node *)
Fixpoint marks_kids {A} (path : list bool) (ts : list (rose A)) : list (list bool) :=
  match ts with
  | [] => []
  | t :: ts' => marks (path ++ [match ts' with [] => true | _ => false end]) t ++ marks_kids path ts'
  end.
Lemma marks_eq {A} path (a : A) ts : marks path (Rose a ts) = path :: marks_kids path ts.
Proof. cbn [marks]. f_equal. induction ts as [|t ts IH]; [done|]. cbn [marks_kids]. by rewrite IH. Qed.
Lemma marks_length {A} : forall (t : rose A) path, length (marks path t) = length (rose_nodes t).
Proof.
  induction t as [a ts IH] using rose_ind2. intros path. rewrite marks_eq. cbn [rose_nodes length]. f_equal.
  induction IH as [|t ts Ht Hts IH2]; [done|]. cbn [marks_kids map concat]. rewrite !app_length. by rewrite Ht, IH2.
Qed.
Lemma removelast_snoc {A} (l : list A) a : removelast (l ++ [a]) = l.
Proof. rewrite removelast_app by done. simpl. apply app_nil_r. Qed.
Lemma draw_items_at : forall t path, draw (first_prefix path) (rest_prefix path) t = concat (zip_with item (marks path t) (rose_nodes t)).
Proof.
  induction t as [s ts IH] using rose_ind2. intros path. rewrite draw_eq, marks_eq. cbn [rose_nodes zip_with concat]. f_equal.
  induction IH as [|t ts Ht Hts IH2]; [done|]. cbn [draw_kids marks_kids map concat]. rewrite zip_with_app by apply marks_length. rewrite concat_app. f_equal; [|exact IH2].
  rewrite <-Ht. assert (bool_decide (ts = []) = match ts with [] => true | _ => false end) as -> by (destruct ts; done).
  set (b := match ts with [] => true | _ => false end). unfold first_prefix at 1. rewrite last_snoc, removelast_snoc.
  assert (rest_prefix (path ++ [b]) = rest_prefix path ++ if b then lit "    " else lit "|   ") as ->.
  { unfold rest_prefix. rewrite map_app, concat_app. cbn [map concat]. by rewrite app_nil_r. }
  destruct b; done.
Qed.
Theorem draw_items t : draw [] [] t = concat (zip_with item (marks [] t) (rose_nodes t)).
Proof. exact (draw_items_at t []). Qed.
