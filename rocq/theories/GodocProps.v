(** * C107 The documentation of a handler. *)
From Coq Require Import Ascii ZArith Lia.
From stdpp Require Import sorting.
From stdpp Require Import base numbers list strings gmap.
From Verif Require Import StrLib StrSplit PathModel PathSpec PathProofs PathProofs2 VerbModel VerbSpec VerbProofs PairModel PairProofs MountProofs DetModel ScanModel GodocModel.

(** ** Lines of annotations *)
(** A word: no white space in it. *)
Definition solid (cs w : string) : Prop := ∀ c a b, w = a +:+ String c b → mem_byte c cs = false.
(** A line that gives the annotation [w] the text [rest]. *)
Definition annotates (l w rest : string) : Prop :=
  ∃ gap tail, l = w +:+ gap +:+ rest +:+ tail ∧ all_of spaces gap ∧ all_of spaces tail ∧ solid spaces w ∧ (rest = "" ∨ gap ≠ "" ∧ firm spaces rest) ∧ ∃ t, w = "@" +:+ t.

Lemma solid_cons cs c w : solid cs (String c w) ↔ mem_byte c cs = false ∧ solid cs w.
Proof.
  split.
  - intros H. split; [by apply (H c "" w)|]. intros d a b ->. apply (H d (String c a) b). by rewrite sapp_cons.
  - intros [Hc H] d a b E. destruct a as [|x a]; [by injection E as -> ->|]. rewrite sapp_cons in E. injection E as -> E. by apply (H d a b).
Qed.
Lemma first_word_app w s : solid spaces w → (s = "" ∨ ∃ c t, s = String c t ∧ mem_byte c spaces = true) → first_word (w +:+ s) = w.
Proof.
  induction w as [|c w IH]; intros Hw Hs.
  - destruct Hs as [->|(c & t & -> & Hc)]; [done|]. change ("" +:+ String c t) with (String c t). cbn [first_word]. by rewrite Hc.
  - apply solid_cons in Hw as [Hc Hw]. rewrite sapp_cons. cbn [first_word]. by rewrite Hc, IH.
Qed.
Lemma first_word_dec l : ∃ d, l = first_word l +:+ d ∧ solid spaces (first_word l) ∧ (d = "" ∨ ∃ c t, d = String c t ∧ mem_byte c spaces = true).
Proof.
  induction l as [|c l (d & E & Hs & Hd)].
  - exists "". split_and!; [done| |by left]. intros c a b E. by destruct a.
  - cbn [first_word]. destruct (mem_byte c spaces) eqn:Hc.
    + exists (String c l). split_and!; [done| |by right; exists c, l]. intros x a b E0. by destruct a.
    + exists d. rewrite sapp_cons. split_and!; [by rewrite <- E| |done]. by apply solid_cons.
Qed.
Lemma trim_right_end cs s : trim_right_any cs s = "" ∨ ∃ t c, trim_right_any cs s = t +:+ String c "" ∧ mem_byte c cs = false.
Proof.
  induction s as [|c s IH]; [by left|]. cbn [trim_right_any]. destruct (trim_right_any cs s) as [|d t] eqn:E.
  - destruct (mem_byte c cs) eqn:Hc; [by left|]. right. exists "", c. done.
  - destruct IH as [|(t' & c' & E' & Hc)]; [done|]. right. exists (String c t'), c'. rewrite sapp_cons. by rewrite <- E'.
Qed.
Lemma trim_left_head cs s : trim_left_any cs s = "" ∨ ∃ c t, trim_left_any cs s = String c t ∧ mem_byte c cs = false.
Proof. induction s as [|c s IH]; [by left|]. cbn [trim_left_any]. destruct (mem_byte c cs) eqn:Hc; [done|]. right. by exists c, s. Qed.
Lemma trim_any_ends cs s : trim_any cs s = "" ∨ firm cs (trim_any cs s).
Proof.
  unfold trim_any. destruct (trim_right_end cs (trim_left_any cs s)) as [E|H]; [by left|]. right. split; [|done].
  destruct (trim_left_head cs s) as [E|(c & t & E & Hc)]; [rewrite E in H; destruct H as (t & c & E' & _); by destruct t|].
  rewrite E. cbn [trim_right_any]. destruct (trim_right_any cs t); [|by eauto]. rewrite Hc. by eauto.
Qed.
Lemma trim_any_all cs a : all_of cs a → trim_any cs a = "".
Proof. intros H. unfold trim_any. rewrite <- (sapp_nil a), trim_left_all by done. done. Qed.
Lemma all_of_app cs a b : all_of cs a → all_of cs b → all_of cs (a +:+ b).
Proof.
  induction a as [|c a IH]; intros Ha Hb; [done|]. rewrite sapp_cons. apply all_of_snoc_cons.
  - apply mem_spec. by apply (Ha c "" a).
  - apply IH; [|done]. intros d x y ->. apply (Ha d (String c x) y). by rewrite sapp_cons.
Qed.
Lemma annotates_reads l w rest : annotates l w rest → is_note l = true ∧ first_word l = w ∧ note_name l = str_lower w ∧ note_rest l = rest.
Proof.
  intros (gap & tl & -> & Hg & Ht & Hw & Hr & [t Et]).
  assert (F : first_word (w +:+ gap +:+ rest +:+ tl) = w).
  { apply first_word_app; [done|]. destruct gap as [|c gap]; [|right; exists c, (gap +:+ rest +:+ tl); split; [done|]; apply mem_spec; by apply (Hg c "" gap)].
    destruct Hr as [->|[? _]]; [|done]. change ("" +:+ ("" +:+ tl)) with tl. destruct tl as [|c tl]; [by left|]. right. exists c, tl. split; [done|]. apply mem_spec. by apply (Ht c "" tl). }
  split_and!; [|done| |].
  - unfold is_note. apply has_prefix_spec. exists (t +:+ gap +:+ rest +:+ tl). by rewrite Et, !sapp_assoc.
  - unfold note_name. by rewrite F.
  - unfold note_rest. rewrite F, str_drop_app. unfold trim_space. destruct Hr as [->|[_ Hf]].
    + apply trim_any_all. by apply all_of_app.
    + by apply trim_any_firm.
Qed.
Lemma annotates_ex l : is_note l = true → annotates l (first_word l) (note_rest l).
Proof.
  intros H. destruct (first_word_dec l) as (d & E & Hs & Hd). unfold note_rest, trim_space. remember (first_word l) as w eqn:Ew0. clear Ew0.
  replace (str_drop (String.length w) l) with d by (rewrite E; by rewrite str_drop_app).
  destruct (trim_any_dec spaces d) as (a & b & Ed & Ha & Hb). exists a, b. split_and!; try done.
  - by rewrite <- Ed.
  - destruct (trim_any_ends spaces d) as [H0|Hf]; [by left|]. right. split; [|done]. intros ->. destruct Hf as [(c & t & Ec & Hc) _].
    rewrite Ec in Ed. change ("" +:+ (String c t +:+ b)) with (String c (t +:+ b)) in Ed. destruct Hd as [->|(c' & t' & -> & Hc')]; [done|]. injection Ed as -> _. congruence.
  - apply has_prefix_spec in H as [t Et]. rewrite Et in E. destruct w as [|c w].
    + change ("" +:+ d) with d in E. change ("@" +:+ t) with (String "@" t) in E. destruct Hd as [->|(c & t' & -> & Hc)]; [done|]. injection E as <- _. done.
    + exists w. rewrite sapp_cons in E. change ("@" +:+ t) with (String "@" t) in E. injection E as <- _. done.
Qed.

(** ** Comments with annotations *)
(** A comment as its author lays it out: prose, then annotations, each with its name, its text and the lines that continue it. *)
Record block := Block { bk_line : string; bk_name : string; bk_text : string; bk_more : list string }.
Definition plain (l : string) : Prop := ¬ ∃ t, l = "@" +:+ t.
Definition laid_out (ls lead : list string) (bs : list block) : Prop :=
  ls = lead ++ concat ((λ b, bk_line b :: bk_more b) <$> bs) ∧ Forall plain lead ∧ Forall (λ b, annotates (bk_line b) (bk_name b) (bk_text b) ∧ Forall plain (bk_more b)) bs.
Definition written (ls : list string) : list string := filter (λ l, l ≠ "") ls.
(** What the annotations of a name say, line by line; the case of the name does not matter. *)
Definition said (name : string) (bs : list block) : list string :=
  concat ((λ b, written (bk_text b :: bk_more b)) <$> filter (λ b, str_lower (bk_name b) = name) bs).

Lemma plain_note l : plain l ↔ is_note l = false.
Proof. unfold plain, is_note. rewrite <- not_true_iff_false, has_prefix_spec. done. Qed.
Lemma layout_ex ls : ∃ lead bs, laid_out ls lead bs.
Proof.
  induction ls as [|l ls (lead & bs & E & Hl & Hb)].
  - exists [], []. split_and!; by try constructor.
  - destruct (is_note l) eqn:Hn.
    + exists [], (Block l (first_word l) (note_rest l) lead :: bs). split_and!; [|constructor|].
      * cbn. by rewrite E.
      * constructor; [|done]. split; [by apply annotates_ex|done].
    + exists (l :: lead), bs. split_and!; [by rewrite E| |done]. constructor; [by apply plain_note|done].
Qed.
Lemma run_lead lead : ∀ acc, Forall plain lead → foldl wstep (WState InOther false acc [] []) lead = WState InOther false (acc ++ written lead) [] [].
Proof.
  induction lead as [|l ls IH]; intros acc H; [cbn; by rewrite app_nil_r|]. cbn [foldl]. unfold wstep at 2. apply Forall_cons in H as [Hl H]. apply plain_note in Hl. rewrite Hl. unfold written. rewrite filter_cons.
  destruct (decide (l = "")) as [->|N].
  - rewrite IH by done. by rewrite decide_False by (intros []; done).
  - rewrite IH by done. rewrite decide_True by done. by rewrite <- app_assoc.
Qed.
Definition put_more (sec : section) (ls lead sum desc : list string) : wstate :=
  match sec with
  | InSummary => WState sec true lead (sum ++ ls) desc
  | InDescription => WState sec true lead sum (desc ++ ls)
  | InOther => WState sec true lead sum desc
  end.
Lemma run_more ls : ∀ sec lead sum desc, Forall plain ls →
  foldl wstep (WState sec true lead sum desc) ls = put_more sec (written ls) lead sum desc.
Proof.
  induction ls as [|l ls IH]; intros sec lead sum desc H; [cbn; by destruct sec; cbn; rewrite ?app_nil_r|]. apply Forall_cons in H as [Hl H]. apply plain_note in Hl. cbn [foldl]. unfold wstep at 2. rewrite Hl.
  unfold written. rewrite filter_cons. destruct (decide (l = "")) as [->|N].
  - rewrite IH by done. by rewrite decide_False by (intros []; done).
  - rewrite (decide_True _ _ N). destruct sec; rewrite IH by done; cbn; by rewrite <- ?app_assoc.
Qed.
Lemma add_written l ls : add_line l ls = ls ++ written [l].
Proof. unfold add_line, written. rewrite filter_cons, filter_nil. destruct (decide (l = "")) as [->|N]; [rewrite decide_False by (intros []; done); by rewrite app_nil_r|]. by rewrite decide_True. Qed.
Lemma run_blocks bs : ∀ sec ok lead sum desc, Forall (λ b, annotates (bk_line b) (bk_name b) (bk_text b) ∧ Forall plain (bk_more b)) bs →
  let st := foldl wstep (WState sec ok lead sum desc) (concat ((λ b, bk_line b :: bk_more b) <$> bs)) in
  ws_ok st = (ok || negb (bool_decide (bs = []))) ∧ ws_lead st = lead ∧ ws_sum st = sum ++ said "@summary" bs ∧ ws_desc st = desc ++ said "@description" bs.
Proof.
  induction bs as [|b bs IH]; intros sec ok lead sum desc H st.
  - subst st. cbn. rewrite !app_nil_r, orb_false_r. done.
  - apply Forall_cons in H as [[Hb Hm] H]. apply annotates_reads in Hb as (Hn & _ & Nm & Rs). 
    assert (S1 : st = foldl wstep (foldl wstep (wstep (WState sec ok lead sum desc) (bk_line b)) (bk_more b)) (concat ((λ b, bk_line b :: bk_more b) <$> bs))) by (subst st; cbn [fmap list_fmap concat]; by rewrite foldl_app).
    clearbody st. unfold wstep at 3 in S1. rewrite Hn, Nm, Rs in S1. rewrite (bool_decide_eq_false_2 (b :: bs = [])) by done. rewrite orb_true_r. unfold said. rewrite !filter_cons.
    assert (W : ∀ n, concat ((λ b, written (bk_text b :: bk_more b)) <$> filter (λ b, str_lower (bk_name b) = n) bs) = said n bs) by done.
    assert (W2 : written (bk_text b :: bk_more b) = written [bk_text b] ++ written (bk_more b)) by (unfold written; by rewrite <- filter_app).
    destruct (decide (str_lower (bk_name b) = "@summary")) as [E1|E1].
    + rewrite (decide_False (P := str_lower (bk_name b) = "@description")) by (rewrite E1; done). rewrite run_more in S1 by done. cbn [put_more] in S1. subst st.
      destruct (IH InSummary true lead ((add_line (bk_text b) sum) ++ written (bk_more b)) desc H) as (A & B & C & D). rewrite A, B, C, D. split_and!; try done.
      rewrite add_written. cbn [fmap list_fmap concat]. by rewrite W, W2, <- !app_assoc.
    + destruct (decide (str_lower (bk_name b) = "@description")) as [E2|E2].
      * rewrite run_more in S1 by done. cbn [put_more] in S1. subst st.
        destruct (IH InDescription true lead sum ((add_line (bk_text b) desc) ++ written (bk_more b)) H) as (A & B & C & D). rewrite A, B, C, D. split_and!; try done.
        rewrite add_written. cbn [fmap list_fmap concat]. by rewrite W, W2, <- !app_assoc.
      * rewrite run_more in S1 by done. cbn [put_more] in S1. subst st. destruct (IH InOther true lead sum desc H) as (A & B & C & D). by rewrite A, B, C, D.
Qed.
Lemma said_written n bs : Forall (λ l, l ≠ "") (said n bs).
Proof. unfold said. apply Forall_concat, Forall_fmap, Forall_forall. intros b _. unfold written. apply Forall_forall. intros l Hl. by apply elem_of_list_filter in Hl as [? _]. Qed.
Lemma join_empty sep ls : Forall (λ l, l ≠ "") ls → str_join sep ls = "" ↔ ls = [].
Proof.
  intros H. split; [|by intros ->]. destruct ls as [|x [|y ls]]; [done| |]; apply Forall_cons in H as [Hx _]; intros E.
  - done.
  - rewrite str_join_cons2 in E. destruct x; [done|]. by rewrite sapp_cons in E.
Qed.
Lemma split_first syn t : (split_synopsis syn t).1 = syn t.
Proof. unfold split_synopsis. by destruct (decide (syn t = "")) as [->|]. Qed.

(** The summary is what the @Summary annotations say, joined by blanks, the description what the @Description annotations say, line by line; lines of other annotations
    are dropped; without a @Summary the first sentence of the prose above serves; a comment without annotations is left alone. *)
Theorem C107_swaggo syn text :
  ∃ lead bs, laid_out (doc_lines text) lead bs ∧
    swaggo_doc syn text = (if bool_decide (bs = []) then None else Some
      (if bool_decide (said "@summary" bs = []) then if bool_decide (written lead = []) then "" else syn (str_join new_line (written lead)) else str_join " " (said "@summary" bs),
       str_join new_line (said "@description" bs))).
Proof.
  destruct (layout_ex (doc_lines text)) as (lead & bs & L). exists lead, bs. split; [done|]. destruct L as (E & Hl & Hb). unfold swaggo_doc, swaggo_lines. rewrite E, foldl_app, run_lead by done.
  destruct (run_blocks bs InOther false ([] ++ written lead) [] [] Hb) as (A & B & C & D).
  destruct (foldl wstep _ _) as [sec ok ld sm ds] eqn:F. cbn in A, B, C, D. subst.
  destruct (decide (bs = [])) as [->|N]; [done|]. rewrite (bool_decide_eq_false_2 (bs = [])) by done. cbn [negb]. do 2 f_equal.
  rewrite split_first.
  destruct (decide (said "@summary" bs = [])) as [S0|S0].
  - rewrite (bool_decide_eq_true_2 (said "@summary" bs = [])) by done. rewrite S0. cbn [str_join]. rewrite bool_decide_eq_true_2 by done.
    destruct (decide (written lead = [])) as [->|W]; [done|]. rewrite (bool_decide_eq_true_2 (written lead ≠ [])) by done. by rewrite (bool_decide_eq_false_2 (written lead = [])).
  - rewrite (bool_decide_eq_false_2 (said "@summary" bs = [])) by done. rewrite (bool_decide_eq_false_2 (str_join " " _ = "")); [done|]. rewrite join_empty; [done|apply said_written].
Qed.
Print Assumptions C107_swaggo.
(** The layout of a comment is unique, so the theorem above leaves nothing open. *)
Theorem C107_layout ls lead bs lead' bs' : laid_out ls lead bs → laid_out ls lead' bs' → lead = lead' ∧ bs = bs'.
Proof.
  intros L L'. revert lead bs lead' bs' L L'. induction ls as [|l ls IH]; intros lead bs lead' bs' (E & Hl & Hb) (E' & Hl' & Hb').
  - destruct lead; [|done]. destruct bs; [|done]. destruct lead'; [|done]. by destruct bs'.
  - destruct (is_note l) eqn:Hn.
    + destruct lead as [|x lead]; [|injection E as -> _; apply Forall_cons in Hl as [Hx _]; apply plain_note in Hx; congruence].
      destruct lead' as [|x lead']; [|injection E' as -> _; apply Forall_cons in Hl' as [Hx _]; apply plain_note in Hx; congruence].
      destruct bs as [|[bl bn bt bm] bs]; [done|]. destruct bs' as [|[bl' bn' bt' bm'] bs']; [done|]. cbn in E, E'. injection E as -> E. injection E' as <- E'.
      apply Forall_cons in Hb as [[Hb Hm] Hbs]. apply Forall_cons in Hb' as [[Hb' Hm'] Hbs']. cbn in *.
      apply annotates_reads in Hb as (_ & <- & _ & <-). apply annotates_reads in Hb' as (_ & <- & _ & <-).
      destruct (IH bm bs bm' bs') as [-> ->]; by repeat split.
    + destruct lead as [|x lead].
      { destruct bs as [|b bs]; [done|]. cbn in E. injection E as -> _. apply Forall_cons in Hb as [[Hb1 _] _]. apply annotates_reads in Hb1 as [? _]. congruence. }
      destruct lead' as [|x' lead'].
      { destruct bs' as [|b bs']; [done|]. cbn in E'. injection E' as -> _. apply Forall_cons in Hb' as [[Hb1 _] _]. apply annotates_reads in Hb1 as [? _]. congruence. }
      injection E as <- E. injection E' as <- E'. apply Forall_cons in Hl as [_ Hl]. apply Forall_cons in Hl' as [_ Hl'].
      destruct (IH lead bs lead' bs') as [-> ->]; by repeat split.
Qed.
Print Assumptions C107_layout.
Definition account_doc : string := str_join new_line ["CreateAccount godoc"; ""; "@Summary  Create"; "  an account"; "@Tags accounts"; "dropped"; "@DESCRIPTION Registers it."; ""; "Twice."].
Example C107_swaggo_case : swaggo_doc id account_doc = Some ("Create an account", "Registers it." +:+ new_line +:+ "Twice.").
Proof. reflexivity. Qed.
Example C107_swaggo_lead : swaggo_doc id ("Pings." +:+ new_line +:+ "@Router /ping [get]") = Some ("Pings.", "") ∧ swaggo_doc id "Pings." = None.
Proof. split; reflexivity. Qed.
