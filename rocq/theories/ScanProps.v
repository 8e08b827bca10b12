(** * Splitting only at top level: C46. *)
From Coq Require Import Ascii.
From stdpp Require Import base list strings.
From Verif Require Import StrLib StrSplit StrSub PathModel ScanModel.

(** ** Specification *)

Definition opening (c : ascii) : Prop := c ∈ ["{"%char; "["%char; "("%char].
Definition closing (c : ascii) : Prop := c ∈ ["}"%char; "]"%char; ")"%char].
Definition ordinary (c : ascii) : Prop := ¬ opening c ∧ ¬ closing c ∧ c ≠ quote_mark.
(** The inside of a double-quoted string: a backslash escapes what follows. *)
Inductive quoted : string → Prop :=
| quoted_nil : quoted ""
| quoted_char c s : c ≠ quote_mark → c ≠ backslash → quoted s → quoted (String c s)
| quoted_escape c s : quoted s → quoted (String backslash (String c s)).
(** Well-nested text: ordinary characters, bracketed groups and quoted strings. *)
Inductive nested : string → Prop :=
| nested_nil : nested ""
| nested_char c s : ordinary c → nested s → nested (String c s)
| nested_group o inner c s : opening o → nested inner → closing c → nested s → nested (String o (inner +:+ String c s))
| nested_quote body s : quoted body → nested s → nested (String quote_mark (body +:+ String quote_mark s)).
(** The same without a separator outside groups and quoted strings. *)
Inductive item (sep : ascii) : string → Prop :=
| item_nil : item sep ""
| item_char c s : ordinary c → c ≠ sep → item sep s → item sep (String c s)
| item_group o inner c s : opening o → nested inner → closing c → item sep s → item sep (String o (inner +:+ String c s))
| item_quote body s : quoted body → item sep s → item sep (String quote_mark (body +:+ String quote_mark s)).
(** A separator is an ordinary character. *)
Definition separator (sep : ascii) : Prop := ordinary sep.
(** Well-nested type arguments: only square brackets and parentheses count. *)
Definition arg_open (c : ascii) : Prop := c ∈ ["["%char; "("%char].
Definition arg_close (c : ascii) : Prop := c ∈ ["]"%char; ")"%char].
Inductive arg_nested : string → Prop :=
| an_nil : arg_nested ""
| an_char c s : ¬ arg_open c → ¬ arg_close c → arg_nested s → arg_nested (String c s)
| an_group o inner c s : arg_open o → arg_nested inner → arg_close c → arg_nested s → arg_nested (String o (inner +:+ String c s)).
Inductive arg : string → Prop :=
| arg_nil : arg ""
| arg_char c s : ¬ arg_open c → ¬ arg_close c → c ≠ ","%char → arg s → arg (String c s)
| arg_group o inner c s : arg_open o → arg_nested inner → arg_close c → arg s → arg (String o (inner +:+ String c s)).

(** ** Lemmas *)
Ltac norm := rewrite ?sapp_assoc, ?sapp_cons, ?sapp_assoc, ?sapp_cons, ?sapp_assoc; reflexivity.
Lemma glue_nil ps : ps ≠ [] → glue "" ps = ps.
Proof. destruct ps; done. Qed.
Lemma glue_app a b ps : ps ≠ [] → glue a (glue b ps) = glue (a +:+ b) ps.
Proof. destruct ps as [|p ps]; [done|]. intros _. cbn. by rewrite sapp_assoc. Qed.
Lemma glue_nonnil t ps : glue t ps ≠ [].
Proof. by destruct ps. Qed.
Lemma cut_nonnil sep st s : cut_scan sep st s ≠ [].
Proof. destruct s as [|c s]; [done|]. cbn. destruct (scan_step sep st c) as [st' []]; [done|]. apply glue_nonnil. Qed.
Lemma join_glue sep t ps : ps ≠ [] → str_join sep (glue t ps) = t +:+ str_join sep ps.
Proof. destruct ps as [|p [|q ps]]; intros H; [done|done|]. cbn [glue]. rewrite !str_join_cons2. by rewrite sapp_assoc. Qed.
Lemma join_nil_cons sep ps : ps ≠ [] → str_join sep ("" :: ps) = sep +:+ str_join sep ps.
Proof. destruct ps as [|p ps]; [done|]. intros _. by rewrite str_join_cons2. Qed.
Lemma cut_join sep s : ∀ st, str_join (String sep "") (cut_scan sep st s) = s.
Proof.
  induction s as [|c s IH]; intros st; [done|]. cbn [cut_scan]. destruct (scan_step sep st c) as [st' cut] eqn:E. destruct cut.
  - rewrite join_nil_cons by apply cut_nonnil. rewrite IH. assert (c = sep) as ->; [|done].
    unfold scan_step in E. destruct (sc_quote st) as [[]|]; [done| |]; repeat (case_match; try done). injection E as _ E. apply andb_true_iff in E as [E _]. by apply bool_decide_eq_true in E.
  - rewrite join_glue by apply cut_nonnil. by rewrite IH.
Qed.
Section scan.
  Context (sep : ascii) (Hsep : separator sep).
  Notation cs := (cut_scan sep).
  Lemma opens_true c : opening c → opens c = true.
  Proof. intros H. by apply bool_decide_eq_true. Qed.
  Lemma opens_false c : ¬ opening c → opens c = false.
  Proof. intros H. by apply bool_decide_eq_false. Qed.
  Lemma closes_true c : closing c → closes c = true.
  Proof. intros H. by apply bool_decide_eq_true. Qed.
  Lemma closes_false c : ¬ closing c → closes c = false.
  Proof. intros H. by apply bool_decide_eq_false. Qed.
  Lemma open_not_quote c : opening c → c ≠ quote_mark ∧ ¬ closing c.
  Proof. unfold opening, closing. intros H. repeat (apply elem_of_cons in H as [->|H]; [split; [done|by apply (bool_decide_unpack _)]|]). by apply elem_of_nil in H. Qed.
  Lemma close_not_quote c : closing c → c ≠ quote_mark ∧ ¬ opening c.
  Proof. unfold opening, closing. intros H. repeat (apply elem_of_cons in H as [->|H]; [split; [done|by apply (bool_decide_unpack _)]|]). by apply elem_of_nil in H. Qed.
  Lemma step_open d c : opening c → scan_step sep (Scan d None) c = (Scan (d + 1) None, false).
  Proof. intros H. destruct (open_not_quote c H) as [H1 H2]. unfold scan_step. cbn. by rewrite bool_decide_eq_false_2, (opens_true c H). Qed.
  Lemma step_close d c : closing c → scan_step sep (Scan d None) c = (Scan (d - 1) None, false).
  Proof. intros H. destruct (close_not_quote c H) as [H1 H2]. unfold scan_step. cbn. by rewrite bool_decide_eq_false_2, (opens_false c H2), (closes_true c H). Qed.
  Lemma step_ordinary d c : ordinary c → scan_step sep (Scan d None) c = (Scan d None, bool_decide (c = sep) && bool_decide (d = 0%Z)).
  Proof. intros (H1 & H2 & H3). unfold scan_step. cbn. by rewrite bool_decide_eq_false_2, (opens_false c H1), (closes_false c H2). Qed.
  Lemma scan_quoted body : quoted body → ∀ d rest, cs (Scan d (Some false)) (body +:+ String quote_mark rest) = glue (body +:+ String quote_mark "") (cs (Scan d None) rest).
  Proof.
    induction 1 as [|c s H1 H2 H IH|c s H IH]; intros d rest.
    - change ("" +:+ String quote_mark rest) with (String quote_mark rest). cbn [cut_scan]. unfold scan_step. cbn [sc_quote sc_depth]. by rewrite bool_decide_eq_false_2, bool_decide_eq_true_2.
    - rewrite !sapp_cons. cbn [cut_scan]. unfold scan_step. cbn [sc_quote sc_depth]. rewrite !bool_decide_eq_false_2 by done. rewrite IH. by rewrite glue_app by apply cut_nonnil.
    - rewrite !sapp_cons. cbn [cut_scan]. unfold scan_step at 1. cbn [sc_quote sc_depth]. rewrite bool_decide_eq_true_2 by done. unfold scan_step. cbn [sc_quote sc_depth]. rewrite IH.
      rewrite !glue_app by first [apply cut_nonnil|apply glue_nonnil]. done.
  Qed.
  Lemma scan_nested t : nested t → ∀ d rest, (0 < d)%Z → cs (Scan d None) (t +:+ rest) = glue t (cs (Scan d None) rest).
  Proof.
    induction 1 as [|c s Hc H IH|o inner c s Ho Hi IHi Hc H IH|body s Hb H IH]; intros d rest Hd.
    - by rewrite glue_nil by apply cut_nonnil.
    - rewrite sapp_cons. cbn [cut_scan]. rewrite step_ordinary by done. rewrite (bool_decide_eq_false_2 (d = 0%Z)) by lia. rewrite andb_false_r, IH by done. by rewrite glue_app by apply cut_nonnil.
    - rewrite sapp_cons, sapp_assoc. cbn [cut_scan]. rewrite step_open by done. rewrite IHi by lia. rewrite sapp_cons. cbn [cut_scan]. rewrite step_close by done.
      replace (d + 1 - 1)%Z with d by lia. rewrite IH by done. rewrite !glue_app by first [apply cut_nonnil|apply glue_nonnil]. f_equal. norm.
    - rewrite sapp_cons, sapp_assoc, sapp_cons. cbn [cut_scan]. unfold scan_step at 1. cbn [sc_quote sc_depth]. rewrite bool_decide_eq_true_2 by done. rewrite scan_quoted by done. rewrite IH by done.
      rewrite !glue_app by first [apply cut_nonnil|apply glue_nonnil]. f_equal. norm.
  Qed.
  Lemma scan_item t : item sep t → ∀ rest, cs (Scan 0 None) (t +:+ rest) = glue t (cs (Scan 0 None) rest).
  Proof.
    induction 1 as [|c s Hc Hne H IH|o inner c s Ho Hi Hc H IH|body s Hb H IH]; intros rest.
    - by rewrite glue_nil by apply cut_nonnil.
    - rewrite sapp_cons. cbn [cut_scan]. rewrite step_ordinary by done. rewrite (bool_decide_eq_false_2 (c = sep)) by done. cbn [andb]. rewrite IH. by rewrite glue_app by apply cut_nonnil.
    - rewrite sapp_cons, sapp_assoc. cbn [cut_scan]. rewrite step_open by done. rewrite (scan_nested inner Hi) by lia. rewrite sapp_cons. cbn [cut_scan]. rewrite step_close by done.
      replace (0 + 1 - 1)%Z with 0%Z by lia. rewrite IH. rewrite !glue_app by first [apply cut_nonnil|apply glue_nonnil]. f_equal. norm.
    - rewrite sapp_cons, sapp_assoc, sapp_cons. cbn [cut_scan]. unfold scan_step at 1. cbn [sc_quote sc_depth]. rewrite bool_decide_eq_true_2 by done. rewrite scan_quoted by done. rewrite IH.
      rewrite !glue_app by first [apply cut_nonnil|apply glue_nonnil]. f_equal. norm.
  Qed.
  Lemma scan_items items : items ≠ [] → Forall (item sep) items → cs (Scan 0 None) (str_join (String sep "") items) = items.
  Proof.
    intros Hne H. induction H as [|t items Ht Hi IH]; [done|]. destruct items as [|u items].
    - cbn. rewrite <- (sapp_nil t) at 1. rewrite scan_item by done. cbn. by rewrite sapp_nil.
    - rewrite str_join_cons2. rewrite scan_item by done. rewrite sapp_cons. cbn [cut_scan]. rewrite step_ordinary by done. rewrite !bool_decide_eq_true_2 by done. cbn [andb].
      change ("" +:+ ?x) with x. rewrite IH by done. cbn. by rewrite sapp_nil.
  Qed.
End scan.
(** Well-nested text is a list of items in exactly one way. *)
Lemma nested_items sep t : separator sep → nested t → ∃ items, items ≠ [] ∧ Forall (item sep) items ∧ t = str_join (String sep "") items.
Proof.
  intros Hs. induction 1 as [|c s Hc H IH|o inner c s Ho Hi IHi Hc H IH|body s Hb H IH].
  - exists [""]. split; [done|]. split; [repeat constructor|done].
  - destruct IH as (items & Hne & Hf & ->). destruct (decide (c = sep)) as [->|Hcs].
    + exists ("" :: items). split; [done|]. split; [by repeat constructor|]. by rewrite join_nil_cons.
    + destruct items as [|t items]; [done|]. apply Forall_cons in Hf as [Ht Hf]. exists (glue (String c "") (t :: items)). split; [done|]. split; [constructor; [by constructor|done]|]. by rewrite join_glue.
  - destruct IH as (items & Hne & Hf & ->). destruct items as [|t items]; [done|]. apply Forall_cons in Hf as [Ht Hf]. exists (glue (String o (inner +:+ String c "")) (t :: items)). split; [done|]. split.
    + constructor; [|done]. rewrite sapp_cons, sapp_assoc. by constructor.
    + rewrite join_glue by done. by rewrite sapp_cons, sapp_assoc.
  - destruct IH as (items & Hne & Hf & ->). destruct items as [|t items]; [done|]. apply Forall_cons in Hf as [Ht Hf]. exists (glue (String quote_mark (body +:+ String quote_mark "")) (t :: items)). split; [done|]. split.
    + constructor; [|done]. rewrite sapp_cons, sapp_assoc. by constructor.
    + rewrite join_glue by done. by rewrite sapp_cons, sapp_assoc.
Qed.
Section body.
  Lemma bscan_quoted b : quoted b → ∀ d rest, body_scan (Scan d (Some false)) (b +:+ String quote_mark rest) = (λ r, b +:+ String quote_mark r) <$> body_scan (Scan d None) rest.
  Proof.
    induction 1 as [|c s H1 H2 H IH|c s H IH]; intros d rest.
    - change ("" +:+ String quote_mark rest) with (String quote_mark rest). cbn [body_scan sc_quote]. unfold scan_step. cbn [sc_quote sc_depth]. rewrite bool_decide_eq_false_2, bool_decide_eq_true_2 by done. done.
    - rewrite sapp_cons. cbn [body_scan sc_quote]. unfold scan_step. cbn [sc_quote sc_depth]. rewrite !bool_decide_eq_false_2 by done. cbn [fst]. rewrite IH. rewrite <- option_fmap_compose. done.
    - rewrite !sapp_cons. transitivity (String backslash <$> (String c <$> body_scan (Scan d (Some false)) (s +:+ String quote_mark rest))); [reflexivity|]. rewrite IH.
      rewrite <- !option_fmap_compose. done.
  Qed.
  Lemma bscan_nested t : nested t → ∀ d rest, (0 < d)%Z → body_scan (Scan d None) (t +:+ rest) = (λ r, t +:+ r) <$> body_scan (Scan d None) rest.
  Proof.
    induction 1 as [|c s Hc H IH|o inner c s Ho Hi IHi Hc H IH|b s Hb H IH]; intros d rest Hd.
    - change ("" +:+ rest) with rest. by destruct (body_scan _ rest).
    - rewrite sapp_cons. cbn [body_scan sc_quote]. rewrite step_ordinary by done. cbn [fst]. assert (c ≠ "}"%char) as Hn.
      { intros ->. destruct Hc as (_ & Hc & _). apply Hc. left. }
      rewrite (bool_decide_eq_false_2 (c = _)) by done. cbn [andb]. rewrite IH by done. rewrite <- option_fmap_compose. done.
    - rewrite sapp_cons, sapp_assoc. cbn [body_scan sc_quote]. rewrite step_open by done. cbn [fst sc_depth]. rewrite (bool_decide_eq_false_2 ((d + 1)%Z = 0%Z)) by lia. rewrite andb_false_r.
      rewrite IHi by lia. rewrite sapp_cons. cbn [body_scan sc_quote]. rewrite step_close by done. cbn [fst sc_depth]. replace (d + 1 - 1)%Z with d by lia. rewrite (bool_decide_eq_false_2 (d = 0%Z)) by lia. rewrite andb_false_r.
      rewrite IH by done. rewrite <- !option_fmap_compose. apply option_fmap_ext. intros r. cbn. by rewrite sapp_cons, sapp_assoc.
    - rewrite sapp_cons, sapp_assoc, sapp_cons. transitivity (String quote_mark <$> body_scan (Scan d (Some false)) (b +:+ String quote_mark (s +:+ rest))); [reflexivity|].
      rewrite bscan_quoted by done. rewrite IH by done. rewrite <- !option_fmap_compose. apply option_fmap_ext. intros r. cbn. norm.
  Qed.
End body.
Lemma anon_first pre t : (∀ a b, pre +:+ "struct" ≠ a +:+ "struct{" +:+ b) → anon_struct_body (pre +:+ "struct{" +:+ t) = body_scan (Scan 1 None) t.
Proof.
  induction pre as [|c pre IH]; intros Hn.
  - reflexivity.
  - rewrite sapp_cons. cbn [anon_struct_body]. destruct (has_prefix "struct{" (String c (pre +:+ "struct{" +:+ t))) eqn:E.
    + exfalso. apply has_prefix_spec in E as [x Ex].
      (* a prefix of seven bytes beginning inside [pre] lies within [pre ++ struct] *)
      assert (String.length "struct{" ≤ String.length (String c pre +:+ "struct")) as Hl by (rewrite sapp_length; cbn; lia).
      apply (Hn "" (str_drop 7 (String c pre +:+ "struct"))). change ("" +:+ ?y) with y.
      rewrite <- (str_take_drop 7 (String c pre +:+ "struct")) at 1. f_equal.
      assert (String c (pre +:+ "struct{" +:+ t) = (String c pre +:+ "struct") +:+ String "{" t) as E2 by (by rewrite sapp_assoc).
      rewrite E2 in Ex. rewrite <- (str_take_drop 7 (String c pre +:+ "struct")) in Ex. rewrite sapp_assoc in Ex. apply sapp_inj_len in Ex as [Ex _]; [done|].
      rewrite str_take_length. change (String.length "struct{") with 7 in *. lia.
    + apply IH. intros a b Hab. apply (Hn (String c a) b). rewrite sapp_cons, Hab. done.
Qed.

(** Type arguments. *)
Lemma cut_args_nonnil d s : cut_args d s ≠ [].
Proof. destruct s as [|c s]; [done|]. cbn. destruct (args_step d c) as [d' []]; [done|]. apply glue_nonnil. Qed.
Lemma cut_args_join s : ∀ d, str_join "," (cut_args d s) = s.
Proof.
  induction s as [|c s IH]; intros d; [done|]. cbn [cut_args]. destruct (args_step d c) as [d' cut] eqn:E. destruct cut.
  - rewrite join_nil_cons by apply cut_args_nonnil. rewrite IH. assert (c = ","%char) as ->; [|done].
    unfold args_step in E. repeat (case_match; try done). injection E as _ E. apply andb_true_iff in E as [E _]. by apply bool_decide_eq_true in E.
  - rewrite join_glue by apply cut_args_nonnil. by rewrite IH.
Qed.
Lemma arg_disjoint c : arg_close c → ¬ arg_open c.
Proof. unfold arg_close, arg_open. intros H. repeat (apply elem_of_cons in H as [->|H]; [by apply (bool_decide_unpack _)|]). by apply elem_of_nil in H. Qed.
Lemma astep_open d c : arg_open c → args_step d c = ((d + 1)%Z, false).
Proof. intros H. unfold args_step. by rewrite bool_decide_eq_true_2. Qed.
Lemma astep_close d c : arg_close c → args_step d c = ((d - 1)%Z, false).
Proof. intros H. unfold args_step. rewrite bool_decide_eq_false_2 by (by apply arg_disjoint). by rewrite bool_decide_eq_true_2. Qed.
Lemma astep_other d c : ¬ arg_open c → ¬ arg_close c → args_step d c = (d, bool_decide (c = ","%char) && bool_decide (d = 0%Z)).
Proof. intros H1 H2. unfold args_step. rewrite bool_decide_eq_false_2 by done. by rewrite bool_decide_eq_false_2. Qed.
Lemma args_nested t : arg_nested t → ∀ d rest, (0 < d)%Z → cut_args d (t +:+ rest) = glue t (cut_args d rest).
Proof.
  induction 1 as [|c s H1 H2 H IH|o inner c s Ho Hi IHi Hc H IH]; intros d rest Hd.
  - by rewrite glue_nil by apply cut_args_nonnil.
  - rewrite sapp_cons. cbn [cut_args]. rewrite astep_other by done. rewrite (bool_decide_eq_false_2 (d = 0%Z)) by lia. rewrite andb_false_r, IH by done. by rewrite glue_app by apply cut_args_nonnil.
  - rewrite sapp_cons, sapp_assoc. cbn [cut_args]. rewrite astep_open by done. rewrite IHi by lia. rewrite sapp_cons. cbn [cut_args]. rewrite astep_close by done.
    replace (d + 1 - 1)%Z with d by lia. rewrite IH by done. rewrite !glue_app by first [apply cut_args_nonnil|apply glue_nonnil]. f_equal. norm.
Qed.
Lemma args_arg t : arg t → ∀ rest, cut_args 0 (t +:+ rest) = glue t (cut_args 0 rest).
Proof.
  induction 1 as [|c s H1 H2 H3 H IH|o inner c s Ho Hi Hc H IH]; intros rest.
  - by rewrite glue_nil by apply cut_args_nonnil.
  - rewrite sapp_cons. cbn [cut_args]. rewrite astep_other by done. rewrite (bool_decide_eq_false_2 (c = ","%char)) by done. cbn [andb]. rewrite IH. by rewrite glue_app by apply cut_args_nonnil.
  - rewrite sapp_cons, sapp_assoc. cbn [cut_args]. rewrite astep_open by done. rewrite (args_nested inner Hi) by lia. rewrite sapp_cons. cbn [cut_args]. rewrite astep_close by done.
    replace (0 + 1 - 1)%Z with 0%Z by lia. rewrite IH. rewrite !glue_app by first [apply cut_args_nonnil|apply glue_nonnil]. f_equal. norm.
Qed.
Lemma args_list args : args ≠ [] → Forall arg args → cut_args 0 (str_join "," args) = args.
Proof.
  intros Hne H. induction H as [|t args Ht Hi IH]; [done|]. destruct args as [|u args].
  - cbn. rewrite <- (sapp_nil t) at 1. rewrite args_arg by done. cbn. by rewrite sapp_nil.
  - rewrite str_join_cons2. rewrite args_arg by done. rewrite sapp_cons. cbn [cut_args]. rewrite astep_other by by apply (bool_decide_unpack _). rewrite !bool_decide_eq_true_2 by done. cbn [andb].
    change ("" +:+ ?x) with x. rewrite IH by done. cbn. by rewrite sapp_nil.
Qed.
Lemma drop_blank_cases ps : ps ≠ [] → drop_blank_last ps = ps ∧ (∀ p, last ps = Some p → trim_space p ≠ "") ∨ ∃ l p, ps = l ++ [p] ∧ trim_space p = "" ∧ drop_blank_last ps = l.
Proof.
  intros H. destruct ps as [|p l _] using rev_ind; [done|]. unfold drop_blank_last. rewrite last_snoc. destruct (decide (trim_space p = "")) as [E|E].
  - right. exists l, p. split; [done|]. split; [done|]. rewrite app_length. cbn. replace (length l + 1 - 1) with (length l) by lia. apply take_app.
  - left. split; [done|]. intros q [= <-]. done.
Qed.
Lemma at_dive_spec parts : ∀ before, match at_dive before parts with
  | Some (b, a) => ∃ l p, b = before ++ l ∧ parts = l ++ p :: a ∧ trim_space p = "dive" ∧ ∀ q, q ∈ l → trim_space q ≠ "dive"
  | None => ∀ q, q ∈ parts → trim_space q ≠ "dive"
  end.
Proof.
  induction parts as [|p ps IH]; intros before; cbn; [intros q Hq; by apply elem_of_nil in Hq|]. destruct (decide (trim_space p = "dive")) as [E|E].
  - exists [], p. rewrite app_nil_r. split; [done|]. split; [done|]. split; [done|]. intros q Hq. by apply elem_of_nil in Hq.
  - specialize (IH (before ++ [p])). destruct (at_dive (before ++ [p]) ps) as [[b a]|].
    + destruct IH as (l & p' & -> & -> & Hp & Hl). exists (p :: l), p'. rewrite <- app_assoc. split; [done|]. split; [done|]. split; [done|]. intros q [->|Hq]%elem_of_cons; [done|]. by apply Hl.
    + intros q [->|Hq]%elem_of_cons; [done|]. by apply IH.
Qed.

(** ** The property *)

(** Field lists: whatever the text, the pieces rejoined with the separator are the text, up to
    the blanks trimmed around every piece. *)
Theorem C46_fields_rejoin sep s : ∃ pieces, split_top_level sep s = trim_space <$> pieces ∧ str_join (String sep "") pieces = s.
Proof. exists (cut_scan sep (Scan 0 None) s). split; [done|]. apply cut_join. Qed.
(** Well-nested text is split exactly at the separators outside brackets and quotes. *)
Theorem C46_fields_split_at_top sep items : separator sep → items ≠ [] → Forall (item sep) items →
  split_top_level sep (str_join (String sep "") items) = trim_space <$> items.
Proof. intros Hs Hne H. unfold split_top_level. by rewrite scan_items. Qed.
Theorem C46_nested_text_has_items sep t : separator sep → nested t → ∃ items, items ≠ [] ∧ Forall (item sep) items ∧ t = str_join (String sep "") items.
Proof. apply nested_items. Qed.
(** The body of the first struct type is the whole text inside its braces. *)
Theorem C46_struct_body pre body rest : nested body → (∀ a b, pre +:+ "struct" ≠ a +:+ "struct{" +:+ b) →
  anon_struct_body (pre +:+ "struct{" +:+ body +:+ "}" +:+ rest) = Some body.
Proof.
  intros Hb Hp. rewrite anon_first by done. rewrite bscan_nested by done. change ("}" +:+ rest) with (String "}" rest). cbn [body_scan sc_quote]. rewrite step_close by (left). change (Some (body +:+ "") = Some body). by rewrite sapp_nil.
Qed.
(** Type argument lists: pieces rejoin, except that a blank last piece is dropped. *)
Theorem C46_args_rejoin s : ∃ pieces last, split_args s = trim_space <$> pieces ∧
  (s = str_join "," pieces ∨ trim_space last = "" ∧ s = str_join "," (pieces ++ [last])).
Proof.
  destruct (drop_blank_cases (cut_args 0 s)) as [[E _]|(l & p & E & Hp & Ed)]; [apply cut_args_nonnil| |].
  - exists (cut_args 0 s), "". split; [unfold split_args; by rewrite E|]. left. by rewrite cut_args_join.
  - exists l, p. split; [unfold split_args; by rewrite Ed|]. right. split; [done|]. by rewrite <- E, cut_args_join.
Qed.
(** They are split exactly at the commas outside square brackets and parentheses. *)
Theorem C46_args_split_at_top args t : Forall arg (args ++ [t]) → trim_space t ≠ "" → split_args (str_join "," (args ++ [t])) = trim_space <$> (args ++ [t]).
Proof.
  intros H Ht. unfold split_args. rewrite args_list; [|by destruct args|done]. destruct (drop_blank_cases (args ++ [t])) as [[E _]|(l & p & E & Hp & _)]; [by destruct args|by rewrite E|].
  apply app_inj_tail in E as [_ <-]. done.
Qed.
(** Braces and quotes do not protect a comma there: a struct type with a tag is cut inside it. *)
Theorem C46_args_split_in_quotes_refuted : ∃ t, nested t ∧ item "," t ∧ split_args t ≠ [trim_space t] ∧ length (split_args t) = 2.
Proof.
  set (tag := "json:\" +:+ String quote_mark ("a,omitempty\" +:+ String quote_mark "")).
  assert (quoted tag) as Hq by (unfold tag; repeat first [apply quoted_nil|apply quoted_escape|apply quoted_char; [discriminate|discriminate|]]).
  assert (∀ c, c ∈ ["s"; "t"; "r"; "u"; "c"; "A"; " "; "i"; "n"]%char → ordinary c) as Ho.
  { intros c H. repeat (apply elem_of_cons in H as [->|H]; [split_and!; by apply (bool_decide_unpack _)|]). by apply elem_of_nil in H. }
  assert (nested ("A int " +:+ String quote_mark (tag +:+ String quote_mark ""))) as Hi.
  { repeat (rewrite sapp_cons; apply nested_char; [apply Ho; by apply (bool_decide_unpack _)|]). change ("" +:+ ?x) with x. apply nested_quote; [done|constructor]. }
  exists ("struct" +:+ String "{" (("A int " +:+ String quote_mark (tag +:+ String quote_mark "")) +:+ "}")). split; [|split; [|split]].
  - repeat (rewrite sapp_cons; apply nested_char; [apply Ho; by apply (bool_decide_unpack _)|]). change ("" +:+ ?x) with x. apply nested_group; [left|done|left|constructor].
  - repeat (rewrite sapp_cons; apply item_char; [apply Ho; by apply (bool_decide_unpack _)|done|]). change ("" +:+ ?x) with x. apply item_group; [left|done|left|constructor].
  - vm_compute. done.
  - vm_compute. done.
Qed.
(** Blanks around the pieces are not given back. *)
Theorem C46_exact_text_refuted : ∃ s, str_join ";" (split_top_level ";" s) ≠ s.
Proof. exists "A int; B int". vm_compute. done. Qed.
(** Validation tags: split at the first rule that is dive, and at nothing else. *)
Theorem C46_dive tag : match split_on_dive tag with
  | (before, after, true) => ∃ b p a, before = str_join "," b ∧ after = str_join "," a ∧ tag = str_join "," (b ++ p :: a) ∧ trim_space p = "dive" ∧
      Forall (λ r, contains_byte "," r = false ∧ trim_space r ≠ "dive") b
  | (before, after, false) => before = tag ∧ after = "" ∧ ∀ r, r ∈ split_byte "," tag → trim_space r ≠ "dive"
  end.
Proof.
  unfold split_on_dive. pose proof (at_dive_spec (split_byte "," tag) []) as H. destruct (at_dive [] (split_byte "," tag)) as [[b a]|]; [|done].
  destruct H as (l & p & -> & E & Hp & Hl). exists l, p, a. split; [done|]. split; [done|]. split; [by rewrite <- E, str_join_split|]. split; [done|]. rewrite Forall_forall. intros r Hr. split; [|by apply Hl].
  apply (split_byte_parts "," tag). rewrite E. apply elem_of_app. by left.
Qed.
Print Assumptions C46_fields_rejoin.
Print Assumptions C46_fields_split_at_top.
Print Assumptions C46_nested_text_has_items.
Print Assumptions C46_struct_body.
Print Assumptions C46_args_rejoin.
Print Assumptions C46_args_split_at_top.
Print Assumptions C46_args_split_in_quotes_refuted.
Print Assumptions C46_exact_text_refuted.
Print Assumptions C46_dive.
Example C46_example :
  split_top_level ";" ("A struct{X int; Y int}; B func(a, b int)") = ["A struct{X int; Y int}"; "B func(a, b int)"] ∧
  split_args "K, Page[A,B] , func(int, string)" = ["K"; "Page[A,B]"; "func(int, string)"] ∧
  split_on_dive "required,dive,min=1" = ("required", "min=1", true) ∧
  anon_struct_body "[]struct{A struct{B int}; C int}" = Some "A struct{B int}; C int".
Proof. vm_compute. done. Qed.
