(** * C115: anonymous structs written out as text. *)
From Coq Require Import Ascii ZArith Lia.
From stdpp Require Import base numbers list strings gmap.
From Verif Require Import StrLib StrSplit StrSub PathModel PathSpec VerbProofs PathProofs2 FieldModel FieldProofs FieldProps NameModel WireModel ScanModel ScanProps AnonFieldModel.

(** ** Specification *)
(** A name: no brackets, quotes, semicolons or blanks. *)
Definition plain_byte (c : ascii) : Prop := ordinary c ∧ c ≠ ";"%char ∧ mem_byte c spaces = false.
Inductive plain : string → Prop :=
| plain_one c : plain_byte c → plain (String c "")
| plain_more c s : plain_byte c → plain s → plain (String c s).
(** The text of a type: brackets are balanced, and quotes and semicolons are within brackets. *)
Inductive type_text : string → Prop :=
| tt_nil : type_text ""
| tt_char c s : ordinary c → c ≠ ";"%char → type_text s → type_text (String c s)
| tt_group o inner c s : opening o → nested inner → closing c → type_text s → type_text (String o (inner +:+ String c s)).
(** A field as the library of Go writes it: name, type and, if there is one, the tag in quotes. *)
Record wfield := WField { wf_name : string; wf_type : string; wf_quoted : option string }.
Definition tag_text (f : wfield) : string := match wf_quoted f with Some b => " " +:+ String quote_mark (b +:+ String quote_mark "") | None => "" end.
Definition field_text (f : wfield) : string := wf_name f +:+ " " +:+ wf_type f +:+ tag_text f.
Definition struct_text (fs : list wfield) : string := "struct{" +:+ str_join "; " (field_text <$> fs) +:+ "}".
Definition written (f : wfield) : Prop := plain (wf_name f) ∧ type_text (wf_type f) ∧ firm spaces (wf_type f) ∧ ∀ b, wf_quoted f = Some b → quoted b.
(** The field it stands for. *)
Definition read_back (unquote : string → option string) (f : wfield) : field :=
  Field (wf_name f) (wf_type f) (match wf_quoted f with Some b => default "" (unquote (String quote_mark (b +:+ String quote_mark ""))) | None => "" end).

(** ** Lemmas *)
Lemma plain_nonempty s : plain s → s ≠ "".
Proof. by destruct 1. Qed.
Lemma plain_firm s : plain s → firm spaces s.
Proof.
  induction 1 as [c H|c s H P IH].
  - split; [exists c, ""; split; [done|apply H]|exists "", c; split; [done|apply H]].
  - destruct IH as [_ (t & d & -> & Hd)]. split; [exists c, (t +:+ String d ""); split; [done|apply H]|]. exists (String c t), d. split; [done|done].
Qed.
Lemma plain_item s : plain s → item ";" s.
Proof. induction 1 as [c (H & ? & _)|c s (H & ? & _) P IH]; (apply item_char; [done|done|]); [constructor|done]. Qed.
Lemma type_item s : type_text s → item ";" s.
Proof. induction 1; [apply item_nil|by apply item_char|by apply item_group]. Qed.
Lemma item_app sep a b : item sep a → item sep b → item sep (a +:+ b).
Proof.
  induction 1 as [|c s Hc Hs H IH|o inner c s Ho Hi Hc H IH|q s Hq H IH]; intros Hb; [done| | |].
  - rewrite sapp_cons. apply item_char; auto.
  - rewrite sapp_cons, sapp_assoc, sapp_cons. apply item_group; auto.
  - rewrite sapp_cons, sapp_assoc, sapp_cons. apply item_quote; auto.
Qed.
Lemma blank_item : item ";" " ".
Proof. apply item_char; [|done|constructor]. split; [|split]; [by apply (bool_decide_unpack _); vm_compute|by apply (bool_decide_unpack _); vm_compute|done]. Qed.
Lemma field_item f : written f → item ";" (field_text f).
Proof.
  intros (Hn & Ht & _ & Hq). unfold field_text. apply item_app; [by apply plain_item|]. apply item_app; [apply blank_item|]. apply item_app; [by apply type_item|].
  unfold tag_text. destruct (wf_quoted f) as [b|]; [|constructor]. apply item_app; [apply blank_item|]. apply (item_quote ";" b ""); [by apply Hq|constructor].
Qed.
Lemma item_nested sep s : item sep s → nested s.
Proof. induction 1; [apply nested_nil|by apply nested_char|by apply nested_group|by apply nested_quote]. Qed.
Lemma nested_app a b : nested a → nested b → nested (a +:+ b).
Proof.
  induction 1 as [|c s Hc H IH|o inner c s Ho Hi _ Hc H IH|q s Hq H IH]; intros Hb; [done| | |].
  - rewrite sapp_cons. apply nested_char; auto.
  - rewrite sapp_cons, sapp_assoc, sapp_cons. apply nested_group; auto.
  - rewrite sapp_cons, sapp_assoc, sapp_cons. apply nested_quote; auto.
Qed.
Lemma tag_quoted body : quoted body → ∀ d rest, tag_at (Scan d (Some false)) (body +:+ String quote_mark rest) = (λ '(a, b), (body +:+ String quote_mark a, b)) <$> tag_at (Scan d None) rest.
Proof.
  induction 1 as [|c s H1 H2 H IH|c s H IH]; intros d rest.
  - change ("" +:+ String quote_mark rest) with (String quote_mark rest). cbn [tag_at sc_quote]. unfold scan_step. cbn [sc_quote sc_depth]. rewrite (bool_decide_eq_false_2 (Some false = None)), (bool_decide_eq_false_2 (quote_mark = backslash)), (bool_decide_eq_true_2 (quote_mark = quote_mark)) by done. cbn [andb fst]. by destruct (tag_at _ rest) as [[]|].
  - rewrite sapp_cons. cbn [tag_at sc_quote]. unfold scan_step. cbn [sc_quote sc_depth]. rewrite (bool_decide_eq_false_2 (Some false = None)), (bool_decide_eq_false_2 (c = backslash)), (bool_decide_eq_false_2 (c = quote_mark)) by done. cbn [andb fst]. rewrite IH. by destruct (tag_at _ rest) as [[]|].
  - rewrite !sapp_cons. cbn [tag_at sc_quote]. unfold scan_step. cbn [sc_quote sc_depth]. rewrite (bool_decide_eq_false_2 (Some false = None)), (bool_decide_eq_true_2 (backslash = backslash)) by done. cbn [andb fst tag_at sc_quote sc_depth]. rewrite (bool_decide_eq_false_2 (Some true = None)) by done. cbn [andb fst]. rewrite IH. by destruct (tag_at _ rest) as [[]|].
Qed.
Lemma tag_nested t : nested t → ∀ d rest, (0 < d)%Z → tag_at (Scan d None) (t +:+ rest) = (λ '(a, b), (t +:+ a, b)) <$> tag_at (Scan d None) rest.
Proof.
  induction 1 as [|c s Hc H IH|o inner c s Ho Hi IHi Hc H IH|q s Hq H IH]; intros d rest Hd.
  - change ("" +:+ rest) with rest. by destruct (tag_at _ rest) as [[]|].
  - rewrite sapp_cons. cbn [tag_at sc_quote sc_depth]. rewrite step_ordinary by done. rewrite (bool_decide_eq_false_2 (d = 0%Z)) by lia. rewrite andb_false_r. cbn [andb fst]. rewrite IH by done. by destruct (tag_at _ rest) as [[]|].
  - rewrite sapp_cons, sapp_assoc, sapp_cons. cbn [tag_at sc_quote sc_depth]. rewrite step_open by done. rewrite (bool_decide_eq_false_2 (d = 0%Z)) by lia. rewrite andb_false_r. cbn [andb fst]. rewrite IHi by lia. cbn [tag_at sc_quote sc_depth]. rewrite step_close by done. rewrite (bool_decide_eq_false_2 (d + 1 = 0)%Z) by lia. rewrite andb_false_r. cbn [andb fst].
    replace (d + 1 - 1)%Z with d by lia. rewrite IH by done. destruct (tag_at _ rest) as [[a b]|]; [|done]. cbn [fmap option_fmap option_map]. do 2 f_equal. norm.
  - rewrite sapp_cons, sapp_assoc, sapp_cons. cbn [tag_at sc_quote sc_depth]. rewrite (bool_decide_eq_false_2 (d = 0%Z)) by lia. rewrite andb_false_r. cbn [andb]. unfold scan_step. cbn [sc_quote sc_depth]. rewrite bool_decide_eq_true_2 by done. cbn [fst]. rewrite tag_quoted by done. rewrite IH by done. destruct (tag_at _ rest) as [[a b]|]; [|done]. cbn [fmap option_fmap option_map]. do 2 f_equal. norm.
Qed.
Lemma tag_type t : type_text t → ∀ rest, tag_at (Scan 0 None) (t +:+ rest) = (λ '(a, b), (t +:+ a, b)) <$> tag_at (Scan 0 None) rest.
Proof.
  induction 1 as [|c s Hc Hs H IH|o inner c s Ho Hi Hc H IH]; intros rest.
  - change ("" +:+ rest) with rest. by destruct (tag_at _ rest) as [[]|].
  - rewrite sapp_cons. cbn [tag_at sc_quote sc_depth]. rewrite step_ordinary by done. rewrite (bool_decide_eq_false_2 (c = quote_mark)) by apply Hc. rewrite andb_false_r. cbn [fst]. rewrite IH. by destruct (tag_at _ rest) as [[]|].
  - rewrite sapp_cons, sapp_assoc, sapp_cons. cbn [tag_at sc_quote sc_depth]. rewrite step_open by done. rewrite (bool_decide_eq_false_2 (o = quote_mark)) by apply (open_not_quote o Ho). rewrite andb_false_r. cbn [fst]. rewrite tag_nested by (done || lia). cbn [tag_at sc_quote sc_depth]. rewrite step_close by done. rewrite (bool_decide_eq_false_2 (0 + 1 = 0)%Z) by lia. rewrite andb_false_r. cbn [andb fst].
    replace (0 + 1 - 1)%Z with 0%Z by lia. rewrite IH. destruct (tag_at _ rest) as [[a b]|]; [|done]. cbn [fmap option_fmap option_map]. do 2 f_equal. norm.
Qed.
Lemma type_app a b : type_text a → type_text b → type_text (a +:+ b).
Proof.
  induction 1 as [|c s Hc Hs H IH|o inner c s Ho Hi Hc H IH]; intros Hb; [done| |].
  - rewrite sapp_cons. apply tt_char; auto.
  - rewrite sapp_cons, sapp_assoc, sapp_cons. apply tt_group; auto.
Qed.
Lemma plain_type s : plain s → type_text s.
Proof. induction 1 as [c (H & ? & _)|c s (H & ? & _) P IH]; (apply tt_char; [done|done|]); [constructor|done]. Qed.
Lemma blank_type : type_text " ".
Proof. apply tt_char; [|done|constructor]. split; [|split]; [by apply (bool_decide_unpack _); vm_compute|by apply (bool_decide_unpack _); vm_compute|done]. Qed.
Lemma firm_trim s : firm spaces s → trim_space s = s.
Proof. intros H. pose proof (trim_any_firm spaces "" s "" (all_of_nil _) (all_of_nil _) H) as E. rewrite sapp_nil in E. exact E. Qed.
Lemma blanks_all : all_of spaces " ".
Proof. intros c [|d a] b E; [|destruct a; done]. injection E as <- _. by exists (str_take 5 spaces), "". Qed.
Lemma trim_blanks s : firm spaces s → trim_space (" " +:+ s) = s ∧ trim_space (s +:+ " ") = s.
Proof.
  intros H. split.
  - pose proof (trim_any_firm spaces " " s "" blanks_all (all_of_nil _) H) as E. rewrite sapp_nil in E. exact E.
  - pose proof (trim_any_firm spaces "" s " " (all_of_nil _) blanks_all H) as E. exact E.
Qed.
Lemma firm_app a b m : firm spaces a → firm spaces b → firm spaces (a +:+ m +:+ b).
Proof. intros [(c & t & -> & Hc) _] [_ (t' & d & -> & Hd)]. split; [exists c, (t +:+ m +:+ t' +:+ String d ""); split; [norm|done]|]. exists (String c t +:+ m +:+ t'), d. split; [norm|done]. Qed.
Lemma plain_cut s rest : plain s → cut " " (s +:+ " " +:+ rest) = Some (s, rest).
Proof.
  assert (B : ∀ c t, plain_byte c → has_prefix " " (String c t) = false). { intros c t (_ & _ & H). destruct (has_prefix " " (String c t)) eqn:E; [|done]. apply has_prefix_spec in E as [u [= -> _]]. by vm_compute in H. }
  induction 1 as [c H|c s H P IH].
  - rewrite sapp_cons. cbn [cut]. rewrite B by done. change ("" +:+ " " +:+ rest) with (" " +:+ rest). by rewrite cut_here.
  - rewrite sapp_cons. cbn [cut]. rewrite B by done. by rewrite IH.
Qed.
Lemma head_firm f : written f → firm spaces (wf_name f +:+ " " +:+ wf_type f).
Proof. intros (Hn & _ & Ht & _). by apply firm_app; [apply plain_firm|]. Qed.
Lemma text_firm f : written f → firm spaces (field_text f).
Proof.
  intros Hw. pose proof (head_firm f Hw) as H. destruct Hw as (_ & _ & _ & Hq). unfold field_text, tag_text. destruct (wf_quoted f) as [b|].
  - replace (wf_name f +:+ " " +:+ wf_type f +:+ " " +:+ String quote_mark (b +:+ String quote_mark "")) with ((wf_name f +:+ " " +:+ wf_type f) +:+ " " +:+ String quote_mark (b +:+ String quote_mark "")) by norm. apply firm_app; [done|]. split; [by exists quote_mark, (b +:+ String quote_mark "")|by exists (String quote_mark b), quote_mark].
  - by rewrite sapp_nil.
Qed.
(** C115a: a field written out is read back, whatever its type and tag contain. *)
Theorem C115_field unquote f : written f → parse_anon_field unquote (field_text f) = Some (read_back unquote f).
Proof.
  intros Hw. pose proof (head_firm f Hw) as Hh. pose proof (text_firm f Hw) as Hf. destruct Hw as (Hn & Ht & Hfi & Hq). unfold parse_anon_field. rewrite firm_trim by done. rewrite decide_False. 2:{ unfold field_text. pose proof (plain_nonempty _ Hn). by destruct (wf_name f). }
  assert (E : field_text f = (wf_name f +:+ " " +:+ wf_type f) +:+ tag_text f) by (unfold field_text; norm). rewrite E.
  rewrite tag_type by (apply type_app; [by apply plain_type|]; apply type_app; [apply blank_type|done]). unfold read_back, tag_text. destruct (wf_quoted f) as [b|].
  - change (" " +:+ String quote_mark (b +:+ String quote_mark "")) with (String " " (String quote_mark (b +:+ String quote_mark ""))).
    assert (X : ∀ t, tag_at (Scan 0 None) (String " " (String quote_mark t)) = Some (" ", String quote_mark t)) by (intros t; cbn [tag_at]; unfold scan_step; cbn; done). rewrite X. cbn [fmap option_fmap option_map]. rewrite (proj2 (trim_blanks _ Hh)). rewrite plain_cut by done. by rewrite firm_trim.
  - cbn [tag_at fmap option_fmap option_map]. rewrite sapp_nil. rewrite plain_cut by done. by rewrite firm_trim.
Qed.
(** C115b: an embedded field, a type without blanks and perhaps a tag, is dropped. *)
Theorem C115_embedded unquote t q : type_text t → contains_byte " " t = false → firm spaces t → q = "" ∨ (∃ b, quoted b ∧ q = " " +:+ String quote_mark (b +:+ String quote_mark "")) → parse_anon_field unquote (t +:+ q) = None.
Proof.
  intros Ht Hb Hf Hq. unfold parse_anon_field. assert (F : firm spaces (t +:+ q)).
  { destruct Hq as [->|(b & _ & ->)]; [by rewrite sapp_nil|]. apply firm_app; [done|]. split; [by exists quote_mark, (b +:+ String quote_mark "")|by exists (String quote_mark b), quote_mark]. }
  rewrite firm_trim by done. rewrite decide_False. 2:{ destruct Hf as [(c & u & -> & _) _]. done. }
  rewrite tag_type by done. assert (N : cut " " t = None). { apply cut_none; [done|]. destruct (str_contains " " t) eqn:E; [|done]. apply str_contains_spec in E as (a & b & ->). rewrite <- Hb. symmetry. apply contains_byte_spec. by exists a, b. }
  destruct Hq as [->|(b & Hb' & ->)].
  - cbn [tag_at fmap option_fmap option_map]. by rewrite sapp_nil, N.
  - change (" " +:+ String quote_mark (b +:+ String quote_mark "")) with (String " " (String quote_mark (b +:+ String quote_mark ""))).
    assert (X : ∀ t, tag_at (Scan 0 None) (String " " (String quote_mark t)) = Some (" ", String quote_mark t)) by (intros u; cbn [tag_at]; unfold scan_step; cbn; done). rewrite X. cbn [fmap option_fmap option_map]. rewrite (proj2 (trim_blanks _ Hf)). by rewrite N.
Qed.
Lemma join_blank ts : str_join "; " ts = str_join ";" (match ts with [] => [] | t :: ts => t :: ((λ u, " " +:+ u) <$> ts) end).
Proof.
  destruct ts as [|t ts]; [done|]. revert t. induction ts as [|u ts IH]; intros t; [done|]. rewrite fmap_cons, !str_join_cons2, IH. destruct ts as [|v ts].
  - cbn. done.
  - rewrite !fmap_cons, !str_join_cons2. norm.
Qed.
(** C115c: the fields of a struct written out are its fields in their order, whatever is around it. *)
Theorem C115_fields unquote fs pre rest : fs ≠ [] → Forall written fs → (∀ a b, pre +:+ "struct" ≠ a +:+ "struct{" +:+ b) →
  anon_fields unquote (pre +:+ struct_text fs +:+ rest) = Some (read_back unquote <$> fs).
Proof.
  intros Hne Hw Hp. unfold anon_fields, struct_text. set (ts := field_text <$> fs).
  assert (Hi : Forall (item ";") (match ts with [] => [] | t :: ts => t :: ((λ u, " " +:+ u) <$> ts) end)).
  { assert (I : Forall (item ";") ts) by (unfold ts; rewrite Forall_fmap; eapply Forall_impl; [exact Hw|]; intros f; apply field_item). destruct I as [|t l It I]; [constructor|]. constructor; [done|]. rewrite Forall_fmap. eapply Forall_impl; [exact I|]. intros u Hu. apply item_app; [apply blank_item|done]. }
  assert (So : separator ";") by (split; [|split]; [by apply (bool_decide_unpack _); vm_compute|by apply (bool_decide_unpack _); vm_compute|done]).
  assert (Nn : nested (str_join "; " ts)).
  { rewrite join_blank. induction Hi as [|t l It I IH]; [constructor|]. destruct l as [|u l]; [by eapply item_nested|]. rewrite str_join_cons2. apply nested_app; [by eapply item_nested|]. apply nested_app; [|done]. apply nested_char; [done|constructor]. }
  replace (pre +:+ ("struct{" +:+ str_join "; " ts +:+ "}") +:+ rest) with (pre +:+ "struct{" +:+ str_join "; " ts +:+ "}" +:+ rest) by norm. rewrite C46_struct_body by done. cbn [fmap option_fmap option_map]. f_equal. rewrite join_blank.
  rewrite (C46_fields_split_at_top ";") by (done || by unfold ts; destruct fs). unfold ts. clear ts Hi So Nn Hp.
  destruct fs as [|f fs]; [done|]. apply Forall_cons in Hw as [Hf Hw]. rewrite !fmap_cons. cbn [omap list_omap]. rewrite firm_trim by by apply text_firm. rewrite C115_field by done. f_equal. clear Hne.
  induction Hw as [|g fs Hg Hw IH]; [done|]. rewrite !fmap_cons. cbn [omap list_omap]. rewrite (proj1 (trim_blanks _ (text_firm g Hg))). rewrite C115_field by done. by f_equal.
Qed.
(** C115d: the properties are those of the exported fields that are not left out, under the name of the tag or else their own; of several under one name the last. *)
Theorem C115_properties_iff {S} unquote unescape exported (schema : string → S) fs pre rest p s : fs ≠ [] → Forall written fs → (∀ a b, pre +:+ "struct" ≠ a +:+ "struct{" +:+ b) →
  (∃ m, anon_properties unquote unescape exported schema (pre +:+ struct_text fs +:+ rest) = Some m ∧ m !! p = Some s) ↔
  ∃ l f l', fs = l ++ f :: l' ∧ exported (wf_name f) = true ∧ json_omitted unescape (fl_tag (read_back unquote f)) = false ∧ prop_name (read_back unquote f) = p ∧ s = schema (wf_type f) ∧
    ∀ g, g ∈ l' → exported (wf_name g) = true → json_omitted unescape (fl_tag (read_back unquote g)) = false → prop_name (read_back unquote g) ≠ p.
Proof.
  intros Hne Hw Hp. unfold anon_properties. rewrite C115_fields by done. cbn [fmap option_fmap option_map].
  match goal with |- (∃ m, Some ?x = Some m ∧ _) ↔ _ => transitivity (x !! p = Some s); [split; [by intros (m & [= <-] & H)|intros H; by exists x]|] end. clear Hne Hw Hp.
  assert (D : ∀ f, documented unescape exported (read_back unquote f) = true ↔ exported (wf_name f) = true ∧ json_omitted unescape (fl_tag (read_back unquote f)) = false).
  { intros f. unfold documented. rewrite negb_true_iff, orb_false_iff, negb_false_iff. cbn [read_back fl_name]. tauto. }
  induction fs as [|f fs IH] using rev_ind.
  - cbn. rewrite lookup_empty. split; [done|]. intros (l & f & l' & E & _). by destruct l.
  - rewrite fmap_app, foldl_app. cbn [fmap list_fmap foldl]. destruct (documented unescape exported (read_back unquote f)) eqn:E.
    + destruct (decide (prop_name (read_back unquote f) = p)) as [Ep|Ep].
      * rewrite <- Ep, lookup_insert. split.
        -- intros [= <-]. exists fs, f, []. split; [done|]. apply D in E as [E1 E2]. split; [done|]. split; [done|]. split; [done|]. split; [done|]. intros g Hg. by apply elem_of_nil in Hg.
        -- intros (l & g & l' & Hl & G1 & G2 & G3 & -> & G). destruct l' as [|h l' _] using rev_ind.
           ++ apply app_inj_2 in Hl as [_ [= ->]]; [done|done].
           ++ rewrite app_comm_cons, app_assoc in Hl. apply app_inj_2 in Hl as [_ [= ->]]; [|done]. apply D in E as [E1 E2]. destruct (G h); [apply elem_of_app; right; by left|done|done|done].
      * rewrite lookup_insert_ne by done. rewrite IH. split.
        -- intros (l & g & l' & -> & G1 & G2 & G3 & -> & G). exists l, g, (l' ++ [f]). rewrite <- app_assoc. split; [done|]. do 4 (split; [done|]). intros h [Hh|Hh]%elem_of_app; [by apply G|]. apply elem_of_list_singleton in Hh as ->. done.
        -- intros (l & g & l' & Hl & G1 & G2 & G3 & -> & G). destruct l' as [|h l' _] using rev_ind.
           ++ apply app_inj_2 in Hl as [_ [= ->]]; [done|done].
           ++ rewrite app_comm_cons, app_assoc in Hl. apply app_inj_2 in Hl as [-> [= ->]]; [|done]. exists l, g, l'. split; [done|]. do 4 (split; [done|]). intros k Hk. apply G. apply elem_of_app. by left.
    + rewrite IH. assert (N : ¬ (exported (wf_name f) = true ∧ json_omitted unescape (fl_tag (read_back unquote f)) = false)) by (intros X; apply D in X; congruence). split.
      * intros (l & g & l' & -> & G1 & G2 & G3 & -> & G). exists l, g, (l' ++ [f]). rewrite <- app_assoc. split; [done|]. do 4 (split; [done|]). intros h [Hh|Hh]%elem_of_app; [by apply G|]. apply elem_of_list_singleton in Hh as ->. intros H1 H2. by destruct N.
      * intros (l & g & l' & Hl & G1 & G2 & G3 & -> & G). destruct l' as [|h l' _] using rev_ind.
        -- apply app_inj_2 in Hl as [_ [= ->]]; [by destruct N|done].
        -- rewrite app_comm_cons, app_assoc in Hl. apply app_inj_2 in Hl as [-> [= ->]]; [|done]. exists l, g, l'. split; [done|]. do 4 (split; [done|]). intros k Hk. apply G. apply elem_of_app. by left.
Qed.

(** ** Examples *)
Ltac ord := split; [by apply (bool_decide_unpack _); vm_compute|split; [by apply (bool_decide_unpack _); vm_compute|done]].
Ltac chars := repeat first [apply tt_nil|apply tt_char; [ord|done|]].
Ltac inner := repeat first [apply nested_nil|apply nested_char; [ord|]].
Ltac name := repeat first [apply plain_one; split; [ord|split; done]|apply plain_more; [split; [ord|split; done]|]].
Definition dqs (s : string) : string := String quote_mark (s +:+ String quote_mark "").
(** strconv.Unquote of the tags used here. *)
Definition unq (s : string) : option string :=
  if decide (s = dqs ("json:\" +:+ String quote_mark ("tags\" +:+ String quote_mark ""))) then Some ("json:" +:+ dqs "tags")
  else if decide (s = dqs ("json:\" +:+ String quote_mark ("base\" +:+ String quote_mark ""))) then Some ("json:" +:+ dqs "base") else None.
Definition f_name : wfield := WField "Name" "string" None.
Definition f_tags : wfield := WField "Tags" "map[string]string" (Some ("json:\" +:+ String quote_mark ("tags\" +:+ String quote_mark ""))).
Definition f_in : wfield := WField "In" "struct{a int; b [2]int}" None.
Definition upper (s : string) : bool := match s with String c _ => bool_decide (65 ≤ nat_of_ascii c ≤ 90) | "" => false end.
Ltac mem := by apply (bool_decide_unpack _); vm_compute.
Example C115_written : Forall written [f_name; f_tags; f_in].
Proof.
  apply Forall_cons; split; [|apply Forall_cons; split; [|apply Forall_cons; split; [|by apply Forall_nil]]].
  - split; [name|]. split; [chars|]. split; [|done]. split; [by exists "s"%char, "tring"|by exists "strin", "g"%char].
  - split; [name|]. split; [cbn; do 3 (apply tt_char; [ord|done|]); apply (tt_group "[" "string" "]" "string"); [mem|inner|mem|chars]|]. split; [split; [by exists "m"%char, "ap[string]string"|by exists "map[string]strin", "g"%char]|].
    cbn. intros b [= <-]. do 5 (apply quoted_char; [done|done|]). apply quoted_escape. do 4 (apply quoted_char; [done|done|]). apply quoted_escape. apply quoted_nil.
  - split; [name|]. split; [cbn; do 6 (apply tt_char; [ord|done|]); apply (tt_group "{" "a int; b [2]int" "}" ""); [mem| |mem|chars]; do 9 (apply nested_char; [ord|]); apply (nested_group "[" "2" "]" "int"); [mem|inner|mem|inner]|]. split; [|done]. split; [by exists "s"%char, "truct{a int; b [2]int}"|by exists "struct{a int; b [2]int", "}"%char].
Qed.
Example C115_example : anon_fields unq ("app." +:+ struct_text [f_name; f_tags; f_in]) = Some [Field "Name" "string" ""; Field "Tags" "map[string]string" ("json:" +:+ dqs "tags"); Field "In" "struct{a int; b [2]int}" ""] ∧
  (λ m, map_to_list m) <$> anon_properties unq Some upper id ("app." +:+ struct_text [f_name; f_tags]) = Some [("tags", "map[string]string"); ("Name", "string")].
Proof. by vm_compute. Qed.
(** C115e: an embedded field whose tag gives it a name is dropped, though json writes it under that name. *)
Theorem C115_tagged_refuted : ∃ text tag, unq (dqs ("json:\" +:+ String quote_mark ("base\" +:+ String quote_mark ""))) = Some tag ∧ text = "struct{Base " +:+ dqs ("json:\" +:+ String quote_mark ("base\" +:+ String quote_mark "")) +:+ "}" ∧
  json_key "Base" (tag_lookup Some "json" tag) = Some "base" ∧ anon_fields unq text = Some [].
Proof. exists ("struct{Base " +:+ dqs ("json:\" +:+ String quote_mark ("base\" +:+ String quote_mark "")) +:+ "}"), ("json:" +:+ dqs "base"). by vm_compute. Qed.
(** C115f: an embedded field whose type arguments have a blank gets a property whose name is part of its type. *)
Theorem C115_generic_refuted : ∃ t m, type_text t ∧ anon_properties unq Some upper id ("struct{" +:+ t +:+ "}") = Some m ∧ m !! "App.Page[struct{A" = Some "int}]".
Proof.
  exists "App.Page[struct{A int}]", {["App.Page[struct{A" := "int}]"]}. split; [|split; [|done]].
  - do 8 (apply tt_char; [ord|done|]). apply (tt_group "[" "struct{A int}" "]" ""); [mem| |mem|apply tt_nil]. do 6 (apply nested_char; [ord|]). apply (nested_group "{" "A int" "}" ""); [mem|inner|mem|apply nested_nil].
  - by vm_compute.
Qed.
(** C115g: a struct with a field that is a map is documented as a map, with the struct as its values if the keys are strings, else as any object. *)
Theorem C115_map_refuted : ∃ fs fs' e, Forall written fs ∧ Forall written fs' ∧ (∃ s, type_schema e (struct_text fs) = Some s ∧ w_additional s ≠ None) ∧ type_schema e (struct_text fs') = Some (leaf "object" "") ∧
  (∀ t, e_named e t = Some (leaf "with properties" "")).
Proof.
  exists [f_name; f_tags], [WField "M" "map[int]string" None], (Env (λ _, None) (λ _, None) (λ _, "") (λ _, Some (leaf "with properties" "")) (λ _, None)). split; [|split; [|split; [|split]]].
  - pose proof C115_written as H. apply Forall_cons in H as [H1 H]. apply Forall_cons in H as [H2 _]. apply Forall_cons; split; [done|]. by apply Forall_singleton.
  - apply Forall_singleton. split; [apply plain_one; split; [ord|split; done]|]. split; [cbn; do 3 (apply tt_char; [ord|done|]); apply (tt_group "[" "int" "]" "string"); [mem|inner|mem|chars]|]. split; [|done]. split; [by exists "m"%char, "ap[int]string"|by exists "map[int]strin", "g"%char].
  - eexists. split; [by vm_compute|]. done.
  - by vm_compute.
  - done.
Qed.
Print Assumptions C115_field. Print Assumptions C115_embedded. Print Assumptions C115_fields. Print Assumptions C115_properties_iff. Print Assumptions C115_tagged_refuted. Print Assumptions C115_generic_refuted. Print Assumptions C115_map_refuted.
