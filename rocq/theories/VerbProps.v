(** * Verbs: C44 and C45. *)
From Coq Require Import Ascii.
From stdpp Require Import sorting.
From stdpp Require Import base list strings gmap.
From Verif Require Import StrLib StrSplit PathModel PathSpec PathProofs PathProofs2 VerbModel VerbSpec VerbProofs.

(** ** C44 *)

(** A comma list yields verbs only when every element reads as one; then it yields each
    verb once, in order of first mention. *)
Theorem C44_every_element raw parts : parts ≠ [] → (∀ p, p ∈ parts → free_of ","%char p) → raw = str_join "," parts →
  verbs_from_arg (Some raw) ≠ [] →
  ∃ named, Forall2 reads parts named ∧ first_mentions named (verbs_from_arg (Some raw)).
Proof.
  intros Hne Hp Hraw Hv. assert (split_byte "," raw = parts) as E.
  { rewrite Hraw. apply split_join; [done|]. apply Forall_forall. intros p H%Hp. by apply free_of_spec. }
  unfold verbs_from_arg in *. destruct (decide (raw = "")) as [|_]; [done|]. rewrite E in *.
  destruct (verbs_loop parts []) as [vs|] eqn:El; [|done]. change (default [] (Some vs)) with vs.
  destruct (verbs_loop_ok parts [] [] vs first_mentions_nil El) as (rest & H1 & H2). by exists rest.
Qed.
(** Conversely, when every element reads as a verb the list is not empty, and one
    element that does not makes it empty. *)
Theorem C44_all_or_nothing raw parts : parts ≠ [] → (∀ p, p ∈ parts → free_of ","%char p) → raw = str_join "," parts →
  verbs_from_arg (Some raw) = [] ↔ ∃ p, p ∈ parts ∧ ∀ v, ¬ reads p v.
Proof.
  intros Hne Hp Hraw. assert (split_byte "," raw = parts) as E.
  { rewrite Hraw. apply split_join; [done|]. apply Forall_forall. intros p H%Hp. by apply free_of_spec. }
  unfold verbs_from_arg. destruct (decide (raw = "")) as [->|Hr].
  - split; [intros _|done]. exists "". cbn in E. split; [rewrite <- E; left|]. intros v Hv. assert (http_verb v) as Hh by apply Hv.
    apply verb_of_reads in Hv; [|done]. cbn in Hv. subst v. revert Hh. unfold http_verb. intros Hh. by apply (bool_decide_pack _) in Hh.
  - rewrite E. destruct (verbs_loop parts []) as [vs|] eqn:El.
    + destruct (verbs_loop_ok parts [] [] vs first_mentions_nil El) as (rest & H1 & _ & H2 & _). change (default [] (Some vs)) with vs. cbn [app] in H2. split.
      * intros ->. destruct parts as [|p parts]; [done|]. inversion H1 as [|? v ? rest' ? ?]; subst.
        exfalso. assert (v ∈ []) as Hin by (apply H2; left). by apply elem_of_nil in Hin.
      * intros H. apply (verbs_loop_none parts []) in H. congruence.
    + split; [|done]. intros _. by apply (verbs_loop_none parts []).
Qed.
(** Whether an element reads as a verb, and which, is determined by its text. *)
Theorem C44_one_reading p v w : reads p v → reads p w → v = w.
Proof. intros Hv Hw. assert (http_verb v) by apply Hv. assert (http_verb w) by apply Hw. apply verb_of_reads in Hv, Hw; [congruence|done|done]. Qed.
(** A method is split off a pattern only when the text before the first blank is a verb, and
    the path is what follows, blanks and quotes at the ends aside. *)
Theorem C44_split_only_verbs raw m p : split_method raw = (m, p) → m ≠ "" →
  http_verb m ∧ ∃ q1 s1 w s2 gap tail q2, raw = q1 +:+ s1 +:+ w +:+ s2 +:+ " " +:+ gap +:+ p +:+ tail +:+ q2 ∧
    to_upper w = m ∧ all_of quotes q1 ∧ all_of spaces s1 ∧ all_of spaces s2 ∧ all_of spaces gap ∧ all_of spaces tail ∧ all_of quotes q2.
Proof.
  intros H Hm. destruct (split_method_sound _ _ _ H Hm) as (H1 & q1 & s1 & w & s2 & gap & tail & q2 & H2). split; [done|].
  exists q1, s1, w, s2, gap, tail, q2. intuition.
Qed.
(** Otherwise the whole pattern, quotes at the ends aside, is the path. *)
Theorem C44_no_verb_unchanged raw p : split_method raw = ("", p) → ∃ q1 q2, raw = q1 +:+ p +:+ q2 ∧ all_of quotes q1 ∧ all_of quotes q2.
Proof. apply split_method_none. Qed.
(** In particular a first word that is not a verb is never taken for one. *)
Theorem C44_other_words_kept w rest : free_of " "%char w → (∀ v, ¬ reads w v) → free_of "034"%char (w +:+ rest) → free_of "039"%char (w +:+ rest) →
  (rest = "" ∨ ∃ t, rest = String " " t) → split_method (w +:+ rest) = ("", w +:+ rest).
Proof.
  intros Hw Hv Hq1 Hq2 Hrest.
  assert (∀ c, mem_byte c quotes = true → mem_byte c (w +:+ rest) = false) as Hq.
  { intros c. unfold quotes. cbn [mem_byte]. intros [H|[H|?]%orb_true_iff]%orb_true_iff; [..|done]; apply bool_decide_eq_true in H as ->; by apply not_mem_spec. }
  assert (trim_any quotes (w +:+ rest) = w +:+ rest) as E.
  { destruct (w +:+ rest) as [|c s] eqn:Ews; [done|]. destruct (snoc_dec (String c s)) as [|(t & d & Ed)]; [done|].
    apply (trim_any_stop quotes s c t d); [| |done].
    - destruct (mem_byte c quotes) eqn:Ec; [|done]. apply Hq in Ec. cbn in Ec. by rewrite bool_decide_true in Ec.
    - destruct (mem_byte d quotes) eqn:Ec; [|done]. apply Hq in Ec. rewrite Ed, mem_app in Ec. cbn in Ec.
      rewrite bool_decide_true, orb_true_r in Ec; done. }
  unfold split_method. rewrite E. destruct (_ || _) eqn:Ec; [done|]. rewrite decide_False; [done|].
  intros Hin. apply http_verb_methods in Hin.
  assert (take_until (λ c, bool_decide (c = " "%char)) (w +:+ rest) = w) as Et.
  { rewrite take_until_app. apply free_of_spec in Hw. unfold contains_byte in Hw. rewrite Hw. destruct Hrest as [->|[t ->]]; [apply sapp_nil|]. cbn. apply sapp_nil. }
  rewrite Et in Hin. destruct (trim_any_dec spaces w) as (s1 & s2 & Es & H1 & H2). destruct (Hv (to_upper (trim_any spaces w))).
  split; [done|]. exists "", s1, (trim_any spaces w), s2, "". rewrite sapp_nil. split_and!; try done; apply all_of_nil.
Qed.
Print Assumptions C44_every_element.
Print Assumptions C44_all_or_nothing.
Print Assumptions C44_one_reading.
Print Assumptions C44_split_only_verbs.
Print Assumptions C44_no_verb_unchanged.
Print Assumptions C44_other_words_kept.
Example C44_example_verbs : verbs_from_arg (Some "get, POST,Get") = ["GET"; "POST"] ∧ verbs_from_arg (Some "GET,everything") = [] ∧
  "get, POST,Get" = str_join "," ["get"; " POST"; "Get"] ∧ (∀ p, p ∈ ["get"; " POST"; "Get"] → free_of ","%char p) ∧
  reads " POST" "POST" ∧ (∀ v, ¬ reads "everything" v).
Proof.
  split; [vm_compute; done|]. split; [vm_compute; done|]. split; [vm_compute; done|]. split; [|split].
  - intros p Hp. repeat (apply elem_of_cons in Hp as [->|Hp]; [apply free_of_spec; vm_compute; done|]). by apply elem_of_nil in Hp.
  - apply verb_of_reads; [apply (bool_decide_unpack _); vm_compute; done|vm_compute; done].
  - intros v Hv. assert (http_verb v) as Hh by apply Hv. apply verb_of_reads in Hv; [|done]. vm_compute in Hv. subst v.
    apply (bool_decide_pack _) in Hh. vm_compute in Hh. done.
Qed.
Example C44_example_split : split_method "get /items/{id}" = ("GET", "/items/{id}") ∧ split_method "GETTER /x" = ("", "GETTER /x") ∧
  split_method "/GET /x" = ("", "/GET /x") ∧ free_of " "%char "GETTER" ∧ (∀ v, ¬ reads "GETTER" v) ∧ free_of "034"%char ("GETTER" +:+ " /x") ∧ free_of "039"%char ("GETTER" +:+ " /x").
Proof.
  split; [vm_compute; done|]. split; [vm_compute; done|]. split; [vm_compute; done|]. split; [apply free_of_spec; vm_compute; done|].
  split; [|split; apply free_of_spec; vm_compute; done].
  intros v Hv. assert (http_verb v) as Hh by apply Hv. apply verb_of_reads in Hv; [|done]. vm_compute in Hv. subst v.
  apply (bool_decide_pack _) in Hh. vm_compute in Hh. done.
Qed.

(** ** C45 *)

(** The words of a name are exactly its maximal uncut runs of letters, from left to right,
    whatever the Unicode tables say. *)
Theorem C45_words {R} (is_letter is_upper is_lower : R → bool) (name : list R) :
  ∃ spans, split_name_words is_letter is_upper is_lower name = (λ s, slice name s.1 s.2) <$> spans ∧
    StronglySorted (λ x y, x.1 < y.1) spans ∧ ∀ i j, (i, j) ∈ spans ↔ word_at is_letter is_upper is_lower name i j.
Proof. apply split_words. Qed.
(** No letter is lost and none invented. *)
Theorem C45_letters_kept {R} (is_letter is_upper is_lower : R → bool) (name : list R) :
  concat (split_name_words is_letter is_upper is_lower name) = filter (λ r, is_letter r = true) name.
Proof. unfold split_name_words. by rewrite split_letters. Qed.

Section choice.
Context {R : Type} `{EqDecision R} (is_letter is_upper is_lower : R → bool) (lower : R → R) (cfg : mconfig R) (name : list R).
(** Words are compared as written when the configuration is case sensitive, in lower
    case otherwise. *)
Definition same_word (w p : list R) : Prop := if mc_case cfg then w = p else lower <$> w = lower <$> p.
(** Some pattern of the mapping is the first word of the name. *)
Definition leads (m : mapping R) : Prop :=
  mc_prefix cfg = true ∧ ∃ w p, first_word is_letter is_upper is_lower name w ∧ p ∈ mm_patterns m ∧ same_word w p.
(** Some pattern of the mapping is a word of the name. *)
Definition occurs (m : mapping R) : Prop :=
  mc_contains cfg = true ∧ ∃ w p, word is_letter is_upper is_lower name w ∧ p ∈ mm_patterns m ∧ same_word w p.

Lemma best_ext (P Q : mapping R → Prop) l m : (∀ x, P x ↔ Q x) → best P l m → best Q l m.
Proof.
  intros HPQ (i & Hi & Hm & H). exists i. split; [done|]. split; [by apply HPQ|]. intros i' m' Hi' Hq. apply (H i' m' Hi'). by apply HPQ.
Qed.
Lemma leads_hit m : mc_prefix cfg = true → leads m ↔
  ∃ w, head ((λ w : list R, if mc_case cfg then w else lower <$> w) <$> split_name_words is_letter is_upper is_lower name) = Some w ∧
    existsb (λ p : list R, bool_decide (w = if mc_case cfg then p else lower <$> p)) (mm_patterns m) = true.
Proof.
  intros Hp. unfold leads, same_word. split.
  - intros (_ & w & p & Hw & Hin & Hs). apply first_spec in Hw.
    destruct (split_name_words _ _ _ _) as [|w' ws]; [done|]. injection Hw as ->. eexists. split; [done|].
    apply existsb_exists. exists p. split; [by apply elem_of_list_In|]. apply bool_decide_eq_true. by destruct (mc_case cfg).
  - intros (w & Hw & (p & Hin & He)%existsb_exists). apply bool_decide_eq_true in He. split; [done|].
    destruct (split_name_words _ _ _ _) as [|w' ws] eqn:E; [done|]. injection Hw as Hw. exists w', p. split; [apply first_spec; by rewrite E|].
    split; [by apply elem_of_list_In|]. destruct (mc_case cfg); congruence.
Qed.
Lemma occurs_hit m : mc_contains cfg = true → occurs m ↔
  existsb (λ p : list R, bool_decide ((if mc_case cfg then p else lower <$> p) ∈ ((λ w : list R, if mc_case cfg then w else lower <$> w) <$> split_name_words is_letter is_upper is_lower name))) (mm_patterns m) = true.
Proof.
  intros Hp. unfold occurs, same_word. rewrite existsb_exists. split.
  - intros (_ & w & p & Hw & Hin & Hs). exists p. split; [by apply elem_of_list_In|]. apply bool_decide_eq_true, elem_of_list_fmap.
    exists w. split; [by destruct (mc_case cfg)|]. by apply words_spec.
  - intros (p & Hin & He). apply bool_decide_eq_true, elem_of_list_fmap in He as (w & Hs & Hw). split; [done|].
    exists w, p. split; [by apply words_spec|]. split; [by apply elem_of_list_In|]. by destruct (mc_case cfg).
Qed.
Notation result := (method_from_name is_letter is_upper is_lower lower cfg name).
Lemma method_cases : name ≠ [] →
  (∃ m, best leads (mc_mappings cfg) m ∧ result = (mm_method m, true)) ∨
  ((∀ m, m ∈ mc_mappings cfg → ¬ leads m) ∧
    ((∃ m, best occurs (mc_mappings cfg) m ∧ result = (mm_method m, true)) ∨
     ((∀ m, m ∈ mc_mappings cfg → ¬ occurs m) ∧ result = (mc_default cfg, false)))).
Proof.
  intros Hn. unfold method_from_name. destruct name as [|r rs] eqn:En; [done|]. rewrite <- En in *. clear En r rs. cbv zeta.
  set (fold_ := λ w : list R, if mc_case cfg then w else lower <$> w).
  set (words := fold_ <$> split_name_words is_letter is_upper is_lower name).
  set (pre := if mc_prefix cfg then match words with [] => None | w :: _ => first_mapping (λ p : list R, bool_decide (w = (if mc_case cfg then p else lower <$> p))) (bubble_sort (mc_mappings cfg)) end else None).
  assert (∀ x, x ∈ bubble_sort (mc_mappings cfg) ↔ x ∈ mc_mappings cfg) as Hel.
  { intros x. apply same_keys_elem. apply bubble_sorted. }
  assert (match pre with Some m => best leads (mc_mappings cfg) m | None => ∀ m, m ∈ mc_mappings cfg → ¬ leads m end) as Hpre.
  { unfold pre. destruct (mc_prefix cfg) eqn:Ep; [|intros m _ [H _]; congruence].
    destruct words as [|w ws] eqn:Ew.
    - intros m _ Hl. apply leads_hit in Hl as (w & Hw & _); [|done]. fold fold_ words in Hw. by rewrite Ew in Hw.
    - destruct (first_mapping _ _) as [m|] eqn:Ef.
      + apply first_mapping_best in Ef. revert Ef. apply best_ext. intros x. rewrite leads_hit by done. fold fold_ words. rewrite Ew. cbn [head]. split.
        * intros H. by exists w.
        * intros (w' & [= <-] & H). done.
      + intros m Hm Hl. apply leads_hit in Hl as (w' & Hw & He); [|done]. fold fold_ words in Hw. rewrite Ew in Hw. injection Hw as <-.
        rewrite first_mapping_none in Ef. rewrite <- Hel in Hm. pose proof (Ef m Hm) as H'. congruence. }
  destruct pre as [m|]; [left; by exists m|right]. split; [done|].
  destruct (mc_contains cfg) eqn:Ec.
  - destruct (first_mapping _ _) as [m|] eqn:Ef.
    + left. exists m. split; [|done]. apply first_mapping_best in Ef. revert Ef. apply best_ext. intros x. by rewrite occurs_hit.
    + right. split; [|done]. intros m Hm Hl. apply occurs_hit in Hl; [|done]. rewrite first_mapping_none in Ef. rewrite <- Hel in Hm.
      pose proof (Ef m Hm) as H'. unfold words, fold_ in H'. congruence.
  - right. split; [|done]. intros m _ [H _]. congruence.
Qed.
(** The mapping whose word leads the name decides: the highest priority, the earliest
    entry of that priority. *)
Theorem C45_leading_word m : name ≠ [] → best leads (mc_mappings cfg) m → result = (mm_method m, true).
Proof.
  intros Hn Hb. destruct (method_cases Hn) as [(m' & Hb' & E)|[Hno _]].
  - by rewrite (best_unique leads leads _ m m' ltac:(done) Hb Hb').
  - destruct Hb as (i & Hi & Hm & _). destruct (Hno m); [by apply (elem_of_list_lookup_2 _ i)|done].
Qed.
(** Otherwise the mapping of any whole word of the name, by the same rule. *)
Theorem C45_any_word m : name ≠ [] → (∀ x, x ∈ mc_mappings cfg → ¬ leads x) → best occurs (mc_mappings cfg) m →
  result = (mm_method m, true).
Proof.
  intros Hn Hno Hb. destruct (method_cases Hn) as [(m' & (i & Hi & Hm & _) & E)|[_ [(m' & Hb' & E)|[Hno' _]]]].
  - destruct (Hno m'); [by apply (elem_of_list_lookup_2 _ i)|done].
  - by rewrite (best_unique occurs occurs _ m m' ltac:(done) Hb Hb').
  - destruct Hb as (i & Hi & Hm & _). destruct (Hno' m); [by apply (elem_of_list_lookup_2 _ i)|done].
Qed.
(** A verb is inferred only from a whole word: without one the default is used, and marked
    as such. *)
Theorem C45_no_word_default : name ≠ [] → (∀ x, x ∈ mc_mappings cfg → ¬ leads x ∧ ¬ occurs x) → result = (mc_default cfg, false).
Proof.
  intros Hn Hno. destruct (method_cases Hn) as [(m' & (i & Hi & Hm & _) & E)|[_ [(m' & (i & Hi & Hm & _) & E)|[_ E]]]]; [..|done];
    exfalso; destruct (Hno m') as [H1 H2]; try done; by apply (elem_of_list_lookup_2 _ i).
Qed.
(** The two selections above exist whenever some mapping qualifies, so the three theorems
    cover every configuration. *)
Theorem C45_total : name ≠ [] →
  ((∃ m, best leads (mc_mappings cfg) m) ∨ (∀ x, x ∈ mc_mappings cfg → ¬ leads x)) ∧
  ((∃ x, x ∈ mc_mappings cfg ∧ leads x) ∨ (∃ m, best occurs (mc_mappings cfg) m) ∨ (∀ x, x ∈ mc_mappings cfg → ¬ occurs x)).
Proof.
  intros Hn. destruct (method_cases Hn) as [(m & Hb & _)|[H1 [(m & Hb & _)|[H2 _]]]].
  - split; [left; by exists m|left]. destruct Hb as (i & Hi & Hm & _). exists m. split; [by apply (elem_of_list_lookup_2 _ i)|done].
  - split; [by right|right; left; by exists m].
  - split; [by right|by right; right].
Qed.
End choice.
Print Assumptions C45_words.
Print Assumptions C45_letters_kept.
Print Assumptions C45_leading_word.
Print Assumptions C45_any_word.
Print Assumptions C45_no_word_default.
Print Assumptions C45_total.

Example C45_example_names :
  default_method_from_name "deleteWidget" = ("DELETE", true) ∧ default_method_from_name "handleUserDelete" = ("DELETE", true) ∧
  default_method_from_name "HTTPPut" = ("PUT", true) ∧ default_method_from_name "create_widget2list" = ("POST", true) ∧
  default_method_from_name "widget" = ("GET", false) ∧
  split_name_words a_letter a_upper a_lower (runes "handleHTTPDelete_v2x") = runes <$> ["handle"; "HTTP"; "Delete"; "v"; "x"].
Proof. vm_compute. done. Qed.
(** Among the mappings of the first word the higher priority wins; among equal priorities the
    earlier entry. *)
Example C45_example_priority :
  let cfg := MConfig [Mapping [runes "low"] "A" 1; Mapping [runes "high"] "B" 5; Mapping [runes "high"; runes "low"] "C" 5] true true false "D" in
  method_from_name a_letter a_upper a_lower lower_char cfg (runes "lowHigh") = ("C", true) ∧
  method_from_name a_letter a_upper a_lower lower_char cfg (runes "doLowHigh") = ("B", true) ∧
  best (leads a_letter a_upper a_lower lower_char cfg (runes "lowHigh")) (mc_mappings cfg) (Mapping [runes "high"; runes "low"] "C" 5).
Proof.
  split; [vm_compute; done|]. split; [vm_compute; done|].
  set (cfg := MConfig _ _ _ _ _).
  assert (first_word a_letter a_upper a_lower (runes "lowHigh") (runes "low")) as Hf by (apply first_spec; vm_compute; done).
  exists 2. split; [done|]. split.
  - split; [done|]. exists (runes "low"), (runes "low"). split; [done|]. split; [right; left|done].
  - intros [|[|[|i]]] m' Hm' (_ & w & p & Hw & Hp & Hs); injection Hm' as <- || done.
    + left. done.
    + apply first_spec in Hw, Hf. rewrite Hf in Hw. injection Hw as <-. exfalso. apply elem_of_list_singleton in Hp as ->. vm_compute in Hs. done.
    + right. split; [done|lia].
Qed.
