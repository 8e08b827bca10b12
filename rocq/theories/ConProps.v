(** * C61: validation rules of a struct tag and the schema of the field. *)
From Coq Require Import Ascii.
From stdpp Require Import base numbers list strings.
From Verif Require Import StrLib StrSplit StrSub DecLib PathModel ScanModel TypeModel FieldModel NameProps ConModel ConSpec ConProofs ConProofs2.

Section props.
  Context (parse_float : string → option Z) (chars : string → Z) (has_format matches : string → string → Prop) (other : string → value → Prop).

  (** A value the validator accepts is accepted by the documented schema, whatever the rules and their
      order, dive included. Partial: validate is the last key of the tag; no rule with a pattern, no
      omitempty (see below), no oneof on numbers. *)
  Theorem C61_sound_partial earlier levels k v : earlier_ok earlier → levels ≠ [] → all_ok levels → oneof_on_text k levels → typed k v →
    valid chars has_format other levels v →
    conforms chars has_format matches (constrain (extract_constraints parse_float (tag_with earlier levels)) (base k)) v.
  Proof.
    intros He Hn Hok Ho Ht Hv. unfold extract_constraints. rewrite extract_tag by (done || lia). by eapply read_sound.
  Qed.
  (** And only such a value, when no rule is repeated, len does not stand beside min or max, no bound is
      zero, and each rule fits the kind of the field. *)
  Theorem C61_exact_partial earlier levels k v : earlier_ok earlier → levels ≠ [] → all_ok levels → tidy k levels → typed k v →
    valid chars has_format other levels v ↔
    conforms chars has_format matches (constrain (extract_constraints parse_float (tag_with earlier levels)) (base k)) v.
  Proof.
    intros He Hn Hok Hy Ht. split.
    - apply C61_sound_partial; [done|done|done|by apply tidy_oneof|done].
    - unfold extract_constraints. rewrite extract_tag by (done || lia). by apply read_exact.
  Qed.
  (** The field is listed as required exactly if required is among the rules before dive. *)
  Theorem C61_required earlier levels : earlier_ok earlier → levels ≠ [] → all_ok levels →
    is_required (extract_constraints parse_float (tag_with earlier levels)) = true ↔ ∃ l ls, levels = l :: ls ∧ Required ∈ l.
  Proof. intros He Hn Hok. unfold extract_constraints. rewrite extract_tag by (done || lia). by apply read_required. Qed.
End props.
Print Assumptions C61_sound_partial.
Print Assumptions C61_exact_partial.
Print Assumptions C61_required.

(** A bound that is no 64-bit integer is not documented, whichever of the five rules it stands in. *)
Theorem C61_out_of_range (c : constraints) (name : string) (z : Z) :
  name ∈ ["min"; "max"; "len"; "minlen"; "maxlen"] → ¬ (- 2 ^ 63 ≤ z < 2 ^ 63)%Z → add_rule c (name +:+ "=" +:+ itoa z) = c.
Proof.
  intros Hn Hz. assert (atoi64 (itoa z) = None) as Ha.
  { unfold atoi64. rewrite atoi_opt_itoa. rewrite decide_False; [done|]. change (2 ^ 63)%Z with 9223372036854775808%Z in Hz. lia. }
  assert (is_ident name = true ∧ name ∈ ["min"; "max"; "len"; "minlen"; "maxlen"]) as [Hi _].
  { split; [|done]. rewrite !elem_of_cons, elem_of_nil in Hn. by destruct Hn as [-> | [-> | [-> | [-> | [-> | []]]]]]. }
  assert (parts_ok (name, Some (itoa z))) as Hp.
  { pose proof (rule_parts_ok (Min 0)) as _. split; [done|]. cbn [fst snd]. split; [apply (all_bytes_weaken solid); [apply solid_inner|apply itoa_solid]|].
    destruct (decide (itoa z = "")) as [E|E]; [by left|right]. apply solid_ends; [done|apply itoa_solid]. }
  unfold add_rule. change (name +:+ "=" +:+ itoa z) with (parts_text (name, Some (itoa z))).
  rewrite trim_spaces_id by (by apply text_first || by apply text_last). cbn [parts_text].
  destruct c as [nl xl n x d f p e q]. rewrite !elem_of_cons, elem_of_nil in Hn.
  destruct Hn as [-> | [-> | [-> | [-> | [-> | []]]]]]; cbv -[itoa atoi64]; by rewrite Ha.
Qed.
Print Assumptions C61_out_of_range.
Example C61_out_of_range_case : add_rule (only_dive None) "max=9223372036854775808" = only_dive None ∧
  c_max (add_rule (only_dive None) "max=9223372036854775807") = Some 9223372036854775807%Z.
Proof. split; by vm_compute. Qed.
(** The values of oneof: on a list they are the enum of the elements, on a map of the values, else of
    the field itself; nothing else gets an enum. *)
Theorem C61_enum_place (c : constraints) (s : schema) : c_enum c ≠ [] →
  let s' := apply_constraints c s in
  (s_type s = "array" → s_enum s' = s_enum s ∧ s_additional s' = s_additional s ∧ ∀ i, s_items s = Some i → s_enum <$> s_items s' = Some (c_enum c)) ∧
  (s_type s = "object" → s_enum s' = s_enum s ∧ s_items s' = s_items s ∧ s_enum <$> s_additional s' = (λ _, c_enum c) <$> s_additional s) ∧
  (s_type s ≠ "array" → s_type s ≠ "object" → s_enum s' = c_enum c ∧ s_items s' = s_items s ∧ s_additional s' = s_additional s).
Proof.
  destruct c as [cnl cxl cn cx dive cf cp ce r]. destruct s as [ty f p nl xl n x ni xi e i a]. cbn [c_enum s_type s_enum s_items s_additional]. intros He.
  assert (∀ s, s_enum (with_enum ce s) = ce) as Hw by (by intros []).
  cbn [apply_constraints]. rewrite (decide_False (P := ce = [])) by done. split; [|split].
  - intros ->. change (bool_decide ("array" = "array")) with true. cbv iota. cbn [s_enum s_additional s_items]. split; [done|]. split; [done|].
    intros i0 ->. destruct dive as [d|]; cbn; by rewrite Hw.
  - intros ->. change (bool_decide ("object" = "array")) with false. change (bool_decide ("object" = "object")) with true. cbv iota. cbn [s_enum s_additional s_items].
    split; [done|]. split; [done|]. destruct a as [a|]; [|done]. cbn. by rewrite Hw.
  - intros H1 H2. rewrite (bool_decide_eq_false_2 (ty = "array")), (bool_decide_eq_false_2 (ty = "object")) by done. cbn [with_enum s_enum s_items s_additional]. done.
Qed.
Print Assumptions C61_enum_place.
Example C61_enum_place_case :
  apply_constraints (Constraints None None None None None "" "" ["a"; "b"] false)
    (Schema "object" "" "" 0 0 0 0 0 0 [] None (Some (base KStr))) =
  Schema "object" "" "" 0 0 0 0 0 0 [] None (Some (Schema "string" "" "" 0 0 0 0 0 0 ["a"; "b"] None None)).
Proof. by vm_compute. Qed.
(** len on a number that need not be an integer is lost. *)
Theorem C61_len_number_refuted : ∃ levels v, all_ok levels ∧ typed KNum v ∧
  ¬ valid (λ s, Z.of_nat (String.length s)) (λ _ _, True) (λ _ _, True) levels v ∧
  conforms (λ s, Z.of_nat (String.length s)) (λ _ _, True) (λ _ _, True) (constrain (extract_constraints (λ _, None) (tag_with None levels)) (base KNum)) v.
Proof.
  exists [[Len 5]], (VInt 4). split; [by repeat constructor|]. split; [done|]. split.
  - intros [H _]. apply Forall_inv in H. vm_compute in H. discriminate H.
  - assert (constrain (extract_constraints (λ _, None) (tag_with None [[Len 5]])) (base KNum) = base KNum) as -> by (by vm_compute). by apply conforms_base.
Qed.
Print Assumptions C61_len_number_refuted.

(** ** A case *)
Definition q (s : string) : string := String dq (s +:+ String dq "").
(** A list of one to three names of two to eight characters, one of three. *)
Definition example_levels : list (list rule) := [[Required; Min 1; Max 3]; [Min 2; Oneof ["red"; "green"; "blue"]; Max 8]].
Definition example_earlier : option string := Some ("json:" +:+ q "colours").
Example C61_example_text : tag_with example_earlier example_levels =
  "json:" +:+ q "colours" +:+ " validate:" +:+ q "required,min=1,max=3,dive,min=2,oneof=red green blue,max=8".
Proof. by vm_compute. Qed.
Example C61_example_hypotheses : earlier_ok example_earlier ∧ all_ok example_levels ∧ tidy (KList KStr) example_levels ∧
  typed (KList KStr) (VList [VStr "red"; VStr "blue"]).
Proof.
  split; [|split; [|split]].
  - intros e k [= <-] Hk. rewrite !elem_of_cons, elem_of_nil in Hk. by destruct Hk as [->|[->|[->|[->|[->|[]]]]]].
  - repeat (apply Forall_cons; split); try apply Forall_nil_2; try done. split; [done|]. repeat (apply Forall_cons; split); try apply Forall_nil_2; done.
  - cbn. split; [|split; [|right; exists KStr; split; [done|split; [|split; [|by left]]]]].
    + repeat (apply Forall_cons; split); try apply Forall_nil_2; try done. by exists KStr.
    + repeat split; repeat (apply Forall_cons; split); try apply Forall_nil_2; by intros [].
    + repeat (apply Forall_cons; split); try apply Forall_nil_2; done.
    + repeat split; repeat (apply Forall_cons; split); try apply Forall_nil_2; by intros [].
  - repeat (apply Forall_cons; split); try apply Forall_nil_2; done.
Qed.
Example C61_example_schema :
  constrain (extract_constraints (λ _, None) (tag_with example_earlier example_levels)) (base (KList KStr)) =
  Schema "array" "" "" 0 0 0 0 1 3 [] (Some (Schema "string" "" "" 2 8 0 0 0 0 ["red"; "green"; "blue"] None None)) None.
Proof. by vm_compute. Qed.
(** A rule the tool does not know, and one with a value, beside a format. *)
Example C61_example_other : all_ok [[Other "excluded"; OtherArg "gt" "3"; Fmt Email]] ∧
  extract_constraints (λ _, None) (tag_with None [[Other "excluded"; OtherArg "gt" "3"; Fmt Email]]) = Some (Constraints None None None None None "email" "" [] false).
Proof.
  split; [|by vm_compute]. apply Forall_singleton. repeat (apply Forall_cons; split); try apply Forall_nil_2; try done; cbn [rule_ok].
  - split; [done|]. split; [done|]. split; [done|]. split; by apply (bool_decide_unpack _).
  - split; [done|]. split; [done|]. by apply (bool_decide_unpack _).
Qed.

(** ** Where the full claim fails: for every field, the schema accepts exactly what the validator accepts *)
Definition bytes (s : string) : Z := Z.of_nat (String.length s).
Definition any_format (f s : string) : Prop := True.
Definition no_format (f s : string) : Prop := False.
Definition any_rule (n : string) (v : value) : Prop := True.

(** A key after validate: the last rule of validate loses its bound. Tag
    validate:min=3 followed by json:name, both quoted. *)
Theorem C61_later_key_refuted : ∃ levels later v, all_ok levels ∧ tidy KStr levels ∧ typed KStr v ∧
  conforms bytes any_format any_format (constrain (extract_constraints (λ _, None) (validate_text levels +:+ later)) (base KStr)) v ∧
  ¬ valid bytes any_format any_rule levels v.
Proof.
  exists [[Min 3]], (" json:" +:+ q "name"), (VStr "a"). split; [by repeat constructor|]. split; [cbn; repeat constructor; done|]. split; [done|].
  assert (extract_constraints (λ _, None) (validate_text [[Min 3]] +:+ (" json:" +:+ q "name")) = None) as -> by (by vm_compute). split.
  - by apply conforms_base.
  - intros [H _]. apply Forall_inv in H. vm_compute in H. by apply H.
Qed.
Print Assumptions C61_later_key_refuted.
(** Names in a later key are read as rules: a field named url must be a URI; the key json sets a pattern. *)
Theorem C61_later_name_refuted : ∃ levels later v, all_ok levels ∧ typed KStr v ∧ valid bytes no_format any_rule levels v ∧
  ¬ conforms bytes no_format any_format (constrain (extract_constraints (λ _, None) (validate_text levels +:+ later)) (base KStr)) v.
Proof.
  exists [[Required]], (" json:" +:+ q "url"), (VStr "a"). split; [by repeat constructor|]. split; [done|]. split.
  - split; [|by left]. by apply Forall_singleton.
  - assert (constrain (extract_constraints (λ _, None) (validate_text [[Required]] +:+ (" json:" +:+ q "url"))) (base KStr) =
      Schema "string" "uri" "^[\s\S]*$" 0 0 0 0 0 0 [] None None) as -> by (by vm_compute).
    intros (_ & _ & _ & _ & H & _). by apply H.
Qed.
Print Assumptions C61_later_name_refuted.
(** oneof on a number: the enum holds strings. *)
Theorem C61_oneof_number_refuted : ∃ levels v, all_ok levels ∧ typed KInt v ∧ valid bytes any_format any_rule levels v ∧
  ¬ conforms bytes any_format any_format (constrain (extract_constraints (λ _, None) (tag_with None levels)) (base KInt)) v.
Proof.
  exists [[Oneof ["1"; "2"]]], (VInt 1). split; [|split; [done|split]].
  - repeat (apply Forall_cons; split); try apply Forall_nil_2. split; [done|]. by repeat constructor.
  - split; [|by left]. apply Forall_singleton. cbn. by left.
  - assert (constrain (extract_constraints (λ _, None) (tag_with None [[Oneof ["1"; "2"]]])) (base KInt) =
      Schema "integer" "int64" "" 0 0 0 0 0 0 ["1"; "2"] None None) as -> by (by vm_compute).
    intros [H _]. destruct H as (t & H & _); [done|]. discriminate H.
Qed.
Print Assumptions C61_oneof_number_refuted.
(** A zero bound is lost: max=0 allows nothing but the empty string. *)
Theorem C61_zero_bound_refuted : ∃ levels v, all_ok levels ∧ typed KStr v ∧ ¬ valid bytes any_format any_rule levels v ∧
  conforms bytes any_format any_format (constrain (extract_constraints (λ _, None) (tag_with None levels)) (base KStr)) v.
Proof.
  exists [[Max 0]], (VStr "a"). split; [by repeat constructor|]. split; [done|]. split.
  - intros [H _]. apply Forall_inv in H. vm_compute in H. by apply H.
  - assert (constrain (extract_constraints (λ _, None) (tag_with None [[Max 0]])) (base KStr) = base KStr) as -> by (by vm_compute). by apply conforms_base.
Qed.
Print Assumptions C61_zero_bound_refuted.
(** Of two min rules the last one counts. *)
Theorem C61_repeated_refuted : ∃ levels v, all_ok levels ∧ typed KInt v ∧ ¬ valid bytes any_format any_rule levels v ∧
  conforms bytes any_format any_format (constrain (extract_constraints (λ _, None) (tag_with None levels)) (base KInt)) v.
Proof.
  exists [[Min 5; Min 3]], (VInt 4). split; [by repeat constructor|]. split; [done|]. split.
  - intros [H _]. apply Forall_inv in H. vm_compute in H. by apply H.
  - assert (constrain (extract_constraints (λ _, None) (tag_with None [[Min 5; Min 3]])) (base KInt) = Schema "integer" "int64" "" 0 0 3 0 0 0 [] None None) as -> by (by vm_compute).
    split; [done|]. split; [by left|]. split; [intros _; vm_compute; discriminate|]. intros H. by destruct H.
Qed.
Print Assumptions C61_repeated_refuted.
(** required also asks for a string that is not empty; the schema has no such bound. *)
Theorem C61_required_empty_refuted : ∃ levels v, all_ok levels ∧ typed KStr v ∧ ¬ valid bytes any_format any_rule levels v ∧
  conforms bytes any_format any_format (constrain (extract_constraints (λ _, None) (tag_with None levels)) (base KStr)) v.
Proof.
  exists [[Required]], (VStr ""). split; [by repeat constructor|]. split; [done|]. split.
  - intros [H _]. apply Forall_inv in H. by apply H.
  - assert (constrain (extract_constraints (λ _, None) (tag_with None [[Required]])) (base KStr) = base KStr) as -> by (by vm_compute). by apply conforms_base.
Qed.
Print Assumptions C61_required_empty_refuted.
(** omitempty lets the zero value pass the rules after it; the schema still has their bounds. *)
Definition valid_or_zero (levels : list (list rule)) (v : value) : Prop := v = VStr "" ∨ v = VInt 0 ∨ valid bytes any_format any_rule levels v.
Theorem C61_omitempty_refuted : ∃ l v, all_ok [Other "omitempty" :: l] ∧ typed KStr v ∧ valid_or_zero [l] v ∧
  ¬ conforms bytes any_format any_format (constrain (extract_constraints (λ _, None) (tag_with None [Other "omitempty" :: l])) (base KStr)) v.
Proof.
  exists [Min 3], (VStr ""). split; [|split; [done|split; [by left|]]].
  - repeat (apply Forall_cons; split); try apply Forall_nil_2; cbn [rule_ok]; [|done].
    split; [done|]. split; [done|]. split; [done|]. split; by apply (bool_decide_unpack _).
  - assert (constrain (extract_constraints (λ _, None) (tag_with None [Other "omitempty" :: [Min 3]])) (base KStr) = Schema "string" "" "" 3 0 0 0 0 0 [] None None) as -> by (by vm_compute).
    intros (_ & _ & H & _). vm_compute in H. by apply H.
Qed.
Print Assumptions C61_omitempty_refuted.
(** Quoted values of oneof are split at the space inside the quotes. *)
Theorem C61_quoted_refuted : ∃ tag, tag = "validate:" +:+ q "oneof='light blue' red" ∧
  ¬ conforms bytes any_format any_format (constrain (extract_constraints (λ _, None) tag) (base KStr)) (VStr "light blue") ∧
  conforms bytes any_format any_format (constrain (extract_constraints (λ _, None) tag) (base KStr)) (VStr "blue'").
Proof.
  eexists. split; [done|].
  assert (constrain (extract_constraints (λ _, None) ("validate:" +:+ q "oneof='light blue' red")) (base KStr) = Schema "string" "" "" 0 0 0 0 0 0 ["'light"; "blue'"; "red"] None None) as -> by (by vm_compute).
  split.
  - intros [H _]. destruct H as (t & [= <-] & H); [done|]. rewrite !elem_of_cons, elem_of_nil in H. by destruct H as [H|[H|[H|[]]]].
  - split; [|split; [done|]; split; [intros H; by destruct H|]; split; [intros H; by destruct H|]; done]. intros _. eexists. split; [done|]. right. by left.
Qed.
Print Assumptions C61_quoted_refuted.
(** Alternatives: email or url is documented as url alone. *)
Theorem C61_alternatives_refuted : ∃ tag, tag = "validate:" +:+ q "email|url" ∧
  extract_constraints (λ _, None) tag = Some (Constraints None None None None None "uri" "" [] false).
Proof. eexists. split; [done|]. by vm_compute. Qed.
Print Assumptions C61_alternatives_refuted.
(** Keys are found inside other keys: admin holds min. *)
Theorem C61_other_key_refuted : ∃ tag, tag = "admin:" +:+ q "5" ∧
  ∀ parse_float, parse_float "5" = Some 5%Z → extract_constraints parse_float tag = Some (Constraints None None (Some 5%Z) None None "" "" [] false).
Proof. eexists. split; [done|]. intros pf H. vm_compute. by rewrite H. Qed.
Print Assumptions C61_other_key_refuted.
(** A string with multibyte characters is documented as one with ASCII characters only. *)
Theorem C61_multibyte_refuted : ∃ p, table "multibyte" rule_patterns = Some p ∧ table "ascii" rule_patterns = Some p.
Proof. eexists. split; reflexivity. Qed.
Print Assumptions C61_multibyte_refuted.
