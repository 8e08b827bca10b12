(** * Enum values: C43. *)
From Coq Require Import Ascii.
From stdpp Require Import sorting.
From stdpp Require Import base list strings gmap.
From Verif Require Import StrLib StrSplit StrOrder DecLib LitModel EnumModel EnumProofs.

(** Whatever was recorded, the list is in increasing order of text and no text occurs twice. *)
Theorem C43_sorted_and_unique sort finite float_text resolve T files : sorts_by_text sort →
  let out := detect_enum sort finite float_text resolve T files in
  StronglySorted string_le (show <$> out) ∧ NoDup (show <$> out) ∧ NoDup out.
Proof.
  intros Hs out. assert (StronglySorted string_le (show <$> out) ∧ NoDup (show <$> out)) as [H1 H2].
  { unfold out, detect_enum. cbv zeta. destruct (decide _); [split; constructor|]. by destruct (enum_spec sort finite float_text Hs (g ← nsort (remove_dups ((collected resolve T files).*1.*2)); (λ x : string * nat * option cval, x.2) <$> filter (λ x, x.1.2 = g) (collected resolve T files))) as (_ & H1 & H2 & _). }
  split; [done|]. split; [done|]. by apply NoDup_fmap_1 in H2.
Qed.
(** The list does not depend on the order of the constants nor on how sort.Slice treats equal
    texts, when equal texts mean equal values. *)
Theorem C43_order_does_not_matter sort sort' finite float_text cs cs' : sorts_by_text sort → sorts_by_text sort' → cs ≡ₚ cs' →
  let out := enum_values sort finite float_text cs in
  let out' := enum_values sort' finite float_text cs' in
  show <$> out = show <$> out' ∧
  ((∀ a b, Some a ∈ cs → Some b ∈ cs → show (extract_value finite float_text a) = show (extract_value finite float_text b) →
    extract_value finite float_text a = extract_value finite float_text b) → out = out').
Proof.
  intros Hs Hs' Hp out out'. destruct (enum_spec sort finite float_text Hs cs) as (H1 & H2 & H3 & H4).
  destruct (enum_spec sort' finite float_text Hs' cs') as (G1 & G2 & G3 & G4). fold out in H1, H2, H3, H4. fold out' in G1, G2, G3, G4.
  assert (show <$> out = show <$> out') as E.
  { apply sorted_set_eq; try done. intros t. rewrite !elem_of_list_fmap. split.
    - intros (v & -> & Hv). apply H1 in Hv as (c & Hc & ->). rewrite Hp in Hc. apply G4 in Hc as (w & Hw & E). by exists w.
    - intros (v & -> & Hv). apply G1 in Hv as (c & Hc & ->). rewrite <- Hp in Hc. apply H4 in Hc as (w & Hw & E). by exists w. }
  split; [done|]. intros Hinj. apply (list_eq_same_length _ _ (length out)); [|done|].
  - pose proof (f_equal length E) as El. by rewrite !fmap_length in El.
  - intros i a b _ Ha Hb. pose proof (f_equal (λ l, l !! i) E) as Ei. cbn in Ei. rewrite !list_lookup_fmap, Ha, Hb in Ei. cbn in Ei. injection Ei as Ei.
    apply elem_of_list_lookup_2 in Ha, Hb. apply H1 in Ha as (c & Hc & ->). apply G1 in Hb as (c' & Hc' & ->). apply Hinj; [done|by rewrite Hp|done].
Qed.
(** In a package that declares the type's constants plainly, a type of text constants gets
    exactly their values. *)
Theorem C43_text_constants sort finite float_text resolve p T : sorts_by_text sort → declares resolve p T →
  (∀ c, const_of p T c → ∃ s, c = CStr s ∧ plain_text s ∧ String.length s ≤ 70) →
  ∃ l, detect_enum sort finite float_text resolve T (recorded p) = VText <$> l ∧ StronglySorted string_le l ∧ NoDup l ∧ ∀ s, s ∈ l ↔ const_of p T (CStr s).
Proof.
  intros Hs Hd Hc. destruct (detect_spec sort finite float_text resolve p T Hs Hd) as (H1 & H2 & H3 & H4). set (out := detect_enum _ _ _ _ _ _) in *.
  exists (show <$> out). assert (∀ v, v ∈ out → VText (show v) = v) as Hv.
  { intros v Hv. apply H1 in Hv as (c & Hcc & ->). destruct (Hc c Hcc) as (s & -> & Hp & Hl). by rewrite extract_plain. }
  split; [|split; [done|split; [done|]]].
  - rewrite <- list_fmap_compose. rewrite <- (list_fmap_id out) at 1. apply list_fmap_ext. intros i v Hi. symmetry. apply Hv. by eapply elem_of_list_lookup_2.
  - intros s. rewrite elem_of_list_fmap. split.
    + intros (v & -> & Hin). apply H1 in Hin as (c & Hcc & ->). destruct (Hc c Hcc) as (s & -> & Hp & Hl). by rewrite extract_plain.
    + intros Hcc. destruct (H2 _ Hcc) as (v & Hin & E). exists v. split; [|done]. destruct (Hc _ Hcc) as (s' & [= <-] & Hp & Hl). by rewrite extract_plain in E.
Qed.
(** So does a type of integer constants; the order is that of the decimal texts. *)
Theorem C43_integer_constants sort finite float_text resolve p T : sorts_by_text sort → declares resolve p T →
  (∀ c, const_of p T c → ∃ z, c = CInt z ∧ in_int64 z) →
  ∃ l, detect_enum sort finite float_text resolve T (recorded p) = VInt <$> l ∧ StronglySorted string_le (itoa <$> l) ∧ NoDup l ∧ ∀ z, z ∈ l ↔ const_of p T (CInt z).
Proof.
  intros Hs Hd Hc. destruct (detect_spec sort finite float_text resolve p T Hs Hd) as (H1 & H2 & H3 & H4). set (out := detect_enum _ _ _ _ _ _) in *.
  set (num := λ v, match v with VInt z => z | _ => 0%Z end). exists (num <$> out).
  assert (∀ v, v ∈ out → VInt (num v) = v) as Hv.
  { intros v Hv. apply H1 in Hv as (c & Hcc & ->). destruct (Hc c Hcc) as (z & -> & Hz). by rewrite extract_int. }
  assert (out = VInt <$> (num <$> out)) as E.
  { rewrite <- list_fmap_compose. rewrite <- (list_fmap_id out) at 1. apply list_fmap_ext. intros i v Hi. symmetry. apply Hv. by eapply elem_of_list_lookup_2. }
  assert (show <$> out = itoa <$> (num <$> out)) as Es.
  { rewrite E at 1. by rewrite <- list_fmap_compose. }
  split; [done|]. split; [by rewrite <- Es|]. split; [rewrite Es in H4; by apply NoDup_fmap_1 in H4|].
  intros z. rewrite elem_of_list_fmap. split.
  - intros (v & -> & Hin). apply H1 in Hin as (c & Hcc & ->). destruct (Hc c Hcc) as (z & -> & Hz). by rewrite extract_int.
  - intros Hcc. destruct (H2 _ Hcc) as (v & Hin & Ev). exists v. split; [|done]. destruct (Hc _ Hcc) as (z' & [= <-] & Hz). rewrite extract_int in Ev by done.
    rewrite <- (Hv v Hin) in Ev. cbn in Ev. by apply itoa_inj in Ev.
Qed.

(** ** Where the full statement fails *)

Fixpoint as_many (n : nat) : string := match n with 0 => "" | S n => String "a" (as_many n) end.
(** A text of 71 letters is documented cut short, with a leading quote. *)
Theorem C43_long_text_refuted sort finite float_text resolve : sorts_by_text sort → ∃ p s, plain_text s ∧ const_of p "Status" (CStr s) ∧
  detect_enum sort finite float_text resolve "Status" (recorded p) = [VText (String dquote (as_many 68 +:+ "..."))].
Proof.
  intros Hs. exists {[ "a.go" := [CDecl true [CSpec "A" "Status" "Status" "string" (Some (CStr (as_many 71)))]] ]}, (as_many 71).
  split; [|split].
  - assert (∀ n, plain_text (as_many n)) as H; [|apply H]. induction n as [|n IH]; [done|]. cbn [as_many plain_text]. split; [|done]. unfold plain_char. split; [done|]. split; [done|]. right. vm_compute. lia.
  - exists "a.go". eexists _, _, _. split; [apply lookup_singleton|]. split; [left|]. split; [done|]. split; [left|]. done.
  - transitivity (enum_values sort finite float_text [Some (CStr (as_many 71))]); [|rewrite enum_one by done; unfold extract_value].
    + reflexivity.
    + assert (const_text (CStr (as_many 71)) = String dquote (as_many 68 +:+ "...")) as -> by by vm_compute. vm_compute. done.
Qed.
(** A text with a backslash is documented with two. *)
Theorem C43_escaped_text_refuted sort finite float_text resolve : sorts_by_text sort → ∃ p, const_of p "Status" (CStr "a\b") ∧
  detect_enum sort finite float_text resolve "Status" (recorded p) = [VText "a\\b"].
Proof.
  intros Hs. exists {[ "a.go" := [CDecl true [CSpec "A" "Status" "Status" "string" (Some (CStr "a\b"))]] ]}. split.
  - exists "a.go". eexists _, _, _. split; [apply lookup_singleton|]. split; [left|]. split; [done|]. split; [left|]. done.
  - transitivity (enum_values sort finite float_text [Some (CStr "a\b")]); [reflexivity|]. rewrite enum_one by done. by vm_compute.
Qed.
(** A blank constant, which no client can name, is documented. *)
Theorem C43_blank_constant_refuted sort finite float_text : sorts_by_text sort → ∃ p,
  (∀ f ds d s, p !! f = Some ds → d ∈ ds → s ∈ cd_specs d → cs_name s = "_") ∧
  detect_enum sort finite float_text (λ _, "") "Level" (recorded p) = [VInt 0].
Proof.
  intros Hs. exists {[ "a.go" := [CDecl true [CSpec "_" "Level" "Level" "int" (Some (CInt 0))]] ]}. split.
  - intros f ds d s [<- <-]%lookup_singleton_Some ->%elem_of_list_singleton ->%elem_of_list_singleton. done.
  - transitivity (enum_values sort finite float_text [Some (CInt 0)]); [reflexivity|]. rewrite enum_one by done. by vm_compute.
Qed.
(** An untyped constant with a value of its own in the same block is documented as a value of
    the type. *)
Theorem C43_unrelated_constant_refuted sort finite float_text : sorts_by_text sort → ∃ p,
  ¬ const_of p "Level" (CInt 100) ∧ ∃ v, v ∈ detect_enum sort finite float_text (λ _, "") "Level" (recorded p) ∧ show v = "100".
Proof.
  intros Hs. exists {[ "a.go" := [CDecl true [CSpec "Low" "Level" "Level" "int" (Some (CInt 1)); CSpec "Max" "" "untyped int" "untyped int" (Some (CInt 100))]] ]}. split.
  - intros (f & ds & d & s & Hf & Hd & _ & Hsp & HT & Hv). apply lookup_singleton_Some in Hf as [<- <-]. apply elem_of_list_singleton in Hd as ->.
    cbn in Hsp. apply elem_of_cons in Hsp as [->|Hsp]; [done|]. apply elem_of_list_singleton in Hsp as ->. done.
  - destruct (enum_spec sort finite float_text Hs [Some (CInt 1); Some (CInt 100)]) as (_ & _ & _ & H). destruct (H (CInt 100)) as (v & Hv & E); [right; left|]. exists v. split; [exact Hv|].
    rewrite E. by vm_compute.
Qed.
(** A constant that gets the type from a conversion is missing. *)
Theorem C43_converted_constant_refuted sort finite float_text : sorts_by_text sort → ∃ p, const_of p "Status" (CStr "on") ∧
  detect_enum sort finite float_text (λ _, "") "Status" (recorded p) = [].
Proof.
  intros Hs. exists {[ "a.go" := [CDecl true [CSpec "On" "" "Status" "string" (Some (CStr "on"))]] ]}. split.
  - exists "a.go". eexists _, _, _. split; [apply lookup_singleton|]. split; [left|]. split; [done|]. split; [left|]. done.
  - transitivity (enum_values sort finite float_text []); [reflexivity|]. by apply enum_none.
Qed.
(** One constant of a type of the same name from another package removes the whole list. *)
Theorem C43_namesake_type_refuted sort finite float_text : ∃ p, const_of p "Status" (CStr "on") ∧
  detect_enum sort finite float_text (λ _, "") "Status" (recorded p) = [].
Proof.
  exists {[ "a.go" := [CDecl true [CSpec "On" "Status" "Status" "string" (Some (CStr "on"))]; CDecl true [CSpec "Other" "example.com/b.Status" "example.com/b.Status" "string" (Some (CStr "off"))]] ]}. split.
  - exists "a.go". eexists _, _, _. split; [apply lookup_singleton|]. split; [left|]. split; [done|]. split; [left|]. done.
  - reflexivity.
Qed.
(** A blank variable declared after the block removes the list of a block that starts with a
    blank constant. *)
Theorem C43_blank_variable_refuted sort finite float_text : sorts_by_text sort → ∃ p, const_of p "Level" (CInt 1) ∧
  detect_enum sort finite float_text (λ _, "") "Level" (recorded p) = [].
Proof.
  intros Hs. exists {[ "a.go" := [CDecl true [CSpec "_" "Level" "Level" "int" (Some (CInt 0)); CSpec "Low" "" "Level" "int" (Some (CInt 1))]; CDecl false [CSpec "_" "Stringer" "Stringer" "" None]] ]}. split.
  - exists "a.go". eexists _, _, _. split; [apply lookup_singleton|]. split; [left|]. split; [done|]. split; [right; left|]. done.
  - transitivity (enum_values sort finite float_text []); [reflexivity|]. by apply enum_none.
Qed.
Print Assumptions C43_sorted_and_unique.
Print Assumptions C43_order_does_not_matter.
Print Assumptions C43_text_constants.
Print Assumptions C43_integer_constants.
Print Assumptions C43_long_text_refuted.
Print Assumptions C43_escaped_text_refuted.
Print Assumptions C43_blank_constant_refuted.
Print Assumptions C43_unrelated_constant_refuted.
Print Assumptions C43_converted_constant_refuted.
Print Assumptions C43_namesake_type_refuted.
Print Assumptions C43_blank_variable_refuted.

(** Two blocks in two files, one with implied repetition, next to constants of other types. *)
Definition enum_package : source :=
  {[ "a.go" := [CDecl true [CSpec "Low" "Level" "Level" "int" (Some (CInt 0)); CSpec "Mid" "" "Level" "int" (Some (CInt 1)); CSpec "High" "" "Level" "int" (Some (CInt 10))];
                CDecl false [CSpec "now" "" "" "" None]; CDecl true [CSpec "Limit" "" "untyped int" "untyped int" (Some (CInt 7))]];
     "b.go" := [CDecl true [CSpec "Off" "Level" "Level" "int" (Some (CInt (-1))); CSpec "Least" "Level" "Level" "int" (Some (CInt 0)); CSpec "Kind" "Status" "Status" "string" (Some (CStr "k"))]] ]}.
Example C43_example_declares : declares (λ _, "") enum_package "Level".
Proof.
  assert (∀ f ds, enum_package !! f = Some ds → ds = [CDecl true [CSpec "Low" "Level" "Level" "int" (Some (CInt 0)); CSpec "Mid" "" "Level" "int" (Some (CInt 1)); CSpec "High" "" "Level" "int" (Some (CInt 10))];
                CDecl false [CSpec "now" "" "" "" None]; CDecl true [CSpec "Limit" "" "untyped int" "untyped int" (Some (CInt 7))]] ∨
     ds = [CDecl true [CSpec "Off" "Level" "Level" "int" (Some (CInt (-1))); CSpec "Least" "Level" "Level" "int" (Some (CInt 0)); CSpec "Kind" "Status" "Status" "string" (Some (CStr "k"))]]) as Hp.
  { intros f ds. unfold enum_package. intros [[_ <-]|[_ Hf]]%lookup_insert_Some; [by left|]. apply lookup_singleton_Some in Hf as [_ <-]. by right. }
  assert (∀ t, t ≠ "Level" → contains_byte "." t = false → has_prefix "*" t = false → other_type (λ _, "") "Level" t) as Ho.
  { intros t H1 H2 H3. split; [done|]. split; [done|]. split; [done|]. intros q ->. unfold contains_byte in H2. rewrite str_any_app in H2. cbn in H2. by rewrite orb_true_r in H2. }
  constructor.
  - done.
  - intros f ds [->| ->]%Hp; apply (bool_decide_unpack _); vm_compute; done.
  - by apply Ho.
  - intros f ds d s Hf Hd Hc Hs. apply Hp in Hf as [->| ->]; repeat (apply elem_of_cons in Hd as [->|Hd]; [cbn in Hc, Hs; try done|]); try (by apply elem_of_nil in Hd);
      repeat (apply elem_of_cons in Hs as [->|Hs]; [cbn|]); try (by apply elem_of_nil in Hs);
      (split; [first [by left|right; by apply Ho]|]); (split; [intros E; first [done|by apply Ho]|]); (split; [intros E; try done|]).
    all: try (by left). all: try (by intros [?|[? _]]).
    + right. split; [done|]. eexists. split; [left|done].
    + right. split; [done|]. eexists. split; [left|done].
    + intros [?|[_ (s' & Hs' & HT)]]; [done|]. apply elem_of_cons in Hs' as [->|Hs']; [done|]. by apply elem_of_nil in Hs'.
Qed.
#[local] Instance by_text_dec : RelDecision by_text := λ a b, decide (string_le (show a) (show b)).
Definition example_sort (l : list evalue) : list evalue := merge_sort by_text l.
Example C43_example : detect_enum example_sort (λ _, true) (λ s, s) (λ _, "") "Level" (recorded enum_package) = VInt <$> [(-1)%Z; 0%Z; 1%Z; 10%Z].
Proof. vm_compute. done. Qed.
