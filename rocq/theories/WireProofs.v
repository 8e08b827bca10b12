(** * Proofs about the schemas of types without a name. *)
From Coq Require Import Ascii.
From stdpp Require Import base numbers list strings gmap.
From Verif Require Import StrLib StrSplit StrSub DecLib PathModel PathProofs2 VerbProofs ScanModel ScanProps TypeModel TypeSpec TypeProofs TypeProps FieldModel FieldProofs GenModel NameModel NameProps ConModel ConProofs WireModel WireSpec.

Fixpoint to_ref (t : wtype) : tref :=
  match t with
  | Scalar b => if decide (b = "time.Time") then TNamed "time" "Time" [] "" else TNamed "" b [] ""
  | Ptr t => TPtr (to_ref t)
  | Slice t => TSlice (to_ref t)
  | Arr n t => TArr (itoa_nat n) (to_ref t)
  | Map k t => TMap (TNamed "" k [] "") (to_ref t)
  end.
Lemma text_render t : text t = render Dotted (to_ref t).
Proof.
  induction t as [b|t IH|t IH|n t IH|k t IH]; cbn [text to_ref render]; rewrite <- ?IH; try done.
  destruct (decide (b = "time.Time")) as [->|H]; done.
Qed.
Lemma name_ok_lit p n : str_any (λ c, mem_byte c special) p = false → str_any (λ c, mem_byte c special) n = false → n ≠ "" → n ≠ "map" →
  contains_byte "." n = false → str_contains arrow (p +:+ "." +:+ n) = false → name_ok p n.
Proof. intros H1 H2 H3 H4 H5 H6. repeat split; try done; by apply plain_q. Qed.
(** Facts about each scalar, checked one by one. *)
Lemma scalar_all (P : string → Prop) : Forall P scalars → ∀ b, b ∈ scalars → P b.
Proof. rewrite Forall_forall. auto. Qed.
Ltac each_scalar := apply scalar_all; repeat (apply Forall_cons; split); [..|apply Forall_nil_2].
Lemma scalar_wf : ∀ b, b ∈ scalars → wf (to_ref (Scalar b)).
Proof. each_scalar; (left; split; [reflexivity|]; split; [by apply name_ok_lit|done]). Qed.
Lemma scalar_facts : ∀ b, b ∈ scalars → contains_byte " " b = false ∧ container_name (core_name b) = false ∧ cut "map[" b = None ∧ anon_struct b = false ∧
  has_prefix "[" b = false ∧ has_prefix "*" b = false ∧ has_prefix "map[" b = false ∧ contains_byte "[" b = false.
Proof. each_scalar; vm_compute; done. Qed.
Lemma key_scalar k : k ∈ key_names → k ∈ scalars.
Proof. revert k. apply Forall_forall. repeat (apply Forall_cons; split); [..|apply Forall_nil_2]; by apply (bool_decide_unpack _). Qed.
Lemma key_not_time k : k ∈ key_names → k ≠ "time.Time" ∧ contains_byte "]" k = false ∧ k ≠ "".
Proof. revert k. apply Forall_forall. repeat (apply Forall_cons; split); [..|apply Forall_nil_2]; done. Qed.
Lemma wtype_wf t : wtype_ok t → wf (to_ref t).
Proof.
  induction t as [b|t IH|t IH|n t IH|k t IH]; intros H; cbn [wtype_ok] in H; [by apply scalar_wf|apply IH, H|apply IH, H| |].
  - destruct H as (_ & _ & H). cbn [to_ref well_formed]. split; [|split; [|by apply IH]].
    + intros E. pose proof (parse_nat_itoa_nat n) as Hp. by rewrite E in Hp.
    + apply balanced_lit. assert (all_digits (itoa_nat n) = true) as Hd by apply all_digits_pretty. revert Hd. generalize (itoa_nat n) as s.
      induction s as [|c s IHs]; [done|]. cbn [all_digits str_any]. intros [Hc Hs]%andb_prop. rewrite IHs by done. rewrite orb_false_r.
      revert Hc. destruct c as [[] [] [] [] [] [] [] []]; by vm_compute.
  - destruct H as [Hk H]. cbn [to_ref well_formed]. split; [|by apply IH].
    pose proof (scalar_wf k (key_scalar k Hk)) as Hw. cbn [to_ref] in Hw. rewrite decide_False in Hw by (by apply key_not_time). exact Hw.
Qed.
Lemma parse_text t : wtype_ok t → parse_type (text t) = to_ref t.
Proof. intros H. rewrite text_render. by apply C11_dotted_round_trip, wtype_wf. Qed.
Lemma text_firm t : wtype_ok t → firm spaces (text t).
Proof. intros H. rewrite text_render. by apply (render_facts (to_ref t) false Dotted), wtype_wf. Qed.
Lemma firm_trim_id s : firm spaces s → trim_space s = s.
Proof.
  intros H. pose proof (trim_any_firm spaces "" s "" (all_of_nil _) (all_of_nil _) H) as E. rewrite sapp_nil in E. exact E.
Qed.
Lemma text_trim t : wtype_ok t → trim_space (text t) = text t.
Proof. intros H. by apply firm_trim_id, text_firm. Qed.
Lemma text_nonempty t : wtype_ok t → text t ≠ "".
Proof. intros H E. destruct (text_firm t H) as [(c & u & E' & _) _]. by rewrite E in E'. Qed.

Lemma digits_no c s : all_digits s = true → is_digit c = false → contains_byte c s = false.
Proof. apply all_digits_contains. Qed.
Lemma text_no_space t : wtype_ok t → contains_byte " " (text t) = false.
Proof.
  induction t as [b|t IH|t IH|n t IH|k t IH]; intros H; cbn [wtype_ok text] in *; [by apply scalar_facts| | | |]; rewrite ?contains_byte_app, ?IH by (try apply H); try done.
  - rewrite contains_itoa_nat by done. done.
  - destruct H as [Hk H]. destruct (scalar_facts k (key_scalar k Hk)) as (-> & _). done.
Qed.
Lemma text_not_untyped t : wtype_ok t → untyped_default (text t) = None.
Proof.
  intros H. apply table_none. intros Hin. apply text_no_space in H.
  assert (∀ s, s ∈ ["untyped bool"; "untyped int"; "untyped rune"; "untyped float"; "untyped complex"; "untyped string"] → contains_byte " " s = true) as Hs.
  { apply Forall_forall. repeat (apply Forall_cons; split); [..|apply Forall_nil_2]; done. }
  by rewrite (Hs _ Hin) in H.
Qed.
Lemma core_ref t : wtype_ok t → pkg_of (core (to_ref t)) = "" ∨ (pkg_of (core (to_ref t)) = "time" ∧ arg_name (core (to_ref t)) = "Time").
Proof.
  induction t as [b|t IH|t IH|n t IH|k t IH]; intros H; cbn [wtype_ok to_ref core] in *; [|by apply IH|by apply IH|by apply IH; destruct H as (_ & _ & H)|by left].
  destruct (decide (b = "time.Time")); [by right|by left].
Qed.
Lemma text_container t : wtype_ok t → unqualify_container (text t) = text t.
Proof.
  intros H. unfold unqualify_container, core_pkg, core_name. rewrite parse_text by done. destruct (core_ref t H) as [-> | [-> ->]]; done.
Qed.
Lemma elem_ptr t : wtype_ok t → elem_raw (text (Ptr t)) = text t.
Proof. intros H. unfold elem_raw. rewrite text_trim, parse_text by done. cbn [to_ref]. change (str_drop 1 (text (Ptr t))) with (text t). by apply text_trim. Qed.
Lemma elem_slice t : wtype_ok t → elem_raw (text (Slice t)) = text t.
Proof. intros H. unfold elem_raw. rewrite text_trim, parse_text by done. cbn [to_ref]. change (str_drop 2 (text (Slice t))) with (text t). by apply text_trim. Qed.
Lemma close_plain s rest : contains_byte "[" s = false → contains_byte "]" s = false → close_at 0 (s +:+ "]" +:+ rest) = Some (s, rest).
Proof.
  induction s as [|c s IH]; intros H1 H2; [done|]. rewrite !contains_byte_cons in *. apply orb_false_iff in H1 as [A1 H1], H2 as [A2 H2].
  apply bool_decide_eq_false in A1, A2. rewrite sapp_cons. cbn [close_at]. rewrite decide_False by done. rewrite decide_False by done. by rewrite IH.
Qed.
Lemma elem_arr n t : wtype_ok (Arr n t) → elem_raw (text (Arr n t)) = text t.
Proof.
  intros H. unfold elem_raw. rewrite text_trim, parse_text by done. cbn [to_ref].
  change (str_drop 1 (text (Arr n t))) with (itoa_nat n +:+ "]" +:+ text t). rewrite close_plain by (by apply contains_itoa_nat). apply text_trim, H.
Qed.
Lemma map_parts_scalar b : b ∈ scalars → map_parts b = None.
Proof. intros H. unfold map_parts. by destruct (scalar_facts b H) as (_ & _ & -> & _). Qed.
Lemma map_parts_slice t : map_parts (text (Slice t)) = None.
Proof.
  unfold map_parts. destruct (cut "map[" _) as [[before rest]|]; [|done]. 
  change (take_until _ (text (Slice t))) with "[". rewrite bool_decide_eq_false_2; [by rewrite andb_false_r|]. cbn [String.length]. lia.
Qed.
Lemma map_parts_map k t : wtype_ok (Map k t) → map_parts (text (Map k t)) = Some (k, text t).
Proof.
  intros [Hk H]. destruct (key_not_time k Hk) as (_ & Hb & Hne). unfold map_parts. cbn [text].
  rewrite cut_here. assert (take_until (λ c, bool_decide (c = "]"%char)) ("map[" +:+ k +:+ "]" +:+ text t) = "map[" +:+ k) as Et.
  { change ("map[" +:+ k +:+ "]" +:+ text t) with ("map[" +:+ (k +:+ "]" +:+ text t)). rewrite take_until_app. cbn [str_any]. change (str_any _ "map[") with false. cbv iota.
    f_equal. rewrite take_until_app. change (str_any _ k) with (contains_byte "]" k). rewrite Hb. change (take_until _ ("]" +:+ text t)) with "". by rewrite sapp_nil. }
  rewrite Et. assert (contains_byte "]" ("map[" +:+ k +:+ "]" +:+ text t) = true) as ->.
  { rewrite !contains_byte_app. change (contains_byte "]" "]") with true. by rewrite !orb_true_r. }
  change (String.length "") with 0. rewrite sapp_length. change (String.length "map[") with 4.
  rewrite bool_decide_eq_true_2. 2: { destruct k; [done|]. cbn [String.length]. lia. }
  cbn [andb]. assert (str_drop (S (4 + String.length k)) ("map[" +:+ k +:+ "]" +:+ text t) = text t) as ->.
  { replace ("map[" +:+ k +:+ "]" +:+ text t) with (("map[" +:+ k +:+ "]") +:+ text t) by (by rewrite !sapp_assoc).
    replace (S (4 + String.length k)) with (String.length ("map[" +:+ k +:+ "]")); [apply str_drop_app|]. rewrite !sapp_length. change (String.length "map[") with 4. change (String.length "]") with 1. lia. }
  rewrite text_trim by done. change (bool_decide (0 ≠ 0)) with false. cbn [andb]. f_equal. f_equal.
  change (str_drop (0 + 4) ("map[" +:+ k +:+ "]" +:+ text t)) with (k +:+ "]" +:+ text t).
  replace (4 + String.length k - 0 - 4) with (String.length k) by lia. apply str_take_app.
Qed.

(** ** The schema *)
Fixpoint shape (t : wtype) : wschema :=
  match t with
  | Scalar b => default (leaf "" "") (known_type b)
  | Ptr t => shape t
  | Slice t => if bytes_type t then leaf "string" "byte" else WS "" "array" "" 0 0 0 (Some (shape t)) None
  | Arr n t => WS "" "array" "" 0 (Z.of_nat n) (Z.of_nat n) (Some (shape t)) None
  | Map k t => if decide (k = "string") then WS "" "object" "" 0 0 0 None (Some (shape t)) else leaf "object" ""
  end.
Lemma scalar_shape : ∀ b, b ∈ scalars → ∃ ty f, known_type b = Some (leaf ty f) ∧ ty ∈ ["string"; "integer"; "number"; "boolean"].
Proof. each_scalar; (eexists _, _; split; [vm_compute; reflexivity|by apply (bool_decide_unpack _)]). Qed.
Lemma shape_kind t : wtype_ok t → w_ref (shape t) = "" ∧ (primitive_shaped (shape t) = true ∨ str_contains "map[" (text t) = true).
Proof.
  induction t as [b|t IH|t IH|n t IH|k t IH]; intros H; cbn [wtype_ok shape text] in *.
  - destruct (scalar_shape b H) as (ty & f & -> & Ht). cbn [default]. split; [done|left]. revert Ht. clear. revert ty. apply Forall_forall.
    repeat (apply Forall_cons; split); [..|apply Forall_nil_2]; done.
  - destruct (IH H) as [H1 [H2|H2]]; (split; [done|]); [by left|right]. apply str_contains_spec in H2 as (a & b & ->). apply str_contains_spec. by exists (String "*" a), b.
  - destruct (bytes_type t); split; try done; by left.
  - split; [done|by left].
  - split; [by destruct (decide (k = "string"))|]. right. apply str_contains_spec. by exists "", (k +:+ "]" +:+ text t).
Qed.
Lemma no_promote t : wtype_ok t → promote (text t) (Some (shape t)) = false.
Proof.
  intros H. destruct (shape_kind t H) as [H1 [H2|H2]]; unfold promote.
  - rewrite H2. by rewrite andb_false_r.
  - unfold can_ref. rewrite H2, !orb_true_r. cbn [negb andb]. by rewrite !andb_false_r.
Qed.
Lemma texts_head t : text t ∈ texts t.
Proof. by destruct t; left. Qed.
Lemma texts_len t s : s ∈ texts t → String.length s ≤ String.length (text t).
Proof.
  induction t as [b|t IH|t IH|n t IH|k t IH]; cbn [texts text]; rewrite elem_of_cons; rewrite ?sapp_length;
    (intros [-> | Hs]; [by cbn [text]; rewrite ?sapp_length|]).
  - by apply elem_of_nil in Hs.
  - specialize (IH Hs). lia.
  - specialize (IH Hs). lia.
  - specialize (IH Hs). lia.
  - specialize (IH Hs). lia.
Qed.
Lemma array_size_itoa n : (Z.of_nat n ≤ 9223372036854775807)%Z → array_size (trim_space (itoa_nat n)) = Z.of_nat n.
Proof.
  intros H. assert (all_digits (itoa_nat n) = true) as Hd by apply all_digits_pretty.
  assert (itoa_nat n ≠ "") as Hne. { intros E. pose proof (parse_nat_itoa_nat n) as Hp. by rewrite E in Hp. }
  assert (all_bytes solid (itoa_nat n) = true) as Hs by (apply (all_bytes_weaken is_digit); [intros c Hc; apply digit_solid; by left|by apply all_digits_bytes]).
  destruct (solid_ends _ Hne Hs) as [H1 H2]. rewrite trim_spaces_id by done. unfold array_size, atoi64. rewrite atoi_opt_digits by done.
  rewrite parse_nat_itoa_nat. cbn [fmap option_fmap option_map]. rewrite nat_N_Z. rewrite decide_True; [done|]. lia.
Qed.
Lemma text_trim_star t : wtype_ok t → trim_prefix "*" (text t) ∈ texts t.
Proof.
  intros H. destruct t as [b|t|t|n t|k t].
  - unfold trim_prefix. cbn [text]. destruct (scalar_facts b H) as (_ & _ & _ & _ & _ & -> & _). by left.
  - change (trim_prefix "*" (text (Ptr t))) with (text t). right. apply texts_head.
  - by left.
  - by left.
  - by left.
Qed.
Lemma trim_len p s : String.length (trim_prefix p s) ≤ String.length s.
Proof. unfold trim_prefix. destruct (has_prefix p s); [rewrite str_drop_length|]; lia. Qed.
Lemma grow_visited t w (visited : gset string) : (∀ s, s ∈ w :: texts t → can_ref (trim_prefix "*" s) = true → s ∉ visited ∧ trim_prefix "*" s ∉ visited) → String.length (text t) < String.length w →
  ∀ s, s ∈ texts t → can_ref (trim_prefix "*" s) = true → s ∉ {[w]} ∪ visited ∧ trim_prefix "*" s ∉ {[w]} ∪ visited.
Proof.
  intros H Hl s Hs Hc. destruct (H s (elem_of_list_further _ _ _ Hs) Hc) as [H1 H2]. apply texts_len in Hs. pose proof (trim_len "*" s).
  rewrite !elem_of_union, !elem_of_singleton. split; intros [E|E]; try done; subst; lia.
Qed.
Lemma map_type_shape e t : wtype_ok t → silent e t → ∀ n visited, String.length (text t) < n → (∀ s, s ∈ texts t → can_ref (trim_prefix "*" s) = true → s ∉ visited ∧ trim_prefix "*" s ∉ visited) →
  ∃ visited', map_type e n visited (text t) = (Some (shape t), visited') ∧ ∀ s, s ∈ visited' → s ∈ visited ∨ s ∈ texts t.
Proof.
  induction t as [b|t IH|t IH|m t IH|k t IH]; intros Hok Hsil n visited Hn Hv; (destruct n as [|n]; [lia|]); cbn [map_type];
    rewrite (text_not_untyped _ Hok); cbn [default]; rewrite (text_container _ Hok);
    match goal with |- context [(bool_decide (?x ∈ visited) || bool_decide (?y ∈ visited)) && can_ref ?y] =>
      assert ((bool_decide (x ∈ visited) || bool_decide (y ∈ visited)) && can_ref y = false) as ->
        by (destruct (can_ref y) eqn:Ec; [destruct (Hv x (texts_head _) Ec); by rewrite !bool_decide_eq_false_2|by rewrite andb_false_r]) end; cbn [andb];
    destruct (Hsil _ (text_trim_star _ Hok)) as (Hu & _); rewrite Hu; rewrite (bool_decide_eq_false_2 (None = Some true)) by done; cbn [andb];
    destruct (Hsil _ (texts_head _)) as (Hu0 & Hm0 & Hr0 & Hx0); rewrite Hm0.
  - rewrite (parse_text _ Hok). unfold external_of. cbn [text]. destruct (scalar_facts b Hok) as (F1 & F2 & F3 & F4 & -> & -> & -> & F8). cbn [orb]. cbn [text] in Hx0. rewrite Hx0.
    destruct (scalar_shape b Hok) as (ty & f & E & _). cbn [shape]. rewrite E. cbn [default].
    assert (∀ A (x y : A), match to_ref (Scalar b) with TPtr _ => x | TArr _ _ => x | _ => y end = y) as Hto by (intros A x y; cbn [to_ref]; by destruct (decide (b = "time.Time"))).
    cbn [to_ref]. rewrite (map_parts_scalar b Hok), F4. 
    destruct (decide (b = "time.Time")); (eexists; split; [reflexivity|]); intros s; rewrite elem_of_union, elem_of_singleton; intros [-> | ?]; auto; right; by left.
  - assert (external_of e (text (Ptr t)) = None) as -> by done. rewrite (parse_text _ Hok). cbn [to_ref]. rewrite elem_ptr by done.
    destruct (IH Hok (λ s Hs, Hsil s (elem_of_list_further _ _ _ Hs)) n ({[text (Ptr t)]} ∪ visited)) as (visited' & -> & Hvis).
    + cbn [text] in Hn. rewrite sapp_length in Hn. cbn [String.length] in Hn. lia.
    + apply (grow_visited t _ visited); [done|cbn [text]; rewrite ?sapp_length; cbn [String.length]; lia].
    + exists visited'. split; [done|]. intros s Hs. destruct (Hvis s Hs) as [H|H]; [|by right; right]. rewrite elem_of_union, elem_of_singleton in H. destruct H as [-> | H]; [right; by left|by left].
  - assert (external_of e (text (Slice t)) = None) as -> by done. rewrite (parse_text _ Hok). cbn [to_ref]. rewrite map_parts_slice, elem_slice by done.
    destruct (Hsil (text t)) as (Hu1 & _ & Hr1 & _); [right; apply texts_head|]. cbn [shape].
    assert (bytes_type t = true ↔ text t = "byte" ∨ text t = "uint8") as Hb.
    { destruct t as [b|t|t|n' t|k t]; cbn [bytes_type]; [by rewrite bool_decide_eq_true|..]; (split; [done|]); by intros [?|?]. }
    assert (∀ v', v' = {[text (Slice t)]} ∪ visited → ∀ s, s ∈ v' → s ∈ visited ∨ s ∈ texts (Slice t)) as Hset.
    { intros v' -> s. rewrite elem_of_union, elem_of_singleton. intros [-> | ?]; [right; apply texts_head|by left]. }
    destruct (bytes_type t).
    + rewrite decide_True by (by apply Hb). eexists. split; [reflexivity|]. by apply Hset.
    + rewrite decide_False by (intros H; apply Hb in H; done). unfold resolved. rewrite Hr1. rewrite (decide_True (P := "" = "")) by done. rewrite Hu1. rewrite (bool_decide_eq_false_2 (is_Some None)) by (by intros [? ?]). cbn [andb]. rewrite andb_false_r.
      destruct (IH Hok (λ s Hs, Hsil s (elem_of_list_further _ _ _ Hs)) n ({[text (Slice t)]} ∪ visited)) as (visited' & -> & Hvis).
      * cbn [text] in Hn. rewrite sapp_length in Hn. cbn [String.length] in Hn. lia.
      * apply (grow_visited t _ visited); [done|cbn [text]; rewrite ?sapp_length; cbn [String.length]; lia].
      * rewrite no_promote, andb_false_r by done. exists visited'. split; [done|]. intros s Hs. destruct (Hvis s Hs) as [H|H]; [|by right; right]. by apply (Hset _ eq_refl).
  - assert (external_of e (text (Arr m t)) = None) as -> by done. rewrite (parse_text _ Hok). cbn [to_ref]. rewrite elem_arr by done. destruct Hok as (Hm & Hnb & Hok).
    destruct (Hsil (text t)) as (Hu1 & _ & Hr1 & _); [right; apply texts_head|]. cbn [shape]. unfold resolved. rewrite Hr1. rewrite (decide_True (P := "" = "")) by done.
    rewrite (decide_False (P := text t = "byte" ∨ text t = "byte")).
    2: { intros [E|E]; (destruct t as [b|t|t|n' t|k t]; cbn [text] in E; [subst; done|discriminate E..]). }
    rewrite Hu1. rewrite (bool_decide_eq_false_2 (is_Some None)) by (by intros [? ?]). cbn [andb]. rewrite andb_false_r. rewrite array_size_itoa by done.
    destruct (IH Hok (λ s Hs, Hsil s (elem_of_list_further _ _ _ Hs)) n ({[text (Arr m t)]} ∪ visited)) as (visited' & -> & Hvis).
    + cbn [text] in Hn. rewrite !sapp_length in Hn. cbn [String.length] in Hn. lia.
    + apply (grow_visited t _ visited); [done|cbn [text]; rewrite ?sapp_length; cbn [String.length]; lia].
    + rewrite no_promote, andb_false_r by done. exists visited'. split; [done|]. intros s Hs. destruct (Hvis s Hs) as [H|H]; [|by right; right].
      rewrite elem_of_union, elem_of_singleton in H. destruct H as [-> | H]; [right; by left|by left].
  - assert (external_of e (text (Map k t)) = None) as -> by done. rewrite (parse_text _ Hok). cbn [to_ref]. rewrite map_parts_map by done. destruct Hok as [Hk Hok].
    destruct (Hsil (text t)) as (Hu1 & _ & Hr1 & _); [right; apply texts_head|]. cbn [shape]. unfold resolved. rewrite Hr1. rewrite (decide_True (P := "" = "")) by done.
    assert (∀ v', v' = {[text (Map k t)]} ∪ visited → ∀ s, s ∈ v' → s ∈ visited ∨ s ∈ texts (Map k t)) as Hset.
    { intros v' -> s. rewrite elem_of_union, elem_of_singleton. intros [-> | ?]; [right; apply texts_head|by left]. }
    destruct (decide (k = "string")) as [Ek|Ek]; [|eexists; split; [reflexivity|]; by apply Hset].
    destruct (IH Hok (λ s Hs, Hsil s (elem_of_list_further _ _ _ Hs)) n ({[text (Map k t)]} ∪ visited)) as (visited' & -> & Hvis).
    + cbn [text] in Hn. rewrite !sapp_length in Hn. cbn [String.length] in Hn. lia.
    + apply (grow_visited t _ visited); [done|cbn [text]; rewrite ?sapp_length; cbn [String.length]; lia].
    + rewrite no_promote, andb_false_r by done. exists visited'. split; [done|]. intros s Hs. destruct (Hvis s Hs) as [H|H]; [|by right; right]. by apply (Hset _ eq_refl).
Qed.

Lemma type_schema_shape e t : wtype_ok t → silent e t → type_schema e (text t) = Some (shape t).
Proof.
  intros H1 H2. unfold type_schema. destruct (map_type_shape e t H1 H2 (S (String.length (text t))) ∅) as (v' & -> & _); [lia| |done].
  intros s _ _. split; apply not_elem_of_empty.
Qed.
(** ** Fields *)
Lemma scalar_primitive : ∀ b, b ∈ scalars → is_primitive b = true ∧ is_basic b = true.
Proof. each_scalar; by vm_compute. Qed.
Lemma flat_can_ref t : wtype_ok t → flat t → match t with Ptr _ => False | _ => True end → can_ref (text t) = false.
Proof.
  intros Hok Hf Hp. destruct t as [b|t|t|n t|k t]; [..|]; unfold can_ref; cbn [text].
  - by destruct (scalar_primitive b Hok) as [-> _].
  - done.
  - change (has_prefix "[]" ("[]" +:+ text t)) with true. by rewrite orb_true_r.
  - destruct t as [b| | | |]; try done. destruct Hok as (_ & _ & Hok). destruct (scalar_primitive b Hok) as [_ Hb]. cbn [text].
    assert (is_primitive ("[" +:+ itoa_nat n +:+ "]" +:+ b) = true) as ->; [|done]. unfold is_primitive.
    change (trim_prefix "*" ("[" +:+ itoa_nat n +:+ "]" +:+ b)) with ("[" +:+ itoa_nat n +:+ "]" +:+ b).
    change (has_prefix "[" ("[" +:+ itoa_nat n +:+ "]" +:+ b)) with true. cbn [andb].
    assert (cut_close ("[" +:+ itoa_nat n +:+ "]" +:+ b) = Some ("[" +:+ itoa_nat n, b)) as ->.
    { unfold cut_close. assert (contains_byte "]" ("[" +:+ itoa_nat n +:+ "]" +:+ b) = true) as -> by (rewrite !contains_byte_app; change (contains_byte "]" "]") with true; by rewrite !orb_true_r).
      assert (take_until (λ c, bool_decide (c = "]"%char)) ("[" +:+ itoa_nat n +:+ "]" +:+ b) = "[" +:+ itoa_nat n) as ->.
      { rewrite take_until_app. change (str_any _ "[") with false. cbv iota. f_equal. rewrite take_until_app. change (str_any _ (itoa_nat n)) with (contains_byte "]" (itoa_nat n)).
        rewrite contains_itoa_nat by done. change (take_until _ ("]" +:+ b)) with "". by rewrite sapp_nil. }
      f_equal. f_equal. replace ("[" +:+ itoa_nat n +:+ "]" +:+ b) with (("[" +:+ itoa_nat n +:+ "]") +:+ b) by (by rewrite !sapp_assoc).
      replace (S (String.length ("[" +:+ itoa_nat n))) with (String.length ("[" +:+ itoa_nat n +:+ "]")); [apply str_drop_app|]. rewrite !sapp_length. cbn [String.length]. lia. }
    rewrite Hb, bool_decide_eq_true_2; [by rewrite !orb_true_r|]. rewrite sapp_length. cbn [String.length].
    assert (itoa_nat n ≠ "") as Hne. { intros E. pose proof (parse_nat_itoa_nat n) as Hq. by rewrite E in Hq. } destruct (itoa_nat n); [done|]. cbn [String.length]. lia.
  - assert (str_contains "map[" ("map[" +:+ k +:+ "]" +:+ text t) = true) as ->; [|by rewrite !orb_true_r]. apply str_contains_spec. by exists "", (k +:+ "]" +:+ text t).
Qed.
Lemma flat_never_ref t : wtype_ok t → flat t → ∀ s, s ∈ texts t → can_ref (trim_prefix "*" s) = false.
Proof.
  assert (∀ t, match t with Ptr _ => False | _ => True end → wtype_ok t → trim_prefix "*" (text t) = text t) as Hid.
  { intros u Hp Hok. unfold trim_prefix. destruct u as [b|u|u|n u|k u]; [..|]; try done. cbn [text]. by destruct (scalar_facts b Hok) as (_ & _ & _ & _ & _ & -> & _). }
  induction t as [b|t IH|t IH|n t IH|k t IH]; intros Hok Hf s; cbn [texts]; rewrite elem_of_cons; intros [-> | Hs].
  - rewrite Hid by done. by apply flat_can_ref.
  - by apply elem_of_nil in Hs.
  - change (trim_prefix "*" (text (Ptr t))) with (text t). by apply flat_can_ref; [|apply Hf..].
  - by apply IH; [|apply Hf|].
  - rewrite Hid by done. by apply flat_can_ref.
  - by apply IH.
  - rewrite Hid by done. by apply flat_can_ref.
  - destruct t; try done. apply IH; [apply Hok|done|done].
  - rewrite Hid by done. by apply flat_can_ref.
  - apply IH; [apply Hok|apply Hf|done].
Qed.
Lemma field_schemas_shape e ts : Forall (λ t, wtype_ok t ∧ silent e t ∧ flat t) ts → ∀ visited, field_schemas e visited (text <$> ts) = (λ t, Some (shape t)) <$> ts.
Proof.
  induction ts as [|t ts IH]; intros H visited; [done|]. apply Forall_cons in H as [(H1 & H2 & H3) H]. cbn [fmap list_fmap field_schemas].
  assert (∃ v', map_type e (S (String.length (text t))) visited (trim_prefix "*" (text t)) = (Some (shape t), v')) as (v' & ->); [|by rewrite IH].
  assert (∀ u, wtype_ok u → silent e u → flat u → String.length (text u) ≤ String.length (text t) → ∃ v', map_type e (S (String.length (text t))) visited (text u) = (Some (shape u), v')) as Hm.
  { intros u U1 U2 U3 U4. destruct (map_type_shape e u U1 U2 (S (String.length (text t))) visited) as (v' & E & _); [lia| |by exists v'].
    intros s Hs Hc. by rewrite (flat_never_ref u U1 U3 s Hs) in Hc. }
  destruct t as [b|t|t|n t|k t].
  - unfold trim_prefix. assert (has_prefix "*" (text (Scalar b)) = false) as -> by (cbn [text]; by destruct (scalar_facts b H1) as (_ & _ & _ & _ & _ & -> & _)). by apply Hm.
  - change (trim_prefix "*" (text (Ptr t))) with (text t). cbn [shape]. apply Hm; [done| |apply H3|].
    + intros s Hs. apply H2. by right.
    + cbn [text]. rewrite sapp_length. lia.
  - by apply (Hm (Slice t)).
  - by apply (Hm (Arr n t)).
  - by apply (Hm (Map k t)).
Qed.

(** ** Values *)
Section values.
  Context (has_format : string → string → Prop) (chars : string → Z) (range : string → Z → Prop) (key_text : string → string → Prop) (component : string → json → Prop).
  Notation encodes := (encodes has_format range key_text).
  Notation admits := (admits has_format chars component).
  Lemma scalar_sound : ∀ b, b ∈ scalars → ∀ v, encodes false (Scalar b) v → admits (shape (Scalar b)) v.
  Proof.
    assert (∀ b, b ∈ scalars → b ∉ ["any"; "interface{}"]) as Hany by (each_scalar; by apply (bool_decide_unpack _)).
    intros b Hb v [Ha|Hv]; [by destruct (Hany b Hb)|]. revert v Hv. pattern b. revert b Hb. each_scalar; intros [|?|z|r|str|l|l]; cbn -[elem_of]; intros H; try (by cbn in H); try done;
      repeat match goal with
      | H : _ ∨ _ |- _ => destruct H
      | H : _ ∧ _ |- _ => destruct H
      | H : ?a ∈ ?l |- _ => first [exfalso; revert H; by apply (bool_decide_unpack (_ ∉ _)) | clear H]
      end; try done; try (by left); try (by right); repeat split; try done.
  Qed.
  Lemma shape_sound t : wtype_ok t → ∀ v, encodes false t v → admits (shape t) v.
  Proof.
    induction t as [b|t IH|t IH|n t IH|k t IH]; intros Hok v; cbn [encodes wtype_ok shape] in *.
    - by apply scalar_sound.
    - intros [[? _]|H]; [done|by apply IH].
    - intros [[? _]|H]; [done|]. destruct (bytes_type t).
      + destruct H as (s & -> & H). cbn. by repeat split.
      + destruct H as (vs & -> & H). cbn. repeat split; try done. eapply Forall_impl; [exact H|]. by apply IH.
    - intros (vs & -> & Hl & H). destruct Hok as (_ & _ & Hok). cbn. rewrite Hl. repeat split; try lia. eapply Forall_impl; [exact H|]. by apply IH.
    - intros [[? _]|(kvs & -> & H)]; [done|]. destruct Hok as [_ Hok]. destruct (decide (k = "string")); cbn; (split; [done|]); [|done].
      eapply Forall_impl; [exact H|]. intros kv [_ Hkv]. by apply IH.
  Qed.
End values.
Section precise.
  Context (has_format : string → string → Prop) (chars : string → Z) (component : string → json → Prop).
  Notation encodes := (encodes has_format (λ _ _, True) (λ _ _, True)).
  Notation admits := (admits has_format chars component).
  Lemma scalar_precise : ∀ b, b ∈ scalars → ∀ v, admits (shape (Scalar b)) v → encodes false (Scalar b) v.
  Proof.
    intros b Hb. pattern b. revert b Hb. each_scalar; intros [|?|z|r|str|l|l]; match goal with |- context [shape (Scalar ?b)] => let s := eval vm_compute in (shape (Scalar b)) in change (shape (Scalar b)) with s end; cbn -[elem_of]; intros H; right; repeat match goal with H : _ ∨ _ |- _ => destruct H | H : _ ∧ _ |- _ => destruct H end; try done;
      first [by left|right; split; [done|match goal with H : _ → has_format _ _ |- _ => apply H; done end]|left; split; [by apply (bool_decide_unpack _)|done]|right; by apply (bool_decide_unpack _)|by apply (bool_decide_unpack _)].
  Qed.
  Lemma shape_precise t : wtype_ok t → sharp t → ∀ v, admits (shape t) v → encodes false t v.
  Proof.
    induction t as [b|t IH|t IH|n t IH|k t IH]; intros Hok Hs v; cbn [encodes wtype_ok shape sharp] in *.
    - by apply scalar_precise.
    - intros H. right. by apply IH.
    - intros H. right. destruct (bytes_type t).
      + destruct v; cbn in H; try (by destruct H); try done. eexists. split; [done|]. apply H. done.
      + destruct v; cbn in H; try (by destruct H); try done. eexists. split; [done|]. destruct H as (_ & _ & _ & H). eapply Forall_impl; [exact H|]. by apply IH.
    - intros H. destruct Hok as (_ & _ & Hok), Hs as [Hn Hs]. destruct v as [|?|z|r|str|l|l]; cbn in H; try (by destruct H); try done. destruct H as (_ & H1 & H2 & H3).
      exists l. split; [done|]. split; [|eapply Forall_impl; [exact H3|]; by apply IH]. specialize (H1 ltac:(lia)). specialize (H2 ltac:(lia)). lia.
    - destruct Hs as [-> Hs], Hok as [_ Hok]. rewrite decide_True by done. intros H. right. destruct v as [|?|z|r|str|l|l]; cbn in H; try (by destruct H); try done.
      exists l. split; [done|]. destruct H as [_ H]. eapply Forall_impl; [exact H|]. intros kv Hkv. split; [done|]. by apply IH.
  Qed.
End precise.
