(** * C59: the schema of a type accepts what encoding/json writes. *)
From Coq Require Import Ascii.
From stdpp Require Import base numbers list strings gmap.
From Verif Require Import StrLib DecLib WireModel WireSpec WireProofs.

(** Full statement: for every Go type, the schema accepts the JSON of every value and nothing else. Proved
    for the types of [wtype_ok] that configuration and declarations say nothing about. Missing: nil, arrays
    of byte, any, declared types; see the refutations. *)
Theorem C59_sound_partial has_format chars range key_text component e t : wtype_ok t → silent e t →
  ∃ s, type_schema e (text t) = Some s ∧ ∀ v, encodes has_format range key_text false t v → admits has_format chars component s v.
Proof. intros H1 H2. exists (shape t). split; [by apply type_schema_shape|]. by apply shape_sound. Qed.

(** The converse, if map keys are strings, no array is empty and the ranges of integers are not counted. *)
Theorem C59_precise_partial has_format chars component e t : wtype_ok t → sharp t → silent e t →
  ∃ s, type_schema e (text t) = Some s ∧ ∀ v, admits has_format chars component s v → encodes has_format (λ _ _, True) (λ _ _, True) false t v.
Proof. intros H1 H2 H3. exists (shape t). split; [by apply type_schema_shape|]. by apply shape_precise. Qed.

(** The same for each field of a struct, whatever fields stand before it, if the types are [flat]. *)
Theorem C59_fields_partial has_format chars range key_text component e ts visited i t : Forall (λ t, wtype_ok t ∧ silent e t ∧ flat t) ts → ts !! i = Some t →
  ∃ s, field_schemas e visited (text <$> ts) !! i = Some (Some s)
    ∧ (∀ v, encodes has_format range key_text false t v → admits has_format chars component s v)
    ∧ (sharp t → ∀ v, admits has_format chars component s v → encodes has_format (λ _ _, True) (λ _ _, True) false t v).
Proof.
  intros H Hi. exists (shape t). rewrite field_schemas_shape by done. rewrite list_lookup_fmap, Hi. split; [done|].
  rewrite Forall_forall in H. destruct (H t) as (H1 & _); [by eapply elem_of_list_lookup_2|]. split; [by apply shape_sound|]. intros Hs. by apply shape_precise.
Qed.

(** A type that says nothing. *)
Definition quiet : env := Env (λ _, None) (λ _, None) (λ _, "") (λ _, None) (λ _, None).
Lemma quiet_silent t : silent quiet t.
Proof. by intros s _. Qed.
Example C59_sound_case : let t := Map "string" (Slice (Ptr (Arr 3 (Scalar "float64")))) in
  text t = "map[string][]*[3]float64" ∧ wtype_ok t ∧ sharp t ∧ silent quiet t ∧
  encodes (λ _ _, True) go_range (λ _ _, True) false t (JObj [("a", JArr [JArr [JInt 1; JReal "2.5"; JInt 3]])]).
Proof.
  split; [done|]. split. { repeat split; first [by apply (bool_decide_unpack _)|done|by apply Z.leb_le]. } split; [by repeat split|]. split; [apply quiet_silent|].
  right. eexists. split; [done|]. apply Forall_singleton. split; [done|]. right. eexists. split; [done|]. apply Forall_singleton. right. eexists. split; [done|]. split; [done|].
  assert ("float64" ∈ float_names) as Hf by (by apply (bool_decide_unpack _)).
  repeat (apply Forall_cons; split); [right; by right|by right|right; by right|by apply Forall_nil_2].
Qed.
Example C59_fields_case : let ts := [Slice (Scalar "string"); Ptr (Arr 2 (Scalar "int")); Map "string" (Scalar "time.Time"); Slice (Scalar "string")] in
  Forall (λ t, wtype_ok t ∧ silent quiet t ∧ flat t) ts ∧ text <$> ts = ["[]string"; "*[2]int"; "map[string]time.Time"; "[]string"].
Proof.
  split; [|done]. repeat (apply Forall_cons; split); [..|by apply Forall_nil_2]; (split; [|split; [apply quiet_silent|by repeat split]]); repeat split; first [by apply (bool_decide_unpack _)|done|by apply Z.leb_le].
Qed.

(** nil is written as null, and no schema of these types accepts null. *)
Theorem C59_null_never_admitted has_format chars component e t : wtype_ok t → silent e t →
  ∃ s, type_schema e (text t) = Some s ∧ ¬ admits has_format chars component s JNull.
Proof.
  intros H1 H2. exists (shape t). split; [by apply type_schema_shape|]. assert (w_ref (shape t) = "") as H by (by apply shape_kind).
  destruct (shape t). cbn in *. subst. by intros Hx.
Qed.
Theorem C59_nil_refuted has_format chars range key_text component : ∃ t, wtype_ok t ∧ silent quiet t ∧ encodes has_format range key_text true t JNull ∧
  ∃ s, type_schema quiet (text t) = Some s ∧ ¬ admits has_format chars component s JNull.
Proof.
  exists (Slice (Scalar "string")). split; [by apply (bool_decide_unpack _)|]. split; [apply quiet_silent|]. split; [by left|].
  apply C59_null_never_admitted; [by apply (bool_decide_unpack _)|apply quiet_silent].
Qed.
(** An array of byte is documented as base64 text; json writes an array of numbers. *)
Theorem C59_byte_array_refuted has_format chars key_text component : ∃ t v, encodes has_format go_range key_text false t v ∧ text t = "[2]byte" ∧
  ∃ s, type_schema quiet (text t) = Some s ∧ ¬ admits has_format chars component s v.
Proof.
  exists (Arr 2 (Scalar "byte")), (JArr [JInt 1; JInt 255]). split; [|split; [done|]].
  - eexists. split; [done|]. split; [done|]. repeat (apply Forall_cons; split); [..|by apply Forall_nil_2]; (right; left; split; [by apply (bool_decide_unpack _)|done]).
  - eexists. split; [by vm_compute|]. cbn. by intros (? & _).
Qed.
(** any is documented as an object; json writes what it holds. *)
Theorem C59_any_refuted has_format chars range key_text component : ∃ t v, encodes has_format range key_text false t v ∧ text t = "any" ∧
  ∃ s, type_schema quiet (text t) = Some s ∧ ¬ admits has_format chars component s v.
Proof.
  exists (Scalar "any"), (JInt 1). split; [left; by apply (bool_decide_unpack _)|]. split; [done|]. eexists. split; [by vm_compute|]. cbn. by intros [|].
Qed.
(** Integer ranges are not documented: a uint8 may be -1. *)
Theorem C59_range_refuted has_format chars key_text component : ∃ t v, wtype_ok t ∧ sharp t ∧ silent quiet t ∧ ¬ encodes has_format go_range key_text false t v ∧
  ∃ s, type_schema quiet (text t) = Some s ∧ admits has_format chars component s v.
Proof.
  exists (Scalar "uint8"), (JInt (-1)). split; [by apply (bool_decide_unpack _)|]. split; [done|]. split; [apply quiet_silent|]. split.
  - intros [H|[[_ H]|H]]; [revert H; by apply (bool_decide_unpack (_ ∉ _))| |revert H; by apply (bool_decide_unpack (_ ∉ _))]. vm_compute in H. by destruct H as [H _].
  - eexists. split; [by vm_compute|]. by left.
Qed.
(** The length of an empty array, and the values of a map whose keys are not strings, are not documented. *)
Theorem C59_empty_array_refuted has_format chars range key_text component : ∃ t v, wtype_ok t ∧ silent quiet t ∧ ¬ encodes has_format range key_text false t v ∧ text t = "[0]int" ∧
  ∃ s, type_schema quiet (text t) = Some s ∧ admits has_format chars component s v.
Proof.
  exists (Arr 0 (Scalar "int")), (JArr [JInt 5]). split. { split; [by apply Z.leb_le|]. split; [done|]. by apply (bool_decide_unpack _). } split; [apply quiet_silent|]. split.
  - by intros (vs & E & Hl & _); injection E as <-.
  - split; [done|]. eexists. split; [by vm_compute|]. cbn. repeat split; try done. apply Forall_singleton. by left.
Qed.
Theorem C59_int_keys_refuted has_format chars range key_text component : ∃ t v, wtype_ok t ∧ silent quiet t ∧ ¬ encodes has_format range key_text false t v ∧ text t = "map[int]string" ∧
  ∃ s, type_schema quiet (text t) = Some s ∧ admits has_format chars component s v.
Proof.
  exists (Map "int" (Scalar "string")), (JObj [("1", JBool true)]). split; [split; by apply (bool_decide_unpack _)|]. split; [apply quiet_silent|]. split.
  - intros [[? _]|(kvs & E & H)]; [done|]. injection E as <-. apply Forall_inv in H as [_ [H|H]]; [revert H; by apply (bool_decide_unpack (_ ∉ _))|done].
  - split; [done|]. eexists. split; [by vm_compute|]. done.
Qed.
(** A second field of the type of an earlier one, an array of slices: a reference, though no component of
    that name is made ([promote] is false of the first). *)
Theorem C59_fields_refuted : ∃ t, wtype_ok t ∧ silent quiet t ∧ ∃ s, field_schemas quiet ∅ [text t; text t] = [Some s; Some (ref_to (text t))] ∧ promote (text t) (Some s) = false ∧ w_ref (ref_to (text t)) = "#/components/schemas/_2_int".
Proof.
  exists (Arr 2 (Slice (Scalar "int"))). split. { split; [by apply Z.leb_le|]. split; [done|]. by apply (bool_decide_unpack _). } split; [apply quiet_silent|].
  eexists. split; [by vm_compute|]. by vm_compute.
Qed.

Print Assumptions C59_sound_partial.
Print Assumptions C59_precise_partial.
Print Assumptions C59_fields_partial.
Print Assumptions C59_null_never_admitted.
Print Assumptions C59_nil_refuted.
Print Assumptions C59_byte_array_refuted.
Print Assumptions C59_any_refuted.
Print Assumptions C59_range_refuted.
Print Assumptions C59_empty_array_refuted.
Print Assumptions C59_int_keys_refuted.
Print Assumptions C59_fields_refuted.
