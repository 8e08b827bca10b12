(** * What encoding/json writes for a value of a Go type, and what a schema accepts: specification for C59. *)
From Coq Require Import Ascii.
From stdpp Require Import base numbers list strings gmap.
From Verif Require Import StrLib DecLib WireModel.

(** Types without a declared name. *)
Inductive wtype := Scalar (b : string) | Ptr (t : wtype) | Slice (t : wtype) | Arr (n : nat) (t : wtype) | Map (k : string) (t : wtype).
(** The text go/types writes. *)
Fixpoint text (t : wtype) : string :=
  match t with
  | Scalar b => b
  | Ptr t => "*" +:+ text t
  | Slice t => "[]" +:+ text t
  | Arr n t => "[" +:+ itoa_nat n +:+ "]" +:+ text t
  | Map k t => "map[" +:+ k +:+ "]" +:+ text t
  end.
Definition signed_names : list string := ["int"; "int8"; "int16"; "int32"; "int64"; "rune"].
Definition unsigned_names : list string := ["uint"; "uint8"; "uint16"; "uint32"; "uint64"; "byte"].
Definition float_names : list string := ["float32"; "float64"].
Definition scalars : list string := "string" :: "bool" :: "time.Time" :: signed_names ++ unsigned_names ++ float_names.
Definition key_names : list string := "string" :: signed_names ++ unsigned_names.
(** Types over these scalars; no array of byte. *)
Fixpoint wtype_ok (t : wtype) : Prop :=
  match t with
  | Scalar b => b ∈ scalars
  | Ptr t | Slice t => wtype_ok t
  | Arr n t => (Z.of_nat n ≤ 9223372036854775807)%Z ∧ t ≠ Scalar "byte" ∧ wtype_ok t
  | Map k t => k ∈ key_names ∧ wtype_ok t
  end.
(** The types a type is made of, as text. *)
Fixpoint texts (t : wtype) : list string :=
  text t :: match t with Scalar _ => [] | Ptr t | Slice t | Arr _ t | Map _ t => texts t end.
(** Configuration, used types and declared aliases say nothing of these texts. *)
Definition silent (e : env) (t : wtype) : Prop :=
  ∀ s, s ∈ texts t → e_used e s = None ∧ e_mapping e s = None ∧ e_resolve e s = "" ∧ e_external e s = None.

(** JSON. A number is whole, or has a fraction or an exponent and then its text is left open. *)
Inductive json := JNull | JBool (b : bool) | JInt (z : Z) | JReal (s : string) | JStr (s : string) | JArr (l : list json) | JObj (l : list (string * json)).

Section spec.
  (** The strings of a format, the characters of a string, the numbers of an integer type, the key texts
      of a key type, and what other components accept. *)
  Context (has_format : string → string → Prop) (chars : string → Z) (range : string → Z → Prop) (key_text : string → string → Prop) (component : string → json → Prop).

  Definition bytes_type (t : wtype) : bool := match t with Scalar b => bool_decide (b = "byte" ∨ b = "uint8") | _ => false end.
  (** encoding/json; [nil] says whether pointers, slices and maps may be nil. *)
  Fixpoint encodes (nil : bool) (t : wtype) (v : json) : Prop :=
    match t with
    | Scalar b =>
        b ∈ ["any"; "interface{}"] ∨
        match v with
        | JStr s => b = "string" ∨ (b = "time.Time" ∧ has_format "date-time" s)
        | JInt z => (b ∈ signed_names ++ unsigned_names ∧ range b z) ∨ b ∈ float_names
        | JReal _ => b ∈ float_names
        | JBool _ => b = "bool"
        | _ => False
        end
    | Ptr t => (nil = true ∧ v = JNull) ∨ encodes nil t v
    | Slice t => (nil = true ∧ v = JNull) ∨
        if bytes_type t then ∃ s, v = JStr s ∧ has_format "byte" s else ∃ vs, v = JArr vs ∧ Forall (encodes nil t) vs
    | Arr n t => ∃ vs, v = JArr vs ∧ length vs = n ∧ Forall (encodes nil t) vs
    | Map k t => (nil = true ∧ v = JNull) ∨ ∃ kvs, v = JObj kvs ∧ Forall (λ kv, key_text k kv.1 ∧ encodes nil t kv.2) kvs
    end.
  (** JSON Schema on the document as written: a zero bound is not there. *)
  Fixpoint admits (s : wschema) (v : json) {struct s} : Prop :=
    let '(WS r ty f ml ni xi i a) := s in
    match r with
    | "" =>
      match v with
      | JNull => False
      | JBool _ => ty = "boolean"
      | JInt _ => ty = "integer" ∨ ty = "number"
      | JReal _ => ty = "number"
      | JStr t => ty = "string" ∧ (f ≠ "" → has_format f t) ∧ (ml ≠ 0 → chars t ≤ ml)%Z
      | JArr vs => ty = "array" ∧ (ni ≠ 0 → ni ≤ Z.of_nat (length vs))%Z ∧ (xi ≠ 0 → Z.of_nat (length vs) ≤ xi)%Z ∧ match i with Some i => Forall (admits i) vs | None => True end
      | JObj kvs => ty = "object" ∧ match a with Some a => Forall (λ kv, admits a kv.2) kvs | None => True end
      end
    | _ => component r v
    end.
End spec.
(** Types whose schema says all there is: keys are strings, no array is empty. *)
Fixpoint sharp (t : wtype) : Prop :=
  match t with Scalar _ => True | Ptr t | Slice t => sharp t | Arr n t => n ≠ 0 ∧ sharp t | Map k t => k = "string" ∧ sharp t end.
(** Types for which the order of the fields of a struct does not matter: no array of anything but a
    scalar, no pointer to a pointer. *)
Fixpoint flat (t : wtype) : Prop :=
  match t with
  | Scalar _ => True
  | Ptr t => flat t ∧ match t with Ptr _ => False | _ => True end
  | Slice t | Map _ t => flat t
  | Arr _ t => match t with Scalar _ => True | _ => False end
  end.
(** The numbers of an integer type on a 64-bit machine. *)
Definition go_range (b : string) (z : Z) : Prop :=
  (if decide (b = "int8") then -2^7 ≤ z < 2^7 else if decide (b = "int16") then -2^15 ≤ z < 2^15
   else if decide (b = "int32" ∨ b = "rune") then -2^31 ≤ z < 2^31 else if decide (b = "int" ∨ b = "int64") then -2^63 ≤ z < 2^63
   else if decide (b = "uint8" ∨ b = "byte") then 0 ≤ z < 2^8 else if decide (b = "uint16") then 0 ≤ z < 2^16
   else if decide (b = "uint32") then 0 ≤ z < 2^32 else 0 ≤ z < 2^64)%Z.
