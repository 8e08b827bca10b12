(** * JSON names of struct fields (internal/spec/mapper.go, internal/metadata/metadata.go). *)
From Coq Require Import Ascii.
From stdpp Require Import base list strings gmap.
From Verif Require Import StrLib StrSplit.

Definition dq : ascii := "034"%char.
(** The text before and after the first occurrence of [p]: the first two pieces of strings.Split,
    and strings.Cut. *)
Fixpoint cut (p s : string) : option (string * string) :=
  if has_prefix p s then Some ("", str_drop (String.length p) s)
  else match s with "" => None | String c s' => (λ '(a, b), (String c a, b)) <$> cut p s' end.

(** ** reflect.StructTag.Lookup (Go standard library, reflect/type.go) *)

(** Bytes of a key: above the space, not DEL, not a colon, not a double quote. *)
Definition key_byte (c : ascii) : bool :=
  bool_decide (32 < nat_of_ascii c) && negb (bool_decide (c ∈ [":"%char; dq; "127"%char])).
(** The text of a quoted value up to its closing quote, and what follows it. *)
Fixpoint quoted (s : string) : option (string * string) :=
  match s with
  | "" => None
  | String c s' =>
      if bool_decide (c = dq) then Some ("", s')
      else if bool_decide (c = "\"%char) then
        match s' with
        | "" => None
        | String d s'' => (λ '(a, b), (String c (String d a), b)) <$> quoted s''
        end
      else (λ '(a, b), (String c a, b)) <$> quoted s'
  end.
(** strconv.Unquote of a quoted value: a line break is an error, escapes are read by [unescape]. *)
Definition unquote (unescape : string → option string) (body : string) : option string :=
  if contains_byte "010"%char body then None
  else if contains_byte "\"%char body then unescape body else Some body.
Definition space : ascii := " "%char.
(** The loop; every turn consumes a byte, so the length of the tag bounds them. *)
Fixpoint lookup_tag (unescape : string → option string) (n : nat) (key tag : string) : option string :=
  match n with
  | 0 => None
  | S n =>
      let tag := trim_left space tag in
      let name := take_until (λ c, negb (key_byte c)) tag in
      if decide (name = "") then None
      else match str_drop (String.length name) tag with
           | String c (String d rest) =>
               if bool_decide (c = ":"%char) && bool_decide (d = dq) then
                 match quoted rest with
                 | Some (body, rest) => if decide (name = key) then unquote unescape body else lookup_tag unescape n key rest
                 | None => None
                 end
               else None
           | _ => None
           end
  end.
Definition tag_lookup (unescape : string → option string) (key tag : string) : option string :=
  lookup_tag unescape (S (String.length tag)) key tag.

(** ** The code *)

(** [jsonFieldOmitted] (mapper.go 1749-1752). *)
Definition json_omitted (unescape : string → option string) (tag : string) : bool := bool_decide (tag_lookup unescape "json" tag = Some "-").
(** [extractJSONName] (mapper.go 1754-1777). *)
Definition extract_json_name (tag : string) : string :=
  match cut "json:" tag with
  | None => ""
  | Some (_, rest) =>
      let part := match cut "json:" rest with Some (part, _) => part | None => rest end in
      let name := trim dq (take_until (λ c, bool_decide (c = space)) part) in
      let name := take_until (λ c, bool_decide (c = ","%char)) name in
      if bool_decide (name = "") || bool_decide (name = "-") then "" else name
  end.

(** [getFieldTag] (internal/metadata/helpers.go 103-116): the literal without its quotes; an
    absent tag is the empty text. *)
Definition backquote : ascii := "096"%char.
Definition field_tag (literal : string) : string :=
  let n := String.length literal in
  let within c := bool_decide (2 ≤ n) && bool_decide (String.get 0 literal = Some c) && bool_decide (String.get (n - 1) literal = Some c) in
  if within backquote || within dq then str_take (n - 2) (str_drop 1 literal) else literal.

(** An ast.Field: its names (none when embedded), its type and its tag literal. *)
Record afield := AField { af_names : list string; af_type : string; af_literal : string }.
(** [Field] (metadata/types.go). *)
Record field := Field { fl_name : string; fl_type : string; fl_tag : string }.
(** [processStructFields] (metadata.go 1045-1105): the fields and the embedded types. Nested
    types and the facts recorded on the way are left out. *)
Definition struct_fields (fs : list afield) : list field * list string :=
  (f ← fs; (λ n, Field n (af_type f) (field_tag (af_literal f))) <$> af_names f,
   af_type <$> filter (λ f, af_names f = []) fs).

(** The name a property gets (mapper.go 1466, 1500-1504). *)
Definition prop_name (f : field) : string := let n := extract_json_name (fl_tag f) in if decide (n = "") then fl_name f else n.
(** Whether a field gets a property (mapper.go 1470-1485); [exported] is ast.IsExported. *)
Definition documented (unescape : string → option string) (exported : string → bool) (f : field) : bool :=
  negb (json_omitted unescape (fl_tag f) || negb (exported (fl_name f))).
(** The properties of the schema of a struct: the loop of [generateStructSchema] (mapper.go
    1464-1591), the schema of each field being a parameter. The embedded types are not read. *)
Definition properties {S} (unescape : string → option string) (exported : string → bool) (schema : field → S) (fs : list afield) : gmap string S :=
  foldl (λ m f, if documented unescape exported f then <[prop_name f := schema f]> m else m) ∅ (struct_fields fs).1.
