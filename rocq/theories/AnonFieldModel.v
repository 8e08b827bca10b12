(** * Anonymous structs written out as text (internal/spec/mapper.go). *)
From Coq Require Import Ascii ZArith.
From stdpp Require Import base numbers list strings gmap.
From Verif Require Import StrLib StrSplit PathModel ScanModel FieldModel.

(** The loop of parseAnonField (mapper.go 3397-3424): the text before the first double quote at depth 0, and the text from it on. The quoted strings at
    other depths are skipped. *)
Fixpoint tag_at (st : scan) (s : string) : option (string * string) :=
  match s with
  | "" => None
  | String c s' =>
      if bool_decide (sc_quote st = None) && bool_decide (sc_depth st = 0%Z) && bool_decide (c = quote_mark) then Some ("", s)
      else (λ '(a, b), (String c a, b)) <$> tag_at (scan_step "000"%char st c).1 s'
  end.
(** parseAnonField (mapper.go 3391-3431): name, type and tag; none for an embedded field. [unquote] is strconv.Unquote. *)
Definition parse_anon_field (unquote : string → option string) (text : string) : option field :=
  let text := trim_space text in
  if decide (text = "") then None
  else
    let '(text, tag) := match tag_at (Scan 0 None) text with Some (a, q) => (trim_space a, default "" (unquote q)) | None => (text, "") end in
    match cut " " text with
    | None => None
    | Some (name, rest) => Some (Field name (trim_space rest) tag)
    end.
(** The fields of a text (mapper.go 3271-3282). *)
Definition anon_fields (unquote : string → option string) (text : string) : option (list field) :=
  (λ body, omap (parse_anon_field unquote) (split_top_level ";" body)) <$> anon_struct_body text.
(** schemaFromAnonStructLiteral (mapper.go 3268-3303): the properties. [schema] is mapGoTypeToOpenAPISchema (C59) of the type of a field, here a function of
    the text only; [unescape] and [exported] as in C60. The schemas found on the way are left out. *)
Definition anon_properties {S} (unquote unescape : string → option string) (exported : string → bool) (schema : string → S) (text : string) : option (gmap string S) :=
  (λ fs, foldl (λ m f, if documented unescape exported f then <[prop_name f := schema (fl_type f)]> m else m) ∅ fs) <$> anon_fields unquote text.
