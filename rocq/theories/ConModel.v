(** * Validation rules of struct tags as constraints of the schema (internal/spec/mapper.go). *)
From Coq Require Import Ascii.
From stdpp Require Import base numbers list strings.
From Verif Require Import StrLib StrSplit StrSub DecLib PathModel ScanModel TypeModel FieldModel.

(** [ValidationConstraints] (mapper.go 2086-2101). Simplified: a number is an integer; the rounding of
    float64 and fractions in the min: and max: keys are left out. *)
Inductive constraints := Constraints {
  c_min_length : option Z; c_max_length : option Z; c_min : option Z; c_max : option Z;
  c_dive : option constraints; c_format : string; c_pattern : string; c_enum : list string; c_required : bool }.
(** The zero value (mapper.go 2122), with what dive left. *)
Definition only_dive (dive : option constraints) : constraints := Constraints None None None None dive "" "" [] false.

(** ** Finding the rules in the tag *)

(** The value after the equals sign, (?:[^,{}]|{[^}]*})* in the expression of mapper.go 2147: up to a
    comma or a brace, a closed pair of braces included whole. *)
Fixpoint scan_value (brace : bool) (s : string) : string * string :=
  match s with
  | "" => ("", "")
  | String c r =>
      if brace then let '(v, t) := scan_value (negb (bool_decide (c = "}"%char))) r in (String c v, t)
      else if bool_decide (c = ","%char) || bool_decide (c = "}"%char) then ("", s)
      else if bool_decide (c = "{"%char) then
        if contains_byte "}" r then let '(v, t) := scan_value true r in (String c v, t) else ("", s)
      else let '(v, t) := scan_value false r in (String c v, t)
  end.
(** FindAllStringSubmatch with that expression (mapper.go 2147): a name, with a value if an equals sign
    follows; other bytes are passed over. Every turn consumes a byte, so the length bounds the turns. *)
Fixpoint scan_rules (n : nat) (s : string) : list string :=
  match n with
  | 0 => []
  | S n =>
      match s with
      | "" => []
      | String c r =>
          if ident_start c then
            let name := take_until (λ c, negb (ident_char c)) s in
            match str_drop (String.length name) s with
            | String e rest =>
                if decide (e = "="%char) then let '(v, t) := scan_value false rest in (name +:+ String "=" v) :: scan_rules n t
                else name :: scan_rules n (String e rest)
            | "" => [name]
            end
          else scan_rules n r
      end
  end.

(** ** Reading a rule *)

(** mapper.go 2187-2195: the rules that set a format. *)
Definition rule_formats : list (string * string) := [("email", "email"); ("url", "uri"); ("uuid", "uuid")].
(** mapper.go 2196-2348: the rules that set a pattern. *)
Definition rule_patterns : list (string * string) :=
  [("alpha", "^[a-zA-Z]+$");
   ("alphanum", "^[a-zA-Z0-9]+$");
   ("numeric", "^[0-9]+$");
   ("alphaunicode", "^\p{L}+$");
   ("alphanumunicode", "^[\p{L}\p{N}]+$");
   ("hexadecimal", "^[0-9a-fA-F]+$");
   ("hexcolor", "^#([0-9a-fA-F]{3}|[0-9a-fA-F]{6})$");
   ("rgb", "^rgb\(\s*([0-9]{1,3})\s*,\s*([0-9]{1,3})\s*,\s*([0-9]{1,3})\s*\)$");
   ("rgba", "^rgba\(\s*([0-9]{1,3})\s*,\s*([0-9]{1,3})\s*,\s*([0-9]{1,3})\s*,\s*([0-9]*(?:\.[0-9]+)?)\s*\)$");
   ("hsl", "^hsl\(\s*([0-9]{1,3})\s*,\s*([0-9]{1,3})%\s*,\s*([0-9]{1,3})%\s*\)$");
   ("hsla", "^hsla\(\s*([0-9]{1,3})\s*,\s*([0-9]{1,3})%\s*,\s*([0-9]{1,3})%\s*,\s*([0-9]*(?:\.[0-9]+)?)\s*\)$");
   ("json", "^[\s\S]*$");
   ("base64", "^[A-Za-z0-9+/]*={0,2}$");
   ("base64url", "^[A-Za-z0-9_-]*$");
   ("datetime", "^\d{4}-\d{2}-\d{2}T\d{2}:\d{2}:\d{2}(\.\d+)?(Z|[+-]\d{2}:\d{2})$");
   ("date", "^\d{4}-\d{2}-\d{2}$");
   ("time", "^\d{2}:\d{2}:\d{2}$");
   ("ip", "^(?:(?:25[0-5]|2[0-4][0-9]|[01]?[0-9][0-9]?)\.){3}(?:25[0-5]|2[0-4][0-9]|[01]?[0-9][0-9]?)$");
   ("ipv4", "^(?:(?:25[0-5]|2[0-4][0-9]|[01]?[0-9][0-9]?)\.){3}(?:25[0-5]|2[0-4][0-9]|[01]?[0-9][0-9]?)$");
   ("ipv6", "^(?:[0-9a-fA-F]{1,4}:){7}[0-9a-fA-F]{1,4}$");
   ("cidr", "^(?:(?:25[0-5]|2[0-4][0-9]|[01]?[0-9][0-9]?)\.){3}(?:25[0-5]|2[0-4][0-9]|[01]?[0-9][0-9]?)\/(?:[0-9]|[1-2][0-9]|3[0-2])$");
   ("cidrv4", "^(?:(?:25[0-5]|2[0-4][0-9]|[01]?[0-9][0-9]?)\.){3}(?:25[0-5]|2[0-4][0-9]|[01]?[0-9][0-9]?)\/(?:[0-9]|[1-2][0-9]|3[0-2])$");
   ("cidrv6", "^(?:[0-9a-fA-F]{1,4}:){7}[0-9a-fA-F]{1,4}\/(?:[0-9]|[1-9][0-9]|1[0-2][0-8])$");
   ("tcp_addr", "^[a-zA-Z0-9.-]+:\d+$");
   ("tcp4_addr", "^(?:(?:25[0-5]|2[0-4][0-9]|[01]?[0-9][0-9]?)\.){3}(?:25[0-5]|2[0-4][0-9]|[01]?[0-9][0-9]?):\d+$");
   ("tcp6_addr", "^\[(?:[0-9a-fA-F]{1,4}:){7}[0-9a-fA-F]{1,4}\]:\d+$");
   ("udp_addr", "^[a-zA-Z0-9.-]+:\d+$");
   ("udp4_addr", "^(?:(?:25[0-5]|2[0-4][0-9]|[01]?[0-9][0-9]?)\.){3}(?:25[0-5]|2[0-4][0-9]|[01]?[0-9][0-9]?):\d+$");
   ("udp6_addr", "^\[(?:[0-9a-fA-F]{1,4}:){7}[0-9a-fA-F]{1,4}\]:\d+$");
   ("unix_addr", "^[a-zA-Z0-9._/-]+$");
   ("mac", "^([0-9A-Fa-f]{2}[:-]){5}([0-9A-Fa-f]{2})$");
   ("hostname", "^[a-zA-Z0-9]([a-zA-Z0-9-]{0,61}[a-zA-Z0-9])?(\.[a-zA-Z0-9]([a-zA-Z0-9-]{0,61}[a-zA-Z0-9])?)*$");
   ("fqdn", "^[a-zA-Z0-9]([a-zA-Z0-9-]{0,61}[a-zA-Z0-9])?(\.[a-zA-Z0-9]([a-zA-Z0-9-]{0,61}[a-zA-Z0-9])?)*\.$");
   ("isbn", "^(?:ISBN(?:-1[03])?:? )?(?=[0-9X]{10}$|(?=(?:[0-9]+[- ]){3})[- 0-9X]{13}$|97[89][0-9]{10}$|(?=(?:[0-9]+[- ]){4})[- 0-9]{17}$)(?:97[89][- ]?)?[0-9]{1,5}[- ]?[0-9]+[- ]?[0-9]+[- ]?[0-9X]$");
   ("isbn10", "^(?:ISBN(?:-10)?:? )?(?=[0-9X]{10}$|(?=(?:[0-9]+[- ]){3})[- 0-9X]{13}$)[0-9]{1,5}[- ]?[0-9]+[- ]?[0-9]+[- ]?[0-9X]$");
   ("isbn13", "^(?:ISBN(?:-13)?:? )?(?=[0-9]{13}$|(?=(?:[0-9]+[- ]){4})[- 0-9]{17}$)97[89][- ]?[0-9]{1,5}[- ]?[0-9]+[- ]?[0-9]+[- ]?[0-9]$");
   ("issn", "^[0-9]{4}-[0-9]{3}[0-9X]$");
   ("uuid3", "^[0-9a-f]{8}-[0-9a-f]{4}-3[0-9a-f]{3}-[0-9a-f]{4}-[0-9a-f]{12}$");
   ("uuid4", "^[0-9a-f]{8}-[0-9a-f]{4}-4[0-9a-f]{3}-[89ab][0-9a-f]{3}-[0-9a-f]{12}$");
   ("uuid5", "^[0-9a-f]{8}-[0-9a-f]{4}-5[0-9a-f]{3}-[89ab][0-9a-f]{3}-[0-9a-f]{12}$");
   ("ulid", "^[0-9A-HJKMNP-TV-Z]{26}$");
   ("ascii", "^[\x00-\x7F]*$");
   ("printascii", "^[\x20-\x7E]*$");
   ("multibyte", "^[\x00-\x7F]*$");
   ("datauri", "^data:([a-z]+\/[a-z0-9\-\+]+(;[a-z0-9\-\+]+\=[a-z0-9\-\+]+)?)?(;base64)?,([a-z0-9\!\$\&\'\(\)\*\+\,\;\=\-\.\_\~\:\@\/\?\%\s]*)$");
   ("latitude", "^[-+]?([1-8]?\d(\.\d+)?|90(\.0+)?)$");
   ("longitude", "^[-+]?(180(\.0+)?|((1[0-7]\d)|([1-9]?\d))(\.\d+)?)$");
   ("ssn", "^\d{3}-?\d{2}-?\d{4}$");
   ("credit_card", "^(?:4[0-9]{12}(?:[0-9]{3})?|5[1-5][0-9]{14}|3[47][0-9]{13}|3[0-9]{13}|6(?:011|5[0-9]{2})[0-9]{12})$");
   ("mongodb", "^[0-9a-fA-F]{24}$");
   ("cron", "^(\*|([0-5]?\d)) (\*|([01]?\d|2[0-3])) (\*|([012]?\d|3[01])) (\*|([0]?\d|1[0-2])) (\*|([0-6]))$")].
(** The first row with the name: the chain of else-ifs (mapper.go 2187-2348). *)
Fixpoint table (k : string) (l : list (string * string)) : option string :=
  match l with [] => None | (k', v) :: l => if decide (k = k') then Some v else table k l end.
(** strconv.Atoi with its range (mapper.go 2153, 2158, 2164, 2170, 2175). *)
Definition atoi64 (s : string) : option Z :=
  match atoi_opt s with
  | Some z => if decide (-9223372036854775808 <= z <= 9223372036854775807)%Z then Some z else None
  | None => None
  end.
(** mapper.go 2148-2350: one rule. Simplified: TrimSpace on ASCII white space. *)
Definition add_rule (c : constraints) (rule : string) : constraints :=
  let rule := trim_space rule in
  let '(Constraints nl xl n x d f p e r) := c in
  if decide (rule = "required") then Constraints nl xl n x d f p e true
  else if has_prefix "min=" rule then match atoi64 (str_drop 4 rule) with Some v => Constraints nl xl (Some v) x d f p e r | None => c end
  else if has_prefix "max=" rule then match atoi64 (str_drop 4 rule) with Some v => Constraints nl xl n (Some v) d f p e r | None => c end
  else if has_prefix "len=" rule then match atoi64 (str_drop 4 rule) with Some v => Constraints (Some v) (Some v) n x d f p e r | None => c end
  else if has_prefix "minlen=" rule then match atoi64 (str_drop 7 rule) with Some v => Constraints (Some v) xl n x d f p e r | None => c end
  else if has_prefix "maxlen=" rule then match atoi64 (str_drop 7 rule) with Some v => Constraints nl (Some v) n x d f p e r | None => c end
  else if has_prefix "regexp=" rule then Constraints nl xl n x d f (str_drop 7 rule) e r
  else if has_prefix "oneof=" rule then Constraints nl xl n x d f p (e ++ (trim_space <$> split_byte " " (str_drop 6 rule))) r
  else match table rule rule_formats with
       | Some fmt => Constraints nl xl n x d fmt p e r
       | None => match table rule rule_patterns with Some pat => Constraints nl xl n x d f pat e r | None => c end
       end.

(** ** The tag *)

(** parts[1] of strings.Split(tag, key), if the tag contains the key (mapper.go 2125-2128, 2354-2356). *)
Definition after_key (key tag : string) : option string :=
  match cut key tag with
  | None => None
  | Some (_, rest) => Some (match cut key rest with Some (part, _) => part | None => rest end)
  end.
(** strings.Split(s, space)[0] (mapper.go 2357). *)
Definition first_word (s : string) : string := take_until (λ c, bool_decide (c = " "%char)) s.
(** mapper.go 2353-2391: the keys min:, max:, regexp: and enum:. [parse_float] is strconv.ParseFloat. *)
Definition add_keys (parse_float : string → option Z) (tag : string) (c : constraints) : constraints :=
  let '(Constraints nl xl n x d f p e r) := c in
  let value key := (λ part, trim dq (first_word part)) <$> after_key key tag in
  let n := match value "min:" with Some v => match parse_float v with Some z => Some z | None => n end | None => n end in
  let x := match value "max:" with Some v => match parse_float v with Some z => Some z | None => x end | None => x end in
  let p := default p (value "regexp:") in
  let e := match value "enum:" with Some v => e ++ (trim_space <$> split_byte "," v) | None => e end in
  Constraints nl xl n x d f p e r.
(** mapper.go 2396-2402: nothing found. *)
Definition is_empty (c : constraints) : bool :=
  match c with Constraints None None None None None "" "" [] false => true | _ => false end.
(** The text in front of the rules after dive (mapper.go 2137). *)
Definition validate_prefix : string := "validate:" +:+ String dq "".
(** [extractValidationConstraints] (mapper.go 2117-2406). The rules after dive are shorter than the tag,
    so its length bounds the recursion. *)
Fixpoint extract (parse_float : string → option Z) (n : nat) (tag : string) : option constraints :=
  match n with
  | 0 => None
  | S n =>
      if decide (tag = "") then None
      else
        let c :=
          match after_key "validate:" tag with
          | None => only_dive None
          | Some part =>
              let '(before, after, found) := split_on_dive (trim dq part) in
              let inner := trim_any ", " after in
              let dive := if found && bool_decide (inner ≠ "") then extract parse_float n (validate_prefix +:+ inner +:+ String dq "") else None in
              foldl add_rule (only_dive dive) (scan_rules (String.length before) before)
          end in
        let c := add_keys parse_float tag c in
        if is_empty c then None else Some c
  end.
(** [extractValidationConstraints] with enough fuel. *)
Definition extract_constraints (parse_float : string → option Z) (tag : string) : option constraints := extract parse_float (S (String.length tag)) tag.

(** ** The schema *)

(** [Schema] (openapi.go 142-178): the fields that constraints touch. A zero number is not written. *)
Inductive schema := Schema {
  s_type : string; s_format : string; s_pattern : string; s_min_length : Z; s_max_length : Z; s_minimum : Z; s_maximum : Z;
  s_min_items : Z; s_max_items : Z; s_enum : list string; s_items : option schema; s_additional : option schema }.
(** Setting Enum (mapper.go 2487-2494). *)
Definition with_enum (e : list string) (s : schema) : schema :=
  let '(Schema ty f p nl xl n x ni xi _ i a) := s in Schema ty f p nl xl n x ni xi e i a.
(** [applyValidationConstraints] (mapper.go 2409-2496). An array schema without items, which the mapper
    never makes, would be a nil dereference in the enum case; here it is left as it is. *)
Fixpoint apply_constraints (c : constraints) (s : schema) {struct c} : schema :=
  let '(Constraints cnl cxl cn cx dive cf cp ce _) := c in
  let '(Schema ty f p nl xl n x ni xi e i a) := s in
  let pick (a b : option Z) (d : Z) := match a with Some v => v | None => default d b end in
  let is t := bool_decide (ty = t) in
  let nl := if is "string" then pick cnl cn nl else nl in
  let xl := if is "string" then pick cxl cx xl else xl in
  let n := if is "integer" then pick cnl cn n else if is "number" then default n cn else n in
  let x := if is "integer" then pick cxl cx x else if is "number" then default x cx else x in
  let ni := if is "array" then pick cnl cn ni else ni in
  let xi := if is "array" then pick cxl cx xi else xi in
  let i := if is "array" then match dive, i with Some d, Some i => Some (apply_constraints d i) | _, _ => i end else i in
  let p := if decide (cp = "") then p else cp in
  let f := if decide (cf = "") then f else cf in
  let s := Schema ty f p nl xl n x ni xi e i a in
  if decide (ce = []) then s
  else if is "array" then Schema ty f p nl xl n x ni xi e (with_enum ce <$> i) a
  else if is "object" then Schema ty f p nl xl n x ni xi e i (with_enum ce <$> a)
  else with_enum ce s.
(** mapper.go 1565-1566: the constraints of a field on its schema; none leaves it as it is. *)
Definition constrain (c : option constraints) (s : schema) : schema := match c with Some c => apply_constraints c s | None => s end.
(** mapper.go 1568-1571: a field marked required is added to the object's Required. *)
Definition is_required (c : option constraints) : bool := match c with Some c => c_required c | None => false end.
