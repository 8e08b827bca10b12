(** * Enum values from constants (internal/spec/mapper.go). *)
From Coq Require Import Ascii.
From stdpp Require Import sorting.
From stdpp Require Import base list strings gmap.
From Verif Require Import StrLib StrSplit StrOrder DecLib LitModel.

(** ** Constant values and their texts *)

(** go/constant values.  [CNum] is a float or complex constant, given by its String() text;
    constants read back from saved metadata are not modelled. *)
Inductive cval := CStr (s : string) | CInt (z : Z) | CBool (b : bool) | CNum (text : string).
(** strconv.Quote.  Bytes from 0x80 on are kept as they are: simplified, text beyond ASCII is
    taken to be printable. *)
Definition dquote : ascii := "034"%char.
Definition hex_char (n : nat) : ascii := if decide (n < 10) then ascii_of_nat (48 + n) else ascii_of_nat (87 + n).
Definition quote_char (c : ascii) : string :=
  let n := nat_of_ascii c in
  if bool_decide (c = dquote) || bool_decide (c = "\"%char) then String "\" (String c "")
  else if decide (128 ≤ n ∨ 32 ≤ n < 127) then String c ""
  else match n with
       | 7 => "\a" | 8 => "\b" | 12 => "\f" | 10 => "\n" | 13 => "\r" | 9 => "\t" | 11 => "\v"
       | _ => String "\" (String "x" (String (hex_char (n / 16)) (String (hex_char (n mod 16)) "")))
       end.
Fixpoint quote_body (s : string) : string := match s with "" => "" | String c s => quote_char c +:+ quote_body s end.
Definition quote (s : string) : string := String dquote (quote_body s +:+ String dquote "").
(** utf8.RuneCountInString and taking runes, on valid UTF-8: every byte but 0x80..0xBF starts one. *)
Definition starts_rune (c : ascii) : bool := negb (bool_decide (128 ≤ nat_of_ascii c < 192)).
Fixpoint rune_count (s : string) : nat := match s with "" => 0 | String c s => (if starts_rune c then 1 else 0) + rune_count s end.
Fixpoint take_runes (n : nat) (s : string) : string :=
  match s with
  | "" => ""
  | String c s' => if starts_rune c then match n with 0 => "" | S n => String c (take_runes n s') end else String c (take_runes n s')
  end.
(** String() of go/constant values: strings are quoted and cut at 72 runes. *)
Definition const_text (c : cval) : string :=
  match c with
  | CStr s => let q := quote s in if decide (72 < rune_count q) then take_runes 69 q +:+ "..." else q
  | CInt z => itoa z
  | CBool b => if b then "true" else "false"
  | CNum t => t
  end.

(** ** Values of the document *)

(** The extracted interface{} value; a float64 is given by its %v text. *)
Inductive evalue := VText (s : string) | VInt (z : Z) | VFloat (text : string) | VBool (b : bool).
(** fmt.Sprintf("%v", v). *)
Definition show (v : evalue) : string :=
  match v with VText s => s | VInt z => itoa z | VFloat t => t | VBool b => if b then "true" else "false" end.
(** strconv.ParseBool. *)
Definition parse_bool (s : string) : option bool :=
  if bool_decide (s ∈ ["1"; "t"; "T"; "TRUE"; "true"; "True"]) then Some true
  else if bool_decide (s ∈ ["0"; "f"; "F"; "FALSE"; "false"; "False"]) then Some false else None.
(** [extractConstantValue] (mapper.go 2695-2726); [finite] is ParseFloat's range test and
    [float_text] the %v text of the float read. *)
Definition extract_value (finite : string → bool) (float_text : string → string) (c : cval) : evalue :=
  let str := const_text c in
  if bool_decide (2 ≤ String.length str) && bool_decide (String.get 0 str = Some dquote) &&
     bool_decide (String.get (String.length str - 1) str = Some dquote)
  then VText (str_take (String.length str - 2) (str_drop 1 str))
  else if parse_int str then VInt (atoi str)
  else if parse_float finite str then VFloat (float_text str)
  else match parse_bool str with Some b => VBool b | None => VText str end.
(** The deduplication after the sort (mapper.go 2681-2689): neighbours of equal text are one. *)
Fixpoint dedup_from (last : evalue) (l : list evalue) : list evalue :=
  match l with
  | [] => []
  | v :: l => if decide (show last = show v) then dedup_from last l else v :: dedup_from v l
  end.
Definition dedup (l : list evalue) : list evalue := match l with [] => [] | v :: l => v :: dedup_from v l end.
(** [extractEnumValues] (mapper.go 2647-2692) on the constants that have a value.  sort.Slice
    is any function [sort] that sorts by text; it need not be stable. *)
Definition enum_values (sort : list evalue → list evalue) (finite : string → bool) (float_text : string → string) (cs : list (option cval)) : list evalue :=
  dedup (sort (extract_value finite float_text <$> omap id cs)).

(** ** Recorded constants *)

(** One name of a [ValueSpec]: name, declared type as written (empty when there is none), the
    Go type the checker gives the constant, its underlying type, and its value.  The Go type is
    not recorded by the code; the specification uses it. *)
Record cspec := CSpec { cs_name : string; cs_type : string; cs_gotype : string; cs_under : string; cs_value : option cval }.
(** A declaration: a const block or a var block. *)
Record cdecl := CDecl { cd_const : bool; cd_specs : list cspec }.
(** [Variable] (metadata/types.go), the fields read here. *)
Record variable := MkVar { va_const : bool; va_type : string; va_resolved : string; va_value : option cval; va_group : nat }.
(** [processVariables] (metadata.go 1210-1270): [f.Variables] is keyed by name, every const block
    has the next index; only constants carry a resolved type and a value. *)
Definition record_spec (d : cdecl) (group : nat) (vars : gmap string variable) (s : cspec) : gmap string variable :=
  <[ cs_name s := if cd_const d then MkVar true (cs_type s) (cs_under s) (cs_value s) group
                  else MkVar false (cs_type s) "" None group ]> vars.
Definition record_decl (acc : nat * gmap string variable) (d : cdecl) : nat * gmap string variable :=
  let group := if cd_const d then S acc.1 else acc.1 in
  (group, foldl (record_spec d group) acc.2 (cd_specs d)).
Definition file_variables (ds : list cdecl) : gmap string variable := (foldl record_decl (0, ∅) ds).2.

(** ** Choosing the constants *)

(** [typeMatches] (mapper.go 2729-2778); [resolve] is [resolveUnderlyingType] (1659-1713). *)
Definition last_part (s : string) : string := default "" (last (split_byte "." s)).
Definition type_matches (resolve : string → string) (constant target : string) : bool :=
  bool_decide (constant = target) ||
  (has_prefix "*" constant && bool_decide (str_drop 1 constant = target)) ||
  (has_prefix "*" target && bool_decide (str_drop 1 target = constant)) ||
  (negb (bool_decide (resolve constant = "")) && bool_decide (resolve constant = target)) ||
  (let qc := contains_byte "." constant in
   let qt := contains_byte "." target in
   if qc && qt then bool_decide (last_part constant = last_part target)
   else if qc then bool_decide (last_part constant = target)
   else if qt then bool_decide (constant = last_part target)
   else false).
(** [isInSameGroupAsTypedConstant] (mapper.go 3457-3468); the map order cannot matter. *)
Definition same_group (resolve : string → string) (group : nat) (target : string) (vars : gmap string variable) : bool :=
  existsb (λ v, va_const v && bool_decide (va_group v = group) && type_matches resolve (va_type v) target) (map_to_list vars).*2.
(** One turn of the loop over the variables (mapper.go 2530-2583): group type, group, value. *)
Definition collect (resolve : string → string) (target : string) (vars : gmap string variable) (v : variable) : option (string * nat * option cval) :=
  if va_const v then
    let declared := if decide (va_type v = "") then va_resolved v else va_type v in
    let same := bool_decide (va_type v = "") && same_group resolve (va_group v) target vars in
    if type_matches resolve declared target || same
    then Some (if same then target else declared, va_group v, va_value v) else None
  else None.
(** [sortedVariables] (mapper.go 2622-2630). *)
Definition sorted_variables (vars : gmap string variable) : list variable := omap (λ n, vars !! n) (ssort (map_to_list vars).*1).
(** [SortedFileNames] (types.go 330-356) without its cache. *)
Definition sorted_files {A} (files : gmap string A) : list A := omap (λ n, files !! n) (ssort (map_to_list files).*1).
Definition collected (resolve : string → string) (target : string) (files : gmap string (gmap string variable)) : list (string * nat * option cval) :=
  vars ← sorted_files files; omap (collect resolve target vars) (sorted_variables vars).
(** [detectEnumFromConstants] (mapper.go 2500-2617) from the type's name [target] and the files
    of the package looked up; splitting a type text into package and name is not modelled here. *)
Definition detect_enum (sort : list evalue → list evalue) (finite : string → bool) (float_text resolve : string → string)
    (target : string) (files : gmap string (gmap string variable)) : list evalue :=
  let found := collected resolve target files in
  let types := remove_dups (found.*1.*1) in
  if decide (1 < length types) then []
  else
    let groups := nsort (remove_dups (found.*1.*2)) in
    enum_values sort finite float_text (g ← groups; (λ x : string * nat * option cval, x.2) <$> filter (λ x, x.1.2 = g) found).
