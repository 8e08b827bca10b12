(** * The type of a struct field in the schema of its struct: generic arguments and packages. *)
From Coq Require Import Ascii.
From stdpp Require Import base list strings gmap.
From Verif Require Import StrLib StrSplit StrSub PathModel ScanModel TypeModel.

(** internal/metadata/metadata.go 738-744: the list in IsPrimitiveType. *)
Definition basic_names : list string :=
  ["string"; "int"; "int8"; "int16"; "int32"; "int64"; "uint"; "uint8"; "uint16"; "uint32"; "uint64";
   "float32"; "float64"; "bool"; "byte"; "rune"; "error"; "interface{}"; "struct{}"; "any";
   "complex64"; "complex128"; "time.Time"; "nil"].
Definition is_basic (s : string) : bool := bool_decide (s ∈ basic_names).
(** The text before the first closing bracket and after it (strings.Index with "]"). *)
Definition cut_close (s : string) : option (string * string) :=
  let head := take_until (λ c, bool_decide (c = "]"%char)) s in
  if contains_byte "]" s then Some (head, str_drop (S (String.length head)) s) else None.
(** internal/metadata/metadata.go 733-795: IsPrimitiveType. *)
Definition is_primitive (type_name : string) : bool :=
  let b := trim_prefix "*" type_name in
  is_basic b
  || (has_prefix "[]" b && is_basic (str_drop 2 b))
  || (has_prefix "[" b && match cut_close b with Some (h, r) => bool_decide (1 < String.length h) && is_basic r | None => false end)
  || (has_prefix "map[" b && match cut_close b with Some (h, r) => bool_decide (4 < String.length h) && is_basic (str_drop 4 h) && is_basic (trim_space r) | None => false end).

(** internal/spec/mapper.go 1339-1353: the leading slice and pointer markers, and the rest. *)
Fixpoint peel_markers (s : string) : string * string :=
  match s with
  | "" => ("", "")
  | String c r =>
      if decide (c = "*"%char) then let '(p, q) := peel_markers r in (String c p, q)
      else match r with
           | String d r' => if decide (c = "["%char ∧ d = "]"%char) then let '(p, q) := peel_markers r' in (String c (String d p), q) else ("", s)
           | "" => ("", s)
           end
  end.
(** internal/spec/mapper.go 1335-1358: substituteTypeParams. *)
Definition substitute_type_params (field_type : string) (generic : gmap string string) : string :=
  if decide (generic = ∅) then field_type
  else let '(prefix, rest) := peel_markers field_type in
       match generic !! rest with Some concrete => prefix +:+ concrete | None => field_type end.

(** internal/spec/mapper.go 1401-1426: qualifyTypeRef with namedLeaf; none when nothing is changed. *)
Fixpoint qualify_ref (pkg : string) (t : tref) : option tref :=
  match t with
  | TPtr e => TPtr <$> qualify_ref pkg e
  | TSlice e => TSlice <$> qualify_ref pkg e
  | TArr l e => TArr l <$> qualify_ref pkg e
  | TChan d e => TChan d <$> qualify_ref pkg e
  | TMap k e => TMap k <$> qualify_ref pkg e
  | TNamed p name args c => if decide (name = "" ∨ p ≠ "" ∨ is_primitive name = true) then None else Some (TNamed pkg name args c)
  end.
(** internal/spec/mapper.go 3264-3266: isAnonStructLiteral. *)
Definition anon_struct (s : string) : bool := str_contains "struct{" s.
(** internal/spec/mapper.go 1372-1391: qualifyFieldType. *)
Definition qualify_field_type (field_type pkg : string) : string :=
  if decide (field_type = "" ∨ pkg = "") then field_type
  else if anon_struct field_type then (if contains_byte "." field_type then field_type else pkg +:+ "." +:+ field_type)
  else match qualify_ref pkg (parse_type field_type) with Some r => render Dotted r | None => field_type end.

(** internal/spec/mapper.go 1315-1333: allConcreteGenericArgs and genericArgText. Simplified: the text an
    argument was parsed from is its dotted rendering, which is that text for keys made by the renderer. *)
Definition arg_text (a : tref) : string := render Dotted a.
Definition has_constraint (a : tref) : bool := match a with TNamed _ _ _ c => negb (bool_decide (c = "")) | _ => false end.
Definition all_concrete (args : list tref) : bool :=
  negb (bool_decide (args = [])) && forallb (λ a, negb (has_constraint a) && negb (bool_decide (arg_text a = ""))) args.
Definition core_args (t : tref) : list tref := match core t with TNamed _ _ args _ => args | _ => [] end.
(** internal/spec/mapper.go 1442-1449: the parameters zipped with the arguments. *)
Definition zip_params (params : list string) (args : list tref) : gmap string string :=
  foldl (λ m pa, <[pa.1 := arg_text pa.2]> m) ∅ (zip params args).
(** internal/spec/mapper.go 1450-1455: the stand-ins of the declaration form. *)
Definition arg_name (a : tref) : string := match a with TNamed _ n _ _ => n | _ => "" end.
Definition dashes (s : string) : string := string_of_list_ascii ((λ c, if decide (c = " "%char) then "-"%char else c) <$> list_ascii_of_string s).
Definition stand_ins (args : list tref) : gmap string string := foldl (λ m a, <[arg_name a := dashes (arg_text a)]> m) ∅ args.
(** internal/spec/mapper.go 1428-1527: the type a field is documented with, up to the lookup of its
    schema. [resolve] is resolveUnderlyingType, the identity for types that are not aliases. *)
Definition field_type (resolve : string → string) (key : string) (params : list string) (pkg declared : string) : string :=
  let args := core_args (parse_type key) in
  let concrete := all_concrete args && negb (bool_decide (params = [])) in
  let f := if concrete then substitute_type_params declared (zip_params params args)
           else if decide (args = []) then declared else default declared (stand_ins args !! declared) in
  let f := if negb (has_prefix "[]" f) && negb (str_contains "map[" f) then (let r := resolve f in if decide (r = "") then f else r) else f in
  if is_primitive f then f else qualify_field_type f pkg.
