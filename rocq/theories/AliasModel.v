(** * Fields of named types: how a type is recorded and what a field of it is documented with
    (internal/typemodel/fromexpr.go, internal/metadata/metadata.go 700-731, internal/spec/mapper.go 1209-1230, 1614-1715). *)
From Coq Require Import Ascii.
From stdpp Require Import base list strings gmap.
From Verif Require Import StrLib StrSplit StrOrder TypeModel GenModel.

(** Type expressions of the source (fromexpr.go 33-84). Simplified: the qualifier of a selector is an identifier, as it always is in a type. [XIndex] is IndexExpr and IndexListExpr;
    [XOther] any other expression, with the text types.ExprString gives. *)
Inductive texpr :=
| XIdent (name : string) | XStar (x : texpr) | XSelector (qualifier name : string) | XIndex (x : texpr) (indices : list texpr) | XArray (len : option string) (elt : texpr)
| XMap (key value : texpr) | XChan (dir : chan_dir) (value : texpr) | XInterface | XStruct | XFunc | XParen (x : texpr) | XEllipsis (elt : texpr) | XOther (text : string).
(** What types.Info says of a qualifier (fromexpr.go 98-106): the path of an imported package, or the name of another object. *)
Inductive qualified_by := ByImport (path : string) | ByObject (name : string).
(** fromSelector (fromexpr.go 89-108); [info] is types.Info, which knows nothing when it is nil. *)
Definition from_selector (info : string → option qualified_by) (x name : string) : tref :=
  TNamed (match info x with Some (ByImport p) => p | Some (ByObject o) => o | None => x end) name [] "".
(** FromExpr (fromexpr.go 33-84). Simplified: only a named type takes arguments (lines 43-52), as in Go. *)
Definition with_args (t : tref) (l : list tref) : tref := match t with TNamed p n args c => TNamed p n (args ++ l) c | _ => t end.
Fixpoint from_expr (info : string → option qualified_by) (e : texpr) : tref :=
  match e with
  | XIdent n => TNamed "" n [] ""
  | XStar x => TPtr (from_expr info x)
  | XSelector x n => from_selector info x n
  | XIndex x l => with_args (from_expr info x) (from_expr info <$> l)
  | XArray None x => TSlice (from_expr info x)
  | XArray (Some len) x => TArr len (from_expr info x)
  | XMap k v => TMap (from_expr info k) (from_expr info v)
  | XChan d x => TChan d (from_expr info x)
  | XInterface => TNamed "" "interface{}" [] ""
  | XStruct => TNamed "" "struct{}" [] ""
  | XFunc => TNamed "" "func" [] ""
  | XParen x => from_expr info x
  | XEllipsis x => TSlice (from_expr info x)
  | XOther s => TNamed "" s [] ""
  end.
(** getTypeName of an expression (helpers.go 64-66): the dotted text. *)
Definition recorded (info : string → option qualified_by) (e : texpr) : string := render Dotted (from_expr info e).

(** The kind of a declared type and its target (metadata.go 701-731); [None]: no target is recorded. *)
Inductive dkind := KStruct | KInterface | KAlias | KOther.
#[global] Instance dkind_eq : EqDecision dkind. Proof. solve_decision. Defined.
(** A declaration (metadata.go 645-649), as far as it is read here. *)
Record decl := Decl { d_pkg : string; d_kind : dkind; d_target : string }.
(** processTypeKind (metadata.go 701-731). *)
Definition declare (info : string → option qualified_by) (pkg : string) (e : texpr) : decl :=
  match e with
  | XStruct => Decl pkg KStruct ""
  | XInterface => Decl pkg KInterface ""
  | XIdent n => Decl pkg KAlias n
  | _ => Decl pkg KOther (recorded info e)
  end.
(** The declarations of each package by name: TypeInPackage (types.go 481-524), whose choice among files is C35's and C101's. *)
Notation decls := (gmap string (gmap string decl)).
Definition in_package (ds : decls) (pkg name : string) : option decl := ds !! pkg ≫= (.!! name).
(** typeByName (mapper.go 1209-1230), over the sorted package names. *)
Definition decl_by_name (ds : decls) (pkg name : string) : option decl :=
  let anywhere := head (omap (λ p, in_package ds p name) (ssort (elements (dom ds)))) in
  if decide (pkg ≠ "" ∧ name ≠ "") then match in_package ds pkg name with Some d => Some d | None => anywhere end else anywhere.
(** findTypesInMetadata (mapper.go 1154-1202) for the type itself. Simplified: arguments with constraints, which add entries, occur in no field's type. *)
Definition decl_of (ds : decls) (s : string) : option decl :=
  if is_primitive s then None
  else if decide (s = "") then None
  else match core (parse_type s) with TNamed p n _ _ => decl_by_name ds p n | _ => decl_by_name ds "" "" end.
(** strings.CutPrefix. *)
Definition cut_prefix (p s : string) : bool * string := if has_prefix p s then (true, str_drop (String.length p) s) else (false, s).
(** resolveUnderlyingType (mapper.go 1659-1715). *)
Definition resolve_underlying (ds : decls) (s : string) : string :=
  let '(array, s) := cut_prefix "[]" s in
  let '(map, s) := cut_prefix "map[" s in
  let '(slice, s) := cut_prefix "[]" s in
  let '(star, s) := cut_prefix "*" s in
  match decl_of ds s with
  | Some d =>
      if decide (d_kind d = KAlias) then
        let u := d_target d in
        if array : bool then "[]" +:+ u
        else if map : bool then "map[" +:+ u +:+ "]" +:+ u
        else if slice : bool then "[]" +:+ u
        else if star : bool then "*" +:+ u
        else u
      else ""
  | None => ""
  end.
(** The type a field is documented with (mapper.go 1464-1527), with resolveUnderlyingType for the parameter of C63. *)
Definition documented (ds : decls) (key : string) (params : list string) (pkg declared : string) : string := field_type (resolve_underlying ds) key params pkg declared.
(** The type a declaration of kind alias or other is documented with (mapper.go 1625-1642, 1281-1292): generateAliasSchema's underlying type. *)
Definition target_type (d : decl) : string :=
  match qualify_ref (d_pkg d) (parse_type (d_target d)) with Some t => render Dotted t | None => d_target d end.
