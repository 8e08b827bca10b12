(** * Which types implement which interfaces (internal/metadata/metadata.go, analysis.go) and the handler
    methods a handler value stands for (internal/spec/handler_value.go). *)
From Coq Require Import Ascii.
From stdpp Require Import sorting.
From stdpp Require Import base list strings gmap.
From Verif Require Import StrLib StrSub StrOrder StrSplit PairModel.

(** Fields of a parameter or result list: names and type (go/ast Field). *)
Definition afield : Type := list string * string.
(** handleFuncType (expression.go 559-599): a parameter for each name, one result for each field.
    Simplified: the text of a type is given (callArgToString on it). *)
Definition param_types (fs : list afield) : list string :=
  mjoin ((λ f : afield, match f.1 with [] => [f.2] | names => (λ _, f.2) <$> names end) <$> fs).
Definition result_types (fs : list afield) : list string := fs.*2.
(** callArgToString on a function type without type parameters (expression.go 729-741). *)
Definition sig_text (params results : list afield) : string :=
  "func(" +:+ str_join ", " (param_types params) +:+ ") " +:+ str_join ", " (result_types results).

(** The characters of pkgQualifierRe (analysis.go 28). Simplified: ASCII only. *)
Definition id_start (c : ascii) : bool :=
  let n := nat_of_ascii c in (Nat.leb 65 n && Nat.leb n 90) || (Nat.leb 97 n && Nat.leb n 122) || bool_decide (c = "_"%char).
Definition id_char (c : ascii) : bool := let n := nat_of_ascii c in id_start c || (Nat.leb 48 n && Nat.leb n 57).
(** normalizeSignature (analysis.go 30-39): ReplaceAllString of an identifier and a dot by nothing. [run] is
    the identifier read so far. *)
Fixpoint normalize_from (run s : string) : string :=
  match s with
  | "" => run
  | String c s =>
      if decide (run = "") then (if id_start c then normalize_from (String c "") s else String c (normalize_from "" s))
      else if id_char c then normalize_from (run +:+ String c "") s
      else if decide (c = "."%char) then normalize_from "" s
      else run +:+ String c (normalize_from "" s)
  end.
Definition normalize (sig : string) : string := normalize_from "" sig.

(** Type and Method (types.go 864-920): the fields used here. Strings stand for their pool indices. *)
Record imethod := IMethod { im_name : string; im_sig : string }.
Record itype := IType { it_kind : string; it_methods : list imethod; it_implements : list string; it_implemented_by : list string }.
(** Metadata.Packages and Package.Types. *)
Notation iproject := (gmap string (gmap string itype)).
Definition get_type (pr : iproject) (x : string * string) : option itype := pr !! x.1 ≫= λ ts, ts !! x.2.
Definition alter_type (f : itype → itype) (x : string * string) (pr : iproject) : iproject := alter (alter f x.2) x.1 pr.
(** slices.Sorted(maps.Keys(…)) of the packages and of the types of each (metadata.go 2014-2021). *)
Definition all_types (pr : iproject) : list (string * string) :=
  mjoin ((λ p, pair p <$> ssort (map_to_list (default ∅ (pr !! p))).*1) <$> ssort (map_to_list pr).*1).
(** The key of a type (metadata.go 2044-2045). *)
Definition type_key (x : string * string) : string := x.1 +:+ "." +:+ x.2.

(** processInterfaceMethods (metadata.go 1108-1121): elements with a name; an embedded interface has none. *)
Definition interface_methods (elems : list (option string * string)) : list imethod :=
  omap (λ e : option string * string, (λ n, IMethod n e.2) <$> e.1) elems.

(** structMethods (metadata.go 2030-2033). *)
Definition method_table (ms : list imethod) : gmap string string := foldl (λ t m, <[im_name m := im_sig m]> t) ∅ ms.
(** implementsInterface (analysis.go 45-67); the memo of normalised signatures is left out. *)
Definition implements_interface (table : gmap string string) (i : itype) : bool :=
  match it_methods i with
  | [] => false
  | ms => forallb (λ m, match table !! im_name m with Some sig => bool_decide (normalize sig = normalize (im_sig m)) | None => false end) ms
  end.
Definition add_implements (key : string) (t : itype) : itype := IType (it_kind t) (it_methods t) (it_implements t ++ [key]) (it_implemented_by t).
Definition add_implemented_by (key : string) (t : itype) : itype := IType (it_kind t) (it_methods t) (it_implements t) (it_implemented_by t ++ [key]).
(** analyzeInterfaceImplementations (metadata.go 2009-2052). *)
Definition visit_interface (table : gmap string string) (s : string * string) (pr : iproject) (i : string * string) : iproject :=
  match get_type pr i with
  | Some intrf =>
      if bool_decide (it_kind intrf = "interface") && implements_interface table intrf
      then alter_type (add_implemented_by (type_key s)) i (alter_type (add_implements (type_key i)) s pr)
      else pr
  | None => pr
  end.
Definition visit_struct (names : list (string * string)) (pr : iproject) (s : string * string) : iproject :=
  match get_type pr s with
  | Some stct => if decide (it_kind stct = "struct") then foldl (visit_interface (method_table (it_methods stct)) s) pr names else pr
  | None => pr
  end.
Definition analyze (pr : iproject) : iproject := foldl (visit_struct (all_types pr)) pr (all_types pr).
(** analyzeExternalInterfaceImplementations (metadata.go 2082-2212): [ext] gives, for each declared type, the
    keys of the outside interfaces types.Implements says its pointer implements, sorted. *)
Definition add_external (keys : list string) (t : itype) : itype :=
  IType (it_kind t) (it_methods t) (foldl (λ l k, if decide (k ∈ l) then l else l ++ [k]) (it_implements t) keys) (it_implemented_by t).
Definition analyze_external (ext : string * string → list string) (pr : iproject) : iproject :=
  foldl (λ pr x, alter_type (add_external (ext x)) x pr) pr (all_types pr).

(** ImplementersOf (types.go 663-692), without its cache. *)
Definition implementers_of (pr : iproject) (key : string) : list string :=
  if decide (key = "") then []
  else omap (λ x, match get_type pr x with Some t => if decide (key ∈ it_implements t) then Some (type_key x) else None | None => None end) (all_types pr).
(** splitTypeKey (handler_value.go 165-171). *)
Definition split_type_key (key : string) : option (string * string) := split_last "." key.
(** handlerMethodKeys (handler_value.go 97-138). The number bounds the recursion, [None] if it is used up;
    findType (field_resolver.go 198-216) is read from Package.Types alone. *)
Fixpoint handler_keys (n : nat) (pr : iproject) (methods : list string) (pkg name : string) : option (list string) :=
  match n with
  | 0 => None
  | S n =>
      let fan impls := mjoin <$> mapM (λ impl, match split_type_key impl with Some (p, t) => handler_keys n pr methods p t | None => Some [] end) impls in
      if decide (methods = [] ∨ pkg = "" ∨ name = "") then Some []
      else match get_type pr (pkg, name) with
           | None => fan (implementers_of pr (pkg +:+ "." +:+ name))
           | Some t =>
               if decide (it_kind t = "interface") then fan (it_implemented_by t)
               else Some (omap (λ m, if decide (m ∈ im_name <$> it_methods t) then Some (pkg +:+ "." +:+ name +:+ "." +:+ m) else None) methods)
           end
  end.
