(** * Functions stored in fields (internal/spec/func_field_dispatch.go). *)
From Coq Require Import Ascii.
From stdpp Require Import sorting.
From stdpp Require Import base list strings gmap.
From Verif Require Import StrLib StrOrder StrSplit DecLib PairModel ScanModel PathModel.

(** [CallArgument], types.go 33-65 and 1012-1048: the kinds the walk tells apart (a slice
    expression and an array type count alike), the name, the package, the parts, the name
    of ReceiverType when there is one and the type when it is recorded. *)
Inductive fkind := FIdent | FFuncLit | FSelector | FComposite | FKeyValue | FStar | FArray | FOther.
Global Instance fkind_eq_dec : EqDecision fkind.
Proof. solve_decision. Defined.
Inductive farg := FArg { f_kind : fkind; f_name : string; f_pkg : string; f_x : option farg; f_sel : option farg; f_fun : option farg;
  f_args : list (option farg); f_recv : option string; f_type : option string }.

(** [isFuncTypeString], func_field_dispatch.go 577-583. *)
Definition is_func_type (t : string) : bool := let t := trim_prefix "*" t in bool_decide (t = "func") || has_prefix "func(" t.
(** [bareTypeName], func_field_dispatch.go 637-649. *)
Definition bare_type_name (t : string) : string :=
  let t := trim_prefix "*" (trim_prefix "[]" (trim_prefix "*" (trim_prefix "[]" (trim_space t)))) in
  match split_last "." t with Some (_, name) => name | None => t end.
(** The text after the first closing bracket, func_field_dispatch.go 658-659, 663-664. *)
Fixpoint after_bracket (t : string) : option string :=
  match t with
  | EmptyString => None
  | String c t => if bool_decide (c = "]"%char) then Some t else after_bracket t
  end.
(** [elementTypeName], func_field_dispatch.go 651-668. *)
Definition element_type_name (t : string) : string :=
  if has_prefix "[]" t then str_drop 2 t
  else if has_prefix "map[" t || has_prefix "[" t then default "" (after_bracket t)
  else "".
(** The loop of [splitQualifiedType], func_field_dispatch.go 461-467; the fuel is the
    length of the text. *)
Fixpoint trim_marks (n : nat) (s : string) : string :=
  match n with
  | 0 => s
  | S n => let s' := trim_prefix "*" (trim_prefix "[]" s) in if bool_decide (s' = s) then s else trim_marks n s'
  end.
(** [splitQualifiedType], func_field_dispatch.go 455-480. *)
Definition split_qualified (t : string) : string * string :=
  let name := trim_space t in let name := trim_marks (String.length name) name in
  match split_last "." name with
  | None => ("", name)
  | Some (pkg, rest) =>
    if bool_decide (pkg = "") then ("", name)
    else if contains_byte "/" pkg then (pkg, rest) else ("", rest)
  end.
(** [typeExprName], func_field_dispatch.go 594-617. *)
Fixpoint type_expr_name (a : farg) : string :=
  let inner := match f_x a with Some x => type_expr_name x | None => "" end in
  match f_kind a with
  | FIdent => f_name a
  | FStar => if bool_decide (inner = "") then "" else "*" +:+ inner
  | FArray => if bool_decide (inner = "") then "" else "[]" +:+ inner
  | FSelector => match f_sel a with Some s => f_name s | None => "" end
  | _ => ""
  end.
(** [compositeLitTypeName], func_field_dispatch.go 585-592. *)
Definition stated_type (a : farg) : string := match f_x a with Some x => type_expr_name x | None => "" end.
(** The loop of [compositeLitPkg], func_field_dispatch.go 623-632, from the type
    expression on. *)
Fixpoint type_expr_pkg (a : farg) : string :=
  if bool_decide (f_pkg a ≠ "") then f_pkg a
  else
    let sel := match f_sel a with Some s => f_pkg s | None => "" end in
    if bool_decide (sel ≠ "") then sel
    else match f_x a with Some x => type_expr_pkg x | None => "" end.
(** [compositeLitPkg] with the empty context of line 246, func_field_dispatch.go 619-635. *)
Definition stated_pkg (a : farg) : string := match f_x a with Some x => type_expr_pkg x | None => "" end.

Section dispatch.
(** The functions that can be expanded (knownFunctionKeys, func_field_dispatch.go
    501-520), the fields of a struct in order with their types (structFieldTypes and
    structFieldOrder, 522-575), and [matchesEntrypoint]. *)
Context (known : string → bool) (fields_of : string → string → list (string * string)) (entrypoint : string → string → bool).

(** The type of a field in the map [structFieldTypes] builds, func_field_dispatch.go 540-543:
    the last one of the name. *)
Definition field_type (fs : list (string * string)) (name : string) : string :=
  default "" (snd <$> last (filter (λ p, p.1 = name) fs)).

(** [functionKeyFromName], func_field_dispatch.go 482-499. *)
Definition key_from_name (pkg name : string) : option string :=
  if bool_decide (name = "") then None
  else if known name then Some name
  else if bool_decide (pkg = "") then None
  else let key := pkg +:+ "." +:+ name in if known key then Some key else None.
(** [functionKeysOfValue], func_field_dispatch.go 315-374; at most one key. *)
Definition key_of_value (v : farg) (ctx : string) : option string :=
  match f_kind v with
  | FIdent => key_from_name (if bool_decide (f_pkg v = "") then ctx else f_pkg v) (f_name v)
  | FFuncLit => key_from_name ctx (f_name v)
  | FSelector =>
    match f_sel v with
    | None => None
    | Some s =>
      if bool_decide (f_name s = "") then None
      else
        let pkg := if bool_decide (f_pkg s = "") then ctx else f_pkg s in
        let recv := match f_recv v with
          | Some r => r
          | None => match f_x v with Some x => default "" (f_type x) | None => "" end
          end in
        let recv := bare_type_name recv in
        let key := pkg +:+ "." +:+ recv +:+ "." +:+ f_name s in
        if bool_decide (recv ≠ "") && known key then Some key else key_from_name pkg (f_name s)
    end
  | _ => None
  end.

(** One function stored in a field: the field ("pkg.Type.Field"), the function and
    whether the field is a declared entrypoint. *)
Record stored := Stored { st_field : string; st_fn : string; st_entry : bool }.
(** [record], func_field_dispatch.go 304-313, with the test before it (277-278, 293-294). *)
Definition record_field (pkg name : string) (fs : list (string * string)) (field : string) (value : option farg) (ctx : string) : list stored :=
  let is_entry := entrypoint (pkg +:+ "." +:+ name) field in
  if is_entry || is_func_type (field_type fs field) then
    match value with
    | None => []
    | Some v => match key_of_value v ctx with Some key => [Stored (pkg +:+ "." +:+ name +:+ "." +:+ field) key is_entry] | None => [] end
    end
  else [].

(** [litType], func_field_dispatch.go 211-221: the package and the rendered type. *)
Definition litt : Type := string * string.
(** The type of a literal, func_field_dispatch.go 244-256. *)
Definition literal_type (ctx : string) (a : farg) (expect : litt) : litt :=
  let lit := if bool_decide (stated_type a ≠ "") then (stated_pkg a, stated_type a) else expect in
  let pkg := if bool_decide ((split_qualified lit.2).1 ≠ "") then (split_qualified lit.2).1 else lit.1 in
  (if bool_decide (pkg = "") then ctx else pkg, lit.2).

(** [walkCompositeLits], func_field_dispatch.go 223-302; the fuel is what is left of the
    depth.  The map is built from the list afterwards. *)
Fixpoint walk (n : nat) (ctx : string) (a : option farg) (expect : litt) : list stored :=
  match n, a with
  | S n, Some a =>
    if bool_decide (f_kind a = FComposite) then
      let '(pkg, name) := literal_type ctx a expect in
      let bare := bare_type_name name in
      let fs := fields_of pkg bare in
      let elem := element_type_name name in
      concat (imap (λ i elt,
        match elt with
        | None => []
        | Some e =>
          if bool_decide (f_kind e = FKeyValue) then
            let field := match f_x e with Some x => f_name x | None => "" end in
            (if bool_decide (field ≠ "") then record_field pkg bare fs field (f_fun e) ctx else []) ++
            walk n ctx (f_fun e) (if bool_decide (field_type fs field = "") then (pkg, elem) else (pkg, field_type fs field))
          else
            match fs !! i with
            | Some (field, _) =>
              if bool_decide (elem = "") then record_field pkg bare fs field (Some e) ctx ++ walk n ctx (Some e) (pkg, field_type fs field)
              else walk n ctx (Some e) (pkg, elem)
            | None => walk n ctx (Some e) (pkg, elem)
            end
        end) (f_args a))
    else
      walk n ctx (f_x a) expect ++ walk n ctx (f_fun a) expect ++ walk n ctx (f_sel a) expect ++
      concat ((λ c, walk n ctx c ("", "")) <$> f_args a)
  | _, _ => []
  end.
(** [maxCompositeLitDepth], func_field_dispatch.go 44-48: depth 0 up to 12. *)
Definition lit_levels : nat := 13.

(** ** Rendered values *)
(** [isMajorVersionElement], func_field_dispatch.go 441-453. *)
Definition is_major (s : string) : bool :=
  match s with
  | String c (String d rest) => bool_decide (c = "v"%char) && all_digits (String d rest)
  | _ => false
  end.
(** [importTailMatches], func_field_dispatch.go 423-439. *)
Definition tail_matches (path qualifier : string) : bool :=
  if bool_decide (path = "") || bool_decide (qualifier = "") then false
  else
    match reverse (split_byte "/" path) with
    | [] => false
    | last :: before =>
      if bool_decide (last = qualifier) then true
      else match before with b :: _ => is_major last && bool_decide (b = qualifier) | [] => false end
    end.
(** The text before and after the first dot, func_field_dispatch.go 394-398. *)
Fixpoint cut_dot (s : string) : option (string * string) :=
  match s with
  | EmptyString => None
  | String c s => if bool_decide (c = "."%char) then Some ("", s) else (λ p, (String c p.1, p.2)) <$> cut_dot s
  end.
(** [functionKeyFromRendered], func_field_dispatch.go 376-421; the
    imports of the file, alias and path, in the order the map is walked. *)
Definition key_from_rendered (imports : list (string * string)) (pkg value : string) : option string :=
  match key_from_name pkg value with
  | Some key => Some key
  | None =>
    match cut_dot value with
    | None => None
    | Some (qualifier, rest) =>
      if bool_decide (qualifier = "") then None
      else
        head (merge_sort string_le (omap (λ imp : string * string,
          if bool_decide (imp.1 = qualifier) || tail_matches imp.2 qualifier
          then let key := imp.2 +:+ "." +:+ rest in if known key then Some key else None
          else None) imports))
    end
  end.
(** [addStructInstances] for one instance, func_field_dispatch.go 154-209: the package
    that writes it, its rendered type, and its fields in the order of their names. *)
Definition instance_stored (has_entrypoints : bool) (imports : list (string * string)) (pkg ty : string) (fields : list (string * string)) : list stored :=
  let '(tpkg, tname) := split_qualified ty in
  let tpkg := if bool_decide (tpkg = "") then pkg else tpkg in
  let fs := fields_of tpkg tname in
  if bool_decide (fs = []) && negb has_entrypoints then []
  else
    omap (λ f : string * string,
      if bool_decide (f.1 = "") then None
      else
        let is_entry := entrypoint (tpkg +:+ "." +:+ tname) f.1 in
        if is_entry || is_func_type (field_type fs f.1) then
          (λ key, Stored (tpkg +:+ "." +:+ tname +:+ "." +:+ f.1) key is_entry) <$> key_from_rendered imports pkg f.2
        else None) fields.
End dispatch.

(** The index, func_field_dispatch.go 113-122, 670-681: the functions of a field, sorted and
    without repetition, and the entrypoints, sorted. *)
Fixpoint dedupe (l : list string) : list string :=
  match l with
  | [] => []
  | x :: l => match dedupe l with y :: l' => if bool_decide (x = y) then y :: l' else x :: y :: l' | [] => [x] end
  end.
(** [sort.Strings] and [dedupeSortedStrings] on the entry of a field, func_field_dispatch.go 113-116. *)
Definition functions_of (evs : list stored) (field : string) : list string :=
  dedupe (merge_sort string_le (omap (λ s, if bool_decide (st_field s = field) then Some (st_fn s) else None) evs)).
(** The entrypoint keys, func_field_dispatch.go 117-121. *)
Definition entry_keys (evs : list stored) : list string :=
  merge_sort string_le (elements (list_to_set (omap (λ s, if st_entry s then Some (st_fn s) else None) evs) : gset string)).
(** [keysFor], func_field_dispatch.go 125-148: the callee's package, receiver and name. *)
Definition keys_for (evs : list stored) (pkg recv name : string) : list string :=
  let recv := trim_prefix "*" recv in
  if bool_decide (recv = "") || bool_decide (pkg = "") || bool_decide (name = "") then []
  else functions_of evs (pkg +:+ "." +:+ (match split_last "." recv with Some (_, r) => r | None => recv end) +:+ "." +:+ name).

(** [buildFuncFieldDispatch], func_field_dispatch.go 50-123: a program as the walk sees
    it — the struct instances of a package (imports, rendered type, fields), the values
    assigned in functions, the values assigned in methods, and the arguments of calls. *)
Record fprog := FProg { fp_instances : list (string * list (string * string) * string * list (string * string));
  fp_assigned : list (string * farg); fp_method_assigned : list (string * farg); fp_call_args : list (string * option farg) }.
Definition build_dispatch (known : string → bool) (fields_of : string → string → list (string * string)) (entrypoint : string → string → bool)
    (has_entrypoints : bool) (p : fprog) : list stored :=
  concat ((λ i, let '(pkg, imports, ty, fields) := i in instance_stored known fields_of entrypoint has_entrypoints imports pkg ty fields) <$> fp_instances p) ++
  concat ((λ v, walk known fields_of entrypoint lit_levels v.1 (Some v.2) ("", "")) <$> fp_assigned p) ++
  concat ((λ v, walk known fields_of entrypoint lit_levels v.1 v.2 ("", "")) <$> fp_call_args p).
