(** * The schema of a Go type (internal/spec/mapper.go, mapGoTypeToOpenAPISchema). *)
From Coq Require Import Ascii.
From stdpp Require Import base numbers list strings gmap.
From Verif Require Import StrLib StrSplit StrSub DecLib PathModel ScanModel TypeModel FieldModel GenModel NameModel ConModel.

(** [Schema] (openapi.go 142-178): the fields this function sets. A zero number is not written. *)
Inductive wschema := WS {
  w_ref : string; w_type : string; w_format : string; w_max_length : Z; w_min_items : Z; w_max_items : Z;
  w_items : option wschema; w_additional : option wschema }.
(** Schema literals with a type and a format only (mapper.go 3148-3165). The Minimum of unsigned numbers
    is zero and so not written. *)
Definition leaf (ty fmt : string) : wschema := WS "" ty fmt 0 0 0 None None.
(** addRefSchemaForType (mapper.go 3450-3454). *)
Definition ref_to (go_type : string) : wschema :=
  WS ("#/components/schemas/" +:+ component_name (trim_prefix "*" go_type)) "" "" 0 0 0 None None.

(** What the function asks of the rest. [e_mapping]: lookupConfigSchema (external_types.go 96-111);
    [e_external]: resolveExternalType on a bare name (external_types.go 146-206); [e_resolve]:
    resolveUnderlyingType (mapper.go 1659-1713); [e_named]: a type declared in the project or an anonymous
    struct (mapper.go 3139-3145, 3167-3186); [e_used]: usedTypes, true if the schema is set. The
    components beside the schema, and enums, are not modelled. *)
Record env := Env { e_mapping : string → option wschema; e_external : string → option wschema; e_resolve : string → string;
  e_named : string → option wschema; e_used : string → option bool }.

(** mapper.go 105-122: untypedConstantDefault. *)
Definition untyped_default (s : string) : option string :=
  table s [("untyped bool", "bool"); ("untyped int", "int"); ("untyped rune", "rune"); ("untyped float", "float64"); ("untyped complex", "complex128"); ("untyped string", "string")].
(** mapper.go 132-138: isContainerCoreName. *)
Definition container_name (name : string) : bool := match parse_type name with TSlice _ | TArr _ _ | TMap _ _ => true | _ => false end.
(** The fields Pkg and Name of a core (typemodel.go 92-123). *)
Definition core_pkg (s : string) : string := pkg_of (core (parse_type s)).
Definition core_name (s : string) : string := arg_name (core (parse_type s)).
(** mapper.go 142-148: unqualifyContainer. *)
Definition unqualify_container (s : string) : string :=
  if bool_decide (core_pkg s = "") || negb (container_name (core_name s)) then s
  else match cut (core_pkg s +:+ arrow) s with Some (a, b) => a +:+ b | None => s end.
(** mapper.go 3207-3255: canAddRefSchemaForType. *)
Definition can_ref (key : string) : bool :=
  negb (is_primitive key || has_prefix "[]" key || str_contains "map[" key)
  && negb (bool_decide (is_Some (untyped_default (core_name key))) || container_name (core_name key))
  && negb (has_suffix "_nested" key) && negb (str_contains "_apispec_anonstruct_" key) && negb (anon_struct key).
(** mapper.go 3437-3448: isPrimitiveShapedSchema. *)
Definition primitive_shaped (s : wschema) : bool :=
  bool_decide (w_ref s = "") && bool_decide (w_additional s = None) && negb (bool_decide (w_type s = "")) && negb (bool_decide (w_type s = "object")).
(** mapper.go 157-165: shouldPromoteToComponent. *)
Definition promote (key : string) (s : option wschema) : bool :=
  match s with Some s => bool_decide (w_ref s = "") && can_ref key && negb (primitive_shaped s) | None => false end.
(** resolveExternalType (external_types.go 146-206): only bare names. *)
Definition external_of (e : env) (s : string) : option wschema :=
  if has_prefix "[" s || has_prefix "*" s || has_prefix "map[" s then None else e_external e s.
(** isInlineExternalType (external_types.go 214-217). *)
Definition inline_external (e : env) (s : string) : bool := match external_of e s with Some w => primitive_shaped w | None => false end.
(** mapper.go 3472-3490: parseArraySize; absent and zero are the same in the schema. *)
Definition array_size (s : string) : Z := default 0%Z (atoi64 s).
(** The raw text of the element of a wrapper (typemodel.go 135-185, 450-455; mapper.go 2870, 2880, 3055). *)
Definition elem_raw (s : string) : string :=
  let s := trim_space s in
  trim_space match parse_type s with
  | TPtr _ => str_drop 1 s
  | TSlice _ => str_drop 2 s
  | TArr _ _ => match close_at 0 (str_drop 1 s) with Some (_, e) => e | None => "" end
  | _ => ""
  end.
(** resolveUnderlyingType, or the type itself (mapper.go 2883-2886, 3002-3005, 3065-3068). *)
Definition resolved (e : env) (s : string) : string := let r := e_resolve e s in if decide (r = "") then s else r.
(** The map branch (mapper.go 2983-3001): key and value text, if it is taken. *)
Definition map_parts (s : string) : option (string * string) :=
  match cut "map[" s with
  | None => None
  | Some (before, _) =>
      let start := String.length before in
      let stop := String.length (take_until (λ c, bool_decide (c = "]"%char)) s) in
      if contains_byte "]" s && bool_decide (start + 4 < stop) then
        let value := trim_space (str_drop (S stop) s) in
        Some (str_take (stop - start - 4) (str_drop (start + 4) s),
              if bool_decide (start ≠ 0) && negb (is_primitive value) then before +:+ "." +:+ value else value)
      else None
  end.
(** mapper.go 3148-3165: the names the function knows. *)
Definition known_type (s : string) : option wschema :=
  if decide (s = "string") then Some (leaf "string" "")
  else if decide (s ∈ ["int"; "int8"; "int16"; "int32"; "int64"; "rune"; "uint"; "uint8"; "uint16"; "uint32"; "uint64"; "byte"]) then Some (leaf "integer" "")
  else if decide (s ∈ ["float32"; "float64"]) then Some (leaf "number" "")
  else if decide (s = "bool") then Some (leaf "boolean" "")
  else if decide (s = "time.Time") then Some (leaf "string" "date-time")
  else if decide (s ∈ ["interface{}"; "struct{}"; "any"]) then Some (leaf "object" "")
  else None.

(** [mapGoTypeToOpenAPISchema] (mapper.go 2783-3205) with the visited types threaded through. Each call
    is on a shorter text unless an alias is resolved; the number bounds the calls. *)
Fixpoint map_type (e : env) (n : nat) (visited : gset string) (go_type : string) : option wschema * gset string :=
  match n with
  | 0 => (None, visited)
  | S n =>
      let go_type := unqualify_container (default go_type (untyped_default go_type)) in
      let derived := trim_prefix "*" go_type in
      if (bool_decide (go_type ∈ visited) || bool_decide (derived ∈ visited)) && can_ref derived && negb (inline_external e derived)
      then (Some (ref_to go_type), visited)
      else
        let visited := {[ go_type ]} ∪ visited in
        if bool_decide (e_used e derived = Some true) && can_ref derived && negb (inline_external e derived) then (Some (ref_to derived), visited)
        else match e_mapping e go_type with
        | Some s => (Some s, visited)
        | None =>
        match external_of e go_type with
        | Some s => (Some s, visited)
        | None =>
            let elem := elem_raw go_type in
            let elem' := resolved e elem in
            let array size items := Some (WS "" "array" "" 0 size size items None) in
            let shared := bool_decide (is_Some (e_used e elem)) && negb (inline_external e elem) in
            let share size := (array size (Some (ref_to elem')), if decide (e_used e elem = Some false) then (map_type e n visited elem').2 else visited) in
            let slice_or_name :=
              match parse_type go_type with
              | TSlice _ =>
                  if decide (elem = "byte" ∨ elem = "uint8") then (Some (leaf "string" "byte"), visited)
                  else if negb (is_primitive elem') && shared then share 0%Z
                  else let '(items, visited) := map_type e n visited elem' in
                       (array 0%Z (if negb (is_primitive elem') && promote elem' items then Some (ref_to elem') else items), visited)
              | _ =>
                  if anon_struct go_type then (Some (default (leaf "object" "") (e_named e go_type)), visited)
                  else match known_type go_type with
                       | Some s => (Some s, visited)
                       | None =>
                           match e_named e go_type with
                           | Some s => (Some s, visited)
                           | None => (if negb (is_primitive go_type) && bool_decide (go_type ≠ "") then Some (ref_to go_type) else None, visited)
                           end
                       end
              end in
            match parse_type go_type with
            | TPtr _ => map_type e n visited elem
            | TArr len _ =>
                let size := array_size (trim_space len) in
                if decide (elem = "byte" ∨ elem' = "byte") then (Some (WS "" "string" "byte" size 0 0 None None), visited)
                else if negb (is_primitive elem') && shared then share size
                else let '(items, visited) := map_type e n visited elem' in
                     (array size (if negb (is_primitive elem') && promote elem' items then Some (ref_to elem') else items), visited)
            | _ =>
                match map_parts go_type with
                | Some (key, value) =>
                    if decide (key = "string") then
                      let value' := resolved e value in
                      let '(values, visited) := map_type e n visited value' in
                      (Some (WS "" "object" "" 0 0 0 None (if negb (is_primitive value') && promote value' values then Some (ref_to value') else values)), visited)
                    else (Some (leaf "object" ""), visited)
                | None => slice_or_name
                end
            end
        end
        end
  end.
(** The call from a route, with a fresh set (mapper.go 84-97). *)
Definition type_schema (e : env) (go_type : string) : option wschema := (map_type e (S (String.length go_type)) ∅ go_type).1.
(** The fields of one struct share the set (mapper.go 1428-1565). Simplified: no field has a declared type. *)
Fixpoint field_schemas (e : env) (visited : gset string) (types : list string) : list (option wschema) :=
  match types with
  | [] => []
  | t :: ts => let '(s, visited) := map_type e (S (String.length t)) visited (trim_prefix "*" t) in s :: field_schemas e visited ts
  end.
