(** * Statuses a field takes across the returns of a mapper
    (internal/spec/mapper_field_status.go). *)
From stdpp Require Import sorting.
From stdpp Require Import base list strings gmap.
From Coq Require Import ZArith.
From Verif Require Import StrOrder.

(** The kinds the code tells apart, internal/metadata/expression.go. *)
Inductive skind := SCall | SIdent | SSelector | SUnary | SComposite | SKeyValue | SOther.
Global Instance skind_eq_dec : EqDecision skind.
Proof. solve_decision. Defined.

(** [CallArgument], internal/metadata/types.go: what the functions below read of
    it.  [None] is a nil pointer. *)
Inductive sarg := SArg (kind : skind) (name : string) (x sel fn : option sarg) (args : list (option sarg)).
Definition s_kind (a : sarg) : skind := let 'SArg k _ _ _ _ _ := a in k.
Definition s_name (a : sarg) : string := let 'SArg _ n _ _ _ _ := a in n.
Definition s_x (a : sarg) : option sarg := let 'SArg _ _ x _ _ _ := a in x.
Definition s_sel (a : sarg) : option sarg := let 'SArg _ _ _ s _ _ := a in s.
Definition s_fn (a : sarg) : option sarg := let 'SArg _ _ _ _ f _ := a in f.
Definition s_args (a : sarg) : list (option sarg) := let 'SArg _ _ _ _ _ l := a in l.

(** [Assignment], internal/metadata/types.go: the value, and for a value that is a
    call the function called. *)
Record sassign := SAssign { sa_value : sarg; sa_func : string; sa_pkg : string }.
(** [Function], internal/metadata/types.go. *)
Record sfunc := SFunc {
  sf_pkg : string; sf_name : string; sf_returns : list (list sarg); sf_assigns : gmap string (list sassign) }.

(** [maxMapperDepth], mapper_field_status.go 26. *)
Definition max_mapper_depth : nat := 8.

(** [compositeLitOf], extractor.go 2982-2993. *)
Definition composite_lit_of (a : sarg) : option sarg :=
  let a := if bool_decide (s_kind a = SUnary) then default a (s_x a) else a in
  if bool_decide (s_kind a = SComposite) then Some a else None.

(** [calleeNameOf], extractor.go 2942-2953. *)
Definition callee_name_of (fn : option sarg) : string :=
  match fn with
  | None => ""
  | Some f =>
    if bool_decide (s_name f ≠ "") then s_name f
    else if bool_decide (s_kind f = SSelector) then match s_sel f with Some s => s_name s | None => "" end
    else ""
  end.

Section stat.
(** [schemaMapper.MapStatusCode] on the text of an argument. *)
Context (map_status : sarg → option Z).
(** [findFunctionByName], extractor.go 1970-1984, on a non-empty name; for the
    empty name it answers nil. *)
Context (find : string → string → option sfunc).
(** The types of the program by package and name, with their fields in order, and
    the packages in the order a map delivers them. *)
Context (types : string → string → option (list string)) (pkgs : list string).

Definition find_function_by_name (pkg name : string) : option sfunc :=
  if bool_decide (name = "") then None else find pkg name.

(** [statusCodeOfValue], extractor.go 3083-3109: of a call exactly one argument
    must be a status. *)
Definition status_code_of_value (v : sarg) : option Z :=
  if bool_decide (s_kind v = SCall)
  then match omap (λ a, match a with Some a => map_status a | None => None end) (s_args v) with
       | [s] => Some s
       | _ => None
       end
  else map_status v.

(** [findType], field_resolver.go 198-216. *)
Definition find_type (pkg name : string) : option (list string) :=
  if bool_decide (pkg = "") || bool_decide (name = "") then None else types pkg name.
(** [findTypeAnywhere], mapper_field_status.go 243-258. *)
Definition find_type_anywhere (name : string) : option (list string) :=
  if bool_decide (name = "") then None
  else head (omap (λ p, find_type p name) (merge_sort string_le pkgs)).

(** [keyedFieldValue], mapper_field_status.go 230-238. *)
Definition is_key_value (e : option sarg) : bool :=
  match e with Some e => bool_decide (s_kind e = SKeyValue) | None => false end.
Definition has_key (field : string) (e : option sarg) : bool :=
  match e with
  | Some e => bool_decide (s_kind e = SKeyValue) && match s_x e with Some k => bool_decide (s_name k = field) | None => false end
  | None => false
  end.
Definition keyed_field_value (lit : sarg) (field : string) : option sarg :=
  match head (filter (λ e, has_key field e = true) (s_args lit)) with
  | Some (Some e) => s_fn e
  | _ => None
  end.

(** The position of a field, mapper_field_status.go 215-221. *)
Definition field_index (fields : list string) (field : string) : option nat :=
  fst <$> list_find (λ f, f = field) fields.

(** [structFieldValue], mapper_field_status.go 190-226. *)
Definition struct_field_value (lit : sarg) (field : string) (scope : sfunc) : option sarg :=
  if existsb is_key_value (s_args lit) then keyed_field_value lit field
  else
    x ← s_x lit;
    let '(pkg, name) :=
      match s_x x, s_sel x with
      | Some q, Some s => if bool_decide (s_kind x = SSelector) then (s_name q, s_name s) else (sf_pkg scope, s_name x)
      | _, _ => (sf_pkg scope, s_name x)
      end in
    fields ← match find_type pkg name with Some t => Some t | None => find_type_anywhere name end;
    i ← field_index fields field;
    mjoin (s_args lit !! i).

(** The two maps the recursion shares: the statuses found and the functions
    entered, mapper_field_status.go 96-97. *)
Notation sstate := (gset Z * gset string)%type.

(** A loop whose body reports residue, mapper_field_status.go 126-130, 161-170:
    every iteration runs, the answers are or-ed. *)
Definition residues {A} (body : A → sstate → option (bool * sstate)) : list A → sstate → option (bool * sstate) :=
  fix go l st :=
    match l with
    | [] => Some (false, st)
    | a :: l =>
      '(b, st) ← body a st;
      '(b', st) ← go l st;
      Some (b || b', st)
    end.

Definition fn_id (f : sfunc) : string := sf_pkg f +:+ "." +:+ sf_name f.

(** [returnFieldStatuses], mapper_field_status.go 113-132, and
    [fieldStatusOfValue], 139-184.  The Go functions have no fuel; [None] is
    running out of it. *)
Section field.
Context (field : string).
Fixpoint return_field_statuses (fuel : nat) (fn : option sfunc) (depth : nat) (st : sstate) : option (bool * sstate) :=
  match fn with
  | None => Some (false, st)
  | Some f =>
    if bool_decide (max_mapper_depth < depth) then Some (true, st)
    else if bool_decide (fn_id f ∈ st.2) then Some (false, st)
    else match fuel with
    | 0 => None
    | S fuel =>
      residues (λ v st, field_status_of_value fuel v f depth st) (concat (sf_returns f)) (st.1, {[ fn_id f ]} ∪ st.2)
    end
  end
with field_status_of_value (fuel : nat) (v : sarg) (scope : sfunc) (depth : nat) (st : sstate) : option (bool * sstate) :=
  match fuel with
  | 0 => None
  | S fuel =>
    match composite_lit_of v with
    | Some lit =>
      match struct_field_value lit field scope with
      | None => Some (false, st)
      | Some fv =>
        match status_code_of_value fv with
        | Some s => Some (false, ({[ s ]} ∪ st.1, st.2))
        | None => Some (true, st)
        end
      end
    | None =>
      match s_kind v with
      | SIdent =>
        residues (λ a st,
          if bool_decide (s_kind (sa_value a) = SCall)
          then return_field_statuses fuel (find_function_by_name (sa_pkg a) (sa_func a)) (S depth) st
          else field_status_of_value fuel (sa_value a) scope (S depth) st)
          (default [] (sf_assigns scope !! s_name v)) st
      | SCall =>
        let name := callee_name_of (s_fn v) in
        if bool_decide (name = "") then Some (false, st)
        else return_field_statuses fuel (find_function_by_name (sf_pkg scope) name) (S depth) st
      | _ => Some (false, st)
      end
    end
  end.

(** The tail of [statusesFromMapperField], mapper_field_status.go 91-107, given
    the mapper its head has found: the codes in order, and the residue. *)
Definition statuses_of_mapper (fuel : nat) (mapper : option sfunc) : option (list Z * bool) :=
  match mapper with
  | None => Some ([], false)
  | Some m =>
    '(residue, st) ← return_field_statuses fuel (Some m) 0 (∅, ∅);
    Some (merge_sort Z.le (elements st.1), residue)
  end.
End field.
End stat.
