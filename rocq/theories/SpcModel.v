(** * Response wrappers specialised at the call (internal/spec/wrapper_specialisation.go). *)
From Coq Require Import Ascii ZArith.
From stdpp Require Import base list strings gmap.
From Verif Require Import StrLib StrSplit PathModel ScanModel FieldModel GenModel.

(** The kinds of expression (metadata/constants.go) that wrapper_specialisation.go, write_sink.go and
    map_literal.go ask for; any other is [AKOther]. *)
Inductive akind := AKUnary | AKStar | AKParen | AKComposite | AKKeyValue | AKIdent | AKCall | AKSelector | AKMapType | AKLiteral | AKOther.
Global Instance akind_eq_dec : EqDecision akind.
Proof. solve_decision. Defined.
(** [CallArgument] (metadata/types.go): kind, name, package, type, value, X, Fun, Sel and Args, with
    the fields those files read; strings are the pooled ones. *)
Inductive carg := CArg (kind : akind) (name pkg type value : string) (x fn sel : option carg) (args : list (option carg)).
(** Fields of [CallArgument] (metadata/types.go). *)
Definition ca_kind (a : carg) : akind := match a with CArg k _ _ _ _ _ _ _ _ => k end.
Definition ca_name (a : carg) : string := match a with CArg _ n _ _ _ _ _ _ _ => n end.
Definition ca_pkg (a : carg) : string := match a with CArg _ _ p _ _ _ _ _ _ => p end.
Definition ca_type (a : carg) : string := match a with CArg _ _ _ t _ _ _ _ _ => t end.
Definition ca_value (a : carg) : string := match a with CArg _ _ _ _ v _ _ _ _ => v end.
Definition ca_x (a : carg) : option carg := match a with CArg _ _ _ _ _ x _ _ _ => x end.
Definition ca_fun (a : carg) : option carg := match a with CArg _ _ _ _ _ _ f _ _ => f end.
Definition ca_sel (a : carg) : option carg := match a with CArg _ _ _ _ _ _ _ s _ => s end.
Definition ca_args (a : carg) : list (option carg) := match a with CArg _ _ _ _ _ _ _ _ l => l end.

(** The loop that strips unary operators and parentheses, wrapper_specialisation.go 136-146. *)
Fixpoint strip_wrap (a : carg) : option carg :=
  match a with
  | CArg AKUnary _ _ _ _ x _ _ _ | CArg AKParen _ _ _ _ x _ _ _ => match x with Some x => strip_wrap x | None => None end
  | _ => Some a
  end.
(** [paramNamesOf], wrapper_specialisation.go 324-337: a missing entry is the empty name. *)
Definition param_names (params : list (option string)) : list string := default "" <$> params.
(** One element of the literal, wrapper_specialisation.go 152-173, with [paramNameSetOf] (339-348): the
    field and the parameter it is set to. *)
Definition field_param (params : list (option string)) (elt : option carg) : option (string * string) :=
  e ← elt;
  if decide (ca_kind e = AKKeyValue) then
    k ← ca_x e; v ← ca_fun e;
    if decide (ca_kind k = AKIdent ∧ ca_kind v = AKIdent) then
      if decide (ca_name k = "" ∨ ca_name v = "") then None
      else if decide (ca_name v ∈ param_names params) then Some (ca_name k, ca_name v) else None
    else None
  else None.
(** [fieldParamBindingsFromReturnVar], wrapper_specialisation.go 123-178: a later element replaces an
    earlier one for the same field. *)
Definition bindings_of (params : list (option string)) (rv : carg) : gmap string string :=
  match strip_wrap rv with
  | Some cl =>
    if decide (ca_kind cl = AKComposite)
    then foldl (λ m elt, match field_param params elt with Some (f, p) => <[f := p]> m | None => m end) ∅ (ca_args cl)
    else ∅
  | None => ∅
  end.
(** [lookupCallArgByParamName], wrapper_specialisation.go 350-357. *)
Fixpoint arg_of_param (args : list (option carg)) (names : list string) (name : string) : option carg :=
  match names, args with
  | n :: names, a :: args => if decide (n = name) then a else arg_of_param args names name
  | _, _ => None
  end.
(** [cleanOverrideType], wrapper_specialisation.go 216-240. *)
Definition clean_override (t : string) : string :=
  let t := trim_prefix "*" (trim_prefix "&" (trim_space t)) in
  if decide (t = "" ∨ t = "interface{}" ∨ t = "any") then ""
  else if has_prefix "untyped " t then ""
  else if negb (str_any (λ c, bool_decide (c ∈ ["."%char; "/"%char; "["%char])) t) && negb (is_primitive t) then ""
  else t.

(** What is read of a function (metadata/types.go): parameter names and returned values. *)
Record sfunc := SFunc { sf_params : list (option string); sf_returns : list carg }.
(** What is read of an assignment (metadata/types.go): the called function, which of its results, and
    the arguments of the call. *)
Record sassign := SAssign { sa_pkg : string; sa_func : string; sa_index : Z; sa_args : list (option carg) }.
(** [wrapperFieldOverride], wrapper_specialisation.go 24-32: the field and the type. *)
Notation override := (string * string)%type.

Section collect.
(** [GetArgumentInfo], the functions of the program ([findFunction], body_source.go 339-351) and the
    order in which a map is walked. *)
Context (arg_info : carg → string) (find_function : string → string → option sfunc) (iter : list (string * string) → list (string * string)).

(** [resolveOverrideGoType] with [extractCallerArgType], wrapper_specialisation.go 180-214; without a
    parent edge or a map the parameters are empty. *)
Definition override_type (parent : gmap string carg) (a : carg) : string :=
  let from_caller := if decide (ca_kind a = AKIdent) then
      match parent !! ca_name a with
      | Some c => clean_override (if decide (ca_type c = "") then arg_info c else ca_type c)
      | None => ""
      end else "" in
  if decide (from_caller = "") then clean_override (ca_type a) else from_caller.
(** [collectWrapperOverrides], wrapper_specialisation.go 62-121, from the assignments of the enclosing
    function to the name of the body argument. [assigns] is empty when the argument is no identifier
    or there is no edge, metadata or enclosing function. *)
Definition collect_overrides (assigns : list sassign) (parent : gmap string carg) : list override :=
  match last assigns with
  | None => []
  | Some a =>
    if decide (sa_func a = "" ∨ sa_pkg a = "") then []
    else match find_function (sa_pkg a) (sa_func a) with
    | None => []
    | Some ctor =>
      if decide (sa_index a < 0)%Z then []
      else match sf_returns ctor !! Z.to_nat (sa_index a) with
      | None => []
      | Some rv =>
        omap (λ '(f, p),
          c ← arg_of_param (sa_args a) (param_names (sf_params ctor)) p;
          let t := override_type parent c in
          if decide (t = "") then None else Some (f, t))
        (iter (map_to_list (bindings_of (sf_params ctor) rv)))
      end
    end
  end.
End collect.

(** [wrapperFieldIsGeneric], wrapper_specialisation.go 378-396. *)
Fixpoint field_is_generic (fields : list field) (name : string) : bool :=
  match fields with
  | [] => false
  | f :: fields => if decide (fl_name f = name) then bool_decide (trim_prefix "*" (fl_type f) ∈ ["interface{}"; "any"]) else field_is_generic fields name
  end.
(** [jsonNameForField], wrapper_specialisation.go 398-413. *)
Fixpoint json_name_for (fields : list field) (name : string) : string :=
  match fields with
  | [] => ""
  | f :: fields => if decide (fl_name f = name) then (let j := extract_json_name (fl_tag f) in if decide (j = "") then name else j) else json_name_for fields name
  end.
Section specialise.
(** The types in use, a schema, and [mapGoTypeToOpenAPISchema] with the marking of what it discovers
    (wrapper_specialisation.go 280-298): the schema of a type, if any, and the types in use after it. *)
Context {U S : Type} (map_type : U → string → U * option S).
(** One turn of the loop of [specialiseWrapperSchema], wrapper_specialisation.go 266-300. *)
Definition overlay_step (fields : list field) (st : U * gmap string S) (o : override) : U * gmap string S :=
  let '(u, props) := st in let '(f, t) := o in
  if field_is_generic fields f then
    if decide (json_name_for fields f = "") then (u, props)
    else match map_type u t with
         | (u, Some s) => (u, <[json_name_for fields f := s]> props)
         | (u, None) => (u, props)
         end
  else (u, props).
(** [specialiseWrapperSchema], wrapper_specialisation.go 242-309: the properties laid over the base;
    [None] for the base alone. [is_ref]: the base is a reference; [wrapper]: the fields of the wrapper
    type, when it is found. *)
Definition specialise (is_ref : bool) (wrapper : option (list field)) (u : U) (os : list override) : U * option (gmap string S) :=
  if negb is_ref then (u, None)
  else match wrapper with
  | None => (u, None)
  | Some fields =>
    let '(u, props) := foldl (overlay_step fields) (u, ∅) os in
    (u, if decide (props = ∅) then None else Some props)
  end.
End specialise.
