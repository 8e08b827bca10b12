(** * Bytes written to the response and map literals (internal/spec/write_sink.go, map_literal.go). *)
From Coq Require Import Ascii ZArith.
From stdpp Require Import base list strings gmap.
From Verif Require Import StrLib FieldModel SpcModel.

(** ** write_sink.go *)
(** [BodyTransform] (config.go 189-201): the expressions for the function and the package, and the
    position of the payload. *)
Record btrans := BTrans { bt_call : string; bt_pkg : string; bt_arg : Z }.
(** What is read of an assignment: the called function, its package, the value. *)
Record wassign := WAssign { wa_func : string; wa_pkg : string; wa_value : carg }.
(** What is read of a function: parameters, assignments by name, the values of each return statement
    and ReturnVars. *)
Record wfunc := WFunc { wf_params : list (option string); wf_assigns : string → list wassign; wf_returns : list (list carg); wf_vars : list carg }.
(** The result of code that may panic: [None] is a panic. *)
Notation may A := (option A) (only parsing).

(** The loop that strips operators, stars and parentheses, write_sink.go 37-42. *)
Fixpoint strip_sink (a : carg) : option carg :=
  match a with
  | CArg AKUnary _ _ _ _ x _ _ _ | CArg AKStar _ _ _ _ x _ _ _ | CArg AKParen _ _ _ _ x _ _ _ => match x with Some x => strip_sink x | None => None end
  | _ => Some a
  end.
(** [calleeNameOf], extractor.go 2942-2953. *)
Definition callee_name (f : carg) : string :=
  if decide (ca_name f = "") then if decide (ca_kind f = AKSelector) then from_option ca_name "" (ca_sel f) else "" else ca_name f.
(** [paramIndexOf], write_sink.go 161-171; [None] for -1. *)
Fixpoint param_index (params : list (option string)) (name : string) : option nat :=
  match params with
  | [] => None
  | p :: params => if decide (p = Some name) then Some 0 else S <$> param_index params name
  end.
(** [len(args) > i] and [args[i]], as at write_sink.go 56-57, 128-129 and 138-139: [Some None] when the
    guard fails; a negative index passes the guard and panics. *)
Definition payload_at (args : list (option carg)) (i : Z) : may (option (option carg)) :=
  if decide (i < Z.of_nat (length args))%Z then
    if decide (i < 0)%Z then None else Some (args !! Z.to_nat i)
  else Some None.

Section sink.
(** Compiled expressions ([cachedRegex]; [None] for an error), the transforms, [findFunctionByName]
    (extractor.go 1970-1984), the assignments to a name seen from the sink ([sinkAssignments],
    write_sink.go 173-196) and the package of the caller. *)
Context (regex : string → option (string → bool)) (transforms : list btrans) (find_function : string → string → option wfunc)
  (assigns_at : string → list wassign) (caller_pkg : string).

(** One expression of a transform, write_sink.go 206-217: an empty one accepts, a broken one does not. *)
Definition re_accepts (re s : string) : bool :=
  if decide (re = "") then true else match regex re with Some m => m s | None => false end.
(** [matchBodyTransform], write_sink.go 198-221. *)
Definition match_transform (func pkg : string) : option Z :=
  if decide (func = "") then None
  else bt_arg <$> head (filter (λ t, re_accepts (bt_call t) func && re_accepts (bt_pkg t) pkg) transforms).
(** The name of an argument that is an identifier, write_sink.go 129-131 and 139-141. *)
Definition ident_name (p : option carg) : string :=
  match p with Some p => if decide (ca_kind p = AKIdent) then ca_name p else "" | None => "" end.
(** The assignments to a returned name, write_sink.go 135-144. The code returns the first name of an
    identifier even when it is empty; an empty name ends the search here as there. *)
Fixpoint serialized_by (assigns : list wassign) : may string :=
  match assigns with
  | [] => Some ""
  | a :: assigns =>
    match match_transform (wa_func a) (wa_pkg a) with
    | Some i =>
      if decide (ca_kind (wa_value a) = AKCall) then
        match payload_at (ca_args (wa_value a)) i with
        | None => None
        | Some (Some (Some p)) => if decide (ca_kind p = AKIdent) then Some (ca_name p) else serialized_by assigns
        | Some _ => serialized_by assigns
        end
      else serialized_by assigns
    | None => serialized_by assigns
    end
  end.
(** [consider] in [helperSerializedParam], write_sink.go 119-145. *)
Definition consider (fn : wfunc) (rv : carg) : may string :=
  match ca_kind rv, ca_fun rv with
  | AKCall, Some f =>
    match match_transform (callee_name f) (ca_pkg f) with
    | Some i => match payload_at (ca_args rv) i with None => None | Some p => Some (ident_name (default None p)) end
    | None => Some ""
    end
  | AKIdent, _ => serialized_by (wf_assigns fn (ca_name rv))
  | _, _ => Some ""
  end.
(** The loops of [helperSerializedParam], write_sink.go 146-158, over all returned values in order. *)
Fixpoint first_considered (fn : wfunc) (rvs : list carg) : may string :=
  match rvs with
  | [] => Some ""
  | rv :: rvs => match consider fn rv with None => None | Some p => if decide (p = "") then first_considered fn rvs else Some p end
  end.
(** [helperSerializedParam], write_sink.go 113-159. *)
Definition serialized_param (fn : wfunc) : may string := first_considered fn (concat (wf_returns fn) ++ wf_vars fn).
(** [unwrapHelperReturn], write_sink.go 70-111. *)
Definition unwrap_helper (call : carg) : may (option carg) :=
  match ca_fun call with
  | None => Some None
  | Some f =>
    if decide (callee_name f = "") then Some None
    else match find_function (if decide (ca_pkg f = "") then caller_pkg else ca_pkg f) (callee_name f) with
    | None => Some None
    | Some fn =>
      match serialized_param fn with
      | None => None
      | Some p => if decide (p = "") then Some None
                  else Some (i ← param_index (wf_params fn) p; default None (ca_args call !! i))
      end
    end
  end.
(** [unwrapWriteSink], write_sink.go 32-68, for an edge that is there. *)
Definition unwrap_sink (arg : carg) : may (option carg) :=
  if decide (transforms = []) then Some None
  else match strip_sink arg with
  | None => Some None
  | Some arg =>
    if decide (ca_kind arg = AKIdent) then
      match last (assigns_at (ca_name arg)) with
      | None => Some None
      | Some a =>
        match match_transform (wa_func a) (wa_pkg a) with
        | None => Some None
        | Some i => if decide (ca_kind (wa_value a) = AKCall) then
                      match payload_at (ca_args (wa_value a)) i with None => None | Some p => Some (default None p) end
                    else Some None
        end
      end
    else if decide (ca_kind arg = AKCall) then unwrap_helper arg else Some None
  end.
End sink.

(** ** map_literal.go *)
Section literal.
(** strconv.Unquote of the escapes inside double quotes, the type of a value and its schema; mapping
    a type changes only the types in use (not modelled). *)
Context (unescape : string → option string) {S : Type} (resolve : carg → string) (schema_of : string → option S) (any_schema : S).
(** strconv.Unquote (Go standard library) of a text that begins with a double quote: the closing quote
    ends it. *)
Definition unquote_text (s : string) : option string :=
  match s with
  | String _ s => match quoted s with Some (body, "") => unquote unescape body | _ => None end
  | "" => None
  end.
(** [constantKeyValue], map_literal.go 106-129. *)
Definition constant_key_value (elt : option carg) : option (string * carg) :=
  e ← elt;
  if decide (ca_kind e = AKKeyValue) then
    k ← ca_x e; v ← ca_fun e;
    if decide (ca_kind k = AKLiteral) then
      if has_prefix (String dq "") (ca_value k) then
        match unquote_text (ca_value k) with
        | Some key => if decide (key = "") then None else Some (key, v)
        | None => None
        end
      else None
    else None
  else None.
(** The schema of a value, map_literal.go 79-92. *)
Definition value_schema (v : carg) : S :=
  if decide (resolve v = "") then any_schema else default any_schema (schema_of (resolve v)).
(** [mapLiteralSchema], map_literal.go 53-104: the properties and whether any others are possible;
    [None] for nil. *)
Definition map_literal (arg : carg) : option (gmap string S * bool) :=
  if decide (ca_kind arg = AKComposite) then
    m ← ca_x arg;
    if decide (ca_kind m = AKMapType) then
      k ← ca_x m;
      if decide (ca_name k = "string") then
        let props := foldl (λ props elt, match constant_key_value elt with Some (key, v) => <[key := value_schema v]> props | None => props end) ∅ (ca_args arg) in
        if decide (props = ∅) then None else Some (props, existsb (λ elt, bool_decide (constant_key_value elt = None)) (ca_args arg))
      else None
    else None
  else None.
End literal.
