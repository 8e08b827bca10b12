(** * The statuses of a response (internal/spec/schema_mapper.go 165-259; extractor.go 2432-2666, 2784-3109). *)
From Coq Require Import Ascii ZArith.
From stdpp Require Import base list strings gmap.
From Verif Require Import StrLib StrSplit DecLib PairModel DetModel ConModel StatModel.

(** HTTPStatusByName (schema_mapper.go 165-235). *)
Definition status_names : list (string * Z) := [
  ("StatusContinue", 100); ("StatusSwitchingProtocols", 101); ("StatusProcessing", 102); ("StatusEarlyHints", 103);
  ("StatusOK", 200); ("StatusCreated", 201); ("StatusAccepted", 202); ("StatusNonAuthoritativeInfo", 203); ("StatusNoContent", 204); ("StatusResetContent", 205);
  ("StatusPartialContent", 206); ("StatusMultiStatus", 207); ("StatusAlreadyReported", 208); ("StatusIMUsed", 226);
  ("StatusMultipleChoices", 300); ("StatusMovedPermanently", 301); ("StatusFound", 302); ("StatusSeeOther", 303); ("StatusNotModified", 304); ("StatusUseProxy", 305);
  ("StatusTemporaryRedirect", 307); ("StatusPermanentRedirect", 308);
  ("StatusBadRequest", 400); ("StatusUnauthorized", 401); ("StatusPaymentRequired", 402); ("StatusForbidden", 403); ("StatusNotFound", 404); ("StatusMethodNotAllowed", 405);
  ("StatusNotAcceptable", 406); ("StatusProxyAuthRequired", 407); ("StatusRequestTimeout", 408); ("StatusConflict", 409); ("StatusGone", 410); ("StatusLengthRequired", 411);
  ("StatusPreconditionFailed", 412); ("StatusRequestEntityTooLarge", 413); ("StatusRequestURITooLong", 414); ("StatusUnsupportedMediaType", 415);
  ("StatusRequestedRangeNotSatisfiable", 416); ("StatusExpectationFailed", 417); ("StatusTeapot", 418); ("StatusMisdirectedRequest", 421); ("StatusUnprocessableEntity", 422);
  ("StatusLocked", 423); ("StatusFailedDependency", 424); ("StatusTooEarly", 425); ("StatusUpgradeRequired", 426); ("StatusPreconditionRequired", 428);
  ("StatusTooManyRequests", 429); ("StatusRequestHeaderFieldsTooLarge", 431); ("StatusUnavailableForLegalReasons", 451);
  ("StatusInternalServerError", 500); ("StatusNotImplemented", 501); ("StatusBadGateway", 502); ("StatusServiceUnavailable", 503); ("StatusGatewayTimeout", 504);
  ("StatusHTTPVersionNotSupported", 505); ("StatusVariantAlsoNegotiates", 506); ("StatusInsufficientStorage", 507); ("StatusLoopDetected", 508); ("StatusNotExtended", 510);
  ("StatusNetworkAuthenticationRequired", 511)]%Z.
(** MapStatusCode (schema_mapper.go 238-259). *)
Definition map_status_code (s : string) : option Z :=
  let s := trim dquote s in
  let s := match split_last "." s with Some (_, r) => r | None => s end in
  match (list_to_map status_names : gmap string Z) !! s with
  | Some z => Some z
  | None => atoi64 s
  end.

(** An assignment at a call: value, called function and package, position of the value. A call edge: name, package and position of the callee, ParamArgMap. *)
Record cassign := CAssign { cn_value : sarg; cn_func : string; cn_pkg : string; cn_pos : string }.
Record cedge := CEdge { ce_name : string; ce_pkg : string; ce_pos : string; ce_params : option (gmap string sarg) }.
(** The node a value lives at: assignmentsAt (extractor.go 2024-2037), the edges of the call graph with the caller's ID in order, and the AssignmentMap of findFunction of the caller, if there is one. *)
Record csite := CSite { cs_assigned : string → list cassign; cs_edges : list cedge; cs_scope : option (string → list sarg) }.

Section code.
  (** GetArgumentInfo; findFunctionByName with its ReturnVars (C35); the position of a call expression. *)
  Context (info : sarg → string) (ctor : string → string → option (list sarg)) (pos_of : sarg → string).
  Definition status_of (a : sarg) : option Z := map_status_code (info a).
  (** expandVarStatuses (extractor.go 3057-3076). *)
  Fixpoint expand_values (codes : list Z) (residue : bool) (vs : list sarg) : list Z * bool :=
    match vs with
    | [] => (codes, residue)
    | v :: vs =>
        match status_code_of_value status_of v with
        | Some s => expand_values (if decide (s ∈ codes) then codes else codes ++ [s]) residue vs
        | None => expand_values codes true vs
        end
    end.
  Definition expand_var (vs : list sarg) : list Z * bool := if decide (length vs < 2) then ([], false) else expand_values [] false vs.
  (** expandStatusesFromIdent (extractor.go 3037-3049); the scope is that of the matched call. *)
  Definition expand_ident (a : sarg) (scope : option (string → list sarg)) : list Z * bool :=
    match s_kind a, scope with
    | SIdent, Some asg => expand_var (asg (s_name a))
    | _, _ => ([], false)
    end.
  (** constructorFieldParam (extractor.go 2849-2872). *)
  Fixpoint field_param (field : string) (elts : list (option sarg)) : option string :=
    match elts with
    | [] => None
    | Some e :: elts =>
        match s_kind e, s_x e, s_fn e with
        | SKeyValue, Some k, Some v => if decide (s_kind k = SIdent ∧ s_name k = field ∧ s_kind v = SIdent) then Some (s_name v) else field_param field elts
        | _, _, _ => field_param field elts
        end
    | None :: elts => field_param field elts
    end.
  Fixpoint ctor_param (field : string) (rvs : list sarg) : string :=
    match rvs with
    | [] => ""
    | rv :: rvs =>
        match composite_lit_of rv with
        | Some lit => match field_param field (s_args lit) with Some p => p | None => ctor_param field rvs end
        | None => ctor_param field rvs
        end
    end.
  (** findCallEdge (extractor.go 2960-2978). *)
  Fixpoint call_edge (func pkg pos : string) (first : option cedge) (es : list cedge) : option cedge :=
    match es with
    | [] => first
    | e :: es =>
        if decide (ce_name e = func ∧ (pkg = "" ∨ ce_pkg e = pkg)) then
          if decide (pos ≠ "" ∧ ce_pos e = pos) then Some e
          else call_edge func pkg pos (match first with Some f => Some f | None => Some e end) es
        else call_edge func pkg pos first es
    end.
  (** constructorFieldArg (extractor.go 3005-3024). *)
  Definition ctor_arg (es : list cedge) (func pkg pos field : string) : option sarg :=
    e ← call_edge func pkg pos None es;
    params ← ce_params e;
    rvs ← ctor (ce_pkg e) func;
    if decide (ctor_param field rvs = "") then None else params !! ctor_param field rvs.
  (** The base of a selector after resolveArgThroughParams, and the node it lives at; [None] if that has no edge. *)
  Context (base_of : sarg → option (sarg * csite)).
  (** statusFromConstructorField (extractor.go 2797-2842). *)
  Definition ctor_status (a : sarg) : option Z :=
    match s_kind a, s_x a, s_sel a with
    | SSelector, Some x, Some sel =>
        if decide (s_name sel = "" ∨ s_kind x ≠ SIdent) then None
        else
          b ← base_of x;
          if decide (s_kind b.1 = SIdent) then
            asn ← last (cs_assigned b.2 (s_name b.1));
            if decide (s_kind (cn_value asn) = SCall ∧ cn_func asn ≠ "")
            then v ← ctor_arg (cs_edges b.2) (cn_func asn) (cn_pkg asn) (cn_pos asn) (s_name sel); status_of v
            else None
          else None
    | _, _, _ => None
    end.
  (** statusesFromConstructorField (extractor.go 2882-2935). *)
  Definition ctor_statuses (a : sarg) : list Z * bool :=
    default ([], false) (
      match s_kind a, s_x a, s_sel a with
      | SSelector, Some x, Some sel =>
          if decide (s_name sel = "") then None
          else
            b ← base_of x;
            scope ← cs_scope b.2;
            fp ← match s_kind b.1 with
                 | SCall => Some (callee_name_of (s_fn b.1), pos_of b.1)
                 | SIdent => asn ← last (cs_assigned b.2 (s_name b.1)); if decide (s_kind (cn_value asn) = SCall) then Some (cn_func asn, cn_pos asn) else None
                 | _ => None
                 end;
            if decide (fp.1 = "") then None
            else
              v ← ctor_arg (cs_edges b.2) fp.1 "" fp.2 (s_name sel);
              if decide (s_kind v = SIdent) then Some (expand_var (scope (s_name v))) else None
      | _, _, _ => None
      end).

  (** A response: StatusCode, body (BodyType and schema together; the empty text is no body), ImplicitStatus, StatusUnresolved. *)
  Record cresp := CResp { cr_status : Z; cr_body : string; cr_implicit : Z; cr_unresolved : bool }.
  (** ResponsePattern: StatusFromArg with its index, DefaultStatus, TypeFromArg with its index; ResponseContext.ImplicitStatus of the framework. *)
  Record cpat := CPat { cp_status : bool; cp_status_at : nat; cp_default : Z; cp_type : bool; cp_type_at : nat; cp_implicit : Z }.
  (** What the status argument leads to through the caller, if anywhere (resolveArgThroughParams, C88); the set a mapper gives (C73); the body of an argument (C84-C86, C95); the scope of the matched call. *)
  Context (through : sarg → option sarg) (mapper : sarg → list Z * bool) (body_of : sarg → string) (scope : option (string → list sarg)).
  (** The status argument (extractor.go 2473-2503). *)
  Definition arg_status (a : sarg) : option Z :=
    match status_of a with
    | Some s => Some s
    | None => match through a with Some b => status_of b | None => ctor_status a end
    end.
  (** The sets of statuses, the first that says something (extractor.go 2620-2634). *)
  Definition says_nothing (r : list Z * bool) : bool := match r with ([], false) => true | _ => false end.
  Definition status_set (a : sarg) : list Z * bool :=
    let r := expand_ident a scope in
    let r := if says_nothing r then ctor_statuses a else r in
    if says_nothing r then mapper a else r.
  (** unresolvedStatus (extractor.go 39). *)
  Definition unresolved_status : Z := -1.
  (** The lowest status without a body (extractor.go 2525-2538); [old] are the status and body type of each recorded response, in any order. *)
  Definition bodyless (old : list (Z * string)) : option Z :=
    foldl (λ best r, if decide (r.2 = "" ∧ 100 <= r.1 < 600)%Z then match best with Some b => if decide (r.1 < b)%Z then Some r.1 else Some b | None => Some r.1 end else best) None old.
  (** ExtractResponse (extractor.go 2432-2666), after the test of the destination (C69); schemas follow the body. *)
  Definition extract_response (p : cpat) (args : list sarg) (old : list (Z * string)) : list cresp :=
    let least := foldl (λ m r, if decide (r.1 < m)%Z then r.1 else m) 0%Z old in
    let status_arg := if cp_status p then args !! cp_status_at p else None in
    let resolved := match status_arg ≫= arg_status with Some s => Some s | None => if decide (0 < cp_default p)%Z then Some (cp_default p) else None end in
    let status := default (least - 1)%Z resolved in
    let implicit := match resolved with None => if cp_status p then 0%Z else cp_implicit p | Some _ => 0%Z end in
    let '(status, body) :=
      match (if cp_type p then args !! cp_type_at p else None) with
      | Some b => (match (if cp_status p then None else bodyless old) with Some s => s | None => status end, body_of b)
      | None => (status, "")
      end in
    let '(codes, residue) := match status_arg with Some a => status_set a | None => ([], false) end in
    if decide (1 < length codes ∨ 1 ≤ length codes ∧ residue = true)
    then ((λ s, CResp s body 0 false) <$> codes) ++ (if residue then [CResp unresolved_status body 0 false] else [])
    else if decide (resolved = None ∧ body = "") then (if cp_status p then [CResp status body implicit true] else [])
    else [CResp status body implicit false].
End code.
