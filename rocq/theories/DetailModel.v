(** * What a registration says about its route (internal/spec/pattern_matchers.go 463-632). *)
From Coq Require Import Ascii.
From stdpp Require Import base list strings gmap.
From Verif Require Import StrLib PathModel VerbModel RouteModel.

(** RoutePattern: MethodFromCall, MethodFromHandler, MethodFromArg, PathFromArg, MethodFromPath, HandlerFromArg; MethodArgIndex ([None]: negative),
    PathArgIndex and HandlerArgIndex. Simplified: MethodFromArg with a negative index, which panics, has no argument. *)
Record rpat := RPat { rp_call : bool; rp_by_handler : bool; rp_arg : bool; rp_path : bool; rp_from_path : bool; rp_handler : bool;
  rp_method_at : option nat; rp_path_at : nat; rp_handler_at : nat }.
(** CallArgument: GetValue, GetArgumentInfo, ConstantValue, GetPkg, the package of Fun if there is one, whether it is an
    identifier or a function literal, and GetName. *)
Record rarg := RArg { ra_value : string; ra_info : string; ra_const : option string; ra_pkg : string; ra_fun_pkg : option string; ra_named : bool; ra_name : string }.
(** RouteInfo; the last field is what else has been collected: Response, UsedTypes, Request, Params and so on. *)
Record rinfo (X : Type) := RInfo { ri_method : string; ri_explicit : bool; ri_extra : list string; ri_path : string; ri_handler : string; ri_function : string;
  ri_package : string; ri_file : string; ri_dynamic : list string; ri_rest : X }.
Arguments RInfo {X}. Arguments ri_method {X}. Arguments ri_explicit {X}. Arguments ri_extra {X}. Arguments ri_path {X}. Arguments ri_handler {X}. Arguments ri_function {X}.
Arguments ri_package {X}. Arguments ri_file {X}. Arguments ri_dynamic {X}. Arguments ri_rest {X}.
(** The call: the name and package of the callee, the position, the arguments. *)
Record rcall := RCall { rc_name : string; rc_pkg : string; rc_position : string; rc_args : list rarg }.

Section detail.
  Context {X : Type} (nothing : X).
  (** methodFromFunctionName with the pattern's configuration (C45), resolvePathArg (C88), handlerArgValue (C89), and the variable and package traceVariable
      gives for a name in the function of the call (C64). *)
  Context (name_method : string → string * bool) (resolve : rarg → string * list string) (peel : rarg → rarg) (trace : string → string * string).
  Definition set_method (m : string) (explicit : bool) (r : rinfo X) : rinfo X :=
    RInfo m explicit (ri_extra r) (ri_path r) (ri_handler r) (ri_function r) (ri_package r) (ri_file r) (ri_dynamic r) (ri_rest r).
  (** A new route (pattern_matchers.go 480-488). *)
  Definition fresh_route (c : rcall) : rinfo X := RInfo "POST" false [] "" "" "" (rc_pkg c) (rc_position c) [] nothing.
  Definition start_route (c : rcall) (r : rinfo X) : rinfo X := if decide (ri_file r = "" ∨ ri_package r = "") then fresh_route c else r.
  (** The verb of an argument's value, else of its text (pattern_matchers.go 565-590). *)
  Definition verb_of_value (a : rarg) : option string :=
    if decide (ra_value a = "") then None
    else if valid_method (trim_any quotes (ra_value a)) then Some (to_upper (trim_any quotes (ra_value a)))
    else if decide (ra_info a = "") then None
    else if valid_method (trim_any quotes (ra_info a)) then Some (to_upper (trim_any quotes (ra_info a))) else None.
  (** The method (pattern_matchers.go 537-591); the flag is found. *)
  Definition method_step (p : rpat) (c : rcall) (r : rinfo X) : bool * rinfo X :=
    if rp_call p then (true, set_method (name_method (rc_name c)).1 true r)
    else
      match (if rp_by_handler p && rp_handler p then rc_args c !! rp_handler_at p else None) with
      | Some a => if decide (ra_info a = "") then (false, r) else let '(m, hit) := name_method (ra_info a) in (true, set_method m hit r)
      | None =>
          match rp_method_at p ≫= (λ i, rc_args c !! i) with
          | Some a =>
              if rp_arg p then
                match verbs_from_arg (ra_const a) with
                | m :: more => (true, RInfo m true more (ri_path r) (ri_handler r) (ri_function r) (ri_package r) (ri_file r) (ri_dynamic r) (ri_rest r))
                | [] => (false, r)
                end
              else match verb_of_value a with Some m => (true, set_method m true r) | None => (false, r) end
          | None => (false, r)
          end
      end.
  (** The path (pattern_matchers.go 593-614). *)
  Definition path_step (p : rpat) (c : rcall) (r : rinfo X) : bool * rinfo X :=
    match (if rp_path p then rc_args c !! rp_path_at p else None) with
    | Some a =>
        let '(path, dyn) := resolve a in
        let '(m, path) := if rp_from_path p then let '(m, rest) := split_method path in (m, normalize_servemux (if decide (m = "") then path else rest)) else ("", path) in
        let r := if decide (m = "") then r else set_method m true r in
        (true, RInfo (ri_method r) (ri_explicit r) (ri_extra r) (if decide (path = "") then "/" else path) (ri_handler r) (ri_function r) (ri_package r) (ri_file r) (append_unique (ri_dynamic r) dyn) (ri_rest r))
    | None => (false, r)
    end.
  (** The handler (pattern_matchers.go 616-629, then 504-528). *)
  Definition handler_step (p : rpat) (c : rcall) (r : rinfo X) : bool * rinfo X :=
    match (if rp_handler p then rc_args c !! rp_handler_at p else None) with
    | Some a =>
        let h := peel a in
        let pkg := if decide (ra_pkg h = "") then default "" (ra_fun_pkg h) else ra_pkg h in
        let '(v, vpkg) := if ra_named h then trace (ra_name h) else ("", "") in
        (true, RInfo (ri_method r) (ri_explicit r) (ri_extra r) (ri_path r) (if decide (v = "") then ra_info h else v) (ra_info h) (if decide (vpkg = "") then pkg else vpkg) (ri_file r) (ri_dynamic r) (ri_rest r))
    | None => (false, r)
    end.
  (** ExtractRoute and extractRouteDetails (pattern_matchers.go 476-632). The file of a route without edge is left out. *)
  Definition extract_route (p : rpat) (c : rcall) (r : rinfo X) : bool * rinfo X :=
    let '(f1, r) := method_step p c (start_route c r) in
    let '(f2, r) := path_step p c r in
    let '(f3, r) := handler_step p c r in
    (f1 || f2 || f3, r).
  (** The links of a chain that complete one route, in the order in which they are walked (extractor.go 1178-1184). Simplified: one matcher accepts each link (C51 has the choice). *)
  Definition extract_chain (l : list (rpat * rcall)) (r : rinfo X) : rinfo X := foldl (λ r pc, (extract_route pc.1 pc.2 r).2) r l.
End detail.

(** The patterns of gorilla/mux for Handle and Methods (config_mux.go 57-65, 82-88): MethodArgIndex of the first is left at 0. *)
Definition mux_handle : rpat := RPat false false false true false true (Some 0) 0 1.
Definition mux_methods : rpat := RPat false true false false false false (Some 0) 0 0.
(** Those of chi for Get and Method (config_chi.go 50-60, 62-72), and of net/http for HandleFunc (config_http.go 90-99). *)
Definition chi_verb : rpat := RPat true false false true false true (Some 0) 0 1.
Definition chi_method : rpat := RPat false false false true false true (Some 0) 1 2.
Definition http_handle : rpat := RPat false false false true true true None 0 1.
