(** * What an interface-typed body holds (internal/spec/extractor.go 2205-2275, 3144-3338; pattern_matchers.go 1054-1148, 1245-1302; handler_value.go 28-51). *)
From Coq Require Import Ascii.
From stdpp Require Import sorting.
From stdpp Require Import base list strings gmap.
From Verif Require Import StrLib StrOrder OverModel.

(** The kinds of argument that matter here. *)
Inductive bkind := BLiteral | BCall | BSelector | BUnary | BIdent | BFuncLit | BConversion | BOther.
Global Instance bkind_eq_dec : EqDecision bkind.
Proof. solve_decision. Defined.
(** CallArgument: kind, name, GetArgumentInfo, GetType, GetResolvedType, the generic name if it is one, the kind and name of X, the info of Fun. *)
Record barg := BArg { ba_kind : bkind; ba_name : string; ba_info : string; ba_type : string; ba_resolved : string; ba_generic : option string; ba_x : option (bkind * string); ba_fun_info : option string }.
(** A node of the path: the name, package and base ID of the caller, the base ID of the callee, the concrete types assigned where the call is the value ([AssignmentMap]), and the texts of the arguments
    bound to the parameters ([ParamArgMap]). A concrete type of pool index 0 is the empty text: both are skipped. *)
Record bsite := BSite { bs_caller : string; bs_pkg : string; bs_caller_base : string; bs_callee_base : string; bs_assigned : string → list string; bs_params : string → option string }.

Section hold.
  (** isInterfaceTypeName; the assignments of the function of a name in a package, and of the first function of the name in any (C35); the type of a selected field; the type a type parameter
      stands for, followed to the end or one step (C94); the declared type of a constant; the concrete type a called function returns; determineLiteralType (C41); Canonicalize (C57). *)
  Context (is_iface : string → bool) (fn_in : string → string → option (string → list string)) (fn_any : string → option (string → list string)).
  Context (sel_type : barg → string) (followed : string → string) (one_step : string → option string) (const_type : barg → string) (returned : barg → string) (literal_type : string → string) (canon : string → string).
  (** findFunctionByName (extractor.go 1970-1984). *)
  Definition find_function (pkg name : string) : option (string → list string) :=
    if decide (name = "") then None else match fn_in pkg name with Some f => Some f | None => fn_any name end.
  (** The loop of concreteSetFromEnclosingFunc (extractor.go 3249-3262). *)
  Fixpoint add_concrete (set : list string) (l : list string) : list string :=
    match l with
    | [] => set
    | t :: rest => if decide (t = "" ∨ is_iface t = true) then add_concrete set rest
                   else if decide (t ∈ set) then add_concrete set rest else add_concrete (set ++ [t]) rest
    end.
  (** concreteSetFromEnclosingFunc (extractor.go 3233-3264). *)
  Definition concrete_set (name : string) (s : bsite) (orig : string) : list string :=
    if negb (is_iface orig) then []
    else if decide (bs_caller s = "") then []
    else match find_function (bs_pkg s) (bs_caller s) with Some f => ssort (add_concrete [] (f name)) | None => [] end.
  (** concreteFromEnclosingFunc (extractor.go 3201-3223). *)
  Definition concrete_enclosing (name : string) (s : bsite) (orig : string) : string :=
    match concrete_set name s orig with [t] => t | _ => "" end.
  (** concreteFromParamBinding (extractor.go 3273-3302); [up] are the nodes above, nearest first. *)
  Fixpoint bound_at (enclosing name : string) (up : list (option bsite)) : string :=
    match up with
    | [] => ""
    | Some p :: rest =>
        if decide (bs_callee_base p = enclosing) then
          match bs_params p name with Some t => if decide (t = "" ∨ is_iface t = true) then "" else t | None => "" end
        else bound_at enclosing name rest
    | None :: rest => bound_at enclosing name rest
    end.
  Definition concrete_binding (name : string) (s : bsite) (up : list (option bsite)) (orig : string) : string :=
    if negb (is_iface orig) then "" else if decide (bs_caller_base s = "") then "" else bound_at (bs_caller_base s) name up.
  (** The variable of an argument: of the value itself or, in a request, of what it points to (pattern_matchers.go 1266-1274). *)
  Definition target_of (a : barg) : bkind * string :=
    match ba_kind a, ba_x a with BUnary, Some x => x | k, _ => (k, ba_name a) end.
  (** What the assignments and the parameters say (pattern_matchers.go 1274-1299; extractor.go 3168-3194). *)
  Definition from_variable (name : string) (s : bsite) (up : list (option bsite)) (orig : string) : string :=
    match list_find (λ t, t ≠ "") (bs_assigned s name) with
    | Some (_, t) => t
    | None =>
        if decide (concrete_enclosing name s orig = "") then
          if decide (concrete_binding name s up orig = "") then orig else concrete_binding name s up orig
        else concrete_enclosing name s orig
    end.
  (** resolveTypeOrigin of a request (pattern_matchers.go 1245-1302); [core] is the core name of the original type. *)
  Definition request_origin (core : string → string) (a : barg) (s : bsite) (up : list (option bsite)) (orig : string) : string :=
    if decide (ba_resolved a = "") then
      if decide (followed (core orig) = "") then
        if decide (ba_kind a = BSelector ∧ sel_type a ≠ "") then sel_type a
        else match target_of a with
             | (BIdent, name) | (BFuncLit, name) => from_variable name s up orig
             | _ => orig
             end
      else followed (core orig)
    else ba_resolved a.
  (** resolveTypeOrigin of a response (extractor.go 3144-3197). *)
  Definition response_origin (a : barg) (s : bsite) (up : list (option bsite)) (orig : string) : string :=
    if decide (ba_resolved a = "") then
      match ba_generic a ≫= one_step with
      | Some t => t
      | None =>
          if decide (ba_kind a = BSelector ∧ sel_type a ≠ "") then sel_type a
          else match ba_kind a with BIdent => from_variable (ba_name a) s up orig | _ => orig end
      end
    else ba_resolved a.
  (** ambiguousConcreteSet (handler_value.go 35-51). *)
  Definition ambiguous_set (a : barg) (s : bsite) (orig : string) : list string :=
    match target_of a with
    | (BIdent, name) | (BFuncLit, name) => let set := concrete_set name s orig in if decide (2 ≤ length set) then set else []
    | _ => []
    end.
  (** One pointer is taken off (pattern_matchers.go 1129-1132; extractor.go 2266-2269). *)
  Definition deref_type (deref : bool) (t : string) : string := if deref then trim_prefix "*" t else t.
  (** The type of a request body and its alternatives (pattern_matchers.go 1074-1139). [one_step] is asked for the generic name. *)
  Definition request_type (core : string → string) (deref : bool) (a : barg) (s : bsite) (up : list (option bsite)) : string * list string :=
    match ba_kind a with
    | BLiteral => (canon (literal_type (ba_info a)), [])
    | _ =>
        let t := match ba_kind a with BCall => if decide (ba_type a = "") then ba_info a else ba_type a | _ => ba_info a end in
        let t := if decide (ba_resolved a = "") then match ba_generic a ≫= one_step with Some g => g | None => t end else ba_resolved a in
        let r := request_origin core a s up t in
        (canon (deref_type deref r), if decide (r = t) then ambiguous_set a s t else [])
    end.
  (** resolveArgType: that of a response body (extractor.go 2205-2275). *)
  Definition response_type (deref : bool) (a : barg) (s : bsite) (up : list (option bsite)) : string * list string :=
    let t := match ba_kind a, ba_fun_info a with BConversion, Some f => f | _, _ => ba_info a end in
    match ba_kind a with
    | BLiteral => (canon (literal_type t), [])
    | _ =>
        let t := match ba_kind a with BIdent => if decide (const_type a = "") then t else const_type a | _ => t end in
        let t := match ba_kind a with BCall => if decide (ba_type a = "") then t else ba_type a | _ => t end in
        if decide (ba_kind a = BCall ∧ ba_type a ≠ "" ∧ is_iface (ba_type a) = true ∧ returned a ≠ "") then (canon (deref_type deref (returned a)), [])
        else
          let r := response_origin a s up t in
          (canon (deref_type deref r), if decide (r = t) then ambiguous_set a s t else [])
    end.
End hold.
