(** * Route paths built from several operands (internal/spec/pattern_matchers.go, extractor.go,
    context_provider.go; the variables they read: internal/metadata/metadata.go). *)
From Coq Require Import Ascii.
From stdpp Require Import sorting.
From stdpp Require Import base list strings gmap.
From Verif Require Import StrLib StrSplit DetModel RouteModel.

(** metadata.CallArgument (types.go), the parts these functions read. The empty text stands for an index
    that is not set. *)
Inductive parg := PArg (kind name value pkg ty : string) (x fn sel : option parg) (args : list (option parg)).
Definition pa_kind (a : parg) : string := let '(PArg k _ _ _ _ _ _ _ _) := a in k.
Definition pa_name (a : parg) : string := let '(PArg _ n _ _ _ _ _ _ _) := a in n.
Definition pa_value (a : parg) : string := let '(PArg _ _ v _ _ _ _ _ _) := a in v.
Definition pa_pkg (a : parg) : string := let '(PArg _ _ _ p _ _ _ _ _) := a in p.
Definition pa_type (a : parg) : string := let '(PArg _ _ _ _ t _ _ _ _) := a in t.
Definition pa_x (a : parg) : option parg := let '(PArg _ _ _ _ _ x _ _ _) := a in x.
Definition pa_fun (a : parg) : option parg := let '(PArg _ _ _ _ _ _ f _ _) := a in f.
Definition pa_sel (a : parg) : option parg := let '(PArg _ _ _ _ _ _ _ s _) := a in s.
Definition pa_args (a : parg) : list (option parg) := let '(PArg _ _ _ _ _ _ _ _ l) := a in l.

(** What ExprToCallArgument makes of the expressions a path is written with (expression.go 42-76, 307-364). *)
Definition e_lit (text : string) : parg := PArg "literal" "" text "" "" None None None [].
Definition e_ident (pkg name : string) : parg := PArg "ident" name "" pkg "string" None None None [].
Definition e_add (a b : parg) : parg := PArg "binary" "" "+" "" "" (Some a) (Some b) None [].
Definition e_paren (a : parg) : parg := PArg "paren" "" "" "" "" (Some a) None None [].
Definition e_call (f : parg) : parg := PArg "call" "" "" "" "" None (Some f) None [].
Definition e_sel (x : parg) (name : string) : parg := PArg "selector" "" "" "" "" (Some x) None (Some (PArg "ident" name "" "" "" None None None [])) [].
Definition e_field (name : string) (v : parg) : parg := PArg "key_value" "" "" "" "" (Some (e_ident "" name)) (Some v) None [].
Definition e_struct (elts : list parg) : parg := PArg "composite_lit" "" "" "" "" None None None (Some <$> elts).

(** A declared variable or constant (Variable; processVariables, metadata.go 1210-1271). [pv_init] is the text
    of its initial value, if it has one. *)
Record pvar := PVar { pv_const : bool; pv_init : option string }.
(** callArgToString on the initial value (expression.go 631-687), for the expressions above. *)
Fixpoint init_text (a : parg) : string :=
  match a with
  | PArg k n v _ _ x f _ _ =>
      if decide (k = "literal") then trim dquote v
      else if decide (k = "binary") then match x, f with Some x, Some f => init_text x +:+ " " +:+ v +:+ " " +:+ init_text f | _, _ => v end
      else if decide (k = "paren") then match x with Some x => "(" +:+ init_text x +:+ ")" | None => "()" end
      else n
  end.
Definition declare_const (init : parg) : pvar := PVar true (Some (init_text init)).

Section resolve.
  (** The files of each package in sorted order, each with its declared names; the string pool. *)
  Context (vars : gmap string (list (gmap string pvar))) (pool : list string).
  (** GetString (variable.Value). Value of a variable without initial value is 0, the first string of the pool
      (metadata.go 1263-1265, types.go 100-105); an interned text is read back (C15). *)
  Definition value_text (v : pvar) : string := match pv_init v with Some s => s | None => default "" (pool !! 0) end.
  (** selectorPackageKey (context_provider.go 113-121). *)
  Definition selector_package_key (x : parg) : string :=
    if decide (pa_type x = "" ∧ has_suffix (pa_name x) (pa_pkg x) = false) then pa_pkg x +:+ "/" +:+ pa_name x else pa_pkg x.
  (** The name constantInPackage looks up (context_provider.go 89-95). *)
  Definition const_name (a : parg) : string :=
    match pa_sel a with
    | Some s => if decide (pa_kind a = "selector")
                then match pa_x a with Some x => if decide (pa_type x = "") then pa_name s else pa_type x +:+ "." +:+ pa_name s | None => pa_name s end
                else pa_name a
    | None => pa_name a
    end.
  (** constantInPackage (context_provider.go 84-109). *)
  Definition const_in_package (pkg : string) (a : parg) : option string :=
    files ← vars !! pkg;
    if decide (const_name a = "") then None
    else v ← head (omap (λ f : gmap string pvar, f !! const_name a) files); Some (trim dquote (value_text v)).
  (** ConstantValue (context_provider.go 61-77). *)
  Definition const_value (a : parg) : option string :=
    if decide (pa_kind a = "literal") then Some (trim dquote (pa_value a))
    else if decide (pa_kind a = "selector") then match pa_x a, pa_sel a with Some x, Some _ => const_in_package (selector_package_key x) a | _, _ => None end
    else if decide (pa_kind a = "ident") then const_in_package (pa_pkg a) a
    else None.

  (** placeholderFor (pattern_matchers.go 82-94): the name; the text is the name in braces. *)
  Definition placeholder (a : parg) : string :=
    let name := pa_name a in
    let name := if decide (name = "") then match pa_fun a with Some f => pa_name f | None => name end else name in
    let name := if decide (name = "") then match pa_sel a with Some s => pa_name s | None => name end else name in
    if decide (name = "") then "path" else name.
  Definition braces (n : string) : string := "{" +:+ n +:+ "}".

  (** flattenConcat (pattern_matchers.go 133-148). Nil is [None]; the operands are never an empty list. *)
  Fixpoint flatten (a : parg) (acc : list parg) : option (list parg) :=
    match a with
    | PArg k _ v _ _ x f _ _ =>
        if decide (k = "binary") then
          if decide (v = "+") then match x, f with Some x, Some f => left ← flatten x acc; flatten f left | _, _ => None end else None
        else Some (acc ++ [a])
    end.

  (** A call graph edge: base IDs of caller, callee and of the function that defines the calling closure, and the
      arguments by parameter name; [None] is a nil map. *)
  Record pedge := PEdge { pe_caller : string; pe_callee : string; pe_parent : option string; pe_params : option (gmap string parg) }.
  (** A tracker node: the edges of the node and of its ancestors, outwards. *)
  Definition pnode : Type := list (option pedge).
  Definition bound (e : pedge) (name : string) : option parg := m ← pe_params e; m !! name.
  (** The loop over the ancestors of argViaParent (extractor.go 2740-2753). *)
  Fixpoint via_ancestors (enclosing name : string) (l : pnode) : option (parg * pnode) :=
    match l with
    | [] => None
    | o :: up => match o with
                 | Some pe => if decide (pe_callee pe = enclosing) then (λ a, (a, l)) <$> bound pe name else via_ancestors enclosing name up
                 | None => via_ancestors enclosing name up
                 end
    end.
  (** argViaParent (extractor.go 2709-2755). *)
  Definition arg_via_parent (a : parg) (nd : pnode) : option (parg * pnode) :=
    if decide (pa_kind a = "ident") then
      match nd with
      | [] => None
      | self :: up =>
          match match up with Some pe :: _ => bound pe (pa_name a) | _ => None end with
          | Some r => Some (r, up)
          | None => e ← self; if decide (pe_caller e = "") then None else via_ancestors (pe_caller e) (pa_name a) up
          end
      end
    else None.
  (** resolveArgThroughParams (extractor.go 2760-2782), with the number of hops left; [None] if there was none. *)
  Fixpoint through_params (n : nat) (a : parg) (nd : pnode) : option parg :=
    match n with
    | 0 => None
    | S n => r ← arg_via_parent a nd; Some (default r.1 (through_params n r.1 r.2))
    end.
  Definition max_hops : nat := 8.

  (** The loop of paramArgOfEnclosingFunc (pattern_matchers.go 334-343). *)
  Fixpoint enclosing_ancestors (enclosing name : string) (l : pnode) : option parg :=
    match l with
    | [] => None
    | o :: up => match o with
                 | Some pe => if decide (pe_callee pe = enclosing ∧ pe_params pe ≠ None) then bound pe name else enclosing_ancestors enclosing name up
                 | None => enclosing_ancestors enclosing name up
                 end
    end.
  (** paramArgOfEnclosingFunc (pattern_matchers.go 322-345). *)
  Definition enclosing_param (a : parg) (nd : pnode) : option parg :=
    if decide (pa_kind a = "ident") then
      match nd with
      | Some e :: up => f ← pe_parent e; if decide (f = "") then None else enclosing_ancestors f (pa_name a) up
      | _ => None
      end
    else None.

  (** The calls of each function: Metadata.Callees. *)
  Context (callees : string → list pedge).
  (** enclosingFuncID (pattern_matchers.go 291-302). *)
  Definition enclosing_func (nd : pnode) : string :=
    match nd with
    | Some e :: _ => match pe_parent e with Some f => if decide (f = "") then pe_caller e else f | None => pe_caller e end
    | _ => ""
    end.
  (** The loop of uniqueCallerArg (pattern_matchers.go 271-285). *)
  Fixpoint agree_loop (name : string) (es : list pedge) (chosen : option (parg * string)) : option (parg * string) :=
    match es with
    | [] => chosen
    | e :: es =>
        a ← bound e name; v ← const_value a;
        match chosen with
        | Some (_, v') => if decide (v = v') then agree_loop name es (Some (a, v)) else None
        | None => agree_loop name es (Some (a, v))
        end
    end.
  (** uniqueCallerArg (pattern_matchers.go 258-287), with metadata. *)
  Definition unique_caller (a : parg) (nd : pnode) : option parg :=
    if decide (nd = [] ∨ pa_name a = "" ∨ enclosing_func nd = "") then None
    else fst <$> agree_loop (pa_name a) (callees (enclosing_func nd)) None.
  (** callerArgFor (pattern_matchers.go 230-244). *)
  Definition caller_arg (a : parg) (nd : pnode) : option parg :=
    if decide (pa_kind a = "ident" ∧ nd ≠ []) then
      let rest b := match enclosing_param b nd with Some c => Some c | None => unique_caller b nd end in
      match through_params max_hops a nd with
      | Some b => if decide (pa_kind b = "ident") then rest b else Some b
      | None => rest a
      end
    else None.

  (** unwrapComposite (pattern_matchers.go 348-358). *)
  Fixpoint unwrap_composite (a : parg) : option parg :=
    match a with
    | PArg k _ _ _ _ x _ _ _ => if decide (k = "unary" ∨ k = "star" ∨ k = "paren") then match x with Some x => unwrap_composite x | None => None end else Some a
    end.
  (** The loop of structFieldValue (pattern_matchers.go 200-224); [None] is not resolved. *)
  Fixpoint field_loop (field : string) (elts : list (option parg)) : option string :=
    match elts with
    | [] => Some ""
    | None :: elts => field_loop field elts
    | Some e :: elts =>
        if decide (pa_kind e = "key_value") then
          match pa_x e, pa_fun e with
          | Some k, Some v => if decide (pa_name k = field) then const_value v else field_loop field elts
          | _, _ => None
          end
        else None
    end.
  (** structFieldValue (pattern_matchers.go 182-228). *)
  Definition struct_field (a : parg) (nd : pnode) : option string :=
    if decide (pa_kind a = "selector" ∧ nd ≠ []) then
      x ← pa_x a; s ← pa_sel a;
      if decide (pa_name s = "") then None
      else base ← unwrap_composite (default x (caller_arg x nd));
           if decide (pa_kind base = "composite_lit") then field_loop (pa_name s) (pa_args base) else None
    else None.

  (** resolvePathOperand (pattern_matchers.go 153-176): the text, and the name of the placeholder. *)
  Definition resolve_operand (a : parg) (nd : pnode) : string * string :=
    match const_value a with
    | Some v => (v, "")
    | None =>
        match caller_arg a nd ≫= const_value with
        | Some v => (v, "")
        | None => match struct_field a nd with
                  | Some v => (v, "")
                  | None => (braces (placeholder a), placeholder a)
                  end
        end
    end.
  (** resolveConcatenatedPath (pattern_matchers.go 107-129). *)
  Definition resolve_concat (a : parg) (nd : pnode) : string * list string :=
    match flatten a [] with
    | None => (braces (placeholder a), [placeholder a])
    | Some ops => foldl (λ r o, let '(v, n) := resolve_operand o nd in (r.1 +:+ v, if decide (n = "") then r.2 else append_unique r.2 [n])) ("", []) ops
    end.
  (** resolvePathArg (pattern_matchers.go 58-70), on an argument; [info] is GetArgumentInfo. *)
  Definition resolve_path (info : parg → string) (a : parg) (nd : pnode) : string * list string :=
    if decide (pa_kind a = "binary") then resolve_concat a nd
    else if decide (pa_kind a = "call") then (braces (placeholder a), [placeholder a])
    else (info a, []).
End resolve.
