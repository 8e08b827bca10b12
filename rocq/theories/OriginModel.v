(** * Which calls read a request parameter, and what they document (internal/spec/param_origin.go; recv_forms.go 37-60; extractor.go 3120-3141, 3369-3519). *)
From Coq Require Import Ascii.
From stdpp Require Import base list strings gmap.
From Verif Require Import StrLib MergeModel.

(** qualifyOwner (call_scope.go 104-113). *)
Definition qualify_owner (pkg recv : string) : string :=
  if decide (recv = "") then pkg else if decide (pkg = "") then recv else pkg +:+ "." +:+ recv.
(** recvForms (recv_forms.go 37-60); [written] is the receiver the call was written against, if it was replaced. Nothing outside the tests ever records one. *)
Definition recv_forms (pkg recv : string) (written : option string) : list string :=
  let recorded := qualify_owner pkg recv in
  match written with
  | None => if decide (recorded = "") then [] else [recorded]
  | Some w =>
      let w := qualify_owner pkg w in
      if decide (recorded = "") then (if decide (w = "") then [] else [w])
      else if decide (w = "" ∨ w = recorded) then [recorded] else [recorded; w]
  end.

(** An expression, with the type of each part: a call of a method or function, a selection, anything else. *)
Inductive oexp := OCall (t : string) (f : option oexp) | OSel (t : string) (x : option oexp) | OElse (t : string).
Definition oexp_type (e : oexp) : string := match e with OCall t _ | OSel t _ | OElse t => t end.
(** What argOriginTypes goes on to (param_origin.go 96-108). *)
Definition origin_next (e : oexp) : option oexp :=
  match e with
  | OCall _ (Some (OSel _ x)) => x
  | OCall _ f => f
  | OSel _ x => x
  | OElse _ => None
  end.
(** argOriginTypes (param_origin.go 90-111), with the number of steps left. *)
Fixpoint arg_origins (n : nat) (e : option oexp) : list string :=
  match n, e with
  | S n, Some e => (if decide (oexp_type e = "") then [] else [oexp_type e]) ++ arg_origins n (origin_next e)
  | _, _ => []
  end.
(** receiverOriginDepth (param_origin.go 24). *)
Definition origin_depth : nat := 8.
(** receiverOriginTypes (param_origin.go 39-66): [chain] are the receiver forms of the calls this one is chained onto, nearest first; [assigned] the values of the variable it is called on, in the
    order they are recorded. *)
Definition receiver_origins (chain : list (list string)) (assigned : list oexp) : list string :=
  concat (take origin_depth chain) ++ match last assigned with Some v => arg_origins origin_depth (Some v) | None => [] end.
(** MatchNode of a parameter pattern (extractor.go 3369-3419); [rx] as in C10: false for an expression that does not compile. *)
Definition param_matches (rx : string → string → bool) (p : pat) (exclude : string) (c : call) (chain : list (list string)) (assigned : list oexp) : bool :=
  matches rx p c && (bool_decide (exclude = "") || negb (existsb (rx exclude) (receiver_origins chain assigned))).

(** The hints of a parameter pattern: ParamIn, ParamArgIndex, TypeFromArg, TypeArgIndex. *)
Record phints := PHints { ph_in : string; ph_at : nat; ph_typed : bool; ph_type_at : nat }.
(** A parameter: name, in, required, schema. *)
Record oparam (S : Type) := OParam { op_name : string; op_in : string; op_required : bool; op_schema : S }.
Arguments OParam {S}. Arguments op_name {S}. Arguments op_in {S}. Arguments op_required {S}. Arguments op_schema {S}.
Section extract.
  Context {A S : Type}.
  (** ConstantValue; resolveArgThroughParams, if it leads elsewhere (C88); the schema of an argument's type (mapGoTypeForRoute of determineLiteralType or resolveTypeOrigin, C95); the schemas of a text and of a file. *)
  Context (constant : A → option string) (through : A → option A) (typed : A → option S) (text binary : S).
  (** paramWireName (extractor.go 3120-3141). *)
  Definition wire_name (a : A) : option string :=
    match constant a with
    | Some v => Some v
    | None => through a ≫= constant
    end.
  (** ExtractParam (extractor.go 3441-3519): the parameter, and whether the route's body is now known to be multipart. *)
  Definition extract_param (h : phints) (args : list A) : option (oparam S) * bool :=
    if decide (ph_in h = "multipart") then (None, true)
    else
      match (match args !! ph_at h with Some a => wire_name a | None => Some "" end) with
      | None => (None, false)
      | Some name =>
          if decide (ph_in h = "formFile") then (Some (OParam name (ph_in h) false binary), true)
          else
            let schema := if ph_typed h then args !! ph_type_at h ≫= typed else None in
            (Some (OParam name (ph_in h) (bool_decide (ph_in h = "path")) (default text schema)), false)
      end.
End extract.
