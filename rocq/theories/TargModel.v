(** * The parameters and type parameters of a call (internal/metadata/metadata.go 1848-2005, 2207-2254). *)
From Coq Require Import Ascii ZArith.
From stdpp Require Import sorting.
From stdpp Require Import base numbers list strings gmap.

(** The forms of the function of a call that are told apart (metadata.go 1850-1867): an identifier node, a selector with its last identifier,
    an index with one or several type arguments (IndexExpr, IndexListExpr), parentheses, and any other. *)
Inductive gexp := GIdent (n : nat) | GSel (x : gexp) (n : nat) | GIndex (x : gexp) (is : list gexp) | GParen (x : gexp) | GOther.
(** types.Signature: names of the type parameters (none: TypeParams() is nil) and of the parameters. *)
Record gsig := GSig { gs_tparams : list string; gs_params : list string }.
(** types.Object: a function with its signature, or anything else. *)
Inductive gobj := GFunc (s : gsig) | GElse.
(** What is read of types.Info: ObjectOf an identifier, Instances of an identifier (the texts of its type arguments), TypeOf an expression as text,
    and getTypeName of it (given). *)
Record ginfo := GInfo { gi_object : nat → option gobj; gi_instance : nat → option (list string); gi_type : gexp → option string; gi_name : gexp → string }.
(** What is read and written of a CallArgument: which it is, whether its kind is ident, and its TypeParamMap (nil is empty). *)
Record garg := GArg { ga_id : nat; ga_ident : bool; ga_map : gmap string string }.
(** An ast.CallExpr: its function, and of its first argument, if that has the type of a function, whether this has parameters and its type parameters. *)
Record gcall := GCall { gc_fun : gexp; gc_first : option (bool * list string) }.

(** The object of the function of a call (metadata.go 1849-1867). *)
Definition fun_object (i : ginfo) (f : gexp) : option gobj :=
  match f with
  | GIdent n => gi_object i n
  | GSel _ n => gi_object i n
  | GIndex (GIdent n) _ => gi_object i n
  | GIndex (GSel _ n) _ => gi_object i n
  | _ => None
  end.
(** Explicit type arguments (metadata.go 1874-1897). *)
Definition explicit_args (f : gexp) : list gexp :=
  match f with
  | GIndex _ is => is
  | GSel (GIndex _ is) _ => is
  | _ => []
  end.
(** The instance of the function of a call (metadata.go 1921-1935). *)
Definition fun_instance (i : ginfo) (f : gexp) : option (list string) :=
  match f with
  | GIdent n => gi_instance i n
  | GSel _ n => gi_instance i n
  | GParen (GIdent n) => gi_instance i n
  | _ => None
  end.
(** The loops that put the i-th type under the i-th name while there are types (metadata.go 1901-1913, 1938-1945). *)
Fixpoint put_types (names : list string) (ts : list string) (m : gmap string string) : gmap string string :=
  match names, ts with
  | n :: names, t :: ts => put_types names ts (<[n := t]> m)
  | _, _ => m
  end.
(** The type parameters of a call (metadata.go 1872-1983), put into a map that is empty. In the last part [sig] is the signature of the first argument,
    so each of its type parameters is put under its own name. *)
Definition type_params (i : ginfo) (c : gcall) (s : gsig) (args : list garg) : gmap string string :=
  match gs_tparams s with
  | [] => ∅
  | names =>
      match explicit_args (gc_fun c) with
      | [] =>
          match fun_instance i (gc_fun c) with
          | Some ts => put_types names ts ∅
          | None =>
              match args, gc_first c with
              | a :: _, Some (true, own) => if ga_ident a then put_types own own ∅ else ∅
              | _, _ => ∅
              end
          end
      | es => put_types names ((λ e, default (gi_name i e) (gi_type i e)) <$> es) ∅
      end
  end.
(** The loop over the parameters (metadata.go 1986-2001): the argument at each parameter's position gets the type parameters, and is put under the
    parameter's name. *)
Fixpoint put_args (tm : gmap string string) (ps : list string) (args : list garg) (m : gmap string garg) : gmap string garg * list garg :=
  match ps, args with
  | p :: ps, a :: args =>
      let a := GArg (ga_id a) (ga_ident a) (tm ∪ ga_map a) in
      let '(m, args) := put_args tm ps args (<[p := a]> m) in (m, a :: args)
  | _, _ => (m, args)
  end.
(** extractParamsAndTypeParams (metadata.go 1848-2005): the parameters, the type parameters and the arguments. *)
Definition extract_params (i : ginfo) (c : gcall) (args : list garg) : gmap string garg * gmap string string * list garg :=
  match fun_object i (gc_fun c) with
  | Some (GFunc s) =>
      let tm := type_params i c s args in
      let '(m, args) := put_args tm (gs_params s) args ∅ in (m, tm, args)
  | _ => (∅, ∅, args)
  end.

(** An argument as applyTypeParameterResolutionToArgument reads it: its type (None: -1), its TypeParamMap, its X, Fun and Args, and what it writes:
    ResolvedType (None: -1), and IsGenericType with GenericTypeName, which is its type. *)
Inductive targ := TArg (type : option string) (map : gmap string string) (resolved : option string) (generic : bool) (kids : list targ).
Definition ta_type (a : targ) : option string := let '(TArg t _ _ _ _) := a in t.
Definition ta_map (a : targ) : gmap string string := let '(TArg _ m _ _ _) := a in m.
Definition ta_resolved (a : targ) : option string := let '(TArg _ _ r _ _) := a in r.
Definition ta_generic (a : targ) : bool := let '(TArg _ _ _ g _) := a in g.
Definition ta_kids (a : targ) : list targ := let '(TArg _ _ _ _ k) := a in k.
(** StringPool.Get and back: the empty text is -1 (types.go, C15). *)
Definition pooled (s : string) : option string := if decide (s = "") then None else Some s.
(** applyTypeParameterResolutionToArgument (metadata.go 2229-2254); its paramArgMap is never read. *)
Fixpoint resolve_arg (tm : gmap string string) (a : targ) {struct a} : targ :=
  match a with
  | TArg t m r g kids =>
      let kids := (fix all l := match l with [] => [] | k :: l => resolve_arg (ta_map k) k :: all l end) kids in
      match t with
      | Some ty =>
          if bool_decide (is_Some (tm !! ty)) || bool_decide (m ≠ ∅)
          then TArg t m (pooled (default "" (tm !! ty))) true kids
          else TArg t m r g kids
      | None => TArg t m r g kids
      end
  end.
(** applyTypeParameterResolution (metadata.go 2207-2226): the arguments with their own maps, those under the parameters with the call's. *)
Definition resolve_edge (tm : gmap string string) (args : list targ) (params : gmap string targ) : list targ * gmap string targ :=
  ((λ a, resolve_arg (ta_map a) a) <$> args, resolve_arg tm <$> params).
