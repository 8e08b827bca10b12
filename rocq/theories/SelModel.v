(** * The type of a selected field and of a constant (internal/spec/field_resolver.go). *)
From Coq Require Import Ascii.
From stdpp Require Import base list strings gmap.
From Verif Require Import StrLib StrSplit StrOrder PairModel.

(** A declared type, as far as it is read (field_resolver.go 140-148): its fields with their types, and what it embeds. *)
Record stype := SType { sy_fields : list (string * string); sy_embeds : list string }.
(** The types of a package: those of Package.Types before those of its files in order, as findType looks (field_resolver.go 198-216); the choice among files is C101's. *)
Notation stypes := (gmap string (gmap string stype)).
(** findType (field_resolver.go 198-216). *)
Definition sel_type (ts : stypes) (pkg name : string) : option stype := if decide (pkg = "" ∨ name = "") then None else ts !! pkg ≫= (.!! name).
(** stripPointer (field_resolver.go 109-111). *)
Definition strip_pointer (t : string) : string := trim_prefix "*" t.
(** splitPkgType (field_resolver.go 117-123). *)
Definition split_pkg_type (t : string) : string * string := match split_last "." t with Some (p, n) => (p, n) | None => ("", t) end.
(** The first field of a name (field_resolver.go 140-144). *)
Definition own_field (t : stype) (f : string) : option string := head (omap (λ x : string * string, if decide (x.1 = f) then Some x.2 else None) (sy_fields t)).
(** The embedded types in order, the first that gives a type (field_resolver.go 146-155); [None]: one of the lookups does not end. *)
Fixpoint first_embedded (look : string → string → option string) (l : list string) : option string :=
  match l with
  | [] => Some ""
  | e :: l =>
      let '(p, n) := split_pkg_type (strip_pointer e) in
      if decide (n = "") then first_embedded look l
      else match look p n with None => None | Some r => if decide (r = "") then first_embedded look l else Some r end
  end.
(** lookupFieldType (field_resolver.go 132-157); the number bounds the depth of calls, [None]: the bound is too low. *)
Fixpoint lookup_field (ts : stypes) (f : string) (depth : nat) (pkg name : string) : option string :=
  match depth with
  | 0 => None
  | S depth =>
      match sel_type ts pkg name with
      | None => Some ""
      | Some t => match own_field t f with Some r => Some r | None => first_embedded (lookup_field ts f depth) (sy_embeds t) end
      end
  end.

(** An argument (types.go 1100-1126), as far as it is read: its kind with its parts, and its resolved and plain types. [EDeref] is a unary or star expression; nil parts are [None]. *)
Inductive sexpr :=
| EIdent (resolved plain : string) | ECall (resolved plain : string) | EDeref (x : option sexpr) | EOther
| ESelect (resolved plain : string) (x : option sexpr) (field : option string).
(** resolveSelectorFieldType and selectorBaseType (field_resolver.go 33-106): the type of a selector, and of what a selector selects from. [look] is lookupFieldType. *)
Definition or_plain (resolved plain : string) : string := if decide (resolved = "") then plain else resolved.
Fixpoint base_type (look : string → string → string → string) (x : sexpr) : string :=
  match x with
  | EIdent r t | ECall r t => or_plain r t
  | ESelect r t x f =>
      if decide (or_plain r t = "") then
        match x, f with
        | Some x, Some f =>
            let b := base_type look x in
            if decide (b = "") then "" else
            let '(p, n) := split_pkg_type (strip_pointer b) in
            if decide (n = "" ∨ f = "") then "" else look p n f
        | _, _ => ""
        end
      else or_plain r t
  | EDeref (Some x) => base_type look x
  | EDeref None | EOther => ""
  end.
(** resolveSelectorFieldType (field_resolver.go 33-75). *)
Definition selector_type (look : string → string → string → string) (x : sexpr) : string := match x with ESelect _ _ _ _ => base_type look x | _ => "" end.

(** constIdentDeclaredType (field_resolver.go 167-194) for an identifier; [files] are the variables of the package's files in order: whether declared by const, and the two types. *)
Record svar := SVar { sv_const : bool; sv_type : string; sv_resolved : string }.
Definition const_type (files : list (gmap string svar)) (name : string) : string :=
  match head (omap (.!! name) files) with
  | Some v => if sv_const v then or_plain (sv_type v) (sv_resolved v) else ""
  | None => ""
  end.
