(** * The facts recorded about external types (internal/metadata/metadata.go). *)
From Coq Require Import Ascii.
From stdpp Require Import base list strings gmap.
From Verif Require Import StrLib StrSplit StrSub ExtModel.

(** A go/types type, as far as it is read: named types by an identity, and the wrappers. [GBasic] is a predeclared type by its name (byte is uint8, and
    error is taken as one); [GOther]: structs, interfaces, functions, type parameters. *)
Inductive gtype := GNamed (id : nat) | GPtr (t : gtype) | GSlice (t : gtype) | GArr (n : nat) (t : gtype) | GMapT (k v : gtype) | GChan (t : gtype) | GAlias (name : string) (t : gtype) | GBasic (name : string) | GOther (text : string).
#[global] Instance gtype_eq_dec : EqDecision gtype.
Proof. solve_decision. Defined.
(** A method in the method set of the pointer: its name, parameters and results. *)
Record gmethod := GMethod { gm_name : string; gm_params : list gtype; gm_results : list gtype }.
(** A named type: its package (path and name; none for predeclared types), name, type arguments, underlying type with its text, and methods. *)
Record gdecl := GDecl { gd_pkg : option (string * string); gd_name : string; gd_args : list gtype; gd_under : gtype; gd_text : string; gd_methods : list gmethod }.
Notation genv := (gmap nat gdecl).

(** isMarshalerSignature (metadata.go 833-841). *)
Definition is_marshaler_sig (m : gmethod) : bool :=
  bool_decide (gm_params m = []) && match gm_results m with [a; b] => bool_decide (a = GSlice (GBasic "uint8")) && bool_decide (b = GBasic "error") | _ => false end.
(** hasMarshalerMethod (metadata.go 818-830). *)
Definition has_marshaler (d : gdecl) (name : string) : bool := existsb (λ m, bool_decide (gm_name m = name) && is_marshaler_sig m) (gd_methods d).
(** marshalerKind (metadata.go 803-811). *)
Definition marshaler_kind (d : gdecl) : marshaler := if has_marshaler d "MarshalJSON" then MJSON else if has_marshaler d "MarshalText" then MText else MNone.
(** isExternalPackage (metadata.go 897-911). *)
Definition is_external (path module : string) : bool :=
  if negb (contains_byte "/" path) && negb (contains_byte "." path) then false else if has_prefix module path then false else true.
(** The keys and the fact (metadata.go 873-878). *)
Definition fact_of (d : gdecl) : efact := EFact (marshaler_kind d) (gd_text d).
Definition qualify (pkg name : string) : string := pkg +:+ "." +:+ name.
(** recordExternalTypeFactsVisited (metadata.go 856-894). The state: the types visited and the facts; the number bounds the depth of calls, [None]: the
    bound is too low. *)
Fixpoint record_facts (env : genv) (module : string) (depth : nat) (t : gtype) (st : gset nat * gmap string efact) : option (gset nat * gmap string efact) :=
  match depth with
  | 0 => None
  | S depth =>
      match t with
      | GNamed i =>
          match env !! i with
          | None => Some st
          | Some d =>
              match gd_pkg d with
              | None => Some st
              | Some (path, name) =>
                  if negb (is_external path module) then Some st
                  else if decide (i ∈ st.1) then Some st
                  else record_facts env module depth (gd_under d) ({[i]} ∪ st.1, <[qualify name (gd_name d) := fact_of d]> (<[qualify path (gd_name d) := fact_of d]> st.2))
              end
          end
      | GPtr t | GSlice t | GArr _ t | GChan t => record_facts env module depth t st
      | GMapT k v => match record_facts env module depth k st with Some st => record_facts env module depth v st | None => None end
      | GAlias _ _ | GBasic _ | GOther _ => Some st
      end
  end.
(** A depth that is enough: the sizes of the type and of all underlying types. *)
Fixpoint gsize (t : gtype) : nat :=
  match t with GNamed _ | GBasic _ | GOther _ | GAlias _ _ => 1 | GPtr t | GSlice t | GArr _ t | GChan t => S (gsize t) | GMapT k v => S (gsize k + gsize v) end.
Definition unders (env : genv) (seen : gset nat) : nat := sum_list_with (λ p : nat * gdecl, if decide (p.1 ∈ seen) then 0 else S (gsize (gd_under p.2))) (map_to_list env).
(** recordExternalTypeFacts (metadata.go 849-851). *)
Definition record_type (env : genv) (module : string) (t : gtype) (facts : gmap string efact) : gmap string efact :=
  match record_facts env module (S (gsize t + unders env ∅)) t (∅, facts) with Some st => st.2 | None => facts end.
(** The fields of the structs in order (metadata.go 1046-1071). *)
Definition record_fields (env : genv) (module : string) (ts : list gtype) : gmap string efact := fold_left (λ f t, record_type env module t f) ts ∅.
