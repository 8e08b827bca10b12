(** * Call identities (internal/metadata/metadata.go, types.go). *)
From Coq Require Import Ascii.
From stdpp Require Import sorting.
From stdpp Require Import base list strings.
From Verif Require Import StrOrder StrLib.

(** [CallIdentifier], metadata.go 44-65: what buildIdentifier (types.go
    1460-1488) reads from a call.  The generics map is a list of pairs; the order
    in which Go visits it is the parameter [iter] below.  The per-identifier and
    per-call string caches only memoise these pure functions and are left out. *)
Record call_ident := CallIdent {
  ci_pkg : string;
  ci_name : string;
  ci_recv : string;
  ci_pos : string;
  ci_generics : list (string * string)
}.

(** The receiver as it enters the identity: one leading star removed,
    metadata.go 77-80. *)
Definition bare_recv (recv : string) : string :=
  if has_prefix "*" recv then str_drop 1 recv else recv.

(** [ID(BaseID)], metadata.go 73-90. *)
Definition base_id (c : call_ident) : string :=
  trim_prefix "*"
    (if decide (ci_recv c = "") then ci_pkg c +:+ "." +:+ ci_name c
     else ci_pkg c +:+ "." +:+ bare_recv (ci_recv c) +:+ "." +:+ ci_name c).

Section iteration.
Context (iter : list (string * string) → list (string * string)).

(** The sorted "param=concrete" parts, metadata.go 94-98 and 108-112. *)
Definition generic_parts (c : call_ident) : list string :=
  ssort ((λ p : string * string, p.1 +:+ "=" +:+ p.2) <$> iter (ci_generics c)).

(** [ID(GenericID)], metadata.go 91-102. *)
Definition generic_id (c : call_ident) : string :=
  match ci_generics c with
  | [] => base_id c
  | _ => base_id c +:+ "[" +:+ str_join "," (generic_parts c) +:+ "]"
  end.

(** [ID(InstanceID)], metadata.go 103-122. *)
Definition instance_id (c : call_ident) : string :=
  trim_prefix "*"
    (base_id c +:+
     match ci_generics c with
     | [] => ""
     | _ => "[" +:+ str_join "," (generic_parts c) +:+ "]"
     end +:+
     (if decide (ci_pos c = "") then "" else "@" +:+ ci_pos c)).
End iteration.

(** [StripToBase], metadata.go 134-142. *)
Definition strip_to_base (id : string) : string := take_until (λ a, mem_byte a "@[") id.
