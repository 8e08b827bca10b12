(** * Specification vocabulary for identities. *)
From Coq Require Import Ascii.
From stdpp Require Import base list strings.
From Verif Require Import StrLib IdModel.

(** The string uses neither of the two characters that start a decoration. *)
Definition undecorated (s : string) : Prop :=
  contains_byte "@" s = false ∧ contains_byte "[" s = false.

(** An ordinary call: package, name and receiver are undecorated, and the
    package path does not start with a star. *)
Definition ordinary (c : call_ident) : Prop :=
  undecorated (ci_pkg c) ∧ undecorated (ci_name c) ∧ undecorated (ci_recv c) ∧
  has_prefix "*" (ci_pkg c) = false.

(** Name and receiver are single words, and the last element of the package path
    has no dot (every dot of the path has a slash after it). *)
Definition word (s : string) : Prop := contains_byte "." s = false ∧ contains_byte "/" s = false.
Definition conventional (c : call_ident) : Prop :=
  word (ci_name c) ∧ word (ci_recv c) ∧ ci_recv c ≠ "*" ∧
  ∀ a b, ci_pkg c = a +:+ "." +:+ b → contains_byte "/" b = true.

(** The two calls are calls of the same declared function. *)
Definition same_function (c1 c2 : call_ident) : Prop :=
  ci_pkg c1 = ci_pkg c2 ∧ ci_name c1 = ci_name c2 ∧ bare_recv (ci_recv c1) = bare_recv (ci_recv c2).
