(** * Specification vocabulary for entrypoints. *)
From stdpp Require Import base list strings relations.
From Verif Require Import SccSpec IdModel ReachModel EntryModel.

(** [k] is called, directly or not, by a function named main.  Keys are base
    keys: what follows the first @ or [ of an identifier is not part of one. *)
Definition calls_to (es : list cg_edge) (a b : string) : Prop := ∃ e, e ∈ es ∧ ce_caller e = a ∧ ce_callee e = b.
Definition from_main (name : cg_edge → string) (es : list cg_edge) (k : string) : Prop :=
  ∃ e, e ∈ es ∧ name e = "main" ∧ rtc (calls_to es) (strip_to_base (ce_caller e)) k.

Section regex.
(** [re expr s = Some b]: the expression compiles and [b] says whether it matches. *)
Context (re : string → string → option bool).

(** A pattern stands for the pair of a type and a field: the field matches, and
    the pattern says something about the type, which is true. *)
Definition stands_for (p : epattern) (owner field : string) : Prop :=
  (ep_field p = "" ∨ re (ep_field p) field = Some true) ∧
  ((ep_recv_re p ≠ "" ∧ re (ep_recv_re p) owner = Some true) ∨
   (ep_recv_re p = "" ∧ ep_recv p ≠ "" ∧ ep_recv p = owner)).

(** A command library is used: one of its expressions matches an import. *)
Definition library_used (paths : list string) (b : ebundle) : Prop :=
  ∃ expr imp, expr ∈ eb_imports b ∧ imp ∈ paths ∧ imp ≠ "" ∧ re expr imp = Some true.

(** A call is what a route or mount pattern describes: the name matches, and so
    does the receiver if the pattern says something about it. *)
Definition describes (g : rgate) (c : callee_info) (recv : string) : Prop :=
  rg_call g ≠ "" ∧ cl_name c ≠ "" ∧ re (rg_call g) (cl_name c) = Some true ∧
  (rg_recv_re g ≠ "" → re (rg_recv_re g) recv = Some true) ∧
  (rg_recv_re g = "" → rg_recv g ≠ "" → rg_recv g = recv).
End regex.

(** The receiver as it is compared: the type with its package, or whichever of the
    two is there. *)
Definition receiver_text (c : callee_info) (s : string) : Prop :=
  (cl_pkg c ≠ "" → cl_recv c ≠ "" → s = cl_pkg c +:+ "." +:+ cl_recv c) ∧
  (cl_pkg c = "" → s = cl_recv c) ∧ (cl_recv c = "" → s = cl_pkg c).
