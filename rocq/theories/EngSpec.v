(** * What the engine analyses: specification for C67 and C68. *)
From Coq Require Import Ascii.
From stdpp Require Import base list strings gmap.
From Verif Require Import StrLib StrSplit DetModel GlobModel EngModel.

Definition ends_in (ends : list string) (s : string) : Prop := ∃ e t, e ∈ ends ∧ s = t +:+ e.
Definition within (part s : string) : Prop := ∃ a b, s = a +:+ part +:+ b.

Section spec.
Context (other : string → string → option bool).
(** A pattern names a package by its path or by the last element of its path. *)
Definition names (pat pkg : string) : Prop := glob_match other pat pkg = true ∨ ∃ above base, split_byte "/" pkg = above ++ [base] ∧ glob_match other pat base = true.
(** Packages left out for their C code. *)
Definition named_like_cgo (pkg : string) : Prop :=
  (∃ pat, pat ∈ ["*/tensorflow/*"; "*/govips/*"; "*/opencv/*"; "*/ffmpeg/*"; "*/sqlite3"; "*/go-sqlite3"; "*/graft/tensorflow"] ∧ glob_match other pat pkg = true) ∨
  (∃ part, part ∈ ["tensorflow/*"; "govips/*"; "opencv/*"; "ffmpeg/*"; "sqlite3"; "go-sqlite3"; "graft/tensorflow"] ∧ within part pkg).
Definition wanted_package (c : config) (pkg : string) : Prop :=
  (o_cgo (o_flags c) = true → ¬ named_like_cgo pkg) ∧
  (o_tests (o_flags c) = true → ¬ ends_in ["_test"; "_tests"] (str_lower pkg)) ∧
  (o_mocks (o_flags c) = true → ¬ ends_in ["mock"; "mocks"; "fake"; "fakes"; "stub"; "stubs"] (str_lower pkg)) ∧
  (∀ pat, pat ∈ p_packages (o_exclude c) → ¬ names pat pkg) ∧
  (p_packages (o_include c) = [] ∨ ∃ pat, pat ∈ p_packages (o_include c) ∧ names pat pkg).
Definition wanted_file (c : config) (file : string) : Prop :=
  (o_tests (o_flags c) = true → ¬ (ends_in ["test.go"] (str_lower file) ∨ within "/test/" (str_lower file) ∨ within "/tests/" (str_lower file))) ∧
  (o_mocks (o_flags c) = true → ¬ ends_in ["mock.go"; "fake.go"; "stub.go"; "mocks.go"; "fakes.go"; "stubs.go"] (str_lower file)) ∧
  (∀ pat, pat ∈ p_files (o_exclude c) → glob_match other pat file = false) ∧
  (p_files (o_include c) = [] ∨ ∃ pat, pat ∈ p_files (o_include c) ∧ glob_match other pat file = true).
End spec.

(** A package of the module. *)
Definition of_module (module pkg : string) : Prop := pkg = module ∨ ∃ below, pkg = module +:+ "/" +:+ below.
(** Two lists of patterns with the same members. *)
Definition same_members (a b : list string) : Prop := ∀ x, x ∈ a ↔ x ∈ b.
Definition same_patterns (c d : config) : Prop :=
  same_members (p_files (o_include c)) (p_files (o_include d)) ∧ same_members (p_packages (o_include c)) (p_packages (o_include d)) ∧
  same_members (p_files (o_exclude c)) (p_files (o_exclude d)) ∧ same_members (p_packages (o_exclude c)) (p_packages (o_exclude d)) ∧ o_flags c = o_flags d.
(** Patterns added in front of a list, none with the call and receiver of another. *)
Definition adds (before after : list pattern) (from : list pattern) : Prop :=
  ∃ new, after = new ++ before ∧ (∀ p, p ∈ new → p ∈ from) ∧
    ∀ p q, p ∈ new → q ∈ before → ¬ (pt_call p = pt_call q ∧ pt_recv p = pt_recv q).
(** Patterns that complete derivations ask for, by the list they belong to; a derivation without a role is a route. *)
Definition from_complete (pick : wrapper → option pattern) (ws : list wrapper) : list pattern := omap (λ w, if wr_complete w then pick w else None) ws.
Definition as_response (w : wrapper) : option pattern := match wr_response w with Some (p, true) => Some p | _ => None end.
Definition as_route (w : wrapper) : option pattern :=
  match wr_mount w, as_response w, wr_request w, wr_param w with None, None, None, None => Some (wr_route w) | _, _, _, _ => None end.
(** The patterns in force: those of the engine and those of the configuration it was given. *)
Definition union_of (a b both : list string) : Prop := ∀ x, x ∈ both ↔ x ∈ a ∨ x ∈ b.
Definition in_force (c : config) (given : option apiconfig) (d : config) : Prop :=
  o_flags d = o_flags c ∧
  match given with
  | None => d = c
  | Some a => union_of (p_files (o_include c)) (p_files (a_include a)) (p_files (o_include d)) ∧ union_of (p_packages (o_include c)) (p_packages (a_include a)) (p_packages (o_include d)) ∧
      union_of (p_files (o_exclude c)) (p_files (a_exclude a)) (p_files (o_exclude d)) ∧ union_of (p_packages (o_exclude c)) (p_packages (a_exclude a)) (p_packages (o_exclude d))
  end.
(** The i-th tree of a package goes with its i-th file. *)
Definition paired (p : lpkg) (f t : string) : Prop := ∃ i : nat, l_files p !! i = Some f ∧ l_syntax p !! i = Some t.
