(** * Specification vocabulary for reachability. *)
From stdpp Require Import base list strings relations.
From Verif Require Import SccSpec ReachModel.

(** [f] has a chain of calls (possibly of length zero) ending in a call edge
    that satisfies the predicate. *)
Definition reaches_match (es : list cg_edge) (mtch : cg_edge → bool) (f : string) : Prop :=
  ∃ g e, can_call (edge_pairs es) f g ∧ e ∈ es ∧ ce_caller e = g ∧ mtch e = true.

(** Expanding [a] leads to expanding [b]: [a] calls [b], or [b] is the caller
    side of an edge written inside the function [a] (a closure of [a]). *)
Definition expands_to (es : list cg_edge) (a b : string) : Prop :=
  a ≠ "" ∧ b ≠ "" ∧
  ∃ e, e ∈ es ∧ ((ce_caller e = a ∧ ce_callee e = b) ∨ (ce_parent e = Some a ∧ ce_caller e = b)).

(** [a] leads to a call edge satisfying the predicate. *)
Definition leads_to_match (es : list cg_edge) (mtch : cg_edge → bool) (a : string) : Prop :=
  ∃ e, e ∈ es ∧ mtch e = true ∧ ce_caller e ≠ "" ∧ rtc (expands_to es) a (ce_caller e).

(** A path in a tree whose nodes' children are given by [children]. *)
Inductive tree_path {K} (children : K → list K) : list K → Prop :=
  | tp_one x : tree_path children [x]
  | tp_cons x y p : y ∈ children x → tree_path children (y :: p) → tree_path children (x :: y :: p).
