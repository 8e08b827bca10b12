(** * Specification vocabulary for the call-graph condensation. *)
From stdpp Require Import base list strings relations.

(** [f] directly calls [g] in the call graph given as (caller, callee) pairs;
    edges with an empty identity do not count. *)
Definition calls (edges : list (string * string)) (f g : string) : Prop :=
  (f, g) ∈ edges ∧ f ≠ "" ∧ g ≠ "".

(** [f] can, transitively and in zero or more calls, reach [g]. *)
Definition can_call (edges : list (string * string)) : string → string → Prop :=
  rtc (calls edges).

(** [f] takes part in the call graph. *)
Definition appears (edges : list (string * string)) (f : string) : Prop :=
  ∃ g, calls edges f g ∨ calls edges g f.

(** A Go map iteration order: any function that permutes its argument. *)
Definition is_order {A} (iter : list A → list A) : Prop := ∀ l, iter l ≡ₚ l.
