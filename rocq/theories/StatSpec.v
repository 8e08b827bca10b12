(** * Specification vocabulary for status mappers: what a field can be set to by
    the returns of a function, read as a graph. *)
From stdpp Require Import base list strings gmap relations.
From Coq Require Import ZArith.
From Verif Require Import StatModel.

(** A struct literal, possibly behind an operator such as &. *)
Definition literal (v l : sarg) : Prop :=
  s_kind l = SComposite ∧ (v = l ∨ (s_kind v = SUnary ∧ s_x v = Some l)).

(** The values a function returns, in all its return statements. *)
Definition returned (f : sfunc) (v : sarg) : Prop := ∃ r, r ∈ sf_returns f ∧ v ∈ r.

(** A place the search can be at: a function, or a value in the body of one. *)
Inductive place := AtFun (f : sfunc) | AtVal (f : sfunc) (v : sarg).

Section spec.
Context (map_status : sarg → option Z) (find : string → string → option sfunc).
(** The value a literal written in a function sets the field to, if it does. *)
Context (field_of : sfunc → sarg → option sarg).

(** The status a value stands for: for a call, the status of the one argument that
    has one. *)
Definition is_status (v : sarg) (s : Z) : Prop :=
  (s_kind v ≠ SCall ∧ map_status v = Some s) ∨
  (s_kind v = SCall ∧ ∃ i a, s_args v !! i = Some (Some a) ∧ map_status a = Some s ∧
     ∀ j b, j ≠ i → s_args v !! j = Some (Some b) → map_status b = None).

(** A literal at a value sets the field to a status; or to something that is none. *)
Definition sets (f : sfunc) (v : sarg) (s : Z) : Prop :=
  ∃ l fv, literal v l ∧ field_of f l = Some fv ∧ is_status fv s.
Definition leaves_open (f : sfunc) (v : sarg) : Prop :=
  ∃ l fv, literal v l ∧ field_of f l = Some fv ∧ ∀ s, ¬ is_status fv s.

(** The name a call is made under. *)
Definition called_as (v : sarg) (name : string) : Prop :=
  name ≠ "" ∧ ∃ fn, s_fn v = Some fn ∧
    (s_name fn = name ∨ (s_name fn = "" ∧ s_kind fn = SSelector ∧ ∃ s, s_sel fn = Some s ∧ s_name s = name)).

(** One step: from a function to a value it returns; from a variable to what is
    assigned to it, or to the function whose result is; from a call to the
    function called.  All but the first count. *)
Inductive stat_step : nat → place → place → Prop :=
  | st_return f v : returned f v → stat_step 0 (AtFun f) (AtVal f v)
  | st_assigned f v as_ a : (∀ l, ¬ literal v l) → s_kind v = SIdent → sf_assigns f !! s_name v = Some as_ → a ∈ as_ →
      s_kind (sa_value a) ≠ SCall → stat_step 1 (AtVal f v) (AtVal f (sa_value a))
  | st_helper f v as_ a h : (∀ l, ¬ literal v l) → s_kind v = SIdent → sf_assigns f !! s_name v = Some as_ → a ∈ as_ →
      s_kind (sa_value a) = SCall → sa_func a ≠ "" → find (sa_pkg a) (sa_func a) = Some h → stat_step 1 (AtVal f v) (AtFun h)
  | st_call f v name h : (∀ l, ¬ literal v l) → s_kind v = SCall → called_as v name →
      find (sf_pkg f) name = Some h → stat_step 1 (AtVal f v) (AtFun h).

(** Any number of steps, with their count. *)
Inductive stat_steps : nat → place → place → Prop :=
  | sts_refl a : stat_steps 0 a a
  | sts_step n m a b c : stat_step n a b → stat_steps m b c → stat_steps (n + m) a c.

(** Some branch of the function sets the field to this status; some branch sets it
    to something that is no status; the search goes deeper than [n]. *)
Definition can_answer (f : sfunc) (s : Z) : Prop := ∃ n g v, stat_steps n (AtFun f) (AtVal g v) ∧ sets g v s.
Definition can_be_open (f : sfunc) : Prop := ∃ n g v, stat_steps n (AtFun f) (AtVal g v) ∧ leaves_open g v.
Definition deeper_than (n : nat) (f : sfunc) : Prop := ∃ m h, n < m ∧ stat_steps m (AtFun f) (AtFun h).

(** Variables of one function are not assigned in a circle: they can be numbered so
    that what is assigned to one has a smaller number. *)
Definition no_circles (f : sfunc) : Prop :=
  ∃ rank : string → nat, ∀ x as_ a, sf_assigns f !! x = Some as_ → a ∈ as_ →
    s_kind (sa_value a) = SIdent → rank (s_name (sa_value a)) < rank x.
End spec.

(** The fields of the type a literal names, in order: the type is looked up in the
    package it is qualified with, or the function's own, and otherwise in the first
    package, by name, that declares one. *)
Definition literal_type (f : sfunc) (l : sarg) (pkg name : string) : Prop :=
  ∃ x, s_x l = Some x ∧
    ((s_kind x = SSelector ∧ ∃ q s, s_x x = Some q ∧ s_sel x = Some s ∧ pkg = s_name q ∧ name = s_name s) ∨
     ((s_kind x ≠ SSelector ∨ s_x x = None ∨ s_sel x = None) ∧ pkg = sf_pkg f ∧ name = s_name x)).
