(** * Call traces: specification for C64. *)
From stdpp Require Import base numbers list strings gmap relations.
From Verif Require Import StrOrder TraceModel.

(** The body of [x] calls the function [y], another function with a known identity that is not named like a
    builtin. *)
Definition calls_other (g : callers) (x y : string) : Prop :=
  x ≠ y ∧ y ≠ "" ∧ ∃ l name, g !! x = Some l ∧ Call name y ∈ l ∧ name ∉ builtin_funcs.
(** The fewest calls that lead from [x] to [y]. *)
Definition distance (R : relation string) (x y : string) (d : nat) : Prop := nsteps R d x y ∧ ∀ d', nsteps R d' x y → d ≤ d'.

Definition edge (adj : adjacency) (x y : string) : Prop := ∃ l, adj !! x = Some l ∧ y ∈ l.
(** Paths of calls from [root] that repeat no function and cannot be made longer without repeating one. *)
Definition call_path (adj : adjacency) (root : string) (p : list string) : Prop :=
  head p = Some root ∧ (∀ i x y, p !! i = Some x → p !! S i = Some y → edge adj x y) ∧ NoDup p ∧ ∀ x y, last p = Some x → edge adj x y → y ∈ p.
(** [L] lists the call paths, each once. *)
Definition lists_paths (adj : adjacency) (root : string) (L : list (list string)) : Prop := NoDup L ∧ ∀ p, p ∈ L ↔ call_path adj root p.
(** What analyzeAdjacency and addEdge keep (metrics.go 203-211): no self-call, no callee twice. *)
Definition tidy (adj : adjacency) : Prop := ∀ x l, adj !! x = Some l → NoDup l ∧ x ∉ l.
(** No function reached from [root] calls itself through others. *)
Definition no_recursion (adj : adjacency) (root : string) : Prop := ∀ x, rtc (edge adj) root x → ¬ tc (edge adj) x x.

(** Nearer to the root, and by name among those equally near. *)
Definition closer (a b : string * nat) : Prop := a.2 < b.2 ∨ (a.2 = b.2 ∧ string_lt a.1 b.1 = true).
(** [x] calls exactly [n] functions other than itself. *)
Definition fan_out (g : callers) (x : string) (n : nat) : Prop := ∃ ks, NoDup ks ∧ (∀ y, y ∈ ks ↔ calls_other g x y) ∧ length ks = n.
