(** * Specification vocabulary for group mounts and the application of wrappers. *)
From Coq Require Import Ascii.
From stdpp Require Import base list strings gmap.
From Coq Require Import ZArith.
From Verif Require Import StrLib WrapModel WrapSpec MountModel.

(** The first element of a kind. *)
Definition first_with {A} (K : A → Prop) (l : list A) (i : nat) (x : A) : Prop :=
  l !! i = Some x ∧ K x ∧ ∀ j y, j < i → l !! j = Some y → ¬ K y.
Definition path_param (p : gparam) : Prop := gp_kind p = GIdent ∧ gp_type p = "string".
Definition func_param (p : gparam) : Prop := gp_kind p = GFunc ∧ gp_name p ≠ "".
(** A method takes a path at [i] and a function named [f]. *)
Definition takes_group (ps : list gparam) (i : nat) (f : string) : Prop :=
  (∃ p, first_with path_param ps i p) ∧ ∃ j q, first_with func_param ps j q ∧ gp_name q = f.
(** A call of something named [f] is recorded for a method of a receiver. *)
Definition runs (es : list wedge) (fq name f : string) : Prop :=
  ∃ e, e ∈ es ∧ we_recv e ≠ "" ∧ we_pkg e +:+ "." +:+ we_recv e +:+ "." +:+ we_name e = fq +:+ "." +:+ name ∧ we_callee e = f.
(** A router type: the receiver of a complete wrapper, its package and type. *)
Definition router_type (routers : list dwrap) (pkg recv : string) : Prop :=
  pkg ≠ "" ∧ recv ≠ "" ∧ dotless recv ∧ ∃ r, r ∈ routers ∧ dw_complete r = true ∧ dw_recv r = pkg +:+ "." +:+ recv.

(** A list of patterns grown by some given ones: they are put in front, each under an
    identity of its own that was not there, and every given one is there in the end,
    itself or another of its identity. *)
Definition grown {A} (identity : A → string * string) (given : A → Prop) (old new_list : list A) : Prop :=
  ∃ added, new_list = added ++ old ∧ (∀ x, x ∈ added → given x) ∧ NoDup (identity <$> added) ∧
    (∀ x y, x ∈ added → y ∈ old → identity x ≠ identity y) ∧
    ∀ x, given x → ∃ y, y ∈ new_list ∧ identity y = identity x.
