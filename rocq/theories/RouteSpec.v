(** * Specification vocabulary: routes. *)
From Coq Require Import Ascii.
From stdpp Require Import base list strings gmap.
From Verif Require Import StrOrder StrLib StrSplit RouteModel.

(** The same handler registered for the same method and local path. *)
Definition same_endpoint (a b : route) : Prop :=
  rt_fn a = rt_fn b ∧ rt_method a = rt_method b ∧ rt_path a = rt_path b.

(** [r] is a partially mounted copy of [r']: the same endpoint with some, but not
    all, of the mount segments of [r'], in the same order. *)
Definition subsumed_by (r r' : route) : Prop :=
  same_endpoint r r' ∧
  sublist (mount_segments (rt_mount r)) (mount_segments (rt_mount r')) ∧
  length (mount_segments (rt_mount r)) < length (mount_segments (rt_mount r')).

(** What identifies a route in the output. *)
Definition ident (r : route) : string * string * string * string :=
  (rt_fn r, rt_method r, rt_path r, rt_mount r).

(** The response carries a schema that says something about the body. *)
Definition informative (s : option sch) : Prop :=
  ∃ x, s = Some x ∧ (sc_ref x ≠ "" ∨ sc_props x ≠ [] ∨ sc_allof x ≠ 0 ∨ sc_items x = true).

(** Full tie: the two cannot be told apart by concreteness and body type. *)
Definition resp_tie (a b : option resp) : Prop :=
  match a, b with
  | None, None => True
  | Some x, Some y => (informative (rp_schema x) ↔ informative (rp_schema y)) ∧ rp_body x = rp_body y
  | _, _ => False
  end.
