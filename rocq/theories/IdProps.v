(** C37: identities of calls. *)
From Coq Require Import Ascii.
From stdpp Require Import sorting.
From stdpp Require Import base list strings.
From Verif Require Import StrOrder StrLib SccSpec IdModel IdSpec IdProofs.

(** C37, full statement: for every call, stripping the instance identity (and
    the generic identity) gives the base identity.  It is FALSE as soon as the
    receiver is a generic type: its written form contains a bracket, and
    stripping cuts there - so two different methods become one. *)
Theorem C37_strip_refuted : ∃ c1 c2,
  strip_to_base (instance_id id c1) ≠ base_id c1 ∧
  base_id c1 ≠ base_id c2 ∧
  strip_to_base (instance_id id c1) = strip_to_base (instance_id id c2).
Proof.
  exists (CallIdent "ex.com/store" "Get" "*Page[T]" "a.go:3:1" []),
         (CallIdent "ex.com/store" "Delete" "*Page[T]" "a.go:9:1" []).
  by vm_compute.
Qed.
Print Assumptions C37_strip_refuted.

(** C37 for calls whose package, name and receiver contain no decoration
    character.  Missing from the full statement: generic receivers, for which it
    is false ([C37_strip_refuted]). *)
Theorem C37_strip_gives_base_partial : ∀ iter c, ordinary c →
  strip_to_base (instance_id iter c) = base_id c ∧
  strip_to_base (generic_id iter c) = base_id c ∧
  strip_to_base (base_id c) = base_id c.
Proof. exact strip_instance. Qed.
Print Assumptions C37_strip_gives_base_partial.

(** Two instances are grouped exactly when they call the same function, for
    ordinary calls with conventional names. *)
Theorem C37_grouped_iff_same_function_partial : ∀ iter c1 c2,
  ordinary c1 → ordinary c2 → conventional c1 → conventional c2 →
  strip_to_base (instance_id iter c1) = strip_to_base (instance_id iter c2) ↔ same_function c1 c2.
Proof.
  intros iter c1 c2 H1 H2 H3 H4.
  rewrite (proj1 (strip_instance iter c1 H1)), (proj1 (strip_instance iter c2 H2)).
  by apply base_injective.
Qed.
Print Assumptions C37_grouped_iff_same_function_partial.

(** Without the convention on the package path the grouping is not faithful even
    for ordinary calls: a method of a type and a function of a package whose last
    path element has a dot can share an identity. *)
Theorem C37_dotted_package_collision_refuted : ∃ c1 c2, ordinary c1 ∧ ordinary c2 ∧
  word (ci_name c1) ∧ word (ci_recv c1) ∧ word (ci_name c2) ∧ word (ci_recv c2) ∧
  ¬ same_function c1 c2 ∧ base_id c1 = base_id c2.
Proof.
  exists (CallIdent "ex.com/yaml.v3" "Load" "" "a.go:3:1" []),
         (CallIdent "ex.com/yaml" "Load" "v3" "b.go:9:1" []).
  repeat split; try done. intros (? & _ & _). done.
Qed.
Print Assumptions C37_dotted_package_collision_refuted.

(** The identity does not depend on the order in which Go visits the map of type
    arguments. *)
Theorem C37_identity_independent_of_map_order : ∀ iter1 iter2 c, is_order iter1 → is_order iter2 →
  instance_id iter1 c = instance_id iter2 c ∧ generic_id iter1 c = generic_id iter2 c.
Proof. exact instance_order. Qed.
Print Assumptions C37_identity_independent_of_map_order.

(** Non-vacuity. *)
Definition ex_call : call_ident :=
  CallIdent "github.com/me/app/api" "Bind" "*Ctx" "h.go:10:2" [("U","api.Resp"); ("T","api.Req")].
Example C37_example_hyps : ordinary ex_call ∧ conventional ex_call.
Proof.
  split; [by repeat split|]. split; [done|]. split; [done|]. split; [done|]. simpl.
  assert (∀ s, (∀ a b, s = a +:+ "." +:+ b → contains_byte "/" b = true) ↔
    (fix f s := match s with EmptyString => true
      | String c s' => (negb (bool_decide (c = "."%char)) || contains_byte "/" s') && f s' end) s = true) as Hdec.
  { induction s as [|c s IH].
    - split; [done|]. intros _ [|? ?] b Heq; done.
    - rewrite andb_true_iff, <- IH, orb_true_iff. split.
      + intros Hall. split; [|intros a b ->; by apply (Hall (String c a) b)].
        case_bool_decide as Hc; [right; subst c; by apply (Hall "" s)|by left].
      + intros [Hc Hall] [|c' a] b Heq.
        * simpl in Heq. injection Heq as -> ->. by destruct Hc.
        * rewrite sapp_cons in Heq. injection Heq as -> ->. by eapply Hall. }
  by apply Hdec.
Qed.
Example C37_example :
  instance_id reverse ex_call = "github.com/me/app/api.Ctx.Bind[T=api.Req,U=api.Resp]@h.go:10:2" ∧
  strip_to_base (instance_id reverse ex_call) = "github.com/me/app/api.Ctx.Bind".
Proof. by vm_compute. Qed.
