(** * C07, C08: the reference repair. *)
From Coq Require Import Ascii.
From stdpp Require Import sorting.
From stdpp Require Import base list strings gmap relations.
From Verif Require Import StrOrder StrLib SccSpec RefModel RefSpec RefProofs.

(** After the repair every local schema reference - of a parameter object or of
    a schema at any depth below a parameter, header, body or component, the
    newly created ones included - names an existing component.  Missing from the
    full statement: references in discriminator mappings and in the headers of a
    media type's encoding; see the two refutations. *)
Theorem C07_no_dangling_refs_partial : ∀ iter gotypes d, is_order iter →
  ∃ d' out, repair iter gotypes d = Some (d', out) ∧
    ∀ r name, has_ref d' r → names_component r name → defined d' name.
Proof.
  intros iter gotypes d Hit. destruct (repair_ok iter gotypes d Hit) as (d' & out & _ & Hrun & _).
  exists d', out. split; [done|]. intros r k. eapply no_dangling; done.
Qed.
Print Assumptions C07_no_dangling_refs_partial.

(** A schema object of [d] at any depth. *)
Definition schema_of (d : doc) (n : snode) : Prop :=
  ∃ l l', placed d (Some l) ∧ rtc (sub_of (d_heap d)) l l' ∧ d_heap d !! l' = Some n.

Definition bad_mapping_doc : doc :=
  Doc {[ 1%positive := SNode "" [] None None None [] [] [] ["#/components/schemas/Dog"] "object" ]}
      [] (Some (Components {[ "Pet" := Some 1%positive ]} [] [] [] [])).

(** A discriminator may keep pointing at a schema that does not exist. *)
Theorem C07_discriminator_mapping_refuted : ∃ d gotypes, ∀ iter, is_order iter →
  ∃ d' out, repair iter gotypes d = Some (d', out) ∧
    ∃ n r, schema_of d' n ∧ r ∈ sn_mapping n ∧ names_component r "Dog" ∧ ¬ defined d' "Dog".
Proof.
  exists bad_mapping_doc, ∅. intros iter Hit. exists bad_mapping_doc, []. split.
  - assert (visited_names bad_mapping_doc = Some []) as Hv by by vm_compute.
    unfold repair. rewrite Hv. simpl. unfold missing_names. simpl.
    assert (iter [] = []) as -> by (apply Permutation_nil, symmetry, Hit). done.
  - exists (SNode "" [] None None None [] [] [] ["#/components/schemas/Dog"] "object"), "#/components/schemas/Dog".
    split; [|split; [|split]].
    + exists 1%positive, 1%positive. split; [|split; [apply rtc_refl|done]].
      by eapply (pl_cschema bad_mapping_doc _ "Pet").
    + by left.
    + by split.
    + intros (c & Hc & Hs). injection Hc as <-. vm_compute in Hs. by destruct Hs.
Qed.
Print Assumptions C07_discriminator_mapping_refuted.

Definition bad_encoding_doc : doc :=
  Doc {[ 1%positive := SNode "#/components/schemas/Trace" [] None None None [] [] [] [] "" ]}
      [("/upload", PathItem [] None
         (Some (Operation [] (Some [("multipart/form-data", MType None [Header (Some 1%positive)])]) []))
         None None None None None)] None.

(** Nor is a reference in a header of a multipart encoding looked at. *)
Theorem C07_encoding_header_refuted : ∃ d gotypes, ∀ iter, is_order iter →
  ∃ d' out, repair iter gotypes d = Some (d', out) ∧
    ∃ k it o body m mt hd l n, (k, it) ∈ d_paths d' ∧ pi_post it = Some o ∧ op_body o = Some body ∧
      (m, mt) ∈ body ∧ hd ∈ mt_encoding_headers mt ∧ h_schema hd = Some l ∧ d_heap d' !! l = Some n ∧
      names_component (sn_ref n) "Trace" ∧ ¬ defined d' "Trace".
Proof.
  exists bad_encoding_doc, ∅. intros iter Hit. exists bad_encoding_doc, []. split.
  - assert (visited_names bad_encoding_doc = Some []) as Hv by by vm_compute.
    unfold repair. rewrite Hv. simpl. unfold missing_names. simpl.
    assert (iter [] = []) as -> by (apply Permutation_nil, symmetry, Hit). done.
  - eexists _, _, _, _, _, _, _, _, _. split; [by left|]. split; [reflexivity|]. split; [reflexivity|].
    split; [by left|]. split; [by left|]. split; [reflexivity|]. split; [reflexivity|]. split; [by split|].
    by intros (c & Hc & _).
Qed.
Print Assumptions C07_encoding_header_refuted.

(** What the repair changes: paths, the other component sections, every existing
    schema object and every existing component entry stay; the components after
    are those before plus exactly the referenced undefined names; each new one is
    a fresh placeholder. *)
Theorem C08_repair_is_conservative : ∀ iter gotypes d d' out, is_order iter →
  repair iter gotypes d = Some (d', out) →
  d_paths d' = d_paths d ∧ d_heap d ⊆ d_heap d' ∧
  (∀ c, d_comps d = Some c → ∃ c', d_comps d' = Some c' ∧
     cm_params c' = cm_params c ∧ cm_bodies c' = cm_bodies c ∧ cm_responses c' = cm_responses c ∧
     cm_headers c' = cm_headers c ∧ ∀ k v, cm_schemas c !! k = Some v → cm_schemas c' !! k = Some v) ∧
  (∀ k, defined d' k ↔ defined d k ∨ ((∃ r, has_ref d r ∧ names_component r k) ∧ ¬ defined d k)) ∧
  (∀ k c', d_comps d' = Some c' → ¬ defined d k → ∀ v, cm_schemas c' !! k = Some v →
     ∃ l t, v = Some l ∧ d_heap d !! l = None ∧ d_heap d' !! l = Some (placeholder t)).
Proof. intros iter gotypes d d' out Hit Hrun. by eapply repair_conservative. Qed.
Print Assumptions C08_repair_is_conservative.

(** What it reports: exactly the referenced undefined names, sorted, once each,
    each with at least one site and the Go type known for that name. *)
Theorem C08_report_is_exact : ∀ iter gotypes d d' out, is_order iter →
  repair iter gotypes d = Some (d', out) →
  (∀ k, (∃ u, u ∈ out ∧ ur_component u = k) ↔ (∃ r, has_ref d r ∧ names_component r k) ∧ ¬ defined d k) ∧
  NoDup (ur_component <$> out) ∧ StronglySorted string_le (ur_component <$> out) ∧
  ∀ u, u ∈ out → 0 < ur_sites u ∧ ur_gotype u = default "" (gotypes !! ur_component u).
Proof.
  intros iter gotypes d d' out Hit Hrun. split; [intros k; by eapply missing_iff|by eapply report_sorted].
Qed.
Print Assumptions C08_report_is_exact.

(** A second run changes and reports nothing, and no run depends on map order. *)
Theorem C08_repair_is_idempotent : ∀ iter gotypes d d' out, is_order iter →
  repair iter gotypes d = Some (d', out) →
  ∀ iter2 gotypes2, is_order iter2 → repair iter2 gotypes2 d' = Some (d', []).
Proof. intros iter gotypes d d' out Hit Hrun iter2 gotypes2 Hit2. exact (repair_again iter Hit gotypes d d' out Hrun iter2 gotypes2 Hit2). Qed.
Print Assumptions C08_repair_is_idempotent.

Theorem C08_repair_ignores_map_order : ∀ iter1 iter2 gotypes d, is_order iter1 → is_order iter2 →
  repair iter1 gotypes d = repair iter2 gotypes d.
Proof.
  intros iter1 iter2 gotypes d H1 H2. unfold repair. destruct (visited_names d) as [names|]; [|done]. simpl.
  by rewrite (missing_order iter1 iter2).
Qed.
Print Assumptions C08_repair_ignores_map_order.

(** The Go type attached to a name is the only used type that could have produced
    that name; with two candidates there is none.  In particular the order in
    which the used types are enumerated does not matter. *)
Theorem C08_go_type_is_unambiguous : ∀ mangle used name g,
  gotype_by_name mangle used !! name = Some g ↔
  (∃ t, t ∈ used ∧ trim_prefix "*" t = g ∧ mangle g = name) ∧
  (∀ t, t ∈ used → mangle (trim_prefix "*" t) = name → trim_prefix "*" t = g).
Proof. exact gotype_ok. Qed.
Print Assumptions C08_go_type_is_unambiguous.

(** Non-vacuity: a self-referring schema, a nested reference to a missing one, a
    missing parameter schema mentioned twice. *)
Definition ex_doc : doc :=
  Doc (list_to_map
        [(1%positive, SNode "" [("next", Some 2%positive); ("tags", Some 3%positive)] None None None [] [] [] [] "object");
         (2%positive, SNode "#/components/schemas/Node" [] None None None [] [] [] [] "");
         (3%positive, SNode "" [] (Some 4%positive) None None [] [] [] [] "array");
         (4%positive, SNode "#/components/schemas/Tag" [] None None None [] [] [Some 1%positive] [] "")])
      [("/n", PathItem [Param "" "q" (Some 4%positive)] None None None None None None None)]
      (Some (Components {[ "Node" := Some 1%positive ]} [] [] [] [])).
Example C08_example : ∃ d', repair reverse {[ "Tag" := "m.Tag" ]} ex_doc = Some (d', [Unresolved "Tag" "m.Tag" 2]) ∧
  ¬ defined ex_doc "Tag" ∧ defined d' "Tag" ∧ repair id ∅ d' = Some (d', []).
Proof.
  eexists. split; [vm_compute; reflexivity|]. split; [|split].
  - intros (c & Hc & Hs). injection Hc as <-. vm_compute in Hs. by destruct Hs.
  - eexists. split; [reflexivity|]. by eexists.
  - by vm_compute.
Qed.
Example C08_gotype_example :
  let mangle := λ s, if decide (s = "a.T") then "a_T" else if decide (s = "a/T") then "a_T" else s in
  gotype_by_name mangle ["*a.T"; "a/T"; "U"] !! "a_T" = None ∧
  gotype_by_name mangle ["*a.T"; "a.T"; "U"] !! "a_T" = Some "a.T".
Proof. by vm_compute. Qed.
