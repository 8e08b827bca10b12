(** * C110: fields of named types: cases and refutations. *)
From Coq Require Import Ascii.
From stdpp Require Import base list strings gmap.
From Verif Require Import StrLib StrSplit StrSub StrOrder PathModel VerbProofs ScanModel ScanProps TypeModel TypeSpec TypeProofs TypeProps GenModel GenProps AliasModel AliasProps AliasProps2.

Definition no_info (s : string) : option qualified_by := None.
Definition imports (s : string) : option qualified_by := if decide (s = "g") then Some (ByImport "ex/geo") else if decide (s = "geo") then Some (ByImport "ex/geo") else None.
(** Package ex/geo: [type Status string], [type Local Point], [type Point struct], [type Path []Point]. *)
Definition geo : gmap string decl := {["Status" := declare no_info "ex/geo" (XIdent "string"); "Local" := declare no_info "ex/geo" (XIdent "Point"); "Point" := declare no_info "ex/geo" XStruct; "Path" := declare no_info "ex/geo" (XArray None (XIdent "Point"))]}.
Definition ds0 : decls := {["ex/geo" := geo]}.
Definition field_doc (ds : decls) (pkg : string) (e : texpr) : string := documented ds (pkg +:+ "-->Order") [] pkg (recorded imports e).
Example C110_imports_case : recorded imports (XArray None (XStar (XSelector "g" "Point"))) = "[]*ex/geo.Point" ∧ same_type imports imports (XArray None (XStar (XSelector "g" "Point"))) (XArray None (XStar (XParen (XSelector "geo" "Point")))).
Proof. split; [by vm_compute|]. apply st_array, st_star, st_paren_r. by eapply st_import. Qed.
Example C110_field_case : field_doc ds0 "ex/app" (XSelector "geo" "Status") = "string" ∧ field_doc ds0 "ex/app" (XStar (XSelector "g" "Status")) = "*string" ∧ field_doc ds0 "ex/app" (XSelector "geo" "Point") = "ex/geo.Point".
Proof. by vm_compute. Qed.
Lemma ok_status : name_ok "ex/geo" "Status".
Proof. split_and!; try done; by apply plain_q. Qed.
Lemma ok_point : name_ok "" "Point".
Proof. split_and!; try done; by apply plain_q. Qed.
Example C110_field_hyps : core_args (parse_type "ex/app-->Order") = [] ∧ name_ok "ex/geo" "Status" ∧ meant_by ds0 "ex/geo" "Status" (Decl "ex/geo" KAlias "string") ∧ is_primitive (render Dotted (TNamed "ex/geo" "Status" [] "")) = false ∧ is_basic "string" = true.
Proof. split; [by vm_compute|]. split; [apply ok_status|]. split; [|by vm_compute]. eapply (mb_own _ _ _ _ geo); by vm_compute. Qed.
Example C110_target_case : target_type (declare no_info "ex/geo" (XIdent "Point")) = "ex/geo.Point" ∧ target_type (declare no_info "ex/geo" (XIdent "string")) = "string" ∧ target_type (declare no_info "ex/geo" (XMap (XIdent "string") (XArray None (XIdent "Point")))) = "map[string][]ex/geo.Point".
Proof. by vm_compute. Qed.

(** C110j: a field of another package's type that is declared as a named one is documented with a type of the struct's own package. *)
Theorem C110_target_package_refuted : ∃ ds pkg e d, meant_by ds "ex/geo" "Local" d ∧ e = XSelector "geo" "Local" ∧ target_type d = "ex/geo.Point" ∧ field_doc ds pkg e = "ex/app.Point".
Proof. exists ds0, "ex/app", (XSelector "geo" "Local"), (Decl "ex/geo" KAlias "Point"). split; [eapply (mb_own _ _ _ _ geo); by vm_compute|]. by vm_compute. Qed.
(** C110k: a field of a type of the struct's own package is documented with what another package, earlier in order, declares under that name. *)
Theorem C110_own_package_refuted : ∃ ds e, in_package ds "ex/app" "Status" = Some (declare no_info "ex/app" XStruct) ∧ e = XIdent "Status" ∧ field_doc ds "ex/app" e = "int".
Proof. exists {["ex/app" := {["Status" := declare no_info "ex/app" XStruct]}; "ex/aaa" := {["Status" := declare no_info "ex/aaa" (XIdent "int")]}]}, (XIdent "Status"). by vm_compute. Qed.
(** C110l: an array of such a type is documented as one of it, and a pointer to a slice as a pointer. *)
Theorem C110_array_refuted : ∃ ds e, from_expr imports e = TArr "3" (TNamed "ex/geo" "Status" [] "") ∧ field_doc ds "ex/app" e = "string".
Proof. exists ds0, (XArray (Some "3") (XSelector "geo" "Status")). by vm_compute. Qed.
Theorem C110_pointer_slice_refuted : ∃ ds e, from_expr imports e = TPtr (TSlice (TNamed "ex/geo" "Status" [] "")) ∧ field_doc ds "ex/app" e = "*string".
Proof. exists ds0, (XStar (XArray None (XSelector "geo" "Status"))). by vm_compute. Qed.
(** C110m: resolving a slice of pointers, or of slices, loses what is inside. *)
Theorem C110_inner_refuted : ∃ ds, resolve_underlying ds "[]*ex/geo.Status" = "[]string" ∧ resolve_underlying ds "[][]ex/geo.Status" = "[]string".
Proof. exists ds0. by vm_compute. Qed.
(** C110n: a type whose declared target is in parentheses is not resolved. *)
Theorem C110_paren_refuted : ∃ x y, same_type no_info no_info x y ∧ d_kind (declare no_info "p" x) ≠ d_kind (declare no_info "p" y).
Proof. exists (XIdent "string"), (XParen (XIdent "string")). split; [apply st_paren_r, st_ident|done]. Qed.
Print Assumptions C110_target_package_refuted. Print Assumptions C110_own_package_refuted. Print Assumptions C110_array_refuted. Print Assumptions C110_pointer_slice_refuted. Print Assumptions C110_inner_refuted. Print Assumptions C110_paren_refuted.
(** C110o: a map is resolved with the target of its value's type for the key as well. *)
Theorem C110_map_refuted : ∃ ds, resolve_underlying ds "map[int]ex/geo.Status" = "map[string]string" ∧ resolve_underlying ds "map[int]ex/geo.Local" = "map[Point]Point".
Proof. exists ds0. by vm_compute. Qed.
Print Assumptions C110_map_refuted.
(** C110p: what is recorded of each form: a variadic parameter as a slice, and parentheses not at all. *)
Theorem C110_forms info x y : recorded info (XEllipsis x) = "[]" +:+ recorded info x ∧ recorded info (XArray None x) = "[]" +:+ recorded info x ∧
  recorded info (XStar x) = "*" +:+ recorded info x ∧ recorded info (XMap x y) = "map[" +:+ recorded info x +:+ "]" +:+ recorded info y ∧ recorded info (XParen x) = recorded info x.
Proof. done. Qed.
Print Assumptions C110_forms.
Example C110_forms_case : recorded imports (XEllipsis (XMap (XIdent "string") (XParen (XSelector "g" "Point")))) = "[]map[string]ex/geo.Point".
Proof. by vm_compute. Qed.
