(** * The components a document gets (internal/spec/mapper.go 1005-1230, 1242-1303, 1717-1733). *)
From Coq Require Import Ascii.
From stdpp Require Import base list strings gmap.
From Verif Require Import StrLib StrSplit ScanModel NameModel GodocModel.

(** A schema, as far as it is told apart here: a reference to a component, the placeholder for a type (mapper.go 63-68), or any other. *)
Inductive csch := CRef (component : string) | CHolder (type : string) | CBody (n : nat).
#[global] Instance csch_eq : EqDecision csch. Proof. solve_decision. Defined.
(** The map of used types (mapper.go 1101); the inner [None] is a nil schema. *)
Notation cused := (gmap string (option csch)).
(** The type a pointer points to (mapper.go 1725-1726). *)
Definition pointee (t : string) : option string := match t with String "*" r => Some (trim_space r) | _ => None end.
(** markUsedType (mapper.go 1717-1733). *)
Definition mark (u : cused) (m : string * option csch) : cused :=
  let '(t, v) := m in
  match u !! t with
  | Some (Some _) => u
  | _ =>
      let u := <[t := v]> u in
      match pointee t with
      | Some d => match u !! d with Some (Some _) => u | _ => <[d := v]> u end
      | None => u
      end
  end.
(** What collectUsedTypesFromRoutes reads of a route (mapper.go 1103-1148): OneOfTypes and BodyType of the request and of each response (in map order, nil ones left out),
    the references of parameters, and UsedTypes (in map order). *)
Record cbody := CBodyOf { cb_oneof : list string; cb_type : string }.
Record croute := CRoute { cr_req : option cbody; cr_res : list cbody; cr_params : list string; cr_used : list (string * option csch) }.
(** The types of a body (mapper.go 1108-1116, 1119-1130). *)
Definition body_types (b : cbody) : list string :=
  match cb_oneof b with [] => if decide (cb_type b = "") then [] else [cb_type b] | l => l end.
(** The type of a parameter (mapper.go 1133-1143): the last part of its reference. *)
Definition param_type (ref : string) : list string := if decide (ref = "") then [] else match last (split_byte "/" ref) with Some t => [t] | None => [] end.
(** The marks of a route in their order (mapper.go 1103-1148), and of all (1100-1151). *)
Definition route_marks (r : croute) : list (string * option csch) :=
  ((λ t, (t, None)) <$> (match cr_req r with Some b => body_types b | None => [] end ++ (cr_res r ≫= body_types) ++ (cr_params r ≫= param_type))) ++ cr_used r.
Definition collect (rs : list croute) : cused := foldl mark ∅ (rs ≫= route_marks).

(** What the rest depends on. [ce_anon]: IsAnonStructTypeName; [ce_conf]: cfg.ExternalTypes; [ce_known]: resolveExternalType, its schema and whether that is primitive-shaped
    (ExtModel.v); [ce_prim]: IsPrimitiveType; [ce_core]: Parse(…).Core(), its package, name and arguments with their constraints (TypeModel.v); [ce_in]: TypeInPackage;
    [ce_pkgs]: SortedPackageNames; [ce_ref]: canAddRefSchemaForType (WireModel.v); [ce_map]: mapGoTypeToOpenAPISchema; [ce_build]: the switch on the kind (mapper.go 1273-1296);
    both may mark types, and give a schema (or nil) and further schemas. [ce_range]: the order of a range over a map (1076). Simplified: configured types have a schema, and neither the configuration nor the metadata is nil. *)
Record cenv := CEnv {
  ce_anon : string → bool; ce_conf : list (string * csch); ce_known : string → option (option csch * bool); ce_prim : string → bool;
  ce_core : string → option (string * string * list (string * string)); ce_in : string → string → option nat; ce_pkgs : list string; ce_ref : string → bool;
  ce_map : cused → string → cused * option csch * list (string * csch); ce_build : cused → string → nat → cused * option csch * list (string * csch);
  ce_range : gmap string (option nat) → list (string * option nat) }.
(** The components (mapper.go 1011-1013). *)
Notation ccomps := (gmap string csch).
Section comp.
  Context (e : cenv).
  (** typeByName (mapper.go 1209-1230). *)
  Definition type_by_name (pkg name : string) : option nat :=
    let found := head (omap (λ p, ce_in e p name) (ce_pkgs e)) in
    if decide (pkg ≠ "" ∧ name ≠ "") then match ce_in e pkg name with Some t => Some t | None => found end else found.
  (** findTypesInMetadata (mapper.go 1154-1202); nil and an empty map are not told apart. *)
  Definition add_arg (pkg : string) (m : gmap string (option nat)) (a : string * string) : gmap string (option nat) :=
    if decide (a.2 = "") then m
    else if ce_prim e a.2 then <[pkg +:+ a.1 +:+ "-" +:+ a.2 := None]> m
    else match type_by_name "" a.1 with Some t => <[pkg +:+ a.1 +:+ "_" +:+ a.2 := Some t]> m | None => m end.
  Definition find_types (t : string) : gmap string (option nat) :=
    if ce_prim e t then ∅
    else match ce_core e t with
         | None => ∅
         | Some (p, n, args) =>
             let m := foldl (add_arg (if decide (ce_prim e p = false ∧ p ≠ "") then p +:+ "." else "")) ∅ args in
             if decide (t = "") then m else <[t := type_by_name p n]> m
         end.
  (** A configured external type (mapper.go 1263-1270): the first of the name. *)
  Definition configured (t : string) : option csch := head (omap (λ x, if decide (x.1 = replace_sep t) then Some x.2 else None) (ce_conf e)).
  (** generateSchemaFromType as generateSchemas calls it, without visited types (mapper.go 1244-1303). *)
  Definition gen_type (u : cused) (key : string) (typ : nat) : cused * option csch * list (string * csch) :=
    let d := trim_prefix "*" key in
    let rest :=
      match configured d with
      | Some s => (mark u (d, Some s), Some s, [])
      | None => let '(u, s, new) := ce_build e u key typ in (mark u (key, s), s, new)
      end in
    match u !! d with
    | Some (Some s) => if ce_ref e d then (u, Some (CRef (component_name (trim_prefix "*" d))), [(d, s)]) else rest
    | _ => rest
    end.
  (** The schema under the name of its type (mapper.go 1040, 1053, 1069, 1089, 1092). *)
  Definition put (m : ccomps) (x : string * csch) : ccomps := <[component_name x.1 := x.2]> m.
  (** One entry of the types found (mapper.go 1076-1095); a key of a type parameter is cut at its dashes. *)
  Definition gen_entry (acc : cused * ccomps) (x : string * option nat) : cused * ccomps :=
    let '(u, m) := acc in
    let '(u, s, new) :=
      match x.2 with
      | None => match split_byte "-" x.1 with _ :: c :: _ => ce_map e u c | _ => (u, None, []) end
      | Some typ => gen_type u x.1 typ
      end in
    (u, foldl put (match s with Some s => put m (x.1, s) | None => m end) new).
  (** One used type (mapper.go 1028-1096). The continue of line 1041 is the inner loop's: the type is handled further, and the last entry counts. *)
  Definition gen_used (acc : cused * ccomps) (t : string) : cused * ccomps :=
    if ce_anon e t then acc
    else
      let '(u, m) := acc in
      let m := foldl (λ m x, if decide (x.1 = replace_sep t) then put m (t, x.2) else m) m (ce_conf e) in
      match ce_known e t with
      | Some (s, prim) => (u, match s with Some s => if prim then m else put m (t, s) | None => m end)
      | None =>
          match find_types t !! t with
          | Some (Some _) => foldl gen_entry (u, m) (ce_range e (find_types t))
          | _ =>
              (u, if ce_ref e t then match m !! component_name t with Some _ => m | None => put m (t, CHolder t) end else m)
          end
      end.
  (** generateSchemas (mapper.go 1024-1097); [keys] are the used types, sorted. *)
  Definition gen_all (keys : list string) (u : cused) : ccomps := (foldl gen_used (u, ∅) keys).2.
End comp.
