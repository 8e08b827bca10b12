(** * Configured and well-known external types (internal/spec/external_types.go). *)
From Coq Require Import Ascii.
From stdpp Require Import base list strings gmap.
From Verif Require Import StrLib StrSplit.

(** [Schema]: type, format, description, and the other members as one text. *)
Record esch := ESch { es_type : string; es_format : string; es_desc : string; es_rest : string }.
#[global] Instance esch_eq_dec : EqDecision esch.
Proof. solve_decision. Defined.
(** [TypeMapping] and [ExternalType] (config.go): a name and a schema, which may be nil. *)
Record tmap := TMap { tm_name : string; tm_schema : option esch }.

(** [shortTypeName] (external_types.go 67-72). *)
Definition short_type_name (s : string) : string := default s (last (split_byte "/" s)).
(** [isBareTypeName] (79-81). *)
Definition is_bare (s : string) : bool := negb (has_prefix "[" s) && negb (has_prefix "*" s) && negb (has_prefix "map[" s).
(** [shortNameMatchesBare] (88-91). *)
Definition short_matches (entry go : string) : bool := is_bare entry && is_bare go && bool_decide (short_type_name entry = short_type_name go).
(** [lookupConfigSchema] (96-111): nil both for no entry and for an entry without a schema. *)
Definition lookup_config (tm : list tmap) (go : string) : option esch :=
  match list_find (λ m, tm_name m = go) tm with
  | Some (_, m) => tm_schema m
  | None => match list_find (λ m, short_matches (tm_name m) go = true) tm with Some (_, m) => tm_schema m | None => None end
  end.
(** [configHasExternalType] (117-133). *)
Definition config_has (ext : list tmap) (go : string) : bool :=
  existsb (λ e, bool_decide (tm_name e = go)) ext || existsb (λ e, short_matches (tm_name e) go) ext.
(** [wellKnownExternalSchemas] (40-62). *)
Definition uuid_schema : esch := ESch "string" "uuid" "" "".
Definition decimal_schema : esch := ESch "string" "decimal" "" "".
Definition well_known : gmap string esch :=
  {[ "github.com/google/uuid.UUID" := uuid_schema; "github.com/gofrs/uuid.UUID" := uuid_schema; "github.com/satori/go.uuid.UUID" := uuid_schema;
     "uuid.UUID" := uuid_schema; "github.com/shopspring/decimal.Decimal" := decimal_schema; "decimal.Decimal" := decimal_schema ]}.
(** [ExternalTypeFact] (metadata/types.go 246-249). *)
Inductive marshaler := MNone | MText | MJSON.
Record efact := EFact { ef_marshaler : marshaler; ef_underlying : string }.
(** [lowConfidenceExternalNote] (139-140). *)
Definition low_confidence_note : string := "External type with a custom JSON marshaler; assumed string — add a typeMapping entry to set a precise schema.".
(** [resolveExternalType] (146-206).  [primitive] is IsPrimitiveType and [prim] what
    mapGoTypeToOpenAPISchema gives a primitive; None means not handled. *)
Definition resolve_external (primitive : string → bool) (prim : string → esch) (ext : list tmap) (facts : gmap string efact) (go : string) : option esch :=
  if has_prefix "[" go || has_prefix "*" go || has_prefix "map[" go then None
  else if config_has ext go then None
  else match well_known !! go with
  | Some s => Some s
  | None =>
    match well_known !! short_type_name go with
    | Some s => Some s
    | None =>
      match (match facts !! go with Some f => Some f | None => facts !! short_type_name go end) with
      | Some f =>
          match ef_marshaler f with
          | MText => Some (ESch "string" "" "" "")
          | MJSON => Some (ESch "string" "" low_confidence_note "")
          | MNone =>
              let u := ef_underlying f in
              if negb (bool_decide (u = "")) && negb (bool_decide (u = go)) && negb (bool_decide (u = short_type_name go)) && primitive u then Some (prim u) else None
          end
      | None => None
      end
    end
  end.
(** [isPrimitiveShapedSchema] (mapper.go 3435-3447); the members of [es_rest] are taken to be the
    structural ones. *)
Definition primitive_shaped (s : esch) : bool := bool_decide (es_rest s = "") && negb (bool_decide (es_type s = "")) && negb (bool_decide (es_type s = "object")).
(** [unresolvedExternalPlaceholder] (mapper.go 63-68). *)
Definition unresolved (name : string) : esch := ESch "object" "" ("External or unresolved type: " +:+ name) "".
(** The component of a used type that is not in the metadata (generateSchemas, mapper.go
    1037-1072), for a plain dotted name that may be referenced. *)
Definition component_of (primitive : string → bool) (prim : string → esch) (ext : list tmap) (facts : gmap string efact) (go : string) : option (option esch) :=
  let configured := foldl (λ acc e, if decide (tm_name e = go) then Some (tm_schema e) else acc) None ext in
  match resolve_external primitive prim ext facts go with
  | Some s => if primitive_shaped s then configured else Some (Some s)
  | None => match configured with Some s => Some s | None => Some (Some (unresolved go)) end
  end.
