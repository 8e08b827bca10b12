(** * Specification vocabulary: references in a document. *)
From Coq Require Import Ascii.
From stdpp Require Import base list strings gmap relations.
From Verif Require Import RefModel.

(** [b] is a sub-schema of [a], one level down. *)
Inductive sub_of (h : heap) : positive → positive → Prop :=
  | so_prop a n k b : h !! a = Some n → (k, Some b) ∈ sn_props n → sub_of h a b
  | so_items a n b : h !! a = Some n → sn_items n = Some b → sub_of h a b
  | so_addl a n b : h !! a = Some n → sn_addl n = Some b → sub_of h a b
  | so_not a n b : h !! a = Some n → sn_not n = Some b → sub_of h a b
  | so_all a n b : h !! a = Some n → Some b ∈ sn_allof n → sub_of h a b
  | so_one a n b : h !! a = Some n → Some b ∈ sn_oneof n → sub_of h a b
  | so_any a n b : h !! a = Some n → Some b ∈ sn_anyof n → sub_of h a b.

(** [o] is one of the operations of the document. *)
Definition op_of (it : pathitem) (o : operation) : Prop :=
  pi_get it = Some o ∨ pi_post it = Some o ∨ pi_put it = Some o ∨ pi_delete it = Some o ∨
  pi_patch it = Some o ∨ pi_head it = Some o ∨ pi_options it = Some o.

(** A parameter object of a path item or of an operation. *)
Inductive param_in (d : doc) : param → Prop :=
  | pa_item k it p : (k, it) ∈ d_paths d → p ∈ pi_params it → param_in d p
  | pa_op k it o p : (k, it) ∈ d_paths d → op_of it o → p ∈ op_params o → param_in d p.

Inductive in_response (r : response) : option positive → Prop :=
  | ir_content k m : (k, m) ∈ rs_content r → in_response r (mt_schema m)
  | ir_header k hd : (k, hd) ∈ rs_headers r → in_response r (h_schema hd).

(** The schema sits directly at some place of the document: a parameter, a
    request body, a response body or header, or the components section. *)
Inductive placed (d : doc) : option positive → Prop :=
  | pl_param p : param_in d p → placed d (pm_schema p)
  | pl_body k it o c m mt : (k, it) ∈ d_paths d → op_of it o → op_body o = Some c → (m, mt) ∈ c →
      placed d (mt_schema mt)
  | pl_resp k it o st r s : (k, it) ∈ d_paths d → op_of it o → (st, r) ∈ op_responses o → in_response r s →
      placed d s
  | pl_cschema c k s : d_comps d = Some c → cm_schemas c !! k = Some s → placed d s
  | pl_cparam c k p : d_comps d = Some c → (k, Some p) ∈ cm_params c → placed d (pm_schema p)
  | pl_cbody c k b m mt : d_comps d = Some c → (k, Some b) ∈ cm_bodies c → (m, mt) ∈ b → placed d (mt_schema mt)
  | pl_cresp c k r s : d_comps d = Some c → (k, Some r) ∈ cm_responses c → in_response r s → placed d s
  | pl_cheader c k hd : d_comps d = Some c → (k, Some hd) ∈ cm_headers c → placed d (h_schema hd).

(** The document contains the reference string [r]: as the [$ref] of a schema
    nested at any depth below a placed schema, or of a parameter object. *)
Inductive has_ref (d : doc) : string → Prop :=
  | hr_schema l l' n : placed d (Some l) → rtc (sub_of (d_heap d)) l l' → d_heap d !! l' = Some n →
      has_ref d (sn_ref n)
  | hr_param p : param_in d p → has_ref d (pm_ref p).

(** [r] is a local schema reference to the component [name]. *)
Definition names_component (r name : string) : Prop :=
  name ≠ "" ∧ r = "#/components/schemas/" +:+ name.

(** The component schema [name] exists. *)
Definition defined (d : doc) (name : string) : Prop :=
  ∃ c, d_comps d = Some c ∧ is_Some (cm_schemas c !! name).
