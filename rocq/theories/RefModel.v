(** * Dangling reference repair (internal/spec/refcheck.go). *)
From Coq Require Import Ascii.
From stdpp Require Import sorting.
From stdpp Require Import base list strings gmap.
From Verif Require Import StrOrder StrLib.

(** A [*Schema] is an address in a heap; nil is [None].  Go schemas are shared
    and may be cyclic, which is why forEachSchemaRef keeps the set of pointers it
    is inside of. *)
Notation ptr := (option positive) (only parsing).

(** [Schema], openapi.go 143-177: the reference, the sub-schema positions and the
    discriminator mapping values; everything else is [sn_data]. Maps are lists of
    their entries, in the order Go happens to visit them. *)
Record snode := SNode {
  sn_ref : string;
  sn_props : list (string * ptr);
  sn_items : ptr;
  sn_addl : ptr;
  sn_not : ptr;
  sn_allof : list ptr;
  sn_oneof : list ptr;
  sn_anyof : list ptr;
  sn_mapping : list string;
  sn_data : string
}.
Notation heap := (gmap positive snode).

(** [Header], openapi.go 128-132. *)
Record header := Header { h_schema : ptr }.
(** [MediaType] and the headers of its [Encoding], openapi.go 134-139, 203-209. *)
Record mtype := MType { mt_schema : ptr; mt_encoding_headers : list header }.
(** [Parameter], openapi.go 100-109. *)
Record param := Param { pm_ref : string; pm_name : string; pm_schema : ptr }.
(** [Response], openapi.go 119-125. *)
Record response := Response { rs_content : list (string * mtype); rs_headers : list (string * header) }.
(** [Operation], openapi.go 81-98. *)
Record operation := Operation {
  op_params : list param;
  op_body : option (list (string * mtype));
  op_responses : list (string * response)
}.
(** [PathItem], openapi.go 66-78: the seven operations, in the order
    refcheck.go 207 lists them. *)
Record pathitem := PathItem {
  pi_params : list param;
  pi_get : option operation; pi_post : option operation; pi_put : option operation;
  pi_delete : option operation; pi_patch : option operation; pi_head : option operation;
  pi_options : option operation
}.
(** [Components], openapi.go 223-233.  Pointer-valued entries may be nil. *)
Record components := Components {
  cm_schemas : gmap string ptr;
  cm_params : list (string * option param);
  cm_bodies : list (string * option (list (string * mtype)));
  cm_responses : list (string * option response);
  cm_headers : list (string * option header)
}.
(** [OpenAPISpec], openapi.go 18-27, with the heap its pointers live in. *)
Record doc := Doc { d_heap : heap; d_paths : list (string * pathitem); d_comps : option components }.

Definition schema_prefix : string := "#/components/schemas/".

(** [componentSchemaName], refcheck.go 254-263. *)
Definition component_schema_name (ref : string) : option string :=
  if bool_decide (ref = "") || negb (has_prefix schema_prefix ref) then None
  else
    let name := trim_prefix schema_prefix ref in
    if decide (name = "") then None else Some name.

Definition ref_names (ref : string) : list string :=
  match component_schema_name ref with Some n => [n] | None => [] end.

(** The sub-schemas of a node in the order refcheck.go 168-180 walks them. *)
Definition children (n : snode) : list ptr :=
  (sn_props n).*2 ++ [sn_items n; sn_addl n; sn_not n] ++ sn_allof n ++ sn_oneof n ++ sn_anyof n.

(** The names visited by [walk], refcheck.go 159-182, in order.  [onp] is onPath.
    [None] means the recursion was cut by the fuel; the theorems show this does
    not happen.  A non-nil pointer outside the heap does not exist in Go. *)
Fixpoint walk (h : heap) (fuel : nat) (onp : gset positive) (s : ptr) : option (list string) :=
  match s with
  | None => Some []
  | Some l =>
    if decide (l ∈ onp) then Some [] else
    match h !! l with
    | None => Some []
    | Some n =>
      match fuel with
      | 0 => None
      | S fuel' =>
        subs ← mapM (walk h fuel' ({[l]} ∪ onp)) (children n);
        Some (ref_names (sn_ref n) ++ concat subs)
      end
    end
  end.

(** A position of the document that forEachSchemaRef visits: a schema pointer to
    walk, or a parameter's own reference. *)
Inductive pos := PSchema (p : ptr) | PRef (r : string).

(** [walkParams], refcheck.go 184-191. *)
Definition param_pos (ps : list param) : list pos :=
  ps ≫= λ p, [PRef (pm_ref p); PSchema (pm_schema p)].
(** [walkContent], refcheck.go 192-196. *)
Definition content_pos (c : list (string * mtype)) : list pos := (λ e, PSchema (mt_schema e.2)) <$> c.
(** One response, refcheck.go 199-202 and 232-235. *)
Definition response_pos (r : response) : list pos :=
  content_pos (rs_content r) ++ ((λ e, PSchema (h_schema e.2)) <$> rs_headers r).
(** One operation, refcheck.go 208-215. *)
Definition operation_pos (op : option operation) : list pos :=
  match op with
  | None => []
  | Some o =>
    param_pos (op_params o) ++
    match op_body o with None => [] | Some c => content_pos c end ++
    (op_responses o ≫= λ e, response_pos e.2)
  end.
(** One path item, refcheck.go 205-217. *)
Definition item_pos (it : pathitem) : list pos :=
  param_pos (pi_params it) ++
  ([pi_get it; pi_post it; pi_put it; pi_delete it; pi_patch it; pi_head it; pi_options it]
     ≫= operation_pos).
(** The components section, refcheck.go 219-248. *)
Definition comps_pos (c : option components) : list pos :=
  match c with
  | None => []
  | Some c =>
    ((λ e, PSchema e.2) <$> map_to_list (cm_schemas c)) ++
    (cm_params c ≫= λ e, match e.2 with None => [] | Some p => [PSchema (pm_schema p)] end) ++
    (cm_bodies c ≫= λ e, match e.2 with None => [] | Some b => content_pos b end) ++
    (cm_responses c ≫= λ e, match e.2 with None => [] | Some r => response_pos r end) ++
    (cm_headers c ≫= λ e, match e.2 with None => [] | Some hd => [PSchema (h_schema hd)] end)
  end.
(** All positions visited by forEachSchemaRef, refcheck.go 147-249. *)
Definition doc_pos (d : doc) : list pos := (d_paths d ≫= λ e, item_pos e.2) ++ comps_pos (d_comps d).

(** Visiting one position. The recursion can be at most as deep as the heap is
    large, hence the fuel. *)
Definition pos_names (h : heap) (p : pos) : option (list string) :=
  match p with
  | PRef r => Some (ref_names r)
  | PSchema s => walk h (S (size h)) ∅ s
  end.

(** [forEachSchemaRef], refcheck.go 147-249: the names passed to [visit]. *)
Definition visited_names (d : doc) : option (list string) :=
  names ← mapM (pos_names (d_heap d)) (doc_pos d);
  Some (concat names).

(** [UnresolvedRef], refcheck.go 22-34. *)
Record unresolved := Unresolved { ur_component : string; ur_gotype : string; ur_sites : nat }.

(** [counts[name]], refcheck.go 57-58. *)
Definition count_of (name : string) (names : list string) : nat :=
  length (filter (λ x, x = name) names).

(** [unresolvedExternalPlaceholder], mapper.go 63-68: no reference and no
    sub-schema; the description is kept in [sn_data]. *)
Definition placeholder (described : string) : snode :=
  SNode "" [] None None None [] [] [] [] ("External or unresolved type: " +:+ described).

(** An address that is not in use: Go's allocation of the new schema. *)
Definition fresh_ptr (h : heap) : positive := fresh (dom h : gset positive).

(** One iteration of the repair loop, refcheck.go 91-100. *)
Definition repair_one (gotypes : gmap string string) (names : list string)
    (acc : heap * gmap string ptr * list unresolved) (name : string)
    : heap * gmap string ptr * list unresolved :=
  let '(h, schemas, out) := acc in
  let gotype := default "" (gotypes !! name) in
  let described := if decide (gotype = "") then name else gotype in
  let l := fresh_ptr h in
  (<[l := placeholder described]> h, <[name := Some l]> schemas,
   out ++ [Unresolved name gotype (count_of name names)]).

(** The sorted missing names, refcheck.go 63-80: the distinct visited names (the
    keys of counts, in map order [iter]) that are not component names. *)
Definition missing_names (iter : list string → list string) (names : list string)
    (schemas : gmap string ptr) : list string :=
  ssort (filter (λ n, schemas !! n = None) (iter (remove_dups names))).

(** [repairDanglingRefs], refcheck.go 52-103.  [gotypes] is the result of
    goTypeByComponentName.  The spec argument is non-nil; the two early returns
    for "no reference" and "nothing missing" are the same value as an empty loop,
    except that they do not allocate the components section. *)
Definition repair (iter : list string → list string) (gotypes : gmap string string) (d : doc)
    : option (doc * list unresolved) :=
  names ← visited_names d;
  let comps := default (Components ∅ [] [] [] []) (d_comps d) in
  match missing_names iter names (cm_schemas comps) with
  | [] => Some (d, [])
  | missing =>
    let '(h, schemas, out) :=
      fold_left (repair_one gotypes names) missing (d_heap d, cm_schemas comps, []) in
    Some (Doc h (d_paths d)
            (Some (Components schemas (cm_params comps) (cm_bodies comps) (cm_responses comps) (cm_headers comps))),
          out)
  end.

(** [goTypeByComponentName], refcheck.go 109-138.  [mangle] is
    schemaComponentNameReplacer.Replace; the used types come in map order. *)
Definition gotype_step (mangle : string → string) (acc : gmap string string * gset string) (goType : string)
    : gmap string string * gset string :=
  let bare := trim_prefix "*" goType in
  let name := mangle bare in
  match acc.1 !! name with
  | Some prev => if decide (prev = bare) then (<[name := bare]> acc.1, acc.2) else (acc.1, {[name]} ∪ acc.2)
  | None => (<[name := bare]> acc.1, acc.2)
  end.
Definition gotype_by_name (mangle : string → string) (used : list string) : gmap string string :=
  let '(out, ambiguous) := fold_left (gotype_step mangle) used (∅, ∅) in
  filter (λ p, p.1 ∉ ambiguous) out.
