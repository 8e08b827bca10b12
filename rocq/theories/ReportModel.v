(** * The overview report (internal/insight/overview.go). *)
From Coq Require Import Ascii ZArith.
From stdpp Require Import sorting.
From stdpp Require Import base numbers list strings gmap.
From Verif Require Import StrLib StrSub StrOrder DecLib.

(** spec.Schema (openapi.go 143-177), of which the report reads these fields; [ONil] is a nil pointer. Properties without their names, an enumeration by
    whether it has values. Schemas are trees here: the walk of the code has no guard against cycles. Maps are lists of their entries in the order visited. *)
Inductive osch := ONil | OSch (ref type descr : string) (enum : bool) (items addl neg : osch) (props allof oneof anyof : list osch).
(** spec.Operation: tags, contents of the request body, responses by status with their contents, parameters, and Security, whose requirements are lists of names. *)
Record oop := OOp { oo_tags : list string; oo_body : option (list (string * osch)); oo_responses : list (string * list (string * osch)); oo_params : list (string * osch); oo_security : option (list (list string)) }.
(** spec.PathItem: its operations (openapi.go 66-78). *)
Record oitem := OItem { oi_get : option oop; oi_post : option oop; oi_put : option oop; oi_delete : option oop; oi_patch : option oop; oi_options : option oop; oi_head : option oop }.
(** spec.OpenAPISpec: paths, component schemas (a nil Components has none), and the document's security. *)
Record odoc := ODoc { od_paths : gmap string oitem; od_comps : gmap string osch; od_security : list (list string) }.
(** Issue (overview.go 48-55). *)
Record issue := Issue { is_severity : string; is_kind : string; is_method : string; is_path : string; is_detail : string; is_ref : string }.

(** operationsOf (overview.go 250-275). *)
Definition operations_of (pi : oitem) : list (string * oop) :=
  omap (λ x : string * option oop, match x.2 with Some op => Some (x.1, op) | None => None end)
    [("GET", oi_get pi); ("POST", oi_post pi); ("PUT", oi_put pi); ("DELETE", oi_delete pi); ("PATCH", oi_patch pi); ("OPTIONS", oi_options pi); ("HEAD", oi_head pi)].
(** The operations in the order BuildOverview visits them (overview.go 308-316): path, method and operation. *)
Definition all_operations (d : odoc) : list (string * string * oop) :=
  concat ((λ p, match od_paths d !! p with Some pi => (λ mo : string * oop, (p, mo.1, mo.2)) <$> operations_of pi | None => [] end) <$> ssort (elements (dom (od_paths d)))).

Definition ref_prefix : string := "#/components/schemas/".
Definition placeholder_marker : string := "External or unresolved type".
(** The names of a schema in the order of the walk of schemaRefs (overview.go 788-817), before duplicates are dropped. *)
Fixpoint ref_walk (s : osch) : list string :=
  let all := fix all (l : list osch) : list string := match l with [] => [] | x :: l => ref_walk x ++ all l end in
  match s with
  | ONil => []
  | OSch ref _ _ _ items addl neg props allof oneof anyof =>
      (if has_prefix ref_prefix ref then [str_drop (String.length ref_prefix) ref] else []) ++
      ref_walk items ++ ref_walk addl ++ ref_walk neg ++ all props ++ all allof ++ all oneof ++ all anyof
  end.
(** Names are kept when seen first (overview.go 796-799). *)
Fixpoint firsts (seen : gset string) (l : list string) : list string :=
  match l with
  | [] => []
  | x :: l => if decide (x ∈ seen) then firsts seen l else x :: firsts ({[x]} ∪ seen) l
  end.
Definition schema_refs (s : osch) : list string := firsts ∅ (ref_walk s).
Definition os_descr (s : osch) : string := match s with ONil => "" | OSch _ _ d _ _ _ _ _ _ _ _ => d end.
(** refIssues (overview.go 761-783). *)
Definition ref_issues (method path where_ : string) (s : osch) (comps : gmap string osch) : list issue :=
  concat ((λ name, match comps !! name with
    | None => [Issue "warn" "dangling-ref" method path (where_ +:+ " references a schema that has no component definition") name]
    | Some ONil => []
    | Some t => if str_contains placeholder_marker (os_descr t) then [Issue "warn" "unresolved-type" method path (where_ +:+ " resolves to an unresolved/external placeholder type") name] else []
    end) <$> schema_refs s).
(** isWrapperSpecialised (overview.go 822-839). *)
Definition is_wrapper (s : osch) : bool :=
  match s with
  | ONil => false
  | OSch _ _ _ _ _ _ _ _ allof _ _ =>
      bool_decide (2 ≤ length allof) &&
      existsb (λ p, match p with ONil => false | OSch ref _ _ _ _ _ _ _ _ _ _ => has_prefix ref_prefix ref end) allof &&
      existsb (λ p, match p with ONil => false | OSch ref _ _ _ _ _ _ props _ _ _ => bool_decide (ref = "") && bool_decide (props ≠ []) end) allof
  end.
(** collectOperationIssues (overview.go 625-674), without the tallies. *)
Definition operation_issues (method path : string) (op : oop) (comps : gmap string osch) : list issue :=
  (if decide (oo_responses op = []) then [Issue "warn" "no-responses" method path "no responses detected for this operation" ""] else []) ++
  concat ((λ c : string * osch, ref_issues method path "request body" c.2 comps) <$> default [] (oo_body op)) ++
  concat ((λ r : string * list (string * osch),
    concat ((λ c : string * osch, ref_issues method path ("response " +:+ r.1) c.2 comps ++
      (if is_wrapper c.2 then [Issue "info" "wrapper-specialised" method path ("response " +:+ r.1 +:+ " is a wrapper/envelope with a specialised data payload") ""] else [])) <$> r.2)) <$> oo_responses op) ++
  (if decide ("default" ∈ (oo_responses op).*1) then [Issue "info" "default-status" method path "an error status could not be determined (e.g. computed dynamically); the concrete 4xx/5xx isn't documented" ""] else []) ++
  concat ((λ p : string * osch, ref_issues method path ("parameter " +:+ p.1) p.2 comps) <$> oo_params op).
(** hasWarn (overview.go 905-912). *)
Definition has_warn (l : list issue) : bool := existsb (λ i, bool_decide (is_severity i = "warn")) l.
(** classifyResolution (overview.go 414-428). *)
Fixpoint classify (partial : bool) (l : list issue) : string :=
  match l with
  | [] => if partial then "partial" else "full"
  | i :: l =>
      if bool_decide (is_kind i ∈ ["dangling-ref"; "unresolved-type"; "no-responses"]) then "broken"
      else classify (partial || bool_decide (is_kind i ∈ ["missing-body"; "default-status"])) l
  end.
(** isWriteMethod, hasBodySchema and hasErrorResponse (overview.go 430-463). *)
Definition is_write (m : string) : bool := bool_decide (m ∈ ["POST"; "PUT"; "PATCH"]).
Definition has_body_schema (op : oop) : bool := existsb (λ c : string * osch, match c.2 with ONil => false | _ => true end) (default [] (oo_body op)).
Definition has_error (op : oop) : bool := existsb (λ r : string * list (string * osch), match r.1 with String c _ => bool_decide (c = "4"%char) || bool_decide (c = "5"%char) | "" => false end) (oo_responses op).
(** The order of the issues (overview.go 366-375): warnings first, then by path, then by method. *)
Definition issue_le (a b : issue) : Prop :=
  match bool_decide (is_severity a = "warn"), bool_decide (is_severity b = "warn") with
  | true, false => True
  | false, true => False
  | _, _ => is_path a ≠ is_path b ∧ string_le (is_path a) (is_path b) ∨ is_path a = is_path b ∧ string_le (is_method a) (is_method b)
  end.
#[global] Instance issue_le_dec : RelDecision issue_le.
Proof. intros a b. unfold issue_le. destruct (bool_decide _), (bool_decide _); apply _. Defined.
(** The issues of the report (overview.go 324-325, 366-381), sorted by a stable sort. *)
Definition raw_issues (d : odoc) : list issue := concat ((λ x : string * string * oop, operation_issues x.1.2 x.1.1 x.2 (od_comps d)) <$> all_operations d).
Definition report_issues (d : odoc) : list issue := merge_sort issue_le (raw_issues d).
(** Counting (the loop of overview.go 316-349): how many operations there are, are clean, and are of each state. *)
Definition op_issues (d : odoc) (x : string * string * oop) : list issue := operation_issues x.1.2 x.1.1 x.2 (od_comps d).
Definition report_total (d : odoc) : nat := length (all_operations d).
Definition report_clean (d : odoc) : nat := length (filter (λ x, has_warn (op_issues d x) = false) (all_operations d)).
Definition report_state (d : odoc) (state : string) : nat := length (filter (λ x, classify false (op_issues d x) = state) (all_operations d)).
(** Coverage (overview.go 337-346): the operations that write, those of them with a body schema, and those with an error response. *)
Definition report_write (d : odoc) : nat := length (filter (λ x : string * string * oop, is_write x.1.2 = true) (all_operations d)).
Definition report_bodies (d : odoc) : nat := length (filter (λ x : string * string * oop, is_write x.1.2 && has_body_schema x.2 = true) (all_operations d)).
Definition report_errors (d : odoc) : nat := length (filter (λ x : string * string * oop, has_error x.2 = true) (all_operations d)).
(** Health.Score (overview.go 358-363), with exact fractions in place of float64. *)
Definition report_score (clean total : nat) : nat := if decide (0 < total) then (200 * clean + total) / (2 * total) else 100.

(** bodyResolution (overview.go 718-757). [None] is the panic when a component is nil. *)
Inductive bstate := BSchema | BFree | BUnresolved.
#[global] Instance bstate_eq : EqDecision bstate. Proof. solve_decision. Defined.
Fixpoint body_resolution (comps : gmap string osch) (s : osch) : option bstate :=
  match s with
  | ONil => Some BUnresolved
  | OSch ref type _ enum items addl _ props allof oneof anyof =>
      let name := trim_prefix ref_prefix ref in
      if bool_decide (name ≠ "") && bool_decide (name ≠ ref) then
        match comps !! name with
        | None => Some BUnresolved
        | Some ONil => None
        | Some t => Some (if str_contains placeholder_marker (os_descr t) then BUnresolved else BSchema)
        end
      else if decide (type = "array") then
        match items with ONil => Some BUnresolved | _ => body_resolution comps items end
      else if bool_decide (oneof ≠ []) || bool_decide (anyof ≠ []) || bool_decide (allof ≠ []) || bool_decide (props ≠ []) || enum then Some BSchema
      else if decide (type = "object") then Some (match addl with ONil => BUnresolved | _ => BFree end)
      else Some (if decide (type = "") then BUnresolved else BSchema)
  end.
Definition body_rank (b : bstate) : nat := match b with BUnresolved => 0 | BFree => 1 | BSchema => 2 end.
(** addStatusBody (overview.go 679-703): the bucket of a response; [None] is no content. *)
Fixpoint best_of (best : bstate) (l : list bstate) : bstate := match l with [] => best | b :: l => best_of (if decide (body_rank best < body_rank b) then b else best) l end.
Definition response_bucket (comps : gmap string osch) (content : list (string * osch)) : option (option bstate) :=
  match content with
  | [] => Some None
  | _ => bs ← mapM (body_resolution comps) content.*2; Some (Some (best_of BUnresolved bs))
  end.
(** StatusBody (overview.go 111-118) and what addStatusBody adds to it. *)
Record sbody := SBody { sb_total : nat; sb_schema : nat; sb_free : nat; sb_empty : nat; sb_unresolved : nat }.
Definition add_bucket (b : option bstate) (a : sbody) : sbody :=
  let '(SBody t s f e u) := a in
  match b with
  | None => SBody (S t) s f (S e) u
  | Some BSchema => SBody (S t) (S s) f e u
  | Some BFree => SBody (S t) s (S f) e u
  | Some BUnresolved => SBody (S t) s f e (S u)
  end.
(** The responses of all operations in the order visited, and bodyC after them (overview.go 642-644). *)
Definition all_responses (d : odoc) : list (string * list (string * osch)) := concat ((λ x : string * string * oop, oo_responses x.2) <$> all_operations d).
Definition report_bodies_of (d : odoc) : option (gmap string sbody) :=
  foldl (λ acc r, m ← acc; b ← response_bucket (od_comps d) r.2; Some (<[r.1 := add_bucket b (default (SBody 0 0 0 0 0) (m !! r.1))]> m)) (Some ∅) (all_responses d).
(** What BodyLine calls missing and empty by design (overview.go 1005-1019): does an empty body of this status count as missing. *)
Definition counts_missing (status : string) : bool := has_prefix "2" status && negb (bool_decide (status = "204")).

(** A tally and sortedCounts (overview.go 916-932): by count, then by name, or by name only. *)
Definition tally (l : list string) : gmap string nat := foldl (λ m x, <[x := S (default 0 (m !! x))]> m) ∅ l.
Definition count_le (by_count : bool) (a b : string * nat) : Prop :=
  if by_count && negb (bool_decide (a.2 = b.2)) then b.2 < a.2 else string_le a.1 b.1.
#[global] Instance count_le_dec b : RelDecision (count_le b).
Proof. intros x y. unfold count_le. destruct (b && _); apply _. Defined.
Definition sorted_counts (by_count : bool) (m : gmap string nat) : list (string * nat) := merge_sort (count_le by_count) (map_to_list m).
(** ByMethod, ByTag and ByStatus (overview.go 319-322, 351-353). *)
Definition report_methods (d : odoc) : list (string * nat) := sorted_counts true (tally ((λ x : string * string * oop, x.1.2) <$> all_operations d)).
Definition report_tags (d : odoc) : list (string * nat) := sorted_counts true (tally (concat ((λ x : string * string * oop, oo_tags x.2) <$> all_operations d))).
Definition report_statuses (d : odoc) : list (string * nat) := sorted_counts false (tally (all_responses d).*1).

(** securityStats (overview.go 563-623): the class of an operation. *)
Inductive sclass := Protected | Public | Unsecured.
#[global] Instance sclass_eq : EqDecision sclass. Proof. solve_decision. Defined.
Definition security_class (d : odoc) (op : oop) : sclass :=
  match oo_security op with
  | Some [] => Public
  | own =>
      let eff := match own with Some l => l | None => od_security d end in
      match eff with
      | [] => Unsecured
      | _ => if existsb (λ r : list string, bool_decide (r = [])) eff then Public else Protected
      end
  end.
Definition security_count (d : odoc) (c : sclass) : nat := length (filter (λ x : string * string * oop, security_class d x.2 = c) (all_operations d)).

(** lastSegment (overview.go 898-903). *)
Fixpoint last_segment (p : string) : string :=
  match p with
  | "" => ""
  | String c t => if contains_byte "/" t then last_segment t else if decide (c = "/"%char) then t else p
  end.
(** interfaceStats (overview.go 466-518) on the types in the order visited: package, name, whether it is an interface and how many implement it. The
    result: total, one implementation, several, none, and the counts under their labels. *)
Record itype := IType { it_pkg : string; it_name : string; it_iface : bool; it_impls : nat }.
Record istats := IStats { st_total : nat; st_single : nat; st_ambiguous : nat; st_none : nat; st_labels : gmap string nat }.
Definition it_label (t : itype) : string := if decide (it_pkg t = "") then it_name t else last_segment (it_pkg t) +:+ "." +:+ it_name t.
Fixpoint interface_stats (seen : gset string) (st : istats) (l : list itype) : istats :=
  match l with
  | [] => st
  | t :: l =>
      let key := it_pkg t +:+ "." +:+ it_name t in
      if negb (it_iface t) || bool_decide (key ∈ seen) then interface_stats seen st l
      else
        let '(IStats n s a u m) := st in
        interface_stats ({[key]} ∪ seen)
          (match it_impls t with
           | 0 => IStats (S n) s a (S u) m
           | 1 => IStats (S n) (S s) a u m
           | k => IStats (S n) s (S a) u (<[it_label t := k]> m)
           end) l
  end.
Definition report_interfaces (l : list itype) : istats := interface_stats ∅ (IStats 0 0 0 0 ∅) l.
(** CallGraphStats.Functions (overview.go 850-866): a package by its files, with how many functions and the methods of each type, and the types of the
    package with their methods; the types of a package are those of its files (metadata.go 351-370, 702-728). *)
Record ipkg := IPkg { ip_files : list (nat * list (string * nat)) ; ip_types : list (string * nat) }.
Definition count_functions (p : ipkg) : nat :=
  sum_list ((λ f : nat * list (string * nat), f.1 + sum_list f.2.*2) <$> ip_files p) + sum_list (ip_types p).*2.
