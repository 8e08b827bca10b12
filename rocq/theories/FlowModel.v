(** * Which nodes below a registration belong to its route (internal/spec/extractor.go 1160-1287,
    internal/spec/request_provenance.go 21-142). *)
From stdpp Require Import base list strings gmap.
From Verif Require Import RouteModel.

(** A call edge, as far as the walk looks at it: the pointer, whether ChainParent is set, BaseID and name of the caller
    and the callee, and StripToBase of the callee's ID. *)
Record redge := REdge { re_ptr : nat; re_chain : bool; re_caller : string; re_caller_name : string; re_callee : string; re_callee_strip : string; re_callee_name : string }.
(** A node of the tree under a registration (TrackerNodeInterface): its key, the kind of its argument if it is an
    argument node, its edge and its children. Simplified: the tree is finite and expanded, no child is nil. *)
Inductive rnode := RNode (key : string) (arg : option string) (edge : option redge) (kids : list rnode).
Definition rn_key (n : rnode) : string := let 'RNode k _ _ _ := n in k.
Definition rn_arg (n : rnode) : option string := let 'RNode _ a _ _ := n in a.
Definition rn_edge (n : rnode) : option redge := let 'RNode _ _ e _ := n in e.
Definition rn_kids (n : rnode) : list rnode := let 'RNode _ _ _ l := n in l.

(** handlerArgDepth (request_provenance.go 21). *)
Definition handler_arg_depth : nat := 1.
(** followsControlFlow (request_provenance.go 58-142); [meta] is ParentFunctions, [None] when there is no metadata. *)
Definition follows (meta : option (gmap string (list nat))) (parent child : rnode) (depth : nat) : bool :=
  match rn_arg parent with
  | Some kind => bool_decide (depth ≤ handler_arg_depth) || bool_decide (kind = "call") || bool_decide (kind = "type_conversion")
  | None =>
      match rn_arg child with
      | Some _ => true
      | None =>
          match rn_edge parent, rn_edge child with
          | Some p, Some c =>
              if re_chain c then true
              else if bool_decide (re_caller c = re_callee p) then true
              else if bool_decide (re_caller c = re_caller p) then true
              else match meta with
                   | None => true
                   | Some pf =>
                       if bool_decide (re_ptr c ∈ default [] (pf !! re_callee p)) then true
                       else if negb (bool_decide (re_callee_strip p = re_callee p)) && bool_decide (re_ptr c ∈ default [] (pf !! re_callee_strip p)) then true
                       else negb (bool_decide (re_caller_name c = "")) && bool_decide (re_caller_name c = re_callee_name p)
                   end
          | _, _ => true
          end
      end
  end.
(** completesSameRegistration (extractor.go 1264-1287). *)
Definition completes (parent child : rnode) : bool :=
  match rn_arg child, rn_edge parent, rn_edge child with
  | None, Some p, Some c => re_chain c || bool_decide (re_caller p = re_caller c)
  | _, _, _ => false
  end.

(** One step of the walk: the child visited, childMayComplete and childBodyScope (extractor.go 1182-1202). *)
Record visit := Visit { v_node : rnode; v_may : bool; v_body : bool }.
Section walk.
  Context (meta : option (gmap string (list nat))).
  (** extractRouteChildrenScoped (extractor.go 1171-1245): the children in the order they are visited. *)
  Fixpoint walk (n : rnode) (may body : bool) (depth : nat) {struct n} : list visit :=
    let 'RNode _ _ _ kids := n in
    (fix go (l : list rnode) : list visit :=
       match l with
       | [] => []
       | c :: l => Visit c (may && completes n c) (body && follows meta n c depth) :: walk c (may && completes n c) (body && follows meta n c depth) (S depth) ++ go l
       end) kids.
  (** extractRouteChildren (extractor.go 1160-1162). *)
  Definition visits (reg : rnode) : list visit := walk reg true true 0.
  (** What extractRequestFromNode (extractor.go 1655-1678) gives at a node, and the types it registers in
      route.UsedTypes (pattern_matchers.go 1145-1149). Simplified: it does not depend on the route so far. *)
  Context (extract : rnode → option reqi) (types : rnode → list string).
  (** The request part of the loop (extractor.go 1202-1210): the body of the route and route.UsedTypes. The position
      noted on the request is left out. *)
  Definition request_of (reg : rnode) : option reqi :=
    foldl (λ cur v, match extract (v_node v) with Some r => if v_body v then prefer_request cur (Some r) else cur | None => cur end) None (visits reg).
  Definition used_of (reg : rnode) : list string := concat ((λ v, types (v_node v)) <$> visits reg).
  (** The nodes executeRoutePattern is tried on (extractor.go 1182-1187). *)
  Definition completing (reg : rnode) : list rnode := v_node <$> filter (λ v, v_may v = true) (visits reg).
End walk.
