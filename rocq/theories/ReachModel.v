(** * Reachability over the call graph (internal/spec/reachability.go,
    internal/spec/route_reach.go, internal/spec/prune.go, and the ordering step of
    internal/spec/lazytree.go). *)
From stdpp Require Import sorting.
From stdpp Require Import base list strings gmap.
From Verif Require Import StrOrder SccModel Worklist.

(** [CallGraphEdge], internal/metadata/types.go: the caller's and callee's base
    IDs, and the base ID of the enclosing function for edges whose caller is a
    closure (nil otherwise).  Everything else an edge carries - name, receiver,
    arguments, position - is one number, so that predicates on edges may tell
    apart edges with equal endpoints. *)
Record cg_edge := CgEdge {
  ce_caller : string;
  ce_callee : string;
  ce_parent : option string;
  ce_data : nat
}.

(** The (caller, callee) pairs BuildCallGraphSCC reads, scc.go 80-82. *)
Definition edge_pairs (es : list cg_edge) : list (string * string) :=
  (λ e, (ce_caller e, ce_callee e)) <$> es.

(** [Callers[k]], built by BuildCallGraphMaps, internal/metadata/types.go
    267-296: the edges whose caller is [k], in call graph order. *)
Definition callers_of (es : list cg_edge) (k : string) : list cg_edge :=
  filter (λ e, ce_caller e = k) es.

(** The inner loops of reachSet over one component, reachability.go 62-78: [c]
    is the component index.  The two [break]s make the pair of loops an
    existence test.  [compReaches[calleeComp]] out of range would panic; it reads
    as false here and C01 shows every recorded component number is in range. *)
Definition comp_reached (es : list cg_edge) (r : scc) (mtch : cg_edge → bool)
    (acc : list bool) (c : nat) (comp : list string) : bool :=
  existsb (λ member,
    existsb (λ e,
      mtch e ||
      match scc_component_of r !! ce_callee e with
      | Some cc => negb (bool_decide (cc = c)) && default false (acc !! cc)
      | None => false
      end) (callers_of es member)) comp.

(** The loop over components, reachability.go 59-80.  [compReaches] starts all
    false; the entry for [c] is written when [c] is processed. *)
Fixpoint comps_reached (es : list cg_edge) (r : scc) (mtch : cg_edge → bool)
    (c : nat) (comps : list (list string)) (acc : list bool) : list bool :=
  match comps with
  | [] => acc
  | comp :: comps' =>
    comps_reached es r mtch (S c) comps' (<[c := comp_reached es r mtch acc c comp]> acc)
  end.

(** [reachSet] without its cache, reachability.go 58-87, given the condensation. *)
Definition reach_set_of (es : list cg_edge) (r : scc) (mtch : cg_edge → bool) : gset string :=
  let cr := comps_reached es r mtch 0 (scc_components r)
              (replicate (length (scc_components r)) false) in
  list_to_set (omap (λ p : string * nat, if default false (cr !! p.2) then Some p.1 else None)
                    (map_to_list (scc_component_of r))).

(** [reachSet] with its cache, reachability.go 53-92; callGraphSCC 39-44 is the
    condensation of the same call graph (built once, a pure function of it). *)
Definition reach_set (iter : list string → list string) (itern : list nat → list nat)
    (es : list cg_edge) (cache : gmap string (gset string)) (key : string) (mtch : cg_edge → bool)
    : option (gset string * gmap string (gset string)) :=
  match cache !! key with
  | Some s => Some (s, cache)
  | None =>
    r ← build_scc iter itern (edge_pairs es);
    let s := reach_set_of es r mtch in
    Some (s, <[key := s]> cache)
  end.

(** A history of reachSet calls on one extractor, starting from [cache]. *)
Fixpoint reach_calls (iter : list string → list string) (itern : list nat → list nat)
    (es : list cg_edge) (cache : gmap string (gset string))
    (qs : list (string * (cg_edge → bool))) : option (list (gset string)) :=
  match qs with
  | [] => Some []
  | (key, mtch) :: qs' =>
    '(s, cache') ← reach_set iter itern es cache key mtch;
    ss ← reach_calls iter itern es cache' qs';
    Some (s :: ss)
  end.

(** ** routeReachSet *)

(** [addPred], route_reach.go 51-56. *)
Definition add_pred (preds : gmap string (list string)) (of pred : string) : gmap string (list string) :=
  if decide (of = "" ∨ pred = "" ∨ of = pred) then preds
  else <[of := default [] (preds !! of) ++ [pred]]> preds.

(** The pass over the call graph, route_reach.go 68-80: predecessors of one edge. *)
Definition edge_preds (preds : gmap string (list string)) (e : cg_edge) : gmap string (list string) :=
  let preds := add_pred preds (ce_callee e) (ce_caller e) in
  match ce_parent e with
  | Some p => add_pred preds (ce_caller e) p
  | None => preds
  end.

(** [mark] ignores the empty key, route_reach.go 60-66; the rest of [mark] is
    [wl_mark].  Since the predecessor map holds no empty key the check only
    matters for the seeds. *)
Definition route_seeds (mtch : cg_edge → bool) (es : list cg_edge) : list string :=
  omap (λ e, if mtch e && negb (bool_decide (ce_caller e = "")) then Some (ce_caller e) else None) es.

(** [routeReachSet], route_reach.go 44-91; the FIFO loop is [wl_loop false].
    [mtch = None] is a nil predicate.  Every key is an endpoint or parent of an
    edge, which bounds the loop. *)
Definition route_reach_set (es : list cg_edge) (mtch : option (cg_edge → bool)) : option (option (gset string)) :=
  match mtch with
  | None => Some None
  | Some m =>
    let preds := fold_left edge_preds es ∅ in
    r ← wl_loop false (λ k, default [] (preds !! k)) (3 * length es)
          (fold_left (wl_mark false) (route_seeds m es) (∅, []));
    Some (Some r)
  end.

(** [leadsToRoute], lazytree.go 414-426, given the (memoised) reach set and
    [base], the model of StripToBase. *)
Definition leads_to_route (base : string → string) (reach : option (gset string)) (key : string) : bool :=
  match reach with
  | None => true
  | Some r => bool_decide (base key ∈ r)
  end.

(** [orderTowardRoutes], lazytree.go 446-465.  [has_match] is
    [routeMatch != nil]; [leads] the answer of leadsToRoute on a child's key. *)
Definition order_toward_routes {A} (has_match : bool) (leads : A → bool) (plan : list A) (from : nat) : list A :=
  if negb has_match || bool_decide (length plan ≤ from) then plan
  else
    let seg := drop from plan in
    let leading := filter (λ s, leads s = true) seg in
    let trailing := filter (λ s, leads s = false) seg in
    match leading, trailing with
    | [], _ => plan
    | _, [] => plan
    | _, _ => take from plan ++ leading ++ trailing
    end.

(** ** computeReach *)
Section compute_reach.
Context {K : Type} `{Countable K}.
(** [childrenOf] and [matches] are the two closures buildReachIndex passes,
    prune.go 125-145: the identities of the children in the expansion plan of an
    identity, and whether the identity's own call edge is matched. Both depend on
    the identity only (the plan is memoised by it). *)
Context (childrenOf : K → list K) (mtch : K → bool).

(** The local variables of computeReach, prune.go 159-162.  Slices used as
    stacks are lists with the top first. *)
Record cr_state := Cr {
  cr_reach : gset K;
  cr_rev : gmap K (list K);
  cr_seen : gset K;
  cr_seeds : list K;
  cr_frontier : list K
}.

(** [visit], prune.go 164-174. *)
Definition cr_visit (s : cr_state) (id : K) : cr_state :=
  if decide (id ∈ cr_seen s) then s
  else
    let s' := Cr (cr_reach s) (cr_rev s) ({[id]} ∪ cr_seen s) (cr_seeds s) (id :: cr_frontier s) in
    if mtch id && negb (bool_decide (id ∈ cr_reach s))
    then Cr ({[id]} ∪ cr_reach s') (cr_rev s') (cr_seen s') (id :: cr_seeds s') (cr_frontier s')
    else s'.

(** One child in the forward loop, prune.go 181-184. *)
Definition cr_child (id : K) (s : cr_state) (child : K) : cr_state :=
  cr_visit (Cr (cr_reach s) (<[child := default [] (cr_rev s !! child) ++ [id]]> (cr_rev s))
               (cr_seen s) (cr_seeds s) (cr_frontier s)) child.

(** The forward loop, prune.go 178-185. *)
Fixpoint cr_forward (fuel : nat) (s : cr_state) : option cr_state :=
  match cr_frontier s with
  | [] => Some s
  | id :: fr =>
    match fuel with
    | 0 => None
    | S fuel' =>
      cr_forward fuel'
        (fold_left (cr_child id) (childrenOf id)
           (Cr (cr_reach s) (cr_rev s) (cr_seen s) (cr_seeds s) fr))
    end
  end.

(** [computeReach], prune.go 158-197; the backward loop 186-195 is
    [wl_loop true] over the reverse edges.  [fuel] bounds each loop. *)
Definition compute_reach (fuel : nat) (roots : list K) : option (gset K) :=
  s ← cr_forward fuel (fold_left cr_visit roots (Cr ∅ ∅ ∅ [] []));
  wl_loop true (λ id, default [] (cr_rev s !! id)) fuel (cr_reach s, cr_seeds s).

(** [canReachMatch], prune.go 79-87: [reach = None] is "no predicate supplied". *)
Definition can_reach_match (reach : option (gset K)) (id : K) : bool :=
  match reach with
  | None => true
  | Some r => bool_decide (id ∈ r)
  end.
End compute_reach.
Arguments cr_state K {_ _}.
