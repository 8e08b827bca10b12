(** * The routes collected by the traversal (handleRouteNode), and the node of a router (findTargetNode) (internal/spec/extractor.go). *)
From Coq Require Import Ascii.
From stdpp Require Import base list strings gmap.
From Verif Require Import StrLib StrSplit StrOrder RouteModel PairModel.

(** One call of handleRouteNode (extractor.go 907): the identity of the call site (nothing if the node has no edge), the mount path and tags it is reached
    with, the route as the pattern gives it, the security of the context (applyRouteSecurity, C26 and C106), and what the walk of the children, the
    completion and the overrides (955-966; C90, C22, C99, C42) make of a route: the route and its handler. The placeholders of the mount (921-924) are left out. *)
Record visit := Visit {
  vs_site : option string; vs_mount : string; vs_tags : list string; vs_info : route; vs_security : option (list requirement);
  vs_walk : route → route * string
}.
(** The mount path of the route (extractor.go 911-914). *)
Definition visit_mount (v : visit) : string := if decide (vs_mount v = "") then rt_mount (vs_info v) else join_paths (vs_mount v) (rt_mount (vs_info v)).
(** The route before the walk (extractor.go 911-928). *)
Definition prepared (v : visit) : route :=
  let r := vs_info v in
  Route (rt_fn r) (rt_method r) (rt_path r) (visit_mount v) (rt_used r) (rt_response r) (rt_request r) (rt_params r)
    (match vs_tags v with [] => rt_tags r | t => t end) (vs_security v).
(** The identity of a site under a mount (extractor.go 941). *)
Definition route_id (v : visit) : option string := (λ s, visit_mount v +:+ String chain_sep s) <$> vs_site v.
(** The route after the walk, if IsValid (extractor.go 132-134, 968). *)
Definition extracted (v : visit) : option route := let '(r, h) := vs_walk v (prepared v) in if decide (rt_path r = "" ∨ h = "") then None else Some r.
(** The comparison of extractor.go 976-979. *)
Definition same_route (a b : route) : bool := bool_decide (rt_fn a = rt_fn b) && bool_decide (rt_mount a = rt_mount b) && bool_decide (rt_path a = rt_path b) && bool_decide (rt_method a = rt_method b).
(** Adding to the routes (extractor.go 968-988). *)
Fixpoint add_route (rs : list route) (r : route) : list route :=
  match rs with
  | [] => [r]
  | e :: rs => if same_route e r then merge_route e r :: rs else e :: add_route rs r
  end.
(** handleRouteNode (extractor.go 907-989); the state is extractedRouteIDs and the routes. *)
Definition handle_route (st : gset string * list route) (v : visit) : gset string * list route :=
  match route_id v with
  | Some i => if decide (i ∈ st.1) then st else ({[i]} ∪ st.1, match extracted v with Some r => add_route st.2 r | None => st.2 end)
  | None => (st.1, match extracted v with Some r => add_route st.2 r | None => st.2 end)
  end.
(** The routes of a traversal. *)
Definition collect (vs : list visit) : list route := (fold_left handle_route vs (∅, [])).2.

(** A tree node, as far as findTargetNode reads it. *)
Inductive tnode := TNode (key : string) (kids : list tnode).
Definition t_key (n : tnode) : string := let 'TNode k _ := n in k.
Definition t_kids (n : tnode) : list tnode := let 'TNode _ ks := n in ks.
(** The number of nodes; bounds the loop below. *)
Fixpoint t_size (n : tnode) : nat := let 'TNode _ ks := n in S (sum_list_with t_size ks).
(** findTargetNode (extractor.go 1080-1099): the queue; the number bounds the turns of the loop. *)
Fixpoint find_loop (n : nat) (k : string) (q : list tnode) : option tnode :=
  match n, q with
  | S n, x :: q => if decide (t_key x = k) then Some x else find_loop n k (q ++ t_kids x)
  | _, _ => None
  end.
Definition find_target (k : string) (roots : list tnode) : option tnode := find_loop (sum_list_with t_size roots) k roots.
