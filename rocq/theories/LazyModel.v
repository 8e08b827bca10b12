(** * Expanding the call tree on demand (internal/spec/lazytree.go).

    Nodes are numbered in the order they are made; a pointer is a number. *)
From stdpp Require Import base list strings gmap.

Section lazy.
  (** [C] is the edge and the argument of a node (lazytree.go 997-998, only inspected by the plan and the
      matchers). *)
  Context {C : Type}.
  (** [childSpec] (lazytree.go 1080-1098). *)
  Record spec := Spec { sp_content : C; sp_key : string; sp_arg : bool; sp_chain : bool }.
  (** [LazyNode] (lazytree.go 992-1023); [nd_children] is [None] while [expanded] is false. The argument type follows
      from the argument. *)
  Record node := Node { nd_key : string; nd_parent : option nat; nd_content : C; nd_arg : bool; nd_scope : nat; nd_children : option (list nat) }.
  (** [metadata.TrackerLimits]: a limit of 0 stands for any that is not positive. *)
  Record limits := Limits { max_tree : nat; max_children : nat; max_instances : nat; max_route : nat }.
  (** What is fixed while the tree is walked: the limits, the plan of each node content
      ([planFor], 1245-1257: memoized by content, and [buildPlan] 1263-1414 does not look at the
      parent), [canReachMatch] and [terminalRouteMatch] (false of a node without edge, 520). *)
  Record tree := Tree { tr_limits : limits; tr_plan : C → string → bool → list spec; tr_reach : spec → bool; tr_terminal : C → bool }.
  (** The mutable part of [LazyTree] (lazytree.go 52-318). [st_scopes] is [routeScopeNodes],
      [st_seen] holds the bits of [seenKeys]: the wiring bit of each key seen. *)
  Record state := State {
    st_nodes : list node; st_counts : gmap (string * string) nat; st_scopes : list nat; st_seen : gmap string bool;
    st_built : nat; st_wiring : nat; st_made : nat; st_truncated : bool; st_instance_cuts : nat; st_route_cuts : gset nat }.

  (** [instanceBudget] (367-372), [routeBudget] (501-506). *)
  Definition instance_budget (l : limits) : nat := if decide (0 < max_instances l) then max_instances l else 100.
  Definition route_budget (l : limits) : nat := if decide (0 < max_route l) then max_route l else 10 ^ 6.
  (** [budgetExhausted] (538-540), [routeBudgetExhausted] (566-568). *)
  Definition budget_exhausted (l : limits) (s : state) : bool := bool_decide (0 < max_tree l) && bool_decide (max_tree l ≤ st_wiring s).
  Definition route_exhausted (l : limits) (s : state) (scope : nat) : bool :=
    bool_decide (0 < scope) && match st_scopes s !! scope with Some v => bool_decide (route_budget l ≤ v) | None => false end.

  (** The nodes from one to its root, following the parents: the loops of [instanceScope] (1057-1064) and [onPath] (1066-1073). A
      parent is older than its children, so [S i] steps suffice. *)
  Fixpoint ancestors (fuel : nat) (nodes : list node) (i : nat) : list node :=
    match fuel with
    | 0 => []
    | S fuel => match nodes !! i with
                | None => []
                | Some nd => nd :: match nd_parent nd with Some p => ancestors fuel nodes p | None => [] end
                end
    end.
  Definition lineage (nodes : list node) (i : nat) : list node := ancestors (S i) nodes i.
  (** [instanceScope] (1057-1064). *)
  Definition instance_scope (nodes : list node) (i : nat) : string :=
    match list_find nd_arg (lineage nodes i) with Some (_, nd) => nd_key nd | None => "" end.
  (** [onPath] (1066-1073). *)
  Definition on_path (nodes : list node) (i : nat) (key : string) : bool := bool_decide (key ∈ nd_key <$> lineage nodes i).

  (** [scopeOf] (514-529). *)
  Definition scope_of (t : tree) (s : state) (nd : node) : state * nat :=
    if negb (bool_decide (nd_scope nd = 0)) || negb (tr_terminal t (nd_content nd)) then (s, nd_scope nd)
    else
      let scopes := (match st_scopes s with [] => [0] | l => l end) ++ [0] in
      (State (st_nodes s) (st_counts s) scopes (st_seen s) (st_built s) (st_wiring s) (st_made s) (st_truncated s) (st_instance_cuts s) (st_route_cuts s),
       length scopes - 1).
  (** [countKey] (549-562). *)
  Definition count_key (s : state) (key : string) (scope : nat) : state :=
    let seen := st_seen s !! key in
    let built := match seen with None => S (st_built s) | Some _ => st_built s end in
    let marks := bool_decide (scope = 0) && negb (default false seen) in
    State (st_nodes s) (st_counts s) (st_scopes s) (<[key := marks || default false seen]> (st_seen s)) built
      (if marks then S (st_wiring s) else st_wiring s) (st_made s) (st_truncated s) (st_instance_cuts s) (st_route_cuts s).
  (** One child of the loop of [GetChildren] that passes every guard (1179-1221). *)
  Definition make_child (i : nat) (nd : node) (scope : string) (child_scope : nat) (sp : spec) (s : state) : state :=
    let parent := if negb (sp_arg sp) && sp_chain sp then match nd_parent nd with Some p => p | None => i end else i in
    let child := Node (sp_key sp) (Some parent) (sp_content sp) (sp_arg sp) child_scope None in
    let n := default 0 (st_counts s !! (scope, sp_key sp)) in
    let scopes := if bool_decide (0 < child_scope) then alter S child_scope (st_scopes s) else st_scopes s in
    count_key (State (st_nodes s ++ [child]) (<[(scope, sp_key sp) := S n]> (st_counts s)) scopes (st_seen s) (st_built s) (st_wiring s)
      (S (st_made s)) (st_truncated s) (st_instance_cuts s) (st_route_cuts s)) (sp_key sp) child_scope.
  (** [noteInstanceTruncation] (388-400), its counter. *)
  Definition note_instance (s : state) : state :=
    State (st_nodes s) (st_counts s) (st_scopes s) (st_seen s) (st_built s) (st_wiring s) (st_made s) (st_truncated s) (S (st_instance_cuts s)) (st_route_cuts s).
  (** The loop of [GetChildren] (1159-1222). The node's lineage does not change during it, so its scope
      is computed once and [onPath] on the nodes at its start. *)
  Fixpoint expand_loop (t : tree) (path : list string) (i : nat) (nd : node) (scope : string) (child_scope : nat)
      (plan : list spec) (s : state) (count : nat) (kids : list nat) : state * list nat :=
    match plan with
    | [] => (s, kids)
    | sp :: plan =>
        if negb (sp_arg sp) && bool_decide (max_children (tr_limits t) ≤ count) then expand_loop t path i nd scope child_scope plan s count kids
        else if bool_decide (sp_key sp ∈ path) then expand_loop t path i nd scope child_scope plan s count kids
        else if negb (tr_reach t sp) then expand_loop t path i nd scope child_scope plan s count kids
        else if bool_decide (instance_budget (tr_limits t) ≤ default 0 (st_counts s !! (scope, sp_key sp)))
        then expand_loop t path i nd scope child_scope plan (note_instance s) count kids
        else expand_loop t path i nd scope child_scope plan (make_child i nd scope child_scope sp s)
               (if sp_arg sp then count else S count) (kids ++ [length (st_nodes s)])
    end.
  (** Recording the children of a node. *)
  Definition set_children (s : state) (i : nat) (kids : list nat) : state :=
    State (alter (λ nd, Node (nd_key nd) (nd_parent nd) (nd_content nd) (nd_arg nd) (nd_scope nd) (Some kids)) i (st_nodes s))
      (st_counts s) (st_scopes s) (st_seen s) (st_built s) (st_wiring s) (st_made s) (st_truncated s) (st_instance_cuts s) (st_route_cuts s).
  (** [GetChildren] (1118-1223); an unknown number stands for no node. *)
  Definition get_children (t : tree) (s : state) (i : nat) : state * list nat :=
    match st_nodes s !! i with
    | None => (s, [])
    | Some nd =>
        match nd_children nd with
        | Some kids => (s, kids)
        | None =>
            if bool_decide (nd_scope nd = 0) && budget_exhausted (tr_limits t) s
            then (State (st_nodes s) (st_counts s) (st_scopes s) (st_seen s) (st_built s) (st_wiring s) (st_made s) true (st_instance_cuts s) (st_route_cuts s), [])
            else if route_exhausted (tr_limits t) s (nd_scope nd)
            then (State (st_nodes s) (st_counts s) (st_scopes s) (st_seen s) (st_built s) (st_wiring s) (st_made s) (st_truncated s) (st_instance_cuts s)
                    ({[nd_scope nd]} ∪ st_route_cuts s), [])
            else
              let '(s1, child_scope) := scope_of t s nd in
              let '(s2, kids) := expand_loop t (nd_key <$> lineage (st_nodes s) i) i nd (instance_scope (st_nodes s) i) child_scope
                                   (tr_plan t (nd_content nd) (nd_key nd) (nd_arg nd)) s1 0 [] in
              (set_children s2 i kids, kids)
        end
    end.
  (** [NewLazyTree] (870-886) and [addEntrypointRoots] (851-868): a root has a key and nothing else. *)
  Definition root (c : C) (key : string) : node := Node key None c false 0 None.
  Definition new_tree (c : C) (keys : list string) : state := State (root c <$> keys) ∅ [] ∅ 0 0 0 false 0 ∅.
End lazy.
Arguments spec : clear implicits.
Arguments node : clear implicits.
Arguments tree : clear implicits.
Arguments state : clear implicits.
