(** * Pages of the diagram server (internal/diagserver/server.go, internal/spec/visualization.go). *)
From Coq Require Import Ascii ZArith.
From stdpp Require Import sorting.
From stdpp Require Import base numbers list strings gmap.
From Verif Require Import StrLib StrSub DecLib ScanModel DetModel.

(** spec.CytoscapeNodeData (visualization.go 57-88): the fields read here. [n_paths]: the positions of the call
    paths. [n_generics]: the values of the map, [None] for a nil map. *)
Record dnode := DNode { n_id : string; n_label : string; n_fname : string; n_parent : string; n_pkg : string; n_position : string; n_paths : list string;
  n_receiver : string; n_signature : string; n_generics : option (list string); n_scope : string; n_depth : nat; n_is_parent : bool }.
(** spec.CytoscapeEdgeData (visualization.go 94-100). *)
Record dedge := DEdge { e_src : string; e_dst : string; e_type : string }.
Record ddata := DData { d_nodes : list dnode; d_edges : list dedge }.

(** ** Depths in the call graph (server.go 898-961) *)
(** server.go 904-912: [adjacency] read at a key, and [inDegree] read at a key. *)
Definition callees (data : ddata) (x : string) : list string := e_dst <$> filter (λ e, e_src e = x) (d_edges data).
Definition in_degree (data : ddata) (x : string) : nat := length (filter (λ e, e_dst e = x) (d_edges data)).
(** server.go 902-912: the keys of [inDegree]. *)
Definition degree_keys (data : ddata) : gset string := list_to_set (n_id <$> d_nodes data) ∪ list_to_set (e_dst <$> d_edges data).
(** server.go 914-927: the roots. [iter]: the order of the map. *)
Definition start_nodes (data : ddata) : list string :=
  n_id <$> filter (λ n, in_degree data (n_id n) = 0 ∨ n_label n = "main" ∨ n_fname n = "main") (d_nodes data).
Definition root_ids (iter : list string → list string) (data : ddata) : list string :=
  match start_nodes data with
  | [] => filter (λ x, in_degree data x = 0) (iter (elements (degree_keys data)))
  | rs => rs
  end.
(** server.go 950-957: one neighbour. *)
Definition depth_mark (d : nat) (st : gmap string nat * list (string * nat)) (y : string) : gmap string nat * list (string * nat) :=
  let closer := match st.1 !! y with None => true | Some e => bool_decide (S d < e) end in
  if closer then (<[y := S d]> st.1, st.2 ++ [(y, S d)]) else st.
(** server.go 940-958: the loop. The number bounds the turns. *)
Fixpoint depth_loop (n : nat) (data : ddata) (depths : gmap string nat) (visited : gset string) (queue : list (string * nat)) : gmap string nat :=
  match n with
  | 0 => depths
  | S n =>
      match queue with
      | [] => depths
      | (x, d) :: queue =>
          if bool_decide (x ∈ visited) then depth_loop n data depths visited queue
          else let '(depths, queue) := foldl (depth_mark d) (depths, queue) (callees data x) in depth_loop n data depths ({[ x ]} ∪ visited) queue
      end
  end.
(** calculateCallGraphDepth (server.go 898-961). Every turn but those of the roots takes off an entry that was
    put in for an edge. *)
Definition graph_depths (iter : list string → list string) (data : ddata) : gmap string nat :=
  let roots := root_ids iter data in
  depth_loop (S (length (d_nodes data) + length (d_edges data))) data (list_to_map ((λ r, (r, 0)) <$> roots)) ∅ ((λ r, (r, 0)) <$> roots).

(** ** Filters (server.go 1042-1061, 1161-1262) *)
Record filters := Filters { f_packages : list string; f_functions : list string; f_files : list string; f_receivers : list string; f_signatures : list string; f_generics : list string; f_scope : string }.
(** strings.Contains(strings.ToLower(text), strings.ToLower(strings.TrimSpace(term))); ASCII. *)
Definition matches (text term : string) : bool := str_contains (str_lower (trim_space term)) (str_lower text).
(** matchesFunctionName (server.go 1161-1166). *)
Definition matches_function (name term : string) : bool := if decide (term = "") then false else matches name term.
(** nodeMatchesFilters (server.go 1168-1262). *)
Definition node_matches (f : filters) (n : dnode) : bool :=
  (bool_decide (f_functions f = []) || existsb (matches_function (n_label n)) (f_functions f))
  && (bool_decide (f_files f = []) || (bool_decide (n_position n ≠ "") && existsb (matches (n_position n)) (f_files f)) || existsb (λ file, existsb (λ p, matches p file) (n_paths n)) (f_files f))
  && (bool_decide (f_receivers f = []) || bool_decide (n_receiver n = "") || existsb (matches (n_receiver n)) (f_receivers f))
  && (bool_decide (f_signatures f = []) || bool_decide (n_signature n = "") || existsb (matches (n_signature n)) (f_signatures f))
  && (bool_decide (f_generics f = []) || match n_generics n with None => true | Some gs => existsb (λ t, existsb (λ g, matches g t) gs) (f_generics f) end)
  && (let scope := str_lower (trim_space (f_scope f)) in let mine := str_lower (trim_space (n_scope n)) in
      bool_decide (f_scope f = "" ∨ f_scope f = "all") || (if decide (scope = "exported") then bool_decide (mine = "exported") else if decide (scope = "unexported") then bool_decide (mine = "unexported") else true)).
(** server.go 1042-1061: a node stays. *)
Definition node_stays (f : filters) (n : dnode) : bool :=
  (bool_decide (f_packages f = []) || existsb (λ p, str_contains (trim_space p) (n_pkg n)) (f_packages f)) && node_matches f n.
(** server.go 1015-1036: the depth filter, for a call graph and a depth that is not negative. *)
Definition edges_among (ids : gset string) (es : list dedge) : list dedge := filter (λ e, e_src e ∈ ids ∧ e_dst e ∈ ids) es.
Definition node_ids (ns : list dnode) : gset string := list_to_set (n_id <$> ns).
Definition depth_filter (iter : list string → list string) (call_graph : bool) (depth : Z) (data : ddata) : ddata :=
  if call_graph && bool_decide (0 ≤ depth)%Z then
    let depths := graph_depths iter data in
    let ns := filter (λ n, match depths !! n_id n with Some d => bool_decide (Z.of_nat d ≤ depth)%Z | None => false end = true) (d_nodes data) in
    DData ns (edges_among (node_ids ns) (d_edges data))
  else data.
(** server.go 1038-1071. *)
Definition filtered (iter : list string → list string) (call_graph : bool) (depth : Z) (f : filters) (data : ddata) : ddata :=
  let data := depth_filter iter call_graph depth data in
  let ns := filter (λ n, node_stays f n = true) (d_nodes data) in
  DData ns (edges_among (node_ids ns) (d_edges data)).

(** ** Depth-first orders of a tracker tree (visualization.go 127-231, 238-343) *)
(** visualization.go 205-221, 309-325: dfs. The number bounds the depth of the recursion. [order]: the ids in
    the order of their first visit. *)
Fixpoint dfs (n : nat) (kids : string → list string) (x : string) (st : gset string * list string) : gset string * list string :=
  match n with
  | 0 => st
  | S n => if bool_decide (x ∈ st.1) then st else foldl (λ st y, dfs n kids y st) ({[ x ]} ∪ st.1, st.2 ++ [x]) (kids x)
  end.
(** visualization.go 155-200, 260-304: the roots, with the main root first and, if there are no roots, the nodes of
    least depth. [edges]: the edges looked at. *)
Definition is_main (n : dnode) : bool := bool_decide (n_id n = "node_0" ∨ n_label n = "main").
Definition tree_root (edges : list dedge) (n : dnode) : bool := bool_decide (n_id n ∉ e_dst <$> edges ∨ n_depth n = 0).
Definition tree_roots (edges : list dedge) (ns : list dnode) : list string :=
  let main := last (filter (λ n, tree_root edges n = true ∧ is_main n = true) ns) in
  let others := n_id <$> filter (λ n, tree_root edges n = true ∧ is_main n = false) ns in
  match main with
  | Some m => n_id m :: others
  | None =>
      match others with
      | [] =>
          let least := match n_depth <$> ns with [] => 0 | d :: ds => foldr Nat.min d ds end in
          foldl (λ acc n, if is_main n then n_id n :: acc else acc ++ [n_id n]) [] (filter (λ n, n_depth n = least) ns)
      | _ => others
      end
  end.
(** visualization.go 127-231: OrderTrackerTreeNodesDepthFirst ([all_edges]) and 238-343:
    TraverseTrackerTreeBranchOrder (only the edges of calls). [nodeMap] keeps the last node of an id. Simplified: the two functions take the least depth starting from 999999 and from
    1 << 30, which matters only for deeper trees. *)
Definition node_at (ns : list dnode) (x : string) : option dnode := last (filter (λ n, n_id n = x) ns).
Definition tree_order (all_edges : bool) (data : ddata) : list dnode :=
  let edges := if all_edges then d_edges data else filter (λ e, e_type e = "calls") (d_edges data) in
  let kids x := e_dst <$> filter (λ e, e_src e = x) edges in
  let '(visited, order) := foldl (λ st r, dfs (S (length (d_nodes data) + length edges)) kids r st) (∅, []) (tree_roots edges (d_nodes data)) in
  omap (node_at (d_nodes data)) order ++ filter (λ n, n_id n ∉ visited) (d_nodes data).

(** ** Pages (server.go 1073-1131) *)
(** Go's int has 64 bits. *)
Definition wrap64 (z : Z) : Z := ((z + 2 ^ 63) mod 2 ^ 64 - 2 ^ 63)%Z.
(** A slice expression; [None]: it panics. *)
Definition go_slice {A} (a b : Z) (l : list A) : option (list A) :=
  if bool_decide (0 ≤ a ∧ a ≤ b ∧ b ≤ Z.of_nat (length l))%Z then Some (take (Z.to_nat (b - a)) (drop (Z.to_nat a) l)) else None.
(** server.go 1080-1087, 1089-1096. *)
Definition page_slice {A} (page size : Z) (l : list A) : option (list A) :=
  let start := wrap64 (wrap64 (page - 1) * size) in
  let stop := wrap64 (start + size) in
  let len := Z.of_nat (length l) in
  if bool_decide (start < len)%Z then go_slice start (if bool_decide (len < stop)%Z then len else stop) l else Some [].
(** server.go 1113-1122: the enclosing functions that are not on the page. *)
Definition set_parent (n : dnode) : dnode :=
  DNode (n_id n) (n_label n) (n_fname n) (n_parent n) (n_pkg n) (n_position n) (n_paths n) (n_receiver n) (n_signature n) (n_generics n) (n_scope n) (n_depth n) true.
Definition add_parent (all : list dnode) (acc : gset string * list dnode) (n : dnode) : gset string * list dnode :=
  if bool_decide (n_parent n ≠ "" ∧ n_parent n ∉ acc.1)
  then match node_at all (n_parent n) with Some p => ({[ n_parent n ]} ∪ acc.1, acc.2 ++ [set_parent p]) | None => acc end
  else acc.
Record page_result := PageResult { p_nodes : list dnode; p_edges : list dedge; p_total_nodes : nat; p_total_edges : nat; p_has_more : bool }.
(** generatePaginatedDataInternal without its cache (server.go 999-1131). *)
Record request := Request { r_page : Z; r_size : Z; r_depth : Z; r_filters : filters }.
Definition page_of (iter : list string → list string) (call_graph : bool) (data : ddata) (r : request) : option page_result :=
  let data := if call_graph then data else DData (tree_order true data) (d_edges data) in
  let fd := filtered iter call_graph (r_depth r) (r_filters r) data in
  let ordered := if call_graph then d_nodes fd else tree_order false fd in
  match page_slice (r_page r) (r_size r) ordered with
  | None => None
  | Some ns =>
      let parents := (foldl (add_parent (d_nodes data)) (node_ids ns, []) ns).2 in
      Some (PageResult (ns ++ parents) (edges_among (node_ids ns) (d_edges fd)) (length (d_nodes fd)) (length (d_edges fd)) (bool_decide (length (ns ++ parents) < length (d_nodes fd))))
  end.
(** server.go 376-395 (and 819-840): the numbers of a request, from those in the URL. *)
Definition asked_page (page : Z) : Z := if bool_decide (page < 1)%Z then 1 else page.
Definition asked_size (default_size size : Z) : Z := let size := if bool_decide (size < 1)%Z then default_size else size in if bool_decide (2000 < size)%Z then 2000 else size.

(** ** Cache (server.go 988-997, 1133-1136) *)
(** fmt's %v of a slice of strings. *)
Fixpoint spaced (l : list string) : string := match l with [] => "" | [x] => x | x :: l => x +:+ " " +:+ spaced l end.
Definition show_list (l : list string) : string := "[" +:+ spaced l +:+ "]".
(** server.go 989: the key. *)
Definition cache_key (diagram : string) (r : request) : string :=
  let f := r_filters r in
  diagram +:+ "-" +:+ itoa (r_page r) +:+ "-" +:+ itoa (r_size r) +:+ "-" +:+ itoa (r_depth r) +:+ "-" +:+ show_list (f_packages f) +:+ "-" +:+ show_list (f_functions f) +:+ "-"
  +:+ show_list (f_files f) +:+ "-" +:+ show_list (f_receivers f) +:+ "-" +:+ show_list (f_signatures f) +:+ "-" +:+ show_list (f_generics f) +:+ "-" +:+ f_scope f.
(** The server as far as pages go: the project's diagram, the pages kept, and the requests whose page is made but not
    yet stored. [work]: how a page is made from a diagram. *)
Record server (D : Type) := Server { s_data : D; s_cache : gmap string page_result; s_making : list (request * page_result) }.
Arguments Server {_}. Arguments s_data {_}. Arguments s_cache {_}. Arguments s_making {_}.
(** One step: a request is answered from the cache (server.go 991-996), a page is made (999-1131), a page is
    stored and returned (1133-1138), or the project is changed (SetInputDir and LoadMetadata, 129-176). The last
    component is the answer given, with its request. *)
Inductive serve {D : Type} (diagram : string) (work : D → request → option page_result) : server D → option (request * page_result) → server D → Prop :=
  | serve_hit s r p : s_cache s !! cache_key diagram r = Some p → serve diagram work s (Some (r, p)) s
  | serve_make s r p : s_cache s !! cache_key diagram r = None → work (s_data s) r = Some p →
      serve diagram work s None (Server (s_data s) (s_cache s) (s_making s ++ [(r, p)]))
  | serve_store d cache m1 m2 r p :
      serve diagram work (Server d cache (m1 ++ (r, p) :: m2)) (Some (r, p)) (Server d (<[cache_key diagram r := p]> cache) (m1 ++ m2))
  | serve_switch s d : serve diagram work s None (Server d ∅ (s_making s)).
