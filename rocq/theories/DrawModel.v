(** * Drawing the call graph (internal/spec/visualization.go). *)
From Coq Require Import Ascii.
From stdpp Require Import base numbers list strings gmap.
From Verif Require Import StrLib DecLib DiagModel.

(** metadata.Call as far as it is drawn. [c_base]: BaseID. *)
Record fcall := FCall { c_base : string; c_name : string; c_pkg : string; c_recv : string; c_sig : string; c_scope : string; c_pos : string }.
(** metadata.CallGraphEdge. [g_pos]: its Position; [g_generics]: the values of TypeParamMap. *)
Record gedge := GEdge { g_caller : fcall; g_callee : fcall; g_parent : option fcall; g_pos : string; g_generics : list string }.

(** What grows while the graph is drawn (visualization.go 346-370). [w_nodes]: data.Nodes, each with the base ID of
    the call it was made for, which the code does not keep. Left out: the IDs of the edges. *)
Record drawing := Drawing { w_nodes : list (string * dnode); w_edges : list dedge; w_visited : gset string; w_ids : gmap string string; w_pairs : gset string; w_count : nat }.

Definition lit_prefix : string := "FuncLit:".
Definition is_literal (name : string) : bool := has_prefix lit_prefix name.
(** visualization.go 390, 479, 1045: the ID of a node. *)
Definition node_name (k : nat) : string := "node_" +:+ itoa_nat k.
(** visualization.go 412-420, 502-510. *)
Definition fun_label (c : fcall) : string :=
  let label := if is_literal (c_name c) then "FuncLit" else c_name c in
  if bool_decide (c_recv c = "") then label else c_recv c +:+ "." +:+ label.
(** visualization.go 397-401, 422-430. *)
Definition caller_position (c : fcall) : string :=
  let pos := if is_literal (c_name c) then str_drop (String.length lit_prefix) (c_name c) else c_pos c in
  if bool_decide (pos = "") then (if bool_decide (c_name c = "main") then "root function" else "entry point") else pos.
(** buildCallPathInfos (visualization.go 585-651): the positions of the paths (the rest of a path is not read by the pages of C65); meta.Callees holds the calls of a
    function in the order of the call graph (metadata/types.go 266-296). *)
Definition path_entry (e : gedge) : string * string :=
  let name := c_name (g_caller e) in
  let pos := if is_literal name && bool_decide (g_pos e = "") then str_drop (String.length lit_prefix) name else g_pos e in
  (c_pkg (g_caller e) +:+ "." +:+ (if is_literal name then "FuncLit" else name) +:+ ":" +:+ pos, pos).
Definition add_path (acc : gset string * list string) (e : gedge) : gset string * list string :=
  let '(key, pos) := path_entry e in if bool_decide (key ∈ acc.1) then acc else ({[ key ]} ∪ acc.1, acc.2 ++ [pos]).
Definition call_paths (graph : list gedge) (f : string) : list string := (foldl add_path (∅, []) (filter (λ e, c_base (g_callee e) = f) graph)).2.

(** visualization.go 439-445, 519-525, 1034-1040: the first node of that name and package. *)
Definition named_node (name pkg : string) (ns : list (string * dnode)) : option (nat * (string * dnode)) := list_find (λ n, n_fname n.2 = name ∧ n_pkg n.2 = pkg) ns.
Definition mark_parent (n : dnode) : dnode :=
  DNode (n_id n) (n_label n) (n_fname n) (n_parent n) (n_pkg n) (n_position n) (n_paths n) (n_receiver n) (n_signature n) (n_generics n) (n_scope n) (n_depth n) true.
(** visualization.go 1043-1094: a node for an enclosing function. *)
Definition make_parent (graph : list gedge) (p : fcall) (w : drawing) : string * drawing :=
  let k := S (w_count w) in
  let paths := call_paths graph (c_base p) in
  let node := DNode (node_name k) (if bool_decide (c_recv p = "") then c_name p else c_recv p +:+ "." +:+ c_name p) (c_name p) "" (c_pkg p) (if bool_decide (c_name p = "main") then "root function" else "")
    paths (c_recv p) (c_sig p) (if bool_decide (paths = []) then None else Some []) (c_scope p) 0 true in
  (node_name k, Drawing (w_nodes w ++ [(c_base p, node)]) (w_edges w) ({[ c_base p ]} ∪ w_visited w) (w_ids w) (w_pairs w) k).
(** ensureParentFunctionNode (visualization.go 1022-1095). *)
Definition ensure_parent (graph : list gedge) (p : fcall) (w : drawing) : string * drawing :=
  if bool_decide (c_base p ∈ w_visited w) then
    match named_node (c_name p) (c_pkg p) (w_nodes w) with
    | Some (i, (b, n)) => (n_id n, Drawing (<[i := (b, mark_parent n)]> (w_nodes w)) (w_edges w) (w_visited w) (w_ids w) (w_pairs w) (w_count w))
    | None => make_parent graph p w
    end
  else make_parent graph p w.
(** visualization.go 432-451, 512-531: the parent of a literal. *)
Definition literal_parent (graph : list gedge) (name : string) (parent : option fcall) (w : drawing) : string * drawing :=
  match parent with
  | Some p =>
      if is_literal name then
        match named_node (c_name p) (c_pkg p) (w_nodes w) with
        | Some (_, (_, n)) => (n_id n, w)
        | None => ensure_parent graph p w
        end
      else ("", w)
  | None => ("", w)
  end.
(** visualization.go 388-392 and 477-481: a new function gets the next number. *)
Definition new_function (f : string) (w : drawing) : drawing :=
  Drawing (w_nodes w) (w_edges w) ({[ f ]} ∪ w_visited w) (<[f := node_name (S (w_count w))]> (w_ids w)) (w_pairs w) (S (w_count w)).
Definition add_node (f : string) (n : dnode) (w : drawing) : drawing := Drawing (w_nodes w ++ [(f, n)]) (w_edges w) (w_visited w) (w_ids w) (w_pairs w) (w_count w).
(** processCallGraphEdge, the caller (visualization.go 386-473). *)
Definition draw_caller (graph : list gedge) (e : gedge) (w : drawing) : drawing :=
  let c := g_caller e in
  if bool_decide (c_base c ∈ w_visited w) then w else
    let id := node_name (S (w_count w)) in
    let '(parent, w) := literal_parent graph (c_name c) (g_parent e) (new_function (c_base c) w) in
    add_node (c_base c) (DNode id (fun_label c) (c_name c) parent (c_pkg c) (caller_position c) [] (c_recv c) (c_sig c) (match g_generics e with [] => None | gs => Some gs end) (c_scope c) 0 false) w.
(** processCallGraphEdge, the callee (visualization.go 475-551). *)
Definition draw_callee (graph : list gedge) (e : gedge) (w : drawing) : drawing :=
  let c := g_callee e in
  if bool_decide (c_base c ∈ w_visited w) then w else
    let id := node_name (S (w_count w)) in
    let paths := call_paths graph (c_base c) in
    let '(parent, w) := literal_parent graph (c_name c) (g_parent e) (new_function (c_base c) w) in
    add_node (c_base c) (DNode id (fun_label c) (c_name c) parent (c_pkg c) "" paths (c_recv c) (c_sig c) (if bool_decide (paths = []) then None else Some (g_generics e)) (c_scope c) 0 false) w.
(** processCallGraphEdge, the edge (visualization.go 553-581). *)
Definition draw_arrow (e : gedge) (w : drawing) : drawing :=
  match w_ids w !! c_base (g_caller e), w_ids w !! c_base (g_callee e) with
  | Some a, Some b =>
      let key := a +:+ "->" +:+ b in
      if bool_decide (key ∈ w_pairs w) then w
      else Drawing (w_nodes w) (w_edges w ++ [DEdge a b "calls"]) (w_visited w) (w_ids w) ({[ key ]} ∪ w_pairs w) (w_count w)
  | _, _ => w
  end.
Definition draw_edge (graph : list gedge) (w : drawing) (e : gedge) : drawing := draw_arrow e (draw_callee graph e (draw_caller graph e w)).
(** DrawCallGraphCytoscape (visualization.go 346-378). *)
Definition nothing_drawn : drawing := Drawing [] [] ∅ ∅ ∅ 0.
Definition draw (graph : list gedge) : drawing := foldl (draw_edge graph) nothing_drawn graph.
Definition drawn_graph (graph : list gedge) : ddata := DData (snd <$> w_nodes (draw graph)) (w_edges (draw graph)).
