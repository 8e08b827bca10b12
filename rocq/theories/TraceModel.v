(** * The call trace of a handler and its figures (internal/insight/metrics.go). *)
From Coq Require Import Ascii.
From stdpp Require Import sorting.
From stdpp Require Import base numbers list strings gmap.
From Verif Require Import StrLib StrOrder PairModel.

(** A call edge as far as the trace looks at it: the callee's name and its BaseID (metrics.go 194-206). *)
Record call := Call { c_name : string; c_id : string }.
(** metrics.go 106-111: builtinFuncs. *)
Definition builtin_funcs : list string :=
  ["append"; "cap"; "clear"; "close"; "complex"; "copy"; "delete"; "imag"; "len"; "make"; "max"; "min"; "new"; "panic"; "print"; "println"; "real"; "recover"].
(** metrics.go 124-127: calleeIsBuiltin. *)
Definition callee_is_builtin (c : call) : bool := bool_decide (c_name c ∈ builtin_funcs).
(** meta.Callers (metrics.go 157): the calls in the body of each function. *)
Notation callers := (gmap string (list call)).
Definition callers_of (g : callers) (f : string) : list call := default [] (g !! f).
(** An adjacency map (metrics.go 168). *)
Notation adjacency := (gmap string (list string)).
Definition kids (adj : adjacency) (n : string) : list string := default [] (adj !! n).

(** metrics.go 29-35. *)
Definition max_reachable : nat := 600.
Definition max_trace_depth : nat := 14.
Definition max_paths : nat := 1000.
Definition max_graph_nodes : nat := 60.
Definition max_path_sample : nat := 40.

(** The variables of analyzeAdjacency (metrics.go 163-180), without arguments, sites and tooltips. *)
Record tstate := TS { t_adj : adjacency; t_depth : gmap string nat; t_visited : gset string; t_queue : list string;
  t_max_depth : nat; t_truncated : bool; t_fanout_sum : nat; t_fanout_nodes : nat; t_fanout_max : nat }.
(** metrics.go 205-245: one call in the body of [cur], at depth [d]; the set is [seen]. *)
Definition trace_call (reach_cap : nat) (cur : string) (d : nat) (acc : tstate * gset string) (c : call) : tstate * gset string :=
  let '(st, seen) := acc in
  if callee_is_builtin c || bool_decide (c_id c = "" ∨ c_id c = cur) || bool_decide (c_id c ∈ seen) then acc
  else
    let callee := c_id c in
    let adj := <[cur := kids (t_adj st) cur ++ [callee]]> (t_adj st) in
    let st' :=
      if bool_decide (callee ∈ t_visited st)
      then TS adj (t_depth st) (t_visited st) (t_queue st) (t_max_depth st) (t_truncated st) (t_fanout_sum st) (t_fanout_nodes st) (t_fanout_max st)
      else
        let visited := {[ callee ]} ∪ t_visited st in
        if bool_decide (size visited ≤ reach_cap)
        then TS adj (<[callee := S d]> (t_depth st)) visited (t_queue st ++ [callee]) (t_max_depth st `max` S d) (t_truncated st) (t_fanout_sum st) (t_fanout_nodes st) (t_fanout_max st)
        else TS adj (t_depth st) visited (t_queue st) (t_max_depth st) true (t_fanout_sum st) (t_fanout_nodes st) (t_fanout_max st)
    in (st', {[ callee ]} ∪ seen).
(** metrics.go 246-252: fan-out of [cur]. *)
Definition trace_fanout (cur : string) (st : tstate) : tstate :=
  let n := length (kids (t_adj st) cur) in
  if bool_decide (0 < n)
  then TS (t_adj st) (t_depth st) (t_visited st) (t_queue st) (t_max_depth st) (t_truncated st) (t_fanout_sum st + n) (S (t_fanout_nodes st)) (t_fanout_max st `max` n)
  else st.
(** metrics.go 190-198: one turn, with [cur] taken off the queue. *)
Definition trace_turn (reach_cap depth_cap : nat) (g : callers) (cur : string) (st : tstate) : tstate :=
  let d := default 0 (t_depth st !! cur) in
  if bool_decide (depth_cap ≤ d)
  then TS (t_adj st) (t_depth st) (t_visited st) (t_queue st) (t_max_depth st) true (t_fanout_sum st) (t_fanout_nodes st) (t_fanout_max st)
  else trace_fanout cur (foldl (trace_call reach_cap cur d) (st, ∅) (callers_of g cur)).1.
Definition set_queue (q : list string) (st : tstate) : tstate :=
  TS (t_adj st) (t_depth st) (t_visited st) q (t_max_depth st) (t_truncated st) (t_fanout_sum st) (t_fanout_nodes st) (t_fanout_max st).
(** metrics.go 190-253: the loop. The number bounds the turns; a function is queued only while at most
    [reach_cap] functions are visited. *)
Fixpoint trace_loop (reach_cap depth_cap : nat) (g : callers) (n : nat) (st : tstate) : tstate :=
  match n with
  | 0 => st
  | S n => match t_queue st with [] => st | cur :: q => trace_loop reach_cap depth_cap g n (trace_turn reach_cap depth_cap g cur (set_queue q st)) end
  end.
Definition trace_start (root : string) : tstate := TS ∅ {[ root := 0 ]} {[ root ]} [root] 0 false 0 0 0.
(** metrics.go 163-253 with any caps, and with the caps of 29-35. *)
Definition trace_with (reach_cap depth_cap : nat) (g : callers) (root : string) : tstate := trace_loop reach_cap depth_cap g (S reach_cap) (trace_start root).
Definition trace : callers → string → tstate := trace_with max_reachable max_trace_depth.

(** ** Paths *)
(** metrics.go 1005-1013: shortLabel. *)
Definition short_label (id : string) : string := match split_last "/" id with Some (_, tail) => tail | None => id end.
(** metrics.go 714-745: enumeratePaths; [on_stack] and the paths listed so far are threaded through. The
    first number bounds the depth of the recursion. *)
Fixpoint enumerate (n : nat) (adj : adjacency) (cap : nat) (path : list string) (node : string) (st : gset string * list (list string)) : gset string * list (list string) :=
  match n with
  | 0 => st
  | S n =>
      if bool_decide (cap ≤ length st.2) then st
      else
        let path := path ++ [short_label node] in
        match filter (λ k, k ∉ st.1) (kids adj node) with
        | [] => (st.1, st.2 ++ [path])
        | real =>
            let '(on_stack, out) := foldl (λ acc k, if bool_decide (cap ≤ length acc.2) then acc else enumerate n adj cap path k acc) ({[ node ]} ∪ st.1, st.2) real in
            (on_stack ∖ {[ node ]}, out)
        end
  end.
Definition enumerate_paths (adj : adjacency) (root : string) (cap : nat) : list (list string) := (enumerate (S (size adj)) adj cap [] root (∅, [])).2.

(** The variables of countPaths (metrics.go 857-861). *)
Record cstate := CS { c_memo : gmap string nat; c_stack : gset string; c_truncated : bool }.
(** metrics.go 870-881: the loop over the callees. *)
Fixpoint count_kids (dfs : string → cstate → nat * cstate) (cap : nat) (ks : list string) (total : nat) (st : cstate) : nat * cstate :=
  match ks with
  | [] => (total, st)
  | k :: ks =>
      if bool_decide (k ∈ c_stack st) then count_kids dfs cap ks total st
      else let '(v, st) := dfs k st in
           if bool_decide (cap ≤ total + v) then (cap, CS (c_memo st) (c_stack st) true) else count_kids dfs cap ks (total + v) st
  end.
(** metrics.go 862-891: dfs. The number bounds the depth of the recursion. *)
Fixpoint count (n : nat) (adj : adjacency) (cap : nat) (node : string) (st : cstate) : nat * cstate :=
  match n with
  | 0 => (0, st)
  | S n =>
      match c_memo st !! node with
      | Some v => (v, st)
      | None =>
          if bool_decide (kids adj node = []) then (1, st)
          else
            let '(total, st) := count_kids (count n adj cap) cap (kids adj node) 0 (CS (c_memo st) ({[ node ]} ∪ c_stack st) (c_truncated st)) in
            let total := if bool_decide (total = 0) then 1 else total in
            (total, CS (if c_truncated st then c_memo st else <[node := total]> (c_memo st)) (c_stack st ∖ {[ node ]}) (c_truncated st))
      end
  end.
Definition count_paths_with (cap : nat) (adj : adjacency) (root : string) : nat * bool :=
  let '(v, st) := count (S (size adj)) adj cap root (CS ∅ ∅ false) in (v, c_truncated st).
Definition count_paths : adjacency → string → nat * bool := count_paths_with max_paths.

(** ** Grade (metrics.go 895-910); 0 to 3 stand for A to D. *)
Definition grade (depth paths fanout_max : nat) (paths_truncated depth_truncated : bool) : nat * bool :=
  let lb := paths_truncated || depth_truncated in
  let g := if bool_decide (depth ≤ 4 ∧ paths ≤ 10 ∧ fanout_max ≤ 6) then 0
           else if bool_decide (depth ≤ 7 ∧ paths ≤ 50) then 1 else if bool_decide (depth ≤ 10 ∧ paths ≤ 200) then 2 else 3 in
  (if lb && bool_decide (g < 2) then 2 else g, lb).

(** ** Diagram *)
(** metrics.go 933: a node goes before another. *)
Definition node_lt (a b : string * nat) : bool := bool_decide (a.2 < b.2) || (bool_decide (a.2 = b.2) && string_lt a.1 b.1).
(** metrics.go 932-936: the insertion sort; the part already sorted is held in reverse. *)
Fixpoint node_insert (x : string * nat) (sorted : list (string * nat)) : list (string * nat) :=
  match sorted with y :: l => if node_lt x y then y :: node_insert x l else x :: sorted | [] => [x] end.
Definition node_sort (l : list (string * nat)) : list (string * nat) := reverse (foldl (λ acc x, node_insert x acc) [] l).
(** metrics.go 914-981: the nodes and edges shown. [iter] and [iter'] are the orders in which the maps of
    depths and of callees are walked. *)
Definition trace_graph (iter : list (string * nat) → list (string * nat)) (iter' : list (string * list string) → list (string * list string)) (cap : nat) (adj : adjacency) (depth : gmap string nat)
    : list (string * nat) * list (string * string) * bool :=
  let all := node_sort (iter (map_to_list depth)) in
  let nodes := take cap all in
  let included k := bool_decide (k ∈ nodes.*1) in
  (nodes, mjoin ((λ '(src, ks), if included src then (λ k, (src, k)) <$> filter (λ k, included k = true) ks else []) <$> iter' (map_to_list adj)), bool_decide (cap < length all)).
