(** * Call-graph condensation (internal/metadata/scc.go). *)
From stdpp Require Import sorting.
From stdpp Require Import base list strings gmap.
From Verif Require Import StrOrder.

(** The local [frame] of condenseSCC, scc.go 127-130. *)
Record frame := Frame { f_node : string; f_next : nat }.

(** The local variables of condenseSCC, scc.go 120-132, together with the two
    result fields that the main loop fills.  Go slices used as stacks are lists
    with the top first ([tj_tstack], [tj_cstack]); [tj_comps] is in emission
    order.  A missing key of [tj_index]/[tj_low] reads as 0, as in Go. *)
Record tj := Tj {
  tj_index : gmap string nat;
  tj_low : gmap string nat;
  tj_onstack : gmap string bool;
  tj_tstack : list string;
  tj_cstack : list frame;
  tj_counter : nat;
  tj_comps : list (list string);
  tj_compof : gmap string nat
}.

(** Reading an int-valued Go map: zero value when the key is missing. *)
Definition get0 (m : gmap string nat) (k : string) : nat := default 0 (m !! k).
(** Reading a bool-valued Go map. *)
Definition getb (m : gmap string bool) (k : string) : bool := default false (m !! k).
(** Reading the adjacency map: nil slice when the key is missing. *)
Definition adj_of (adj : gmap string (list string)) (k : string) : list string :=
  default [] (adj !! k).

(** Initial values, scc.go 120-132. *)
Definition tj_init : tj := Tj ∅ ∅ ∅ [] [] 0 [] ∅.

(** The five statements that discover a node, scc.go 138-142 (root) and 151-155
    (successor): they are the same statements in the source. *)
Definition tj_visit (s : tj) (n : string) : tj :=
  let c := S (tj_counter s) in
  Tj (<[n := c]> (tj_index s)) (<[n := c]> (tj_low s)) (<[n := true]> (tj_onstack s))
     (n :: tj_tstack s) (Frame n 0 :: tj_cstack s) c (tj_comps s) (tj_compof s).

(** The popping loop, scc.go 174-183: pops the Tarjan stack up to and including
    [node].  Returns the popped members (in pop order) and the remaining stack;
    [None] is the index-out-of-range panic on an empty stack. *)
Fixpoint pop_until (node : string) (st : list string) : option (list string * list string) :=
  match st with
  | [] => None
  | top :: st' =>
    if decide (top = node) then Some ([top], st')
    else '(comp, rest) ← pop_until node st'; Some (top :: comp, rest)
  end.

(** Setting [onStack[top] = false] for each popped member, scc.go 178. *)
Definition clear_onstack (m : gmap string bool) (comp : list string) : gmap string bool :=
  fold_left (fun m x => <[x := false]> m) comp m.

(** scc.go 185-187: record the component number of every member. *)
Definition record_members (c : nat) (m : gmap string nat) (comp : list string) : gmap string nat :=
  fold_left (fun m x => <[x := c]> m) comp m.

(** Emitting a component, scc.go 174-188. *)
Definition tj_emit (s : tj) (node : string) : option tj :=
  '(comp, rest) ← pop_until node (tj_tstack s);
  let sorted := ssort comp in
  Some (Tj (tj_index s) (tj_low s) (clear_onstack (tj_onstack s) comp) rest (tj_cstack s)
           (tj_counter s) (tj_comps s ++ [sorted])
           (record_members (length (tj_comps s)) (tj_compof s) sorted)).

(** One iteration of the inner loop, scc.go 145-188; [None] is a panic. The
    empty call stack (loop exit) is handled by [tj_loop]. *)
Definition tj_step (adj : gmap string (list string)) (s : tj) : option tj :=
  match tj_cstack s with
  | [] => Some s
  | Frame node nx :: rest =>
    match adj_of adj node !! nx with
    | Some next =>
      let s1 := Tj (tj_index s) (tj_low s) (tj_onstack s) (tj_tstack s)
                   (Frame node (S nx) :: rest) (tj_counter s) (tj_comps s) (tj_compof s) in
      if decide (get0 (tj_index s) next = 0) then Some (tj_visit s1 next)
      else if decide (getb (tj_onstack s) next = true ∧
                      get0 (tj_index s) next < get0 (tj_low s) node)
      then Some (Tj (tj_index s1) (<[node := get0 (tj_index s) next]> (tj_low s1)) (tj_onstack s1)
                    (tj_tstack s1) (tj_cstack s1) (tj_counter s1) (tj_comps s1) (tj_compof s1))
      else Some s1
    | None =>
      let low' := match rest with
                  | [] => tj_low s
                  | Frame parent _ :: _ =>
                    if decide (get0 (tj_low s) node < get0 (tj_low s) parent)
                    then <[parent := get0 (tj_low s) node]> (tj_low s) else tj_low s
                  end in
      let s1 := Tj (tj_index s) low' (tj_onstack s) (tj_tstack s) rest
                   (tj_counter s) (tj_comps s) (tj_compof s) in
      if decide (get0 low' node ≠ get0 (tj_index s) node) then Some s1
      else tj_emit s1 node
    end
  end.

(** The inner loop [for len(callStack) > 0], scc.go 144-189.  [None] means the
    fuel ran out or a step panicked; the theorems show neither happens. *)
Fixpoint tj_loop (fuel : nat) (adj : gmap string (list string)) (s : tj) : option tj :=
  match tj_cstack s with
  | [] => Some s
  | _ => match fuel with
         | 0 => None
         | S fuel' => s' ← tj_step adj s; tj_loop fuel' adj s'
         end
  end.

(** The outer loop [for _, root := range nodes], scc.go 134-190. *)
Fixpoint tj_roots (fuel : nat) (adj : gmap string (list string)) (nodes : list string) (s : tj) : option tj :=
  match nodes with
  | [] => Some s
  | root :: nodes' =>
    if decide (get0 (tj_index s) root ≠ 0) then tj_roots fuel adj nodes' s
    else s' ← tj_loop fuel adj (tj_visit s root); tj_roots fuel adj nodes' s'
  end.

(** [CallGraphSCC], scc.go 35-54. *)
Record scc := Scc {
  scc_components : list (list string);
  scc_component_of : gmap string nat;
  scc_dag : list (list nat);
  scc_recursive : list bool
}.

(** The edge pass that fills [dagSets] and the self-loop flags, scc.go 199-214.
    A read of [ComponentOf] for a missing key gives 0, as in Go.  An index out
    of range would panic in Go and is ignored here; the theorems show that the
    indices used are always in range. *)
Definition dag_edge (compof : gmap string nat) (u : string)
    (acc : list (gset nat) * list bool) (v : string) : list (gset nat) * list bool :=
  let cu := get0 compof u in
  let cv := get0 compof v in
  if decide (cv = cu) then
    if decide (u = v) then (acc.1, <[cu := true]> acc.2) else acc
  else (alter (fun X => {[cv]} ∪ X) cu acc.1, acc.2).
Definition dag_pass (adj : gmap string (list string)) (compof : gmap string nat) (nodes : list string)
    (acc : list (gset nat) * list bool) : list (gset nat) * list bool :=
  fold_left (fun acc u => fold_left (dag_edge compof u) (adj_of adj u) acc) nodes acc.

Section iteration.
(** Go randomises the order of [range] over a map: [iter] and [itern] stand for
    the order chosen for a set of strings / of ints. *)
Context (iter : list string → list string) (itern : list nat → list nat).

(** [condenseSCC], scc.go 119-228.  [fuel] bounds the iterations of the inner
    loop per root. *)
Definition condense (fuel : nat) (nodes : list string) (adj : gmap string (list string)) : option scc :=
  s ← tj_roots fuel adj nodes tj_init;
  let comps := tj_comps s in
  let recursive0 := (fun comp : list string => bool_decide (1 < length comp)) <$> comps in
  let '(sets, recursive) :=
    dag_pass adj (tj_compof s) nodes (replicate (length comps) ∅, recursive0) in
  Some (Scc comps (tj_compof s)
            ((fun X : gset nat => nsort (itern (elements X))) <$> sets) recursive).

(** The set-building pass of BuildCallGraphSCC, scc.go 77-93, over the list of
    (caller base ID, callee base ID) pairs of the call graph. *)
Definition scc_add_edge (acc : gset string * gmap string (gset string)) (e : string * string)
    : gset string * gmap string (gset string) :=
  let '(u, v) := e in
  if decide (u = "" ∨ v = "") then acc
  else ({[v]} ∪ ({[u]} ∪ acc.1), <[u := {[v]} ∪ default ∅ (acc.2 !! u)]> acc.2).

Definition scc_sets (edges : list (string * string)) : gset string * gmap string (gset string) :=
  fold_left scc_add_edge edges (∅, ∅).

(** Sorted node list and adjacency, scc.go 95-108. *)
Definition scc_nodes (edges : list (string * string)) : list string :=
  ssort (iter (elements (scc_sets edges).1)).
Definition scc_adj (edges : list (string * string)) : gmap string (list string) :=
  (fun vs : gset string => ssort (iter (elements vs))) <$> (scc_sets edges).2.

(** Loop bound used for the fuel: one step per adjacency entry plus one per node. *)
Definition scc_cost (adj : gmap string (list string)) (nodes : list string) : nat :=
  sum_list_with (fun u => S (length (adj_of adj u))) nodes.

(** [BuildCallGraphSCC], scc.go 76-111. *)
Definition build_scc (edges : list (string * string)) : option scc :=
  condense (scc_cost (scc_adj edges) (scc_nodes edges)) (scc_nodes edges) (scc_adj edges).
End iteration.

(** [SameComponent], scc.go 58-65. *)
Definition same_component (r : scc) (a b : string) : bool :=
  match scc_component_of r !! a with
  | None => false
  | Some ca => match scc_component_of r !! b with
               | None => false
               | Some cb => bool_decide (ca = cb)
               end
  end.

(** [InCycle], scc.go 69-72.  [Recursive[c]] is an index expression; [None]
    (out of range, a Go panic) is shown impossible in the theorems. *)
Definition in_cycle (r : scc) (fn : string) : option bool :=
  match scc_component_of r !! fn with
  | None => Some false
  | Some c => scc_recursive r !! c
  end.
