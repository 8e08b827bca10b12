(** * The resolved call graph (internal/callgraph/callgraph.go). *)
From Coq Require Import Ascii ZArith.
From stdpp Require Import sorting.
From stdpp Require Import base list strings gmap.
From Verif Require Import StrLib StrOrder PathModel.

(** A receiver's type as [bareRecvName] (callgraph.go 123-140) tells them apart: a pointer, a
    named type or an alias with its name, any other type with its text without package names. *)
Inductive rtype := RPtr (t : rtype) | RNamed (name : string) | RAlias (name : string) | ROther (text : string).
(** What is read of an ssa.Function (callgraph.go 97-119, 216-227): the origin of an instantiation, the
    path of its package, the path of the package of its object, the receiver, the name, the position
    and the text. A function is a number, its pointer. *)
Record finfo := FInfo { fi_origin : option nat; fi_pkg : option string; fi_obj_pkg : option string; fi_recv : option rtype;
  fi_name : string; fi_pos : Z; fi_text : string }.
(** [bareRecvName], callgraph.go 121-140. A pointer to a pointer is no receiver. *)
Definition bare_recv (t : rtype) : string :=
  let t := match t with RPtr t => t | _ => t end in
  match t with
  | RNamed n | RAlias n => n
  | RPtr _ => ""
  | ROther text => take_until (λ c, bool_decide (c = "["%char)) (trim_prefix "." (trim_prefix "*" text))
  end.

Section graph.
(** The functions, the keys of Graph.Nodes in the order they are walked, the Out edges of a node (the
    callee of an edge may be missing) and what sort.Slice does to a list (not stable). *)
Context (info : nat → finfo) (nodes : list nat) (out : nat → list (option nat)) (sort_slice : list nat → list nat).

(** [FunctionID], callgraph.go 92-119. *)
Definition function_id (f : nat) : string :=
  let i := info (default f (fi_origin (info f))) in
  let pkg := match fi_pkg i with Some p => p | None => default "" (fi_obj_pkg i) end in
  if bool_decide (pkg = "") then ""
  else match fi_recv i with
       | Some t => pkg +:+ "." +:+ bare_recv t +:+ "." +:+ fi_name i
       | None => pkg +:+ "." +:+ fi_name i
       end.
(** The order of [sortFunctions], callgraph.go 214-227: by ID, position and text. *)
Definition fn_le (f g : nat) : Prop :=
  let a := function_id f in let b := function_id g in
  (a ≠ b ∧ string_le a b) ∨
  (a = b ∧ (fi_pos (info f) ≠ fi_pos (info g) ∧ (fi_pos (info f) <= fi_pos (info g))%Z ∨
            fi_pos (info f) = fi_pos (info g) ∧ string_le (fi_text (info f)) (fi_text (info g)))).
(** [byID] as [Build] fills it (callgraph.go 74-88) and [FunctionsByID] (142-147). *)
Definition by_id (id : string) : list nat :=
  sort_slice (filter (λ f, function_id f ≠ "" ∧ function_id f = id) nodes).
(** [IDs], callgraph.go 149-157: the keys of the map, sorted. *)
Definition ids : list string :=
  merge_sort string_le (elements (list_to_set (filter (λ s, s ≠ "") (function_id <$> nodes)) : gset string)).
(** The loop of [CalleesOf], callgraph.go 165-177, with the functions seen so far. *)
Fixpoint distinct_callees (seen : gset nat) (es : list (option nat)) : list nat :=
  match es with
  | [] => []
  | None :: es => distinct_callees seen es
  | Some g :: es => if decide (g ∈ seen) then distinct_callees seen es else g :: distinct_callees ({[g]} ∪ seen) es
  end.
(** [CalleesOf], callgraph.go 159-180. *)
Definition callees_of (f : nat) : list nat := if decide (f ∈ nodes) then sort_slice (distinct_callees ∅ (out f)) else [].
(** The inner loop of [Reaches], callgraph.go 195-202: [None] when a callee matches, else the queue. *)
Fixpoint visit (matches : nat → bool) (visited : gset nat) (queue cs : list nat) : option (list nat) :=
  match cs with
  | [] => Some queue
  | c :: cs => if matches c then None else visit matches visited (if decide (c ∈ visited) then queue else queue ++ [c]) cs
  end.
(** The loop of [Reaches], callgraph.go 188-204; [None] when the fuel is used up. *)
Fixpoint reach_loop (matches : nat → bool) (n : nat) (visited : gset nat) (queue : list nat) : option bool :=
  match queue with
  | [] => Some false
  | f :: queue =>
    match n with
    | 0 => None
    | S n =>
      if decide (f ∈ visited) then reach_loop matches n visited queue
      else match visit matches ({[f]} ∪ visited) queue (callees_of f) with
           | None => Some true
           | Some queue => reach_loop matches n ({[f]} ∪ visited) queue
           end
    end
  end.
(** [Reaches], callgraph.go 182-205. *)
Definition reaches (n : nat) (from : string) (matches : nat → bool) : option bool := reach_loop matches n ∅ (by_id from).
(** [ReachesID], callgraph.go 207-212. *)
Definition reaches_id (n : nat) (from target : string) : option bool := reaches n from (λ f, bool_decide (function_id f = target)).
End graph.
