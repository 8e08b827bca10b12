(** * The type a type parameter stands for (internal/spec/lazytree.go 1017-1049, pattern_matchers.go 1306-1330). *)
From stdpp Require Import base list strings gmap.

(** The bindings of one node of the path: those of its call and those of its argument; a node without one has no bindings there. *)
Notation bindings := (gmap string string).
Notation bframe := (bindings * bindings)%type.
(** GetTypeParamMap (lazytree.go 1022-1049): from the node up to the root, the first binding of a name stays. The memo is left out (C14); the maps are iterated by
    inserting absent keys, which does not depend on their order. *)
Definition add_absent (out m : bindings) : bindings := out ∪ m.
Fixpoint path_bindings (out : bindings) (path : list bframe) : bindings :=
  match path with
  | [] => out
  | (edge, arg) :: up => path_bindings (add_absent (add_absent out edge) arg) up
  end.
(** The loop of traceGenericOrigin (pattern_matchers.go 1316-1324): [None] is a loop that is still running after [n] turns. *)
Fixpoint follow (m : bindings) (n : nat) (name : string) : option string :=
  match n with
  | 0 => None
  | S n => match m !! name with
           | Some t => if decide (t = "") then Some name else follow m n t
           | None => Some name
           end
  end.
(** traceGenericOrigin (pattern_matchers.go 1309-1330), after [n] turns; the inner empty text is no mapping. *)
Definition trace_generic (m : bindings) (n : nat) (name : string) : option string :=
  if decide (m = ∅ ∨ name = "") then Some ""
  else r ← follow m n name; Some (match m !! name with Some t => if decide (t = "") then "" else r | None => "" end).
(** What a response and a parameter do with the name of a type parameter (extractor.go 3151-3155, 3529-3533): one step. *)
Definition one_step (m : bindings) (name : string) : option string := m !! name.
