(** C01-C03: the condensation of the call graph. *)
From stdpp Require Import sorting.
From stdpp Require Import base list strings gmap relations.
From Verif Require Import StrOrder SccModel SccSpec SccProofs.

(** C01.  For every call graph and every map iteration order, building the
    condensation terminates without a panic, every function that appears is in
    exactly one group, the lookup table agrees with the groups, groups are
    non-empty, duplicate free and sorted, and [SameComponent] answers exactly
    mutual transitive calling. *)
Theorem C01_groups_are_mutual_call_classes : ∀ iter itern es,
  is_order iter → is_order itern →
  ∃ r, build_scc iter itern es = Some r ∧
    (∀ f, appears es f ↔ ∃ i c, scc_components r !! i = Some c ∧ f ∈ c) ∧
    (∀ f i j ci cj, scc_components r !! i = Some ci → scc_components r !! j = Some cj →
       f ∈ ci → f ∈ cj → i = j) ∧
    (∀ f i, scc_component_of r !! f = Some i ↔ ∃ c, scc_components r !! i = Some c ∧ f ∈ c) ∧
    (∀ i c, scc_components r !! i = Some c → c ≠ [] ∧ NoDup c ∧ StronglySorted string_le c) ∧
    (∀ f g, same_component r f g = true ↔
       appears es f ∧ appears es g ∧ can_call es f g ∧ can_call es g f).
Proof. exact scc_groups_correct. Qed.
Print Assumptions C01_groups_are_mutual_call_classes.

(** C02.  The group graph is the exact quotient, callees come first, callee
    lists are strictly increasing, and recursion is exactly "can reach itself in
    one or more calls" - both per function ([InCycle], which never panics) and
    per group. *)
Theorem C02_group_graph_is_acyclic_quotient : ∀ iter itern es,
  is_order iter → is_order itern →
  ∃ r, build_scc iter itern es = Some r ∧
    length (scc_dag r) = length (scc_components r) ∧
    length (scc_recursive r) = length (scc_components r) ∧
    (∀ i j, (∃ row, scc_dag r !! i = Some row ∧ j ∈ row) ↔
       i ≠ j ∧ ∃ ci cj u v, scc_components r !! i = Some ci ∧ scc_components r !! j = Some cj ∧
         u ∈ ci ∧ v ∈ cj ∧ calls es u v) ∧
    (∀ i row, scc_dag r !! i = Some row → StronglySorted (<) row ∧ ∀ j, j ∈ row → j < i) ∧
    (∀ f, ∃ b, in_cycle r f = Some b ∧ (b = true ↔ tc (calls es) f f)) ∧
    (∀ i c, scc_components r !! i = Some c →
       ∃ b, scc_recursive r !! i = Some b ∧ (b = true ↔ ∃ f, f ∈ c ∧ tc (calls es) f f)).
Proof. exact scc_quotient_correct. Qed.
Print Assumptions C02_group_graph_is_acyclic_quotient.

(** C03.  Same set of (caller, callee) pairs, same condensation - whatever the
    edge order, the repetitions and the map iteration orders. *)
Theorem C03_condensation_depends_only_on_edge_set : ∀ iter1 itern1 iter2 itern2 e1 e2,
  is_order iter1 → is_order itern1 → is_order iter2 → is_order itern2 →
  (∀ p, p ∈ e1 ↔ p ∈ e2) →
  build_scc iter1 itern1 e1 = build_scc iter2 itern2 e2.
Proof. exact build_determined. Qed.
Print Assumptions C03_condensation_depends_only_on_edge_set.

(** Non-vacuity: a graph with a three-cycle, a self call, a cross edge, a
    duplicate edge and an edge with an empty identity. *)
Definition ex_edges : list (string * string) :=
  [("b","c"); ("a","b"); ("c","a"); ("a","d"); ("d","d"); ("e","a"); ("a","b"); ("","a"); ("d","f")].

Example C01_example_order : is_order (@reverse string) ∧ is_order (@id (list nat)).
Proof. split; intros l; [apply reverse_Permutation|done]. Qed.

Example C01_example :
  match build_scc reverse id ex_edges with
  | Some r => scc_components r = [["f"]; ["d"]; ["a"; "b"; "c"]; ["e"]] ∧
              scc_dag r = [[]; [0]; [1]; [2]] ∧
              scc_recursive r = [false; true; true; false] ∧
              same_component r "a" "c" = true ∧ same_component r "a" "d" = false ∧
              in_cycle r "d" = Some true ∧ in_cycle r "zzz" = Some false
  | None => False
  end.
Proof. vm_compute. repeat split. Qed.

Example C03_example : ∀ p, p ∈ ex_edges ↔ p ∈ reverse ex_edges ++ ex_edges.
Proof. intros p. rewrite elem_of_app, elem_of_reverse. tauto. Qed.
