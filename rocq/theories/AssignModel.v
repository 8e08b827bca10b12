(** * Assignment links and their order (internal/metadata/metadata.go, internal/spec/assignment_order.go). *)
From stdpp Require Import base list strings gmap.
From Verif Require Import StrLib StrOrder.

(** [AssignmentKey] (metadata/types.go 1589-1594). *)
Record akey := AKey { ak_name : string; ak_pkg : string; ak_type : string; ak_container : string }.
#[global] Instance akey_eq_dec : EqDecision akey.
Proof. solve_decision. Defined.
#[global] Instance akey_countable : Countable akey.
Proof. apply (inj_countable' (λ k, (ak_name k, ak_pkg k, ak_type k, ak_container k)) (λ '(a, b, c, d), AKey a b c d)). by intros []. Defined.
(** [Assignment]: the fields that make up a key, and the rest. *)
Record assignment := Assignment { as_pkg : string; as_type : string; as_func : string; as_rest : string }.
(** [CallGraphEdge]: caller, receiver variable of the callee, the callee's instance and base
    IDs, and the recorded assignments by variable name, oldest first. *)
Record aedge := AEdge {
  ae_caller : string; ae_pkg : string; ae_recv : string; ae_id : string; ae_base : string; ae_assigns : gmap string (list assignment)
}.
(** [AssignmentLink] (types.go 1562-1566); the edge is its index in the call graph. *)
Record alink := ALink { al_key : akey; al_assignment : assignment; al_edge : nat }.
(** What is read of the metadata: the call graph, the indexes of the edges out of a base ID, and
    for a package its files in sorted order, each with its functions' assignment maps. *)
Record ameta := AMeta { am_edges : list aedge; am_callers : string → list nat; am_files : string → list (gmap string (gmap string (list assignment))) }.

Definition main_func : string := "main".
(** The keys of a map in iteration order. *)
Definition keys_in {A} (order : list string → list string) (m : gmap string A) : list string := order (map_to_list m).*1.
(** The body of the loop over a file's main function (metadata.go 461-482).  An assignment list
    is never empty; an empty one, which would panic, is skipped here. *)
Definition link_main (i : nat) (e : aedge) (assigns : gmap string (list assignment)) (acc : gmap akey alink) (v : string) : gmap akey alink :=
  match assigns !! v ≫= last with
  | Some a =>
      if decide (ae_recv e = v) then
        let k := AKey v (ae_pkg e) (as_type a) (ae_caller e) in <[ k := ALink k a i ]> acc
      else acc
  | None => acc
  end.
Definition link_file (order : list string → list string) (i : nat) (e : aedge) (acc : gmap akey alink) (file : gmap string (gmap string (list assignment))) : gmap akey alink :=
  match file !! ae_caller e with
  | Some assigns => if decide (ae_caller e = main_func) then foldl (link_main i e assigns) acc (keys_in order assigns) else acc
  | None => acc
  end.
(** The nested edge the assignment is linked to (metadata.go 497-506). *)
Definition nested_edge (m : ameta) (i : nat) (e : aedge) (v : string) : nat :=
  match list_find (λ j, ae_recv <$> am_edges m !! j = Some v) (am_callers m (ae_base e)) with
  | Some (_, j) => j
  | None => i
  end.
(** The body of the loop over an edge's own assignments (metadata.go 486-513). *)
Definition link_edge (m : ameta) (i : nat) (e : aedge) (acc : gmap akey alink) (v : string) : gmap akey alink :=
  match ae_assigns e !! v ≫= last with
  | Some a => let k := AKey v (as_pkg a) (as_type a) (as_func a) in <[ k := ALink k a (nested_edge m i e v) ]> acc
  | None => acc
  end.
(** [BuildAssignmentRelationships] (metadata.go 449-517).  Every map iteration has an order of
    its own: one per edge for its assignments, one per edge for main's. *)
Definition link_one (m : ameta) (orders : nat → bool → list string → list string) (acc : gmap akey alink) (ie : nat * aedge) : gmap akey alink :=
  let '(i, e) := ie in
  foldl (link_edge m i e) (foldl (link_file (orders i true) i e) acc (am_files m (ae_pkg e))) (keys_in (orders i false) (ae_assigns e)).
Definition build_links (m : ameta) (orders : nat → bool → list string → list string) : gmap akey alink :=
  foldl (link_one m orders) ∅ (imap pair (am_edges m)).

(** [cmp.Compare] on strings and [cmp.Or]. *)
Definition cmp_or (cs : list comparison) : comparison := default Eq (head (filter (λ c, c ≠ Eq) cs)).
#[global] Instance comparison_eq_dec : EqDecision comparison.
Proof. solve_decision. Defined.
(** The comparison of [sortedAssignmentRelationships] (assignment_order.go 47-56). *)
Definition edge_id (m : ameta) (l : alink) : string := default "" (ae_id <$> am_edges m !! al_edge l).
Definition link_cmp (m : ameta) (a b : alink) : comparison :=
  let ak := al_key a in let bk := al_key b in
  cmp_or [String.compare (edge_id m a) (edge_id m b); String.compare (ak_container ak) (ak_container bk);
          String.compare (ak_pkg ak) (ak_pkg bk); String.compare (ak_name ak) (ak_name bk); String.compare (ak_type ak) (ak_type bk)].
(** [sortedAssignmentRelationships] (assignment_order.go 41-58): the links in some iteration
    order, sorted by slices.SortFunc, which is not stable. *)
Definition sorted_links (sort : list alink → list alink) (order : list alink → list alink) (links : gmap akey alink) : list alink :=
  sort (order (map_to_list links).*2).
