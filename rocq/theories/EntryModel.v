(** * Entrypoints: which functions a command library calls back, and which of
    them become roots of the call tree (internal/spec/entrypoint_roots.go,
    internal/spec/config_entrypoints.go, the root layer of
    internal/spec/lazytree.go). *)
From Coq Require Import Ascii.
From stdpp Require Import sorting.
From stdpp Require Import base list strings gmap.
From Verif Require Import StrLib StrOrder SccModel Worklist IdModel ReachModel SecModel.

Section entry.
(** [cachedRegex] followed by [MatchString], regex_cache.go 37-60: [None] when
    the expression does not compile.  Go's regular expressions are not modelled. *)
Context (re : string → string → option bool).
Definition re_match (expr s : string) : bool := match re expr s with Some b => b | None => false end.

(** ** Entrypoint patterns *)

(** [EntrypointPattern], config.go 125-136. *)
Record epattern := EPat { ep_field : string; ep_recv : string; ep_recv_re : string }.

(** The body of the loop of matchesEntrypoint, config_entrypoints.go 151-173:
    what [continue]s is false. *)
Definition pattern_claims (owner field : string) (p : epattern) : bool :=
  (bool_decide (ep_field p = "") || re_match (ep_field p) field) &&
  (if bool_decide (ep_recv_re p ≠ "") then re_match (ep_recv_re p) owner
   else if bool_decide (ep_recv p ≠ "") then bool_decide (ep_recv p = owner)
   else false).
(** [matchesEntrypoint], config_entrypoints.go 147-176. *)
Definition matches_entrypoint (ps : list epattern) (owner field : string) : bool :=
  if bool_decide (field = "") || bool_decide (owner = "") then false
  else existsb (pattern_claims owner field) ps.

(** [entrypointBundle], config_entrypoints.go 35-41, without its name. *)
Record ebundle := EBundle { eb_imports : list string; eb_patterns : list epattern }.
(** [entrypointPatternKey], config_entrypoints.go 140-142. *)
Definition epattern_key (p : epattern) : string :=
  ep_field p +:+ String "000" "" +:+ ep_recv p +:+ String "000" "" +:+ ep_recv_re p.
(** The inner loop, config_entrypoints.go 131-136. *)
Definition add_epattern (acc : gset string * list epattern) (p : epattern) : gset string * list epattern :=
  if decide (epattern_key p ∈ acc.1) then acc else ({[ epattern_key p ]} ∪ acc.1, acc.2 ++ [p]).
(** The outer loop, config_entrypoints.go 127-137. *)
Definition add_ebundle (imports : list string) (acc : gset string * list epattern) (b : ebundle)
  : gset string * list epattern :=
  if bool_decide (eb_patterns b = []) || negb (any_import_matches re imports (eb_imports b)) then acc
  else fold_left add_epattern (eb_patterns b) acc.
(** [ApplyEntrypointPresets], config_entrypoints.go 114-138: [ps] are the
    patterns configured, [paths] the imports of all files in any order. *)
Definition apply_entrypoint_presets (bundles : list ebundle) (ps : list epattern) (paths : list string) : list epattern :=
  match collect_imports paths with
  | [] => ps
  | imports => (fold_left (add_ebundle imports) bundles (list_to_set (epattern_key <$> ps), ps)).2
  end.

(** ** Registrations *)

(** What the matcher reads of a route or mount pattern, config.go; the local
    type [gate], entrypoint_roots.go 195. *)
Record rgate := RGate { rg_call : string; rg_recv_re : string; rg_recv : string }.
(** What it reads of a call's callee. *)
Record callee_info := Callee { cl_name : string; cl_pkg : string; cl_recv : string }.
(** The gates, entrypoint_roots.go 196-208. *)
Definition reg_gates (routes mounts : list rgate) (include_mounts : bool) : list rgate :=
  filter (λ g, rg_call g ≠ "") routes ++ (if include_mounts then filter (λ g, rg_call g ≠ "") mounts else []).
(** The receiver in its qualified form, entrypoint_roots.go 220-227. *)
Definition qualified_recv (c : callee_info) : string :=
  if bool_decide (cl_pkg c ≠ "") && bool_decide (cl_recv c ≠ "") then cl_pkg c +:+ "." +:+ cl_recv c
  else if bool_decide (cl_recv c ≠ "") then cl_recv c
  else cl_pkg c.
(** One gate, entrypoint_roots.go 229-243. *)
Definition gate_accepts (name recv : string) (g : rgate) : bool :=
  re_match (rg_call g) name &&
  (if bool_decide (rg_recv_re g ≠ "") then re_match (rg_recv_re g) recv
   else if bool_decide (rg_recv g ≠ "") then bool_decide (rg_recv g = recv)
   else true).
(** [registrationMatcher], entrypoint_roots.go 191-247; with [include_mounts] it is
    RouteRegistrationMatcher 168-172, without TerminalRouteMatcher 187-189. *)
Definition registration_match (routes mounts : list rgate) (include_mounts : bool) (c : callee_info) : bool :=
  if bool_decide (cl_name c = "") then false
  else existsb (gate_accepts (cl_name c) (qualified_recv c)) (reg_gates routes mounts include_mounts).
End entry.

(** ** Roots *)
Section roots.
(** The name of the calling function, [edge.Caller.Name], and [m.Args], the base
    IDs that occur as an argument of some call. *)
Context (name : cg_edge → string) (args : gset string).

(** [CallGraphRoots], internal/metadata/types.go 811-845, on the first call; the
    later ones return the same slice.  [m.Callees] has a key for every callee,
    BuildCallGraphMaps, types.go 267-296. *)
Definition call_graph_roots (es : list cg_edge) : list cg_edge :=
  filter (λ e, name e = "main" ∨
    (ce_caller e ∉ (ce_callee <$> es) ∧ ce_caller e ∉ args)) es.

(** The keys of the mains, entrypoint_roots.go 95-104. *)
Definition main_keys (es : list cg_edge) : list string :=
  (λ e, strip_to_base (ce_caller e)) <$> filter (λ e, name e = "main") (call_graph_roots es).

(** [functionsReachableFromMains], entrypoint_roots.go 92-117: the FIFO loop is
    [wl_loop false].  Every key is a main or a callee, which bounds it. *)
Definition reachable_from_mains (es : list cg_edge) : option (gset string) :=
  wl_loop false (λ k, ce_callee <$> callers_of es k) (2 * length es)
    (fold_left (wl_mark false) (main_keys es) (∅, [])).

(** [EntrypointStats], entrypoint_roots.go 83-88. *)
Record estats := EStats { es_declared : nat; es_rooted : nat; es_reachable : nat; es_noroutes : nat }.

(** [entrypointRoots], entrypoint_roots.go 47-76.  [reachesMatch], 122-151, is
    line for line the body of reachSet, so it is [reach_set_of]. *)
Definition entrypoint_roots (iter : list string → list string) (itern : list nat → list nat)
    (es : list cg_edge) (candidates : list string) (mtch : cg_edge → bool) : option (list string * estats) :=
  if bool_decide (candidates = []) then Some ([], EStats 0 0 0 0)
  else
    reached ← reachable_from_mains es;
    r ← build_scc iter itern (edge_pairs es);
    let registers := reach_set_of es r mtch in
    let already := filter (λ k, k ∈ reached) candidates in
    let noroutes := filter (λ k, k ∉ reached ∧ k ∉ registers) candidates in
    let out := merge_sort string_le (filter (λ k, k ∉ reached ∧ k ∈ registers) candidates) in
    Some (out, EStats (length candidates) (length out) (length already) (length noroutes)).

(** The mains of the tree, NewLazyTree, lazytree.go 882-890: [id] is
    [edge.Caller.ID()]. *)
Definition lazy_main_step (id : cg_edge → string) (acc : gset string * list string) (e : cg_edge) : gset string * list string :=
  if bool_decide (name e ≠ "main") || bool_decide (id e ∈ acc.1) then acc
  else ({[ id e ]} ∪ acc.1, acc.2 ++ [trim_prefix "*" (id e)]).
Definition lazy_mains (id : cg_edge → string) (es : list cg_edge) : list string :=
  (fold_left (lazy_main_step id) (call_graph_roots es) (∅, [])).2.

(** [addEntrypointRoots], lazytree.go 851-869, given what entrypointRoots
    answered. *)
Definition add_root (acc : gset string * list string) (key : string) : gset string * list string :=
  if decide (key ∈ acc.1) then acc else ({[ key ]} ∪ acc.1, acc.2 ++ [key]).
Definition add_entrypoint_roots (roots rooted : list string) : list string :=
  (fold_left add_root rooted (list_to_set (strip_to_base <$> roots), roots)).2.
End roots.

(** [entrypointBundles], config_entrypoints.go 43-105. *)
Definition entrypoint_bundles : list ebundle := [
  EBundle ["^github\.com/urfave/cli(/v\d+)?$"; "^github\.com/codegangsta/cli$"]
          [EPat "^(Action|Before|After)$" "" "^github\.com/(urfave|codegangsta)/cli(/v\d+)?\.(Command|App)$"];
  EBundle ["^github\.com/spf13/cobra$"]
          [EPat "^(Run|RunE|PreRun|PreRunE|PostRun|PostRunE|PersistentPreRun|PersistentPreRunE)$" ""
                "^github\.com/spf13/cobra\.Command$"];
  EBundle ["^github\.com/peterbourgon/ff(/v\d+)?/ffcli$"]
          [EPat "^Exec$" "" "^github\.com/peterbourgon/ff(/v\d+)?/ffcli\.Command$"];
  EBundle [] []].
