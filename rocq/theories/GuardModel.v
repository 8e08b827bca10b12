(** * The middleware that guards a route (internal/spec/security.go 58-239; pattern_matchers.go 786-933; extractor.go 455-496, 563-660, 710-742, 837-904). *)
From Coq Require Import Ascii ZArith.
From stdpp Require Import sorting.
From stdpp Require Import base numbers list strings gmap.
From Verif Require Import StrLib StrOrder RouteModel SecModel.

(** What is read of a CallArgument: kind, name, package, position, the name of ReceiverType, Sel and Fun; [None] is nil. Args are there but not read. *)
Inductive mkind := MIdent | MSelector | MCall | MOther.
#[global] Instance mkind_eq : EqDecision mkind. Proof. solve_decision. Defined.
Inductive marg := MArg (k : mkind) (name pkg pos : string) (recv : option string) (sel fn : option marg) (args : list marg).
Definition a_kind (a : marg) : mkind := let 'MArg k _ _ _ _ _ _ _ := a in k.
Definition a_name (a : marg) : string := let 'MArg _ n _ _ _ _ _ _ := a in n.
Definition a_pkg (a : marg) : string := let 'MArg _ _ p _ _ _ _ _ := a in p.
Definition a_pos (a : marg) : string := let 'MArg _ _ _ p _ _ _ _ := a in p.
Definition a_recv (a : marg) : option string := let 'MArg _ _ _ _ r _ _ _ := a in r.
Definition a_sel (a : marg) : option marg := let 'MArg _ _ _ _ _ s _ _ := a in s.
Definition a_fn (a : marg) : option marg := let 'MArg _ _ _ _ _ _ f _ := a in f.
Definition a_args (a : marg) : list marg := let 'MArg _ _ _ _ _ _ _ l := a in l.
(** The two branches of middlewareRefFromArg (security.go 73-89, 98-113): a selector by its last name, package and receiver, anything else by name and package. *)
Definition selected (a : marg) (pos : string) : mref :=
  let '(n, p) := match a_sel a with Some s => (a_name s, a_pkg s) | None => ("", "") end in
  MRef n (if decide (p = "") then a_pkg a else p) (default "" (a_recv a)) pos.
Definition named (a : marg) (pos : string) : mref := MRef (a_name a) (a_pkg a) "" pos.
(** middlewareRefFromArg (security.go 66-121). *)
Definition ref_from_arg (a : marg) : option mref :=
  r ← match a_kind a with
      | MIdent => Some (named a (a_pos a))
      | MSelector => Some (selected a (a_pos a))
      | MCall => f ← a_fn a; Some (if decide (a_kind f = MSelector) then selected f (a_pos a) else named f (a_pos a))
      | MOther => None
      end;
  if mref_empty r then None else Some r.

(** Assignment: value, CalleeFunc and CalleePkg; an AssignmentMap. *)
Record masn := MAsn { mn_value : marg; mn_func : string; mn_pkg : string }.
Notation mamap := (gmap string (list masn)).
(** A method of a type: name, receiver, AssignmentMap; a file: functions by name, types by name with their methods. *)
Record mmeth := MMeth { mm_name : string; mm_recv : string; mm_map : mamap }.
Record mfile := MFile { mf_functions : gmap string mamap; mf_types : gmap string (list mmeth) }.
(** A call: its AssignmentMap, its caller's name, package and receiver, its arguments. *)
Record medge := MEdge { me_map : mamap; me_caller : string; me_pkg : string; me_recv : string; me_args : list marg }.
(** The records of a variable in one map (security.go 169-171, 209-212, 229-231): no entry and an empty one are alike. *)
Definition in_map (var : string) (m : mamap) : list masn := default [] (m !! var).
(** The methods of a file that are looked at (security.go 215-233). *)
Definition meth_fits (e : medge) (m : mmeth) : bool :=
  bool_decide (mm_name m = me_caller e) &&
  (bool_decide (trim_prefix "*" (me_recv e) = "") || bool_decide (trim_prefix "*" (mm_recv m) = "") || bool_decide (trim_prefix "*" (mm_recv m) = trim_prefix "*" (me_recv e))).
(** The maps looked into in a file, in order (security.go 207-234), and the first with records. *)
Definition file_maps (e : medge) (f : mfile) : list mamap :=
  option_list (mf_functions f !! me_caller e) ++
  concat ((λ t, mm_map <$> filter (λ m, meth_fits e m = true) (default [] (mf_types f !! t))) <$> ssort (elements (dom (mf_types f)))).
Fixpoint first_records (var : string) (l : list mamap) : list masn :=
  match l with [] => [] | m :: l => match in_map var m with [] => first_records var l | r => r end end.
(** lookupAssignments (security.go 168-239); [pkgs] are the packages with their files. *)
Definition lookup_assignments (pkgs : gmap string (gmap string mfile)) (e : medge) (var : string) : list masn :=
  match in_map var (me_map e) with
  | [] =>
      if decide (me_caller e = "" ∨ me_pkg e = "") then []
      else match pkgs !! me_pkg e with
           | None => []
           | Some files => first_records var (concat ((λ f, match files !! f with Some f => file_maps e f | None => [] end) <$> ssort (elements (dom files))))
           end
  | r => r
  end.
(** resolveMiddlewareIdentRef (security.go 135-162). *)
Definition ident_ref (pkgs : gmap string (gmap string mfile)) (e : medge) (a : marg) : option mref :=
  if decide (a_kind a = MIdent) then
    asn ← last (lookup_assignments pkgs e (a_name a));
    if decide (mn_func asn = "")
    then if decide (a_kind (mn_value asn) = MCall ∨ a_kind (mn_value asn) = MSelector) then ref_from_arg (mn_value asn) else None
    else Some (MRef (mn_func asn) (mn_pkg asn) "" (a_pos a))
  else None.

(** SecurityScope (config.go 476-490); a SecurityPattern's extraction fields (config.go 521-529). MiddlewareFromRecv is not read anywhere. *)
Inductive scope := ScRouter | ScSubtree | ScRoute | ScWrapper.
#[global] Instance scope_eq : EqDecision scope. Proof. solve_decision. Defined.
Record spattern := SPat { sp_scope : scope; sp_at : Z; sp_variadic : bool; sp_but_last : bool; sp_handler : Z }.
(** ExtractMiddlewareFromEdge (pattern_matchers.go 883-933). *)
Definition arg_ref (pkgs : gmap string (gmap string mfile)) (e : medge) (a : marg) : option mref :=
  match ident_ref pkgs e a with Some r => Some r | None => ref_from_arg a end.
Definition extract_middleware (pkgs : gmap string (gmap string mfile)) (p : spattern) (e : medge) : list mref :=
  let n := length (me_args e) in
  if decide (sp_scope p = ScWrapper) then
    if decide (0 ≤ sp_handler p)%Z then
      match me_args e !! Z.to_nat (sp_handler p) with
      | Some h => if decide (a_kind h = MCall) then option_list (ref_from_arg h) else []
      | None => []
      end
    else []
  else
    let start := Z.to_nat (sp_at p) in
    let stop := if sp_variadic p then (if sp_but_last p && bool_decide (start < n) then n - 1 else n) else start + 1 in
    omap (arg_ref pkgs e) (take (stop - start) (drop start (me_args e))).

(** What the matchers that match a call say, in order: priority, scope, and the middleware extracted. *)
Record smatch := SMatch { sx_prio : Z; sx_scope : scope; sx_refs : list mref }.
(** collectNodeSecurity (extractor.go 566-581), and the inner loop of collectChainSecurity (extractor.go 610-623) on the matchers of route scope. *)
Definition best_match (l : list smatch) : option smatch :=
  foldl (λ best m, match best with Some b => if decide (sx_prio b < sx_prio m)%Z then Some m else best | None => Some m end) None l.
(** A node of the call tree: its key, the text of callerKey, whether it is a mount (with its path), a route or neither, what matches it, what matches its
    chain parents from the nearest, and its children. The last two words say which router the call is made on and where; the code does not read them. *)
Inductive nkind := NMount (path : string) | NRoute | NPlain.
Inductive gnode := GNode (key caller : string) (kind : nkind) (sec : list smatch) (chain : list (list smatch)) (router : string) (kids : list gnode).
Definition g_key (n : gnode) : string := let 'GNode k _ _ _ _ _ _ := n in k.
Definition g_caller (n : gnode) : string := let 'GNode _ c _ _ _ _ _ := n in c.
Definition g_kind (n : gnode) : nkind := let 'GNode _ _ k _ _ _ _ := n in k.
Definition g_sec (n : gnode) : list smatch := let 'GNode _ _ _ s _ _ _ := n in s.
Definition g_chain (n : gnode) : list (list smatch) := let 'GNode _ _ _ _ c _ _ := n in c.
Definition g_router (n : gnode) : string := let 'GNode _ _ _ _ _ r _ := n in r.
Definition g_kids (n : gnode) : list gnode := let 'GNode _ _ _ _ _ _ ks := n in ks.
(** callerKey (extractor.go 588-594) of the caller's name and package. *)
Definition caller_key (name pkg : string) : string := name +:+ "|" +:+ pkg.
(** The middleware of a node for a scope. *)
Definition scoped (s : scope) (n : gnode) : list mref :=
  match best_match (g_sec n) with Some m => if decide (sx_scope m = s) then sx_refs m else [] | None => [] end.
(** collectChainSecurity (extractor.go 600-626). *)
Definition chain_refs (n : gnode) : list mref :=
  concat ((λ l, match best_match (filter (λ m, sx_scope m = ScRoute) l) with Some m => sx_refs m | None => [] end) <$> g_chain n).
(** collectRouterSecurityByCaller (extractor.go 634-649), at the key of a caller. *)
Definition router_refs (kids : list gnode) (caller : string) : list mref := concat (scoped ScRouter <$> filter (λ k, g_caller k = caller) kids).
(** mergeMW (extractor.go 653-658). *)
Definition merge_mw (base extra : list mref) : list mref := match extra with [] => base | _ => dedup_refs (base ++ extra) end.
(** The definite and speculative middleware of a route (extractor.go 716-747). *)
Definition definite_refs (n : gnode) (mw : list mref) : list mref := dedup_refs (mw ++ scoped ScRoute n ++ chain_refs n).
Definition speculative_refs (n : gnode) : list mref := dedup_refs (scoped ScWrapper n).
(** A route met by the traversal: its node's key, the mount path and the middleware carried to it. *)
Record met := Met { mt_node : gnode; mt_path : string; mt_mw : list mref }.
(** traverseForRoutesWithVisited with handleMountNode (extractor.go 460-496, 837-904), without the jumps to routers that are assigned or passed as arguments
    (859-890). The state: the keys visited and the routes met. *)
Definition visit_key (n : gnode) (mp : string) : string := g_key n +:+ "@" +:+ mp.
Fixpoint traverse (n : gnode) (mp : string) (mw : list mref) (st : gset string * list met) : gset string * list met :=
  let 'GNode key caller kind sec chain router kids := n in
  let all mp mw st := (fix all (ks : list gnode) (st : gset string * list met) := match ks with [] => st | k :: ks => all ks (traverse k mp (merge_mw mw (router_refs kids (g_caller k))) st) end) kids st in
  if decide (visit_key n mp ∈ st.1) then st
  else
    let st := ({[visit_key n mp]} ∪ st.1, st.2) in
    match kind with
    | NMount p => all (mount_down mp p) (merge_mw mw (scoped ScSubtree n)) st
    | NRoute => (st.1, st.2 ++ [Met n mp mw])
    | NPlain => all mp mw st
    end.
Definition routes_met (root : gnode) : list met := (traverse root "" [] (∅, [])).2.
