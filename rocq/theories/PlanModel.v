(** * The children of a node of the call tree (internal/spec/lazytree.go 627-797, 890-920, 1259-1414). *)
From Coq Require Import Ascii.
From stdpp Require Import base list strings gmap.
From Verif Require Import StrLib IdModel.

(** CallArgument: its ID and name, whether it is an identifier, whether classifyArgument (tracker.go 907-933) says a call,
    and the edge of a nested call, as its position in the call graph. The rest is left out. *)
Record parg := PArg { pa_id : string; pa_name : string; pa_ident : bool; pa_call : bool; pa_edge : option nat }.
(** CallGraphEdge: Caller.ID(), Caller.BaseID(), the name and package of the caller; Callee.ID(), Callee.BaseID() and the name of the
    callee; CalleeVarName; the Callee.ID() of ChainParent; Args; ParamArgMap in the order of the names (lazytree.go 764-768). *)
Record pedge := PEdge { pe_caller : string; pe_base : string; pe_fn : string; pe_pkg : string; pe_callee : string; pe_callee_base : string; pe_name : string;
  pe_var : string; pe_chain : option string; pe_args : list parg; pe_params : list (string * parg) }.
Global Instance parg_eq : EqDecision parg. Proof. solve_decision. Defined.
Global Instance pedge_eq : EqDecision pedge. Proof. solve_decision. Defined.
(** An assignment link: VariableName, Pkg and Func of the assignment, and the edge of the producing call. *)
Record prel := PRel { pr_var : string; pr_pkg : string; pr_fn : string; pr_edge : pedge }.
(** LazyNode: its key, edge, and argument (of an argument node). *)
Record pnode := PNode { pn_key : string; pn_edge : option pedge; pn_arg : option parg }.
(** childSpec (lazytree.go 1080-1098). *)
Inductive pspec := PSArg (key : string) (a : parg) (e : pedge) | PSCallee (key : string) (e : pedge) (chained : bool).
(** What the plan is made from: CallGraph, the sorted assignment links (C47), ParentFunctions, TraceVariableOrigin (C108),
    MaxArgsPerFunction, the generic types of a key (602-611), leadsToRoute when there is a route matcher; and per
    node: the keys of implementations, stored functions, method values, conversions and handler values (1349-1392), and the
    producers of its argument (1520-1565). Callers is CallGraph by the BaseID of the caller (metadata/types.go 270-285); the copies made for
    generics (metadata.go 400-430) are left out. *)
Record pctx := PCtx { px_es : list pedge; px_rels : list prel; px_parents : string → list pedge; px_trace : string → string → string → string * string * string;
  px_max : nat; px_gen : string → list string; px_leads : option (string → bool); px_bodies : pnode → list string; px_prods : pnode → list string }.

Definition unstar (s : string) : string := trim_prefix "*" s.
Definition pkey (e : pedge) : string := unstar (pe_callee e).

Section plan.
  Context (c : pctx).
  (** edgesByRecvVar (lazytree.go 655-672). The key is taken as the pair of its parts. *)
  Definition recv_edges (v b : string) : list pedge := filter (λ e, pe_var e ≠ "" ∧ pe_var e = v ∧ pe_base e = b) (px_es c).
  (** producerByVar (lazytree.go 678-689): the last link of the variable wins. *)
  Definition producer_of (v p f : string) : option string :=
    (λ r, pkey (pr_edge r)) <$> last (filter (λ r, pr_var r = v ∧ pr_pkg r = p ∧ pr_fn r = f) (px_rels c)).
  (** The claims of the assignment links (lazytree.go 690-704): the pairs of receiverChildren in the order they are appended. *)
  Definition assign_claims : list (string * pedge) :=
    px_rels c ≫= λ r, if decide (pr_fn r = pe_fn (pr_edge r)) then pair (pkey (pr_edge r)) <$> recv_edges (pr_var r) (pe_base (pr_edge r)) else [].
  (** The claims of the parameter bindings (lazytree.go 753-796). *)
  Definition param_claims : list (string * pedge) :=
    px_es c ≫= λ e, pe_params e ≫= λ '(p, a),
      if pa_ident a then
        let '(v, pkg, f) := px_trace c (pa_name a) (pe_fn e) (pe_pkg e) in
        match producer_of v pkg f with Some k => pair k <$> recv_edges p (pe_callee_base e) | None => [] end
      else [].
  Definition claims : list (string * pedge) := assign_claims ++ param_claims.
  (** receiverChildren and claimed. *)
  Definition receiver_children (k : string) : list pedge := (filter (λ x, x.1 = k) claims).*2.
  Definition claimed (e : pedge) : bool := bool_decide (e ∈ claims.*2).
  (** chainChildren (lazytree.go 663-667). *)
  Definition chain_children (k : string) : list pedge := filter (λ e, unstar <$> pe_chain e = Some k) (px_es c).
  (** argInstanceIDs (lazytree.go 642-651). *)
  Definition arg_ids : list string := px_es c ≫= λ e, unstar <$> filter (λ s, s ≠ "") (pa_id <$> pe_args e).
  (** edgesFor (lazytree.go 897-920). *)
  Definition edges_for (k : string) : list pedge :=
    filter (λ e, pe_base e = k ∧ claimed e = false ∧ pe_callee e ≠ pe_caller e ∧ pe_name e ≠ "nil" ∧ pkey e ∉ arg_ids) (px_es c).
  (** The edge whose arguments are the node's (lazytree.go 1273-1279). *)
  Definition owner (n : pnode) : option pedge :=
    match pn_arg n with
    | Some a => if pa_call a then match pa_edge a with Some i => px_es c !! i | None => None end else None
    | None => pn_edge n
    end.
  (** The argument children (lazytree.go 1280-1301). *)
  Definition arg_skip (o : pedge) (a : parg) : Prop := pa_id a = "" ∨ pa_name a = "nil" ∨ pe_caller o = strip_to_base (pa_id a) ∨ pe_callee o = pa_id a.
  Global Instance arg_skip_dec o a : Decision (arg_skip o a). Proof. unfold arg_skip. apply _. Defined.
  Definition arg_edge (o : pedge) (a : parg) : pedge :=
    if pa_call a then match pa_edge a with Some i => default o (px_es c !! i) | None => o end else o.
  Definition arg_specs (n : pnode) : list pspec :=
    match owner n with
    | Some o => (λ a, PSArg (unstar (pa_id a)) a (arg_edge o a)) <$> filter (λ a, ¬ arg_skip o a) (take (px_max c) (pe_args o))
    | None => []
    end.
  (** expandKey (lazytree.go 1334-1347): the calls offered to appendCalleeOpts, with chainParented and genericFilter. *)
  Definition expand_key (k : string) : list (pedge * bool * bool) :=
    match edges_for k with
    | [] => (λ e, (e, false, false)) <$> px_parents c k
    | l => (λ e, (e, false, true)) <$> l
    end.
  (** All the calls offered, in order (lazytree.go 1348-1409). *)
  Definition offered (n : pnode) : list (pedge * bool * bool) :=
    expand_key (strip_to_base (pn_key n)) ++ (px_bodies c n ≫= expand_key)
    ++ (px_prods c n ≫= λ p, ((λ e, (e, false, true)) <$> receiver_children p) ++ expand_key (strip_to_base p))
    ++ ((λ e, (e, true, true)) <$> chain_children (pn_key n)) ++ ((λ e, (e, false, true)) <$> receiver_children (pn_key n)).
  (** The generics filter (lazytree.go 1318-1325; IsSubset as inclusion). *)
  Definition gen_ok (n : pnode) (e : pedge) : bool :=
    bool_decide (px_gen c (pkey e) = [] ∨ Forall (λ t, t ∈ px_gen c (pkey e)) (px_gen c (pn_key n))).
  (** appendCalleeOpts over the calls offered (lazytree.go 1307-1329). *)
  Fixpoint take_callees (n : pnode) (added : list string) (l : list (pedge * bool * bool)) : list pspec :=
    match l with
    | [] => []
    | (e, ch, f) :: l =>
        if bool_decide (pkey e ∈ added) || (f && negb (gen_ok n e)) then take_callees n added l
        else PSCallee (pkey e) e ch :: take_callees n (pkey e :: added) l
    end.
  Definition spec_key (s : pspec) : string := match s with PSArg k _ _ => k | PSCallee k _ _ => k end.
  (** orderTowardRoutes (lazytree.go 447-467). *)
  Definition toward_routes (l : list pspec) : list pspec :=
    match px_leads c with
    | None => l
    | Some leads =>
        let leading := filter (λ s, leads (spec_key s) = true) l in
        let trailing := filter (λ s, leads (spec_key s) = false) l in
        match leading, trailing with [], _ | _, [] => l | _, _ => leading ++ trailing end
    end.
  (** buildPlan (lazytree.go 1264-1414). *)
  Definition build_plan (n : pnode) : list pspec := arg_specs n ++ toward_routes (take_callees n [] (offered n)).
End plan.
