(** * Path variables read from a map (internal/spec/extractor.go 1738-1970, 2118-2166). *)
From Coq Require Import Ascii.
From stdpp Require Import sorting.
From stdpp Require Import base list strings gmap.
From Verif Require Import StrOrder StrLib RouteModel PathModel SccModel ReachModel OriginModel.

(** ParamPattern of an accessor (config.go 380-412): CallRegex, RecvTypeRegex, ParamIn, NameFromMapKey. *)
Record accessor := Accessor { ac_call : string; ac_recv : string; ac_in : string; ac_mapkey : bool }.
(** A call of the graph: caller's name, package, base ID; callee's name, package, receiver, base ID. *)
Record aedge := AEdge { ae_name : string; ae_pkg : string; ae_base : string; ae_callee : string; ae_callee_pkg : string; ae_recv : string; ae_callee_base : string }.
(** What is read of a route. *)
Record aroute := ARoute { rt_method : string; rt_path : string; rt_mount : string; rt_func : string; rt_pkg : string }.
(** What is read of a CallArgument; [None] is nil. *)
Inductive akind := AIndex | AIdent | ALiteral | ACall | ASelector | AOther.
Global Instance akind_eq_dec : EqDecision akind.
Proof. solve_decision. Defined.
Inductive aexp := AExp (k : akind) (name pkg value : string) (x fn sel : option aexp) (args : list (option aexp)).
Definition x_kind (e : aexp) : akind := let 'AExp k _ _ _ _ _ _ _ := e in k.
Definition x_name (e : aexp) : string := let 'AExp _ n _ _ _ _ _ _ := e in n.
Definition x_pkg (e : aexp) : string := let 'AExp _ _ p _ _ _ _ _ := e in p.
Definition x_value (e : aexp) : string := let 'AExp _ _ _ v _ _ _ _ := e in v.
Definition x_x (e : aexp) : option aexp := let 'AExp _ _ _ _ x _ _ _ := e in x.
Definition x_fn (e : aexp) : option aexp := let 'AExp _ _ _ _ _ f _ _ := e in f.
Definition x_sel (e : aexp) : option aexp := let 'AExp _ _ _ _ _ _ s _ := e in s.
Definition x_args (e : aexp) : list (option aexp) := let 'AExp _ _ _ _ _ _ _ l := e in l.
(** Assignment: value, CalleeFunc, CalleePkg. *)
Record aasn := AAsn { an_value : aexp; an_func : string; an_pkg : string }.
(** PathParamMismatch (extractor.go 1797-1802). *)
Record mismatch := Mismatch { mm_method : string; mm_path : string; mm_handler : string; mm_key : string }.
(** The two quotes a key is trimmed of: the double one and the backquote (extractor.go 1931). *)
Definition key_quotes : string := String "034"%char (String "096"%char "").

Section access.
  (** Regular expressions: [None] does not compile. *)
  Context (rx : string → option (string → bool)).
  (** edgeMatchesAccessor (extractor.go 2151-2166). *)
  Definition edge_matches (p : accessor) (e : aedge) : bool :=
    (if decide (ac_call p = "") then true else match rx (ac_call p) with Some m => m (ae_callee e) | None => false end) &&
    (if decide (ac_recv p = "") then true else match rx (ac_recv p) with Some m => m (qualify_owner (ae_callee_pkg e) (ae_recv e)) | None => false end).
  (** The call graph as C04 reads it: an edge carries its position. *)
  Definition to_cg (es : list aedge) : list cg_edge := imap (λ i e, CgEdge (ae_base e) (ae_callee_base e) None i) es.
  Definition cg_match (p : accessor) (es : list aedge) (e : cg_edge) : bool := match es !! ce_data e with Some a => edge_matches p a | None => false end.
  (** strings.TrimPrefix of package and dot (extractor.go 1880-1883, 2131-2134). *)
  Definition bare_func (r : aroute) : string :=
    if decide (rt_pkg r = "") then rt_func r
    else if has_prefix (rt_pkg r +:+ ".") (rt_func r) then str_drop (String.length (rt_pkg r +:+ ".")) (rt_func r) else rt_func r.
  (** handlerReachesAccessor (extractor.go 2118-2146); [reach] is the answer of reachSet (C04). *)
  Definition handler_reaches (es : list aedge) (reach : gset string) (r : aroute) : bool :=
    bool_decide (rt_func r ≠ "") &&
    existsb (λ e, bool_decide (ae_name e = bare_func r) && (bool_decide (rt_pkg r = "") || bool_decide (ae_pkg e = rt_pkg r)) && bool_decide (ae_base e ∈ reach)) es.
  (** mapKeyAccessor (extractor.go 1863-1870, 1742-1748). *)
  Definition map_key_accessor (ps : list accessor) : option accessor := head (filter (λ p, ac_mapkey p = true) ps).
  (** completeMapKeyPathParams (extractor.go 1738-1793); [reaches] is handlerReachesAccessor for the accessor. *)
  Definition complete_params (ps : list accessor) (reaches : accessor → bool) (path : string) (params : list prm) : list prm :=
    match map_key_accessor ps with
    | None => params
    | Some a =>
        let covered := pr_name <$> filter (λ p, pr_in p = "path") params in
        let missing := filter (λ n, n ∉ covered) (path_placeholders path) in
        if decide (missing = []) then params
        else if reaches a
        then params ++ ((λ n, Prm n (ac_in a) (bool_decide (ac_in a = "path")) (Some (string_sch (default "" (path_param_patterns path !! n)))) "") <$> missing)
        else params
    end.

  (** isAccessorCall (extractor.go 1946-1966). *)
  Definition accessor_call (call recv : string → bool) (x : aexp) : bool :=
    match x_kind x, x_fn x with
    | ACall, Some f =>
        let '(name, pkg) :=
          match x_kind f, x_sel f with
          | ASelector, Some s => (x_name s, if decide (x_pkg f = "") then x_pkg s else x_pkg f)
          | _, _ => (x_name f, x_pkg f)
          end in
        call name && recv pkg
    | _, _ => false
    end.
  (** collectAccessorKeys (extractor.go 1916-1942). *)
  Definition key_here (vars : string → bool) (call recv : string → bool) (e : aexp) : list string :=
    match x_kind e, x_fn e, x_x e with
    | AIndex, Some f, Some x =>
        if decide (x_kind f = ALiteral) then
          if (bool_decide (x_kind x = AIdent) && vars (x_name x)) || accessor_call call recv x
          then let key := trim_any key_quotes (x_value f) in if decide (key = "") then [] else [key]
          else []
        else []
    | _, _, _ => []
    end.
  Fixpoint collect_keys (vars : string → bool) (call recv : string → bool) (e : aexp) : list string :=
    let 'AExp _ _ _ _ x f s args := e in
    let opt o := match o with Some e => collect_keys vars call recv e | None => [] end in
    key_here vars call recv e ++ opt x ++ opt f ++ opt s ++
    (fix all (l : list (option aexp)) := match l with [] => [] | o :: l => match o with Some e => collect_keys vars call recv e | None => [] end ++ all l end) args.
  (** The function the route's handler is (findFunctionByName, C35), as its AssignmentMap. *)
  Context (find : string → string → option (gmap string (list aasn))).
  (** recoverAccessorKeys (extractor.go 1876-1911). An empty expression compiles and matches everything. *)
  Definition accessor_vars (call recv : string → bool) (am : gmap string (list aasn)) (name : string) : bool :=
    match am !! name with
    | Some asns => existsb (λ a, call (an_func a) && recv (an_pkg a) && bool_decide (an_func a ≠ "")) asns
    | None => false
    end.
  Definition recover_keys (p : accessor) (r : aroute) : gset string :=
    match find (rt_pkg r) (bare_func r), rx (ac_call p), rx (ac_recv p) with
    | Some am, Some call, Some recv =>
        list_to_set (concat ((λ x : string * list aasn, concat ((λ a, collect_keys (accessor_vars call recv am) call recv (an_value a)) <$> x.2)) <$> map_to_list am))
    | _, _, _ => ∅
    end.
  (** recordPathVarKeyMismatches (extractor.go 1817-1859); the state is the set of texts and the list. *)
  Definition record_one (r : aroute) (st : gset string * list mismatch) (key : string) : gset string * list mismatch :=
    if decide (key ∈ path_placeholders (rt_path r)) then st
    else
      let path := convert_path (join_paths (rt_mount r) (rt_path r)) in
      let text := rt_method r +:+ " " +:+ path +:+ " " +:+ key in
      if decide (text ∈ st.1) then st else ({[text]} ∪ st.1, st.2 ++ [Mismatch (rt_method r) path (rt_func r) key]).
  Definition record_mismatches (ps : list accessor) (st : gset string * list mismatch) (r : aroute) : gset string * list mismatch :=
    match map_key_accessor ps with
    | None => st
    | Some a => if decide (rt_func r = "") then st else foldl (record_one r) st (ssort (elements (recover_keys a r)))
    end.
  (** The loop over the routes (extractor.go 347-349). *)
  Definition all_mismatches (ps : list accessor) (rs : list aroute) : list mismatch := (foldl (record_mismatches ps) (∅, []) rs).2.
End access.
