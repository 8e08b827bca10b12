(** * Recording the calls of a file (internal/metadata/metadata.go 1519-1778). *)
From stdpp Require Import base list strings gmap.

(** A call expression: the instance ID of its callee, the enclosing function and the name of the callee (empty when
    there is none, analysis.go 71-108, 226-303), and whether it is a conversion (isTypeConversion, analysis.go 185-223). *)
Record ginfo := GInfo { gi_id : string; gi_caller : string; gi_callee : string; gi_conv : bool }.
(** The syntax ast.Inspect goes through. [NIdent] says whether the identifier has an object (ident.Obj: variables and parameters
    declared in the file, not packages). [NAssign] has the names on its left side as CallArgToString renders them, the
    expressions in them and the right side. [NNode] is any other node. *)
Inductive gnode :=
  | NIdent (name : string) (obj : bool)
  | NSel (x : gnode)
  | NCall (i : ginfo) (fn : gnode) (args : list gnode)
  | NAssign (lhs : list string) (inside : list gnode) (rhs : list gnode)
  | NNode (kids : list gnode).
(** CallGraphEdge: the callee's ID, CalleeVarName, CalleeRecvVarName and ChainParent, as an index of the call graph. The rest is
    left out. *)
Record gedge := GEdge { ge_id : string; ge_var : string; ge_assigned : string; ge_chain : option nat }.
(** The call graph and the keys of calleeMap. *)
Record gstate := GState { gs_edges : list gedge; gs_seen : gset string }.

(** processCallExpression does something (metadata.go 1583-1595). *)
Definition recordable (i : ginfo) : bool := negb (gi_conv i) && negb (bool_decide (gi_caller i = "")) && negb (bool_decide (gi_callee i = "")).
(** extractRootVariable (metadata.go 1834-1846). *)
Fixpoint root_var (n : gnode) : string :=
  match n with
  | NIdent name _ => name
  | NSel x => root_var x
  | NCall _ (NSel x) _ => root_var x
  | _ => ""
  end.
(** The names processAssignment records (metadata.go 1323-1448), the last one being kept (1723-1728): the blank one is skipped, and a
    single call on the right gives every name. Simplified: a left side is recorded under the text it has. *)
Definition assigned_names (lhs : list string) (rhs : list gnode) : list string :=
  filter (λ x, x ≠ "_") (match rhs with [NCall _ _ _] => lhs | _ => take (length rhs) lhs end).
Definition assigned_var (a : option (list string)) : string := match a with Some l => default "" (last l) | None => "" end.
Definition add_edge (e : gedge) (s : gstate) : gstate := GState (gs_edges s ++ [e]) ({[ ge_id e ]} ∪ gs_seen s).
(** processCallExpression (metadata.go 1581-1779); [None] is the panic of line 1750. ParentFunctions is left out. *)
Fixpoint process (n : gnode) (a : option (list string)) (s : gstate) {struct n} : option gstate :=
  match n with
  | NCall i fn _ =>
      if negb (recordable i) || bool_decide (gi_id i ∈ gs_seen s) then Some s
      else
        match fn with
        | NSel (NIdent name true) => Some (add_edge (GEdge (gi_id i) name (assigned_var a) None) s)
        | NSel (NCall _ _ _ as c) =>
            match process c a s with
            | Some s =>
                match last (gs_edges s) with
                | Some p => Some (add_edge (GEdge (gi_id i) (if decide (ge_var p = "") then root_var c else "") (assigned_var a) (Some (length (gs_edges s) - 1))) s)
                | None => None
                end
            | None => None
            end
        | _ => Some (add_edge (GEdge (gi_id i) "" (assigned_var a) None) s)
        end
  | _ => Some s
  end.
(** The visitor of buildCallGraph (metadata.go 1519-1533): the assignment seen last and not used yet, and the graph. *)
Notation gwalk := (option (option (list string) * gstate)).
Fixpoint inspect (n : gnode) (w : gwalk) {struct n} : gwalk :=
  let all := fix all (l : list gnode) (w : gwalk) : gwalk := match l with [] => w | x :: l => all l (inspect x w) end in
  match n with
  | NIdent _ _ => w
  | NSel x => inspect x w
  | NCall i fn args => all args (inspect fn (match w with Some (a, s) => match process n a s with Some s => Some (None, s) | None => None end | None => None end))
  | NAssign lhs inside rhs => all rhs (all inside (match w with Some (_, s) => Some (Some (assigned_names lhs rhs), s) | None => None end))
  | NNode kids => all kids w
  end.
Definition inspect_all (l : list gnode) (w : gwalk) : gwalk := foldl (λ w x, inspect x w) w l.
(** One file (metadata.go 1511-1533), after the calls of the files before it. *)
Definition graph_file (before : list gedge) (decls : list gnode) : option (list gedge) :=
  match inspect_all decls (Some (None, GState before ∅)) with Some (_, s) => Some (gs_edges s) | None => None end.
