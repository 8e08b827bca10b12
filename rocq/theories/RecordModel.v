(** * The assignments a function records and those visible at a call (internal/metadata/metadata.go 280-330, 1124-1215, 1323-1501, 1680-1765; internal/spec/extractor.go 1970-2116). *)
From Coq Require Import Ascii ZArith.
From stdpp Require Import sorting.
From stdpp Require Import base numbers list strings gmap.
From Verif Require Import StrLib.

(** The left of an assignment: a variable, a selector (its text and type), an index, something else. *)
Inductive lside := LIdent (name : string) | LSel (text type : string) | LIndex (text : string) | LRaw (text : string).
(** The right: the expression, function and package called if it is a call (getCalleeFunctionNameAndPackage), the concrete type (analyzeAssignmentValue). *)
Record rside := RSide { rs_value : string; rs_call : option (string * string); rs_type : string }.
(** ast.AssignStmt: its token, its position and the function that position is in (C100). *)
Record astmt := AStmt { st_tok : string; st_fn : string; st_pos : Z; st_lhs : list lside; st_rhs : list rside }.
(** ast.ValueSpec of a var declaration: names with their positions, values. *)
Record vspec := VSpec { vs_fn : string; vs_names : list (string * Z); vs_values : list rside }.
(** The syntax nodes told apart: assignments, var declarations, returns, function literals. *)
Inductive bkind := KAssign (s : astmt) | KVar (l : list vspec) | KReturn (l : list string) | KLit | KPlain.
Inductive bnode := BNode (k : bkind) (kids : list bnode).
Definition b_kind (n : bnode) : bkind := let 'BNode k _ := n in k.
Definition b_kids (n : bnode) : list bnode := let 'BNode _ ks := n in ks.
(** Assignment (types.go 996-1020): name, enclosing function, concrete type, position, value, callee and ReturnIndex; the other fields are left out. *)
Record rasn := RAsn { ra_var : string; ra_fn : string; ra_type : string; ra_pos : Z; ra_value : string; ra_callee : string * string; ra_index : nat }.
Notation amap := (gmap string (list rasn)).

(** The expression on the right of the i-th name and its ReturnIndex (metadata.go 1343-1361). *)
Definition right_of (s : astmt) (i : nat) : option (rside * nat) :=
  match st_rhs s with
  | [r] => if decide (1 < length (st_lhs s) ∧ is_Some (rs_call r)) then Some (r, i) else (λ r, (r, 0)) <$> (st_rhs s !! i)
  | _ => (λ r, (r, 0)) <$> (st_rhs s !! i)
  end.
(** The body of processAssignment's loop (metadata.go 1343-1443); [None] is nothing appended. *)
Definition record_at (s : astmt) (i : nat) : option rasn :=
  '(r, ix) ← right_of s i;
  l ← st_lhs s !! i;
  match l with
  | LIdent n =>
      if decide (n = "_") then None
      else if decide (st_fn s = "") then None
      else Some (RAsn n (st_fn s) (rs_type r) (st_pos s) (rs_value r) (default ("", "") (rs_call r)) (if rs_call r then ix else 0))
  | LSel t ty => Some (RAsn t "" ty (st_pos s) (rs_value r) ("", "") 0)
  | LIndex t => Some (RAsn t "" "index" (st_pos s) (rs_value r) ("", "") 0)
  | LRaw t => Some (RAsn t "" "raw" (st_pos s) (rs_value r) ("", "") 0)
  end.
(** processAssignment (metadata.go 1323-1448). *)
Definition process_assignment (s : astmt) : list rasn := omap (record_at s) (seq 0 (length (st_lhs s) `max` length (st_rhs s))).
(** The assignment synthesized for a name of a var declaration (metadata.go 1171-1180). *)
Definition synth (sp : vspec) (i : nat) : option astmt :=
  '(n, p) ← vs_names sp !! i;
  if decide (n = "_") then None else v ← vs_values sp !! i; Some (AStmt "=" (vs_fn sp) p [LIdent n] [v]).
Definition synths (sp : vspec) : list astmt := omap (synth sp) (seq 0 (length (vs_names sp))).
(** ast.Inspect over a declaration: the assignments in order, with those of var declarations only in processFunctions (metadata.go 298-311, 1144-1187). *)
Definition stmts_here (decls : bool) (k : bkind) : list astmt :=
  match k with KAssign s => [s] | KVar l => if decls then concat (synths <$> l) else [] | _ => [] end.
Fixpoint stmts (decls : bool) (n : bnode) : list astmt :=
  let 'BNode k ks := n in stmts_here decls k ++ (fix all (ks : list bnode) := match ks with [] => [] | c :: ks => stmts decls c ++ all ks end) ks.
Definition add_asn (m : amap) (a : rasn) : amap := <[ra_var a := default [] (m !! ra_var a) ++ [a]]> m.
(** AssignmentMap of a function (metadata.go 1142-1187). *)
Definition function_map (body : bnode) : amap := foldl add_asn ∅ (concat (process_assignment <$> stmts true body)).
(** AssignmentMap of a method (metadata.go 296-311). *)
Definition method_map (body : bnode) : amap := foldl add_asn ∅ (concat (process_assignment <$> stmts false body)).
(** AssignmentMap of a call: the assignments of the function called, if its declaration is known, and in main the one the call is the value of (metadata.go 1680-1733). The key is the text of the left side, which is the name recorded. *)
Definition edge_map (callee : option bnode) (in_main : bool) (parent : option astmt) : amap :=
  foldl add_asn (match callee with Some b => method_map b | None => ∅ end) (if in_main then match parent with Some s => process_assignment s | None => [] end else []).

(** extractReturns (metadata.go 1471-1501): ReturnVars and Returns. *)
Fixpoint returns (n : bnode) : list (list string) :=
  let 'BNode k ks := n in
  let all := (fix all (ks : list bnode) := match ks with [] => [] | c :: ks => returns c ++ all ks end) ks in
  match k with KLit => [] | KReturn ((_ :: _) as l) => l :: all | _ => all end.
Definition return_vars (n : bnode) : list string := foldl (λ best l, if decide (length best < length l) then l else best) [] (returns n).

(** A call: its own map, caller's package and name, the parent function of a literal (package, receiver, name). *)
Record redge := REdge { re_map : amap; re_pkg : string; re_name : string; re_parent : option (string * string * string) }.
(** The functions, in sorted order of packages and files: package, name, map. *)
Record rfunc := RFunc { rf_pkg : string; rf_name : string; rf_map : amap }.
(** The methods, in sorted order of packages, files and types: package, receiver, name, map. *)
Record rmeth := RMeth { rm_pkg : string; rm_recv : string; rm_name : string; rm_map : amap }.
Section visible.
  Context (fns : list rfunc) (ms : list rmeth).
  (** findFunctionByName (extractor.go 1970-1984); the indexes behind it are C35's. *)
  Definition find_function (pkg name : string) : option rfunc :=
    if decide (name = "") then None
    else match head (filter (λ f, rf_pkg f = pkg ∧ rf_name f = name) fns) with
         | Some f => Some f
         | None => head (filter (λ f, rf_name f = name) fns)
         end.
  (** methodAssignmentMap (extractor.go 2057-2081). *)
  Definition method_assignments (pkg recv name var : string) : option amap :=
    if decide (name = "") then None
    else rm_map <$> head (filter (λ m, rm_pkg m = pkg ∧ rm_name m = name ∧ (recv = "" ∨ rm_recv m = recv) ∧ default [] (rm_map m !! var) ≠ []) ms).
  (** findMethodByName (extractor.go 2090-2115). *)
  Definition trim_star (s : string) : string := match s with String c t => if decide (c = "*"%char) then t else s | _ => s end.
  Definition find_method (pkg recv name : string) : option rmeth :=
    if decide (name = "") then None
    else head (filter (λ m, rm_pkg m = pkg ∧ rm_name m = name ∧ (recv = "" ∨ trim_star (rm_recv m) = trim_star recv)) ms).
  Definition holding (var : string) (f : option rfunc) : option amap :=
    match f with Some f => if decide (default [] (rf_map f !! var) = []) then None else Some (rf_map f) | None => None end.
  (** callerAssignmentMap (extractor.go 1995-2011). *)
  Definition caller_map (e : redge) (var : string) : option amap :=
    match holding var (find_function (re_pkg e) (re_name e)) with
    | Some m => Some m
    | None =>
        match re_parent e with
        | None => None
        | Some (pkg, recv, name) =>
            match holding var (find_function pkg name) with
            | Some m => Some m
            | None => method_assignments pkg recv name var
            end
        end
    end.
  (** assignmentsAt (extractor.go 2024-2037). *)
  Definition assignments_at (e : redge) (name : string) : list rasn :=
    if decide (name = "") then []
    else match default [] (re_map e !! name) with
         | [] => match caller_map e name with Some m => default [] (m !! name) | None => [] end
         | l => l
         end.
  (** latestAssignment (extractor.go 2044-2051). *)
  Definition latest_assignment (e : redge) (name : string) : option string := ra_value <$> last (assignments_at e name).
End visible.
