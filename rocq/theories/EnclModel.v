(** * The function a position is in (internal/metadata/analysis.go 71-182). *)
From Coq Require Import Ascii ZArith.
From stdpp Require Import sorting.
From stdpp Require Import base numbers list strings gmap.
From Verif Require Import StrLib.

(** What is read of a syntax node: whether it is a function literal, where it starts and ends (token.Pos, 0 is no position), its children. *)
Inductive anode := ANode (lit : bool) (start fin : Z) (kids : list anode).
Definition n_lit (n : anode) : bool := let 'ANode l _ _ _ := n in l.
Definition n_start (n : anode) : Z := let 'ANode _ s _ _ := n in s.
Definition n_fin (n : anode) : Z := let 'ANode _ _ f _ := n in f.
Definition n_kids (n : anode) : list anode := let 'ANode _ _ _ ks := n in ks.
(** The test of the walk (analysis.go 130). *)
Definition off (pos : Z) (n : anode) : bool := bool_decide (pos < n_start n + 1)%Z || bool_decide (n_fin n - 1 < pos)%Z.
(** IsValid of both ends (analysis.go 132). *)
Definition placed (n : anode) : bool := bool_decide (n_start n ≠ 0%Z) && bool_decide (n_fin n ≠ 0%Z).
(** findEnclosingFunctionLiteral (analysis.go 122-145), the state being [found]; ast.Inspect visits a node, then, if told so, its children in order. *)
Fixpoint walk (pos : Z) (found : option anode) (n : anode) : option anode :=
  let 'ANode l s f ks := n in
  let all found := (fix all (found : option anode) (ks : list anode) := match ks with [] => found | k :: ks => all (walk pos found k) ks end) found ks in
  if off pos n then (if placed n then found else all found)
  else all (if l then Some n else found).
Definition enclosing_literal (file : anode) (pos : Z) : option anode := walk pos None file.

(** ast.FuncDecl: where it starts and ends, its name, the type name of its receiver or the empty text. *)
Record fdecl := FDecl { fd_start : Z; fd_fin : Z; fd_name : string; fd_recv : string }.
Definition lit_prefix : string := "FuncLit:".
Section encl.
  (** stablePosition (position.go 110-122). *)
  Context (stable : Z → string).
  (** getEnclosingFunctionName (analysis.go 71-108), without the signature. *)
  Definition enclosing_name (file : anode) (decls : list fdecl) (pos : Z) : string * string :=
    match enclosing_literal file pos with
    | Some l => (lit_prefix +:+ stable (n_start l), "")
    | None =>
        match list_find (λ d, (fd_start d ≤ pos)%Z ∧ (pos ≤ fd_fin d)%Z) decls with
        | Some (_, d) => (fd_name d, fd_recv d)
        | None => ("", "")
        end
    end.
  (** findParentFunction (analysis.go 148-182), without the signature. *)
  Definition parent_name (file : anode) (decls : list fdecl) (pos : Z) : string * string :=
    match enclosing_literal file pos with
    | None => ("", "")
    | Some l =>
        match list_find (λ d, (fd_start d ≤ n_start l)%Z ∧ (n_fin l ≤ fd_fin d)%Z) decls with
        | Some (_, d) => (fd_name d, fd_recv d)
        | None => ("", "")
        end
    end.
End encl.
