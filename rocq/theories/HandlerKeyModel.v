(** * The handler of an endpoint in the call graph (internal/insight/endpoint.go). *)
From Coq Require Import Ascii.
From stdpp Require Import base list strings gmap.
From Verif Require Import StrLib StrSplit StrOrder StrSub PairModel DecLib.

(** splitOpID (endpoint.go 376-393). *)
Definition split_op (op : string) : string * string :=
  let '(h, rest) := match split_last "/" op with Some (a, b) => (a +:+ "/", b) | None => ("", op) end in
  match split_byte "." rest with
  | p :: q :: l => (h +:+ p, default "" (last (q :: l)))
  | _ => ("", "")
  end.
(** splitOpID3 (endpoint.go 331-347). *)
Definition split_op3 (op : string) : string * string * string :=
  let '(h, rest) := match split_last "/" op with Some (a, b) => (a +:+ "/", b) | None => ("", op) end in
  match split_byte "." rest with
  | p :: q :: l => (h +:+ p, match rev (q :: l) with _ :: r :: _ => r | _ => "" end, default "" (last (q :: l)))
  | _ => ("", "", "")
  end.
(** A method or function of a package: the type (none: a function), its name, and file and line as parsePos gives them (export.go 308-329). *)
Record hdecl := HDecl { hd_type : option string; hd_name : string; hd_file : string; hd_line : nat }.
(** What is read of the metadata: the keys of Callers with calls and the position of their first one (endpoint.go 243-244); the declarations of a package in
    the order the maps of its types, files and functions are ranged over (415-436); file and line in the key of a function literal (477); the
    implementers of an interface (299-303); and where a method is declared (351-369). *)
Record hmeta := HMeta {
  hm_callers : list (string * string); hm_decls : string → list hdecl; hm_at : string → string * nat; hm_impls : string → string → list string;
  hm_method : string → string → string → string * nat }.
Definition hm_called (md : hmeta) (k : string) : bool := bool_decide (k ∈ (hm_callers md).*1).
(** The key of a declaration (endpoint.go 407, 430). *)
Definition decl_key (pkg : string) (d : hdecl) : string := match hd_type d with Some t => pkg +:+ "." +:+ t +:+ "." +:+ hd_name d | None => pkg +:+ "." +:+ hd_name d end.
(** candidateHandlerKeys (endpoint.go 399-438). *)
Definition candidates (md : hmeta) (op : string) : list string * (string * nat) :=
  let '(pkg, name) := split_op op in
  if decide (pkg = "" ∨ name = "") then ([], ("", 0))
  else
    let ds := filter (λ d, hd_name d = name) (hm_decls md pkg) in
    (decl_key pkg <$> ds, default ("", 0) (head (omap (λ d, if decide (hd_file d = "") then None else Some (hd_file d, hd_line d)) ds))).
(** sameSourceFile (endpoint.go 443-457); ToSlash changes nothing on the systems that write slashes. *)
Definition same_file (a b : string) : bool :=
  negb (bool_decide (a = "")) && negb (bool_decide (b = "")) && (bool_decide (a = b) || has_suffix ("/" +:+ b) a || has_suffix ("/" +:+ a) b).
(** findFuncLitInFile (endpoint.go 461-486). Simplified: lines are below the bound of line 463. *)
Definition closer (md : hmeta) (file : string) (line : nat) (best : option (string * nat)) (k : string) : option (string * nat) :=
  let '(f, l) := hm_at md k in
  if same_file file f && bool_decide (line ≤ l) && match best with Some (_, b) => bool_decide (l < b) | None => true end then Some (k, l) else best.
Definition func_lit (md : hmeta) (file : string) (line : nat) : option string :=
  fst <$> foldl (closer md file line) None (ssort (filter (λ k, str_contains "FuncLit:" k = true) (remove_dups (hm_callers md).*1))).
(** A position (endpoint.go 251-254, 307-310). *)
Definition pos_text (p : string * nat) : string := if decide (p.1 = "") then "" else p.1 +:+ ":" +:+ itoa_nat p.2.
(** One implementer of resolveInterfaceImplHandler (endpoint.go 299-322). *)
Definition impl_handler (md : hmeta) (name impl : string) : option (string * string) :=
  match split_last "." impl with
  | Some (p, t) =>
      if decide (p = "" ∨ t = "") then None
      else
        let key := p +:+ "." +:+ t +:+ "." +:+ name in
        let at' := hm_method md p t name in
        if hm_called md key then Some (key, pos_text at')
        else if decide (at'.1 = "") then None else (λ k, (k, pos_text at')) <$> func_lit md at'.1 at'.2
  | None => None
  end.
(** resolveInterfaceImplHandler (endpoint.go 283-325). *)
Definition interface_handler (md : hmeta) (op : string) : option (string * string) :=
  let '(pkg, recv, name) := split_op3 op in
  if decide (pkg = "" ∨ recv = "" ∨ name = "") then None else head (omap (impl_handler md name) (hm_impls md pkg recv)).
(** resolveHandlerKey (endpoint.go 242-275). *)
Definition handler_key (md : hmeta) (op : string) : string * string :=
  match head (filter (λ c, c.1 = op) (hm_callers md)) with
  | Some c => c
  | None =>
      let '(keys, at') := candidates md op in
      match head (filter (λ k, hm_called md k = true) keys) with
      | Some k => (k, pos_text at')
      | None =>
          match (if decide (at'.1 = "") then None else func_lit md at'.1 at'.2) with
          | Some k => (k, pos_text at')
          | None => match interface_handler md op with Some r => r | None => (op, pos_text at') end
          end
      end
  end.
