(** * The identifiers of arguments (internal/metadata/types.go). *)
From Coq Require Import Ascii.
From stdpp Require Import base list strings gmap.
From Verif Require Import StrLib StrOrder.

(** The kinds told apart (types.go 1244-1362); [AElse] is any other. *)
Inductive akind := AIdent | ALiteral | ASelector | ACall | AFuncLit | AConversion | AUnary | AComposite | AIndex | AElse.
#[global] Instance akind_eq : EqDecision akind. Proof. solve_decision. Defined.
(** The texts of a CallArgument (types.go 1013-1045, 1055-1101); the empty text stands for an index below zero. *)
Record atexts := ATexts { at_type : string; at_pkg : string; at_name : string; at_value : string; at_raw : string; at_pos : string }.
(** A CallArgument (types.go 1013-1045): kind, texts, its TypeParamMap and that of its Edge (empty where there is none), X and Fun, package and name of Sel
    (which a selector always has, expression.go 237), and of ReceiverType. *)
Inductive aarg := AArg (k : akind) (t : atexts) (own edge : gmap string string) (x fn : option aarg) (sel : string * string) (recv : option (string * string)).
(** Its parts (types.go 1013-1045, 1048-1101). *)
Definition a_kind (a : aarg) : akind := let 'AArg k _ _ _ _ _ _ _ := a in k.
Definition a_texts (a : aarg) : atexts := let 'AArg _ t _ _ _ _ _ _ := a in t.
Definition a_own (a : aarg) : gmap string string := let 'AArg _ _ own _ _ _ _ _ := a in own.
Definition a_edge (a : aarg) : gmap string string := let 'AArg _ _ _ edge _ _ _ _ := a in edge.
(** TypeParams (types.go 1195-1206): the entries of the edge are copied over the argument's own. *)
Definition a_params (a : aarg) : gmap string string := a_edge a ∪ a_own a.
(** The text of the type parameters (types.go 1234-1242); [range] is the order of a range over the map. *)
Definition params_text (range : gmap string string → list (string * string)) (m : gmap string string) : string :=
  match range m with
  | [] => ""
  | l => "[" +:+ str_join "," (ssort ((λ p : string * string, p.1 +:+ "=" +:+ p.2) <$> l)) +:+ "]"
  end.
(** The parameters of an operand, where it has any, go before those around it (types.go 1279-1281, 1290-1292, 1307-1309, 1322-1324, 1338-1340, 1354-1356). *)
Definition inner_or (inner outer : string) : string := if decide (inner = "") then outer else inner.
(** id (types.go 1231-1364). *)
Fixpoint arg_id (range : gmap string string → list (string * string)) (sep : string) (a : aarg) : string * string :=
  let 'AArg k t own edge x fn sel recv := a in
  let params := params_text range (edge ∪ own) in
  match k with
  | AIdent =>
      if decide (at_type t ≠ "" ∧ sep = "/") then (at_type t, params)
      else if decide (at_pkg t ≠ "") then (if decide (sep = "/") then "" else at_pkg t +:+ sep +:+ at_name t, params)
      else (at_name t, params)
  | ALiteral => (at_value t, params)
  | ASelector =>
      match x with
      | Some x =>
          let sep := if decide (at_type (a_texts x) = "") then sep else "." in
          let '(xid, xparams) := arg_id range "/" x in
          let xid := if decide (xid = "") then sel.1 else xid in
          let xid := match recv with Some (p, n) => if decide (p ≠ "" ∧ n ≠ "") then p +:+ sep +:+ n else xid | None => xid end in
          (xid +:+ sep +:+ sel.2, inner_or xparams params)
      | None => (sel.2, params)
      end
  | ACall => match fn with Some f => let '(i, p) := arg_id range "." f in (i, inner_or p params) | None => ("call", params) end
  | AConversion => match fn with Some f => let '(i, p) := arg_id range "." f in (i, inner_or p params) | None => ("type_conversion", params) end
  | AFuncLit => (at_pkg t +:+ sep +:+ at_name t, params)
  | AUnary =>
      match x with
      | Some x => let '(i, p) := arg_id range "/" x in (at_value t +:+ (if decide (i = "") then at_pkg t else i), inner_or p params)
      | None => ("", "")
      end
  | AComposite | AIndex =>
      match x with Some x => let '(i, p) := arg_id range "/" x in (if decide (i = "") then at_pkg t else i, inner_or p params) | None => ("", "") end
  | AElse => (at_raw t, params)
  end.
(** ID where nothing is cached (types.go 1208-1228). *)
Definition made_id (range : gmap string string → list (string * string)) (a : aarg) : string :=
  let '(i, p) := arg_id range "." a in
  let pos := at_pos (a_texts a) in
  trim_prefix "&" (trim_prefix "*" (i +:+ p +:+ (if decide (pos = "") then "" else "@" +:+ pos))).
(** ID with its cache, idstr (types.go 1208-1228); an empty identifier is made again each time. The entries copied by TypeParams need not be kept: copying
    them again changes nothing, unless the edge lost some in between, which no code does. *)
Definition ask_id (range : gmap string string → list (string * string)) (cache : string) (a : aarg) : string := if decide (cache = "") then made_id range a else cache.
(** An argument asked for its ID again and again, as it is at each time: the answers. *)
Fixpoint answers (range : gmap string string → list (string * string)) (cache : string) (l : list aarg) : list string :=
  match l with [] => [] | a :: l => let i := ask_id range cache a in i :: answers range i l end.
