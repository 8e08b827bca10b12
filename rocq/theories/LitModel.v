(** * The documented type of a literal (internal/spec/extractor.go). *)
From Coq Require Import Ascii.
From stdpp Require Import base list strings gmap.
From Verif Require Import StrLib StrSplit DecLib PathModel.

(** ** strconv, as called by [determineLiteralType] (extractor.go 2283-2291) *)

(** strconv.ParseInt(s, 10, 64) succeeds: an optional sign, digits, in range. *)
Definition parse_int (s : string) : bool :=
  match atoi_opt s with Some z => bool_decide (- 2 ^ 63 ≤ z < 2 ^ 63)%Z | None => false end.
(** strconv.ParseUint(s, 10, 64) succeeds: digits, in range. *)
Definition parse_uint (s : string) : bool :=
  match parse_nat s with Some n => bool_decide (n < 2 ^ 64)%N | None => false end.

(** strconv.ParseFloat(s, 64): [special], [readFloat] and [underscoreOK] of strconv/atof.go and
    atoi.go.  The range test (an overflow is an error) is the parameter [finite]. *)
Definition hex_digit (c : ascii) : bool := in_range "a" "f" (lower_char c).
Definition drop_sign (s : string) : string :=
  match s with String c s' => if bool_decide (c = "+"%char) || bool_decide (c = "-"%char) then s' else s | "" => "" end.
Fixpoint lower_str (s : string) : string := match s with "" => "" | String c s => String (lower_char c) (lower_str s) end.
(** inf and infinity with an optional sign, nan without. *)
Definition special (s : string) : bool :=
  bool_decide (lower_str (drop_sign s) ∈ ["inf"; "infinity"]) || bool_decide (lower_str s = "nan").
(** The mantissa loop: the unread rest, whether a digit was seen, whether an underscore was. *)
Fixpoint mantissa (hex sawdot sawdig und : bool) (s : string) : string * bool * bool :=
  match s with
  | "" => ("", sawdig, und)
  | String c s' =>
      if bool_decide (c = "_"%char) then mantissa hex sawdot sawdig true s'
      else if bool_decide (c = "."%char) then (if sawdot then (s, sawdig, und) else mantissa hex true sawdig und s')
      else if is_digit c || (hex && hex_digit c) then mantissa hex sawdot true und s'
      else (s, sawdig, und)
  end.
Fixpoint exp_digits (und : bool) (s : string) : string * bool :=
  match s with
  | "" => ("", und)
  | String c s' => if bool_decide (c = "_"%char) then exp_digits true s' else if is_digit c then exp_digits und s' else (s, und)
  end.
(** [readFloat]: the unread rest and whether an underscore was seen. *)
Definition read_float (s : string) : option (string * bool) :=
  let s := drop_sign s in
  let hex := match s with String a (String b (String _ _)) => bool_decide (a = "0"%char) && bool_decide (lower_char b = "x"%char) | _ => false end in
  let '(rest, sawdig, und) := mantissa hex false false false (if hex then str_drop 2 s else s) in
  if negb sawdig then None
  else match rest with
       | String c r =>
           if bool_decide (lower_char c = if hex then "p"%char else "e"%char) then
             match drop_sign r with
             | String d _ => if is_digit d then Some (exp_digits und (drop_sign r)) else None
             | "" => None
             end
           else if hex then None else Some (rest, und)
       | "" => if hex then None else Some ("", und)
       end.
(** [underscoreOK]; the state is the class of the last character. *)
Inductive seen := SawStart | SawDigit | SawUnder | SawOther.
Fixpoint underscores_from (hex : bool) (saw : seen) (s : string) : bool :=
  match s with
  | "" => match saw with SawUnder => false | _ => true end
  | String c s' =>
      if is_digit c || (hex && hex_digit c) then underscores_from hex SawDigit s'
      else if bool_decide (c = "_"%char) then match saw with SawDigit => underscores_from hex SawUnder s' | _ => false end
      else match saw with SawUnder => false | _ => underscores_from hex SawOther s' end
  end.
Definition underscores_ok (s : string) : bool :=
  let s := drop_sign s in
  match s with
  | String a (String b s') =>
      let b := lower_char b in
      if bool_decide (a = "0"%char) && (bool_decide (b = "b"%char) || bool_decide (b = "o"%char) || bool_decide (b = "x"%char))
      then underscores_from (bool_decide (b = "x"%char)) SawDigit s'
      else underscores_from false SawStart s
  | _ => underscores_from false SawStart s
  end.
Definition parse_float (finite : string → bool) (s : string) : bool :=
  special s ||
  match read_float s with
  | Some (rest, und) => bool_decide (rest = "") && (negb und || underscores_ok s) && finite s
  | None => false
  end.

(** ** The code *)

(** [determineLiteralType] (extractor.go 2278-2305). *)
Definition backquote : ascii := "096"%char.
Definition literal_quotes : string := String "034"%char (String backquote "").
Definition determine_literal_type (finite : string → bool) (literal : string) : string :=
  let clean := trim_any literal_quotes literal in
  if parse_int clean then "int"
  else if parse_uint clean then "uint"
  else if parse_float finite clean then "float64"
  else if bool_decide (clean = "true") || bool_decide (clean = "false") then "bool"
  else if bool_decide (clean = "nil") then "interface{}"
  else "string".
(** The literal as the callers pass it on: the source text (expression.go 45-49) without double
    quotes at its ends (context_provider.go 132-134), then the type (extractor.go 2208-2217 and
    3488-3493, pattern_matchers.go 1088-1095). *)
Definition documented_type (finite : string → bool) (source : string) : string :=
  determine_literal_type finite (trim_any (String "034"%char "") source).
