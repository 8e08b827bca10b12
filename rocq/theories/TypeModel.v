(** * The structured type model (internal/typemodel/typemodel.go). *)
From Coq Require Import Ascii.
From stdpp Require Import base list strings.
From Verif Require Import StrLib StrSplit StrSub PathModel PairModel ScanModel.

(** [ChanDir] (typemodel.go 58-68). *)
Inductive chan_dir := SendRecv | SendOnly | RecvOnly.
(** [TypeRef] (typemodel.go 92-123): one constructor per [Kind] with the fields that kind uses;
    the raw input text is not kept, and nil pointers do not occur in what the parser builds. *)
Inductive tref :=
| TNamed (pkg name : string) (args : list tref) (constraint : string)
| TPtr (elem : tref)
| TSlice (elem : tref)
| TArr (len : string) (elem : tref)
| TMap (key elem : tref)
| TChan (dir : chan_dir) (elem : tref).

(** [Sep] (typemodel.go 37). *)
Definition arrow : string := "-->".

(** ** Parsing *)

(** The text before and after the bracket that closes the enclosing one: [matchingBracket]
    (typemodel.go 189-203) after the first byte and [splitMapKey] (typemodel.go 207-221). *)
Fixpoint close_at (depth : nat) (s : string) : option (string * string) :=
  match s with
  | "" => None
  | String c s' =>
      if decide (c = "]"%char) then
        match depth with 0 => Some ("", s') | S d => (λ '(a, b), (String c a, b)) <$> close_at d s' end
      else if decide (c = "["%char) then (λ '(a, b), (String c a, b)) <$> close_at (S depth) s'
      else (λ '(a, b), (String c a, b)) <$> close_at depth s'
  end.
(** strings.Cut at [Sep]. *)
Fixpoint cut_arrow (s : string) : option (string * string) :=
  if has_prefix arrow s then Some ("", str_drop 3 s)
  else match s with "" => None | String c s' => (λ '(a, b), (String c a, b)) <$> cut_arrow s' end.
(** strings.Split at [Sep]; the number bounds the cuts. *)
Fixpoint split_arrow (n : nat) (s : string) : list string :=
  match n with 0 => [s] | S n => match cut_arrow s with Some (a, b) => a :: split_arrow n b | None => [s] end end.
(** [isIdent] (typemodel.go 327-336), on bytes. *)
Definition in_range (lo hi c : ascii) : bool := bool_decide (nat_of_ascii lo ≤ nat_of_ascii c) && bool_decide (nat_of_ascii c ≤ nat_of_ascii hi).
Definition ident_start (c : ascii) : bool := bool_decide (c = "_"%char) || in_range "a" "z" c || in_range "A" "Z" c.
Definition ident_char (c : ascii) : bool := ident_start c || in_range "0" "9" c.
Definition is_ident (s : string) : bool := match s with "" => false | String c s' => ident_start c && negb (str_any (λ c, negb (ident_char c)) s') end.
(** [declArg] (typemodel.go 308-322). *)
Definition decl_arg (s : string) : option (string * string) :=
  let head := take_until (λ c, bool_decide (c = " "%char)) s in
  if decide (head = s) then None
  else if decide (head ∈ [""; "chan"; "func"; "struct"; "map"; "interface"]) then None
  else if is_ident head then Some (head, trim_space (str_drop (S (String.length head)) s)) else None.
(** [parseArg] (typemodel.go 296-301) over the recursive parser. *)
Definition parse_arg (rec : string → tref) (s : string) : tref :=
  match decl_arg s with Some (name, constraint) => TNamed "" name [] constraint | None => rec s end.
(** The generic argument list peeled off the end (typemodel.go 229-234). *)
Definition peel_args (s : string) : string * list string :=
  let base := take_until (λ c, bool_decide (c = "["%char)) s in
  if contains_byte "["%char s && negb (bool_decide (base = "")) && has_suffix "]" s
  then (base, split_args (str_take (String.length s - 1 - S (String.length base)) (str_drop (S (String.length base)) s)))
  else (s, []).
(** [parseNamed] (typemodel.go 226-256). *)
Definition parse_named (rec : string → tref) (s : string) : tref :=
  let '(base, parts) := peel_args s in
  let args := parse_arg rec <$> parts in
  match cut_arrow base with
  | Some (pkg, rest) =>
      let segs := split_arrow (String.length rest) rest in
      TNamed pkg (default "" (head segs)) (match args with [] => parse_arg rec <$> tail segs | _ => args end) ""
  | None =>
      match split_last "." base with
      | Some (pkg, name) => if decide (pkg = "") then TNamed "" base args "" else TNamed pkg name args ""
      | None => TNamed "" base args ""
      end
  end.
(** [parse] (typemodel.go 135-185); the number bounds the recursion, see [parse_fuel]. *)
Fixpoint parse (n : nat) (s : string) : tref :=
  match n with
  | 0 => TNamed "" s [] ""
  | S n =>
      if decide (s = "") then TNamed "" "" [] ""
      else if has_prefix "*" s then TPtr (parse n (str_drop 1 s))
      else if has_prefix "[]" s then TSlice (parse n (str_drop 2 s))
      else if has_prefix "map[" s then
        match close_at 0 (str_drop 4 s) with
        | Some (key, elem) => if decide (elem = "") then parse_named (parse n) s else TMap (parse n key) (parse n elem)
        | None => parse_named (parse n) s
        end
      else if has_prefix "chan<- " s then TChan SendOnly (parse n (str_drop 7 s))
      else if has_prefix "<-chan " s then TChan RecvOnly (parse n (str_drop 7 s))
      else if has_prefix "chan " s then TChan SendRecv (parse n (str_drop 5 s))
      else if has_prefix "[" s then
        match close_at 0 (str_drop 1 s) with
        | Some (len, elem) => if decide (len = "" ∨ elem = "") then parse_named (parse n) s else TArr len (parse n elem)
        | None => parse_named (parse n) s
        end
      else parse_named (parse n) s
  end.
(** [Parse] (typemodel.go 131-133). *)
Definition parse_type (s : string) : tref := let s := trim_space s in parse (S (String.length s)) s.

(** ** Rendering *)

(** [renderMode] (typemodel.go 338-344). *)
Inductive mode := Dotted | Internal | Simple.
Definition is_simple (m : mode) : bool := match m with Simple => true | _ => false end.
Definition arg_mode (m : mode) : mode := match m with Dotted => Dotted | _ => Simple end.
(** [render] (typemodel.go 358-411). *)
Fixpoint render (m : mode) (t : tref) : string :=
  match t with
  | TPtr e => "*" +:+ render m e
  | TSlice e => "[]" +:+ render m e
  | TArr len e => "[" +:+ len +:+ "]" +:+ render m e
  | TMap k e => "map[" +:+ render m k +:+ "]" +:+ render m e
  | TChan SendOnly e => "chan<- " +:+ render m e
  | TChan RecvOnly e => "<-chan " +:+ render m e
  | TChan SendRecv e => "chan " +:+ render m e
  | TNamed pkg name args constraint =>
      let name := if is_simple m && bool_decide (name ∈ ["interface{}"; "interface {}"]) then "any" else name in
      let name := if decide (constraint = "") then name else name +:+ " " +:+ constraint in
      let base := if bool_decide (pkg = "") then name else match m with Simple => name | Internal => pkg +:+ arrow +:+ name | Dotted => pkg +:+ "." +:+ name end in
      match args with [] => base | _ => base +:+ "[" +:+ str_join ", " (render (arg_mode m) <$> args) +:+ "]" end
  end.

(** [Core] (typemodel.go 478-489). *)
Fixpoint core (t : tref) : tref :=
  match t with TPtr e | TSlice e | TArr _ e | TChan _ e => core e | _ => t end.
(** Setting the package of the core, as the assignment to core.Pkg does (typemodel.go 437). *)
Fixpoint with_core_pkg (p : string) (t : tref) : tref :=
  match t with
  | TPtr e => TPtr (with_core_pkg p e)
  | TSlice e => TSlice (with_core_pkg p e)
  | TArr l e => TArr l (with_core_pkg p e)
  | TChan d e => TChan d (with_core_pkg p e)
  | TNamed _ name args c => TNamed p name args c
  | TMap _ _ => t
  end.
Definition pkg_of (t : tref) : string := match t with TNamed pkg _ _ _ => pkg | _ => "" end.
(** [Canonicalize] (typemodel.go 425-446). *)
Definition canonicalize (s : string) : string :=
  if contains_byte "["%char s && has_suffix "]" s then
    let ref := parse_type s in
    match core ref with
    | TNamed pkg _ ((_ :: _) as args) _ =>
        if decide (pkg = "") then
          match filter (λ p, p ≠ "") ((λ a, pkg_of (core a)) <$> args) with
          | p :: _ => render Internal (with_core_pkg p ref)
          | [] => s
          end
        else render Internal ref
    | _ => s
    end
  else s.
