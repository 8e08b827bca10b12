(** * What a well-formed type and its encodings are. *)
From Coq Require Import Ascii.
From stdpp Require Import base list strings.
From Verif Require Import StrLib StrSplit StrSub PathModel VerbProofs ScanModel ScanProps TypeModel.

(** Text with none of the characters that structure a type: brackets, parentheses, commas, stars, white space. *)
Definition special : string := "[](),*" +:+ spaces.
Definition plain (s : string) : Prop := ∀ a c b, s = a +:+ String c b → mem_byte c special = false.
(** Text with matching brackets and parentheses, as an array length may have. *)
Inductive balanced : string → Prop :=
| bal_nil : balanced ""
| bal_char c s : mem_byte c "[]()" = false → balanced s → balanced (String c s)
| bal_square inner s : balanced inner → balanced s → balanced (String "[" (inner +:+ String "]" s))
| bal_round inner s : balanced inner → balanced s → balanced (String "(" (inner +:+ String ")" s)).
(** A named type: its name has no dot, and no arrow occurs in its spelling. *)
Definition name_ok (pkg name : string) : Prop :=
  plain pkg ∧ plain name ∧ name ≠ "" ∧ name ≠ "map" ∧ contains_byte "." name = false ∧ str_contains arrow (pkg +:+ "." +:+ name) = false.
(** A declared type parameter with its constraint. *)
Definition decl_ok (name c : string) : Prop :=
  is_ident name = true ∧ name ∉ ["chan"; "func"; "struct"; "map"; "interface"] ∧ firm spaces c ∧ balanced c ∧ arg c.
(** Well-formed types; declared parameters occur only as arguments. *)
Fixpoint well_formed (argument : bool) (t : tref) : Prop :=
  match t with
  | TNamed pkg name args c =>
      (c = "" ∧ name_ok pkg name ∧ foldr (λ a P, well_formed true a ∧ P) True args) ∨
      (argument = true ∧ pkg = "" ∧ args = [] ∧ decl_ok name c)
  | TPtr e | TSlice e | TChan _ e => well_formed false e
  | TArr len e => len ≠ "" ∧ balanced len ∧ well_formed false e
  | TMap k e => well_formed false k ∧ well_formed false e
  end.
Notation wf := (well_formed false).
(** What each encoding can show: everything; the arguments without packages; no packages at all
    and the empty interface called any. *)
Fixpoint shown (m : mode) (t : tref) : tref :=
  match t with
  | TNamed pkg name args c =>
      TNamed (if is_simple m then "" else pkg) (if is_simple m && bool_decide (name = "interface{}") then "any" else name) (shown (arg_mode m) <$> args) c
  | TPtr e => TPtr (shown m e)
  | TSlice e => TSlice (shown m e)
  | TArr len e => TArr len (shown m e)
  | TMap k e => TMap (shown m k) (shown m e)
  | TChan d e => TChan d (shown m e)
  end.
(** Text without its white space. *)
Fixpoint squeeze (s : string) : string :=
  match s with "" => "" | String c s => if mem_byte c spaces then squeeze s else String c (squeeze s) end.
(** An argument list without a last argument: one of [",]"], ["[]]"], ["[],"], or ["[]"] at the end. *)
Definition empty_argument (s : string) : Prop :=
  str_contains ",]" s = true ∨ str_contains "[]]" s = true ∨ str_contains "[]," s = true ∨ has_suffix "[]" s = true.
