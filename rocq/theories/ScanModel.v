(** * Splitting nested text (internal/spec/mapper.go, internal/typemodel/typemodel.go). *)
From Coq Require Import Ascii.
From stdpp Require Import base list strings.
From Verif Require Import StrLib StrSplit PathModel.

Definition quote_mark : ascii := "034"%char.
Definition backslash : ascii := "092"%char.
(** strings.TrimSpace on ASCII white space. *)
Definition trim_space (s : string) : string := trim_any spaces s.

(** ** Scanning with brackets and double quotes (mapper.go 3349-3374) *)

(** Depth and, inside a quoted string, whether the last byte was a backslash. *)
Record scan := Scan { sc_depth : Z; sc_quote : option bool }.
Definition opens (c : ascii) : bool := bool_decide (c ∈ ["{"%char; "["%char; "("%char]).
Definition closes (c : ascii) : bool := bool_decide (c ∈ ["}"%char; "]"%char; ")"%char]).
(** One turn of the loop; the flag says that the byte is a separator at depth 0. *)
Definition scan_step (sep : ascii) (st : scan) (c : ascii) : scan * bool :=
  match sc_quote st with
  | Some true => (Scan (sc_depth st) (Some false), false)
  | Some false =>
      if bool_decide (c = backslash) then (Scan (sc_depth st) (Some true), false)
      else if bool_decide (c = quote_mark) then (Scan (sc_depth st) None, false)
      else (st, false)
  | None =>
      if bool_decide (c = quote_mark) then (Scan (sc_depth st) (Some false), false)
      else if opens c then (Scan (sc_depth st + 1) None, false)
      else if closes c then (Scan (sc_depth st - 1) None, false)
      else (st, bool_decide (c = sep) && bool_decide (sc_depth st = 0%Z))
  end.
(** The pieces between the cuts. *)
Definition glue (t : string) (ps : list string) : list string := match ps with p :: ps => (t +:+ p) :: ps | [] => [t] end.
Fixpoint cut_scan (sep : ascii) (st : scan) (s : string) : list string :=
  match s with
  | "" => [""]
  | String c s' => let '(st', cut) := scan_step sep st c in if cut then "" :: cut_scan sep st' s' else glue (String c "") (cut_scan sep st' s')
  end.
(** [splitTopLevel] (mapper.go 3346-3378). *)
Definition split_top_level (sep : ascii) (s : string) : list string := trim_space <$> cut_scan sep (Scan 0 None) s.

(** [anonStructBody] (mapper.go 3308-3341): the text inside the first struct's braces. *)
Fixpoint body_scan (st : scan) (s : string) : option string :=
  match s with
  | "" => None
  | String c s' =>
      let st' := (scan_step "000"%char st c).1 in
      match sc_quote st with
      | None => if bool_decide (c = "}"%char) && bool_decide (sc_depth st' = 0%Z) then Some "" else String c <$> body_scan st' s'
      | Some _ => String c <$> body_scan st' s'
      end
  end.
Fixpoint anon_struct_body (s : string) : option string :=
  if has_prefix "struct{" s then body_scan (Scan 1 None) (str_drop 7 s)
  else match s with "" => None | String _ s' => anon_struct_body s' end.

(** ** Splitting a type argument list (typemodel.go 263-292), on valid UTF-8 *)
Definition args_step (depth : Z) (c : ascii) : Z * bool :=
  if bool_decide (c ∈ ["["%char; "("%char]) then ((depth + 1)%Z, false)
  else if bool_decide (c ∈ ["]"%char; ")"%char]) then ((depth - 1)%Z, false)
  else (depth, bool_decide (c = ","%char) && bool_decide (depth = 0%Z)).
Fixpoint cut_args (depth : Z) (s : string) : list string :=
  match s with
  | "" => [""]
  | String c s' => let '(depth', cut) := args_step depth c in if cut then "" :: cut_args depth' s' else glue (String c "") (cut_args depth' s')
  end.
(** A last piece that is blank is dropped. *)
Definition drop_blank_last (ps : list string) : list string :=
  match last ps with Some p => if decide (trim_space p = "") then take (length ps - 1) ps else ps | None => [] end.
(** [splitArgs]. *)
Definition split_args (s : string) : list string := trim_space <$> drop_blank_last (cut_args 0 s).

(** ** Validation tags *)

(** [splitOnDive] (mapper.go 2106-2114). *)
Fixpoint at_dive (before parts : list string) : option (list string * list string) :=
  match parts with
  | [] => None
  | p :: ps => if decide (trim_space p = "dive") then Some (before, ps) else at_dive (before ++ [p]) ps
  end.
Definition split_on_dive (tag : string) : string * string * bool :=
  match at_dive [] (split_byte "," tag) with
  | Some (before, after) => (str_join "," before, str_join "," after, true)
  | None => (tag, "", false)
  end.
