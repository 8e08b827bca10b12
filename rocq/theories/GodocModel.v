(** * The documentation of a handler (internal/spec/mapper.go 1811-2083). *)
From Coq Require Import Ascii.
From stdpp Require Import base list strings gmap.
From Verif Require Import StrLib StrSplit PathModel PairModel DetModel ScanModel.

(** strings.Fields with given white space, as called in mapper.go 1986 and 2046. Simplified: white space is ASCII, the wider Unicode spaces are not modelled. *)
Fixpoint words (cs s : string) : list string :=
  match s with
  | "" => []
  | String c t =>
      if mem_byte c cs then words cs t
      else match t with
           | "" => [String c ""]
           | String d _ => if mem_byte d cs then String c "" :: words cs t else match words cs t with w :: ws => String c w :: ws | [] => [String c ""] end
           end
  end.
(** isSpaceByte (mapper.go 2060): blank, tab, line feed, carriage return. *)
Definition doc_spaces : string := String " "%char (String "009"%char (String "010"%char (String "013"%char ""))).
(** The inner loops of splitSynopsis (mapper.go 2046-2055), and both for a number of words. *)
Fixpoint skip_word (s : string) : string := match s with "" => "" | String c t => if mem_byte c doc_spaces then s else skip_word t end.
Fixpoint skip_words (n : nat) (s : string) : string :=
  match n with
  | 0 => s
  | S n => match trim_left_any doc_spaces s with "" => "" | s => skip_words n (skip_word s) end
  end.
(** The name of an annotation and its rest (mapper.go 1986-1987): strings.Fields(trimmed)[0], and what follows it. *)
Fixpoint first_word (s : string) : string := match s with "" => "" | String c t => if mem_byte c spaces then "" else String c (first_word t) end.
(** Its lower-case form (mapper.go 1988). *)
Definition note_name (l : string) : string := str_lower (first_word l).
(** TrimSpace of TrimPrefix (mapper.go 1987). *)
Definition note_rest (l : string) : string := trim_space (str_drop (String.length (first_word l)) l).
(** The test of mapper.go 1984. *)
Definition is_note (l : string) : bool := has_prefix "@" l.
(** The line break of mapper.go 1982 and 2020. *)
Definition newline : ascii := "010"%char.
(** The same as a string. *)
Definition new_line : string := String newline "".

Section doc.
  (** go/doc's Synopsis (given). *)
  Context (synopsis : string → string).
  (** splitSynopsis (mapper.go 2038-2058). *)
  Definition split_synopsis (text : string) : string * string :=
    if decide (synopsis text = "") then ("", "")
    else (synopsis text, trim_space (skip_words (length (words spaces (synopsis text))) text)).
  (** The loop of swaggoDoc over trimmed lines (mapper.go 1980-2014): the section, whether an annotation was met, and the three lists. *)
  Inductive section := InSummary | InDescription | InOther.
  (** The variables of the loop (mapper.go 1980-1981). *)
  Record wstate := WState { ws_in : section; ws_ok : bool; ws_lead : list string; ws_sum : list string; ws_desc : list string }.
  (** An append of a nonempty text (mapper.go 1991-1993, 1996-1998). *)
  Definition add_line (l : string) (ls : list string) : list string := if decide (l = "") then ls else ls ++ [l].
  (** One round (mapper.go 1983-2014). *)
  Definition wstep (st : wstate) (l : string) : wstate :=
    let '(WState sec ok lead sum desc) := st in
    if is_note l then
      if decide (note_name l = "@summary") then WState InSummary true lead (add_line (note_rest l) sum) desc
      else if decide (note_name l = "@description") then WState InDescription true lead sum (add_line (note_rest l) desc)
      else WState InOther true lead sum desc
    else if decide (l = "") then st
    else match sec with
         | InSummary => WState sec ok lead (sum ++ [l]) desc
         | InDescription => WState sec ok lead sum (desc ++ [l])
         | InOther => if ok then st else WState sec ok (lead ++ [l]) sum desc
         end.
  (** The trimmed lines (mapper.go 1982-1983). *)
  Definition doc_lines (text : string) : list string := trim_space <$> split_byte newline text.
  (** The end of swaggoDoc (mapper.go 2016-2024). *)
  Definition swaggo_lines (ls : list string) : option (string * string) :=
    let '(WState _ ok lead sum desc) := foldl wstep (WState InOther false [] [] []) ls in
    if ok then
      let summary := str_join " " sum in
      Some (if bool_decide (summary = "") && bool_decide (lead ≠ []) then (split_synopsis (str_join new_line lead)).1 else summary, str_join new_line desc)
    else None.
  (** swaggoDoc (mapper.go 1979-2025). *)
  Definition swaggo_doc (text : string) : option (string * string) := swaggo_lines (doc_lines text).

  (** The parts of a RouteInfo and of a metadata.Field that mapper.go 1825-2083 reads. A route: Function and Package; a field: its name, and the package and name of the core of its type if that is named (TypeRefOf, Core, IsNamed). *)
  Record droute := DRoute { dr_function : string; dr_package : string }.
  (** A field, as read in mapper.go 1832-1837. *)
  Record dfield := DField { df_name : string; df_core : option (string * string) }.
  (** findType by package and name (its fields); the comments of findMethodByName by package, receiver and name, and of findFunctionByName (C101, C35);
      implementersOfExternal by the key of an interface. *)
  Context (find_type : string → string → option (list dfield)) (method : string → string → string → option string) (function : string → string → option string) (implementers : string → list string).
  (** receiverTypeName (mapper.go 1825-1847). *)
  Definition receiver_type (pkg recv : string) : string :=
    match split_last "." recv with
    | None => recv
    | Some (owner, field) =>
        match find_type pkg owner with
        | Some fs => match head (filter (λ f, df_name f = field) fs) with Some (DField _ (Some (_, n))) => n | _ => field end
        | None => field
        end
    end.
  (** valueTypeKey (mapper.go 1940-1959). *)
  Definition value_type_key (pkg name : string) : string :=
    match split_last "." name with
    | None => ""
    | Some (owner, field) =>
        match find_type pkg owner with
        | Some fs => default "" (head (omap (λ f, if decide (df_name f = field) then match df_core f with Some (p, n) => if decide (p = "") then None else Some (p +:+ "." +:+ n) | None => None end else None) fs))
        | None => ""
        end
    end.
  (** The first configured method a type has (mapper.go 1904-1908, 1928-1932). *)
  Definition first_method (pkg recv : string) (hms : list string) : option string := head (omap (method pkg recv) hms).
  (** handlerValueComments (mapper.go 1898-1934). *)
  Definition value_comments (pkg name : string) (hms : list string) : string :=
    if decide (hms = [] ∨ name = "") then ""
    else match first_method pkg (receiver_type pkg name) hms with
         | Some c => c
         | None =>
             let key := if decide (value_type_key pkg name = "") then name else value_type_key pkg name in
             match implementers key with
             | [i] => match split_last "." i with Some (p, n) => default "" (first_method p n hms) | None => "" end
             | _ => ""
             end
         end.
  (** strings.ReplaceAll of TypeSep by a dot (mapper.go 1866). *)
  Fixpoint replace_sep (s : string) : string :=
    match s with
    | "" => ""
    | String c t =>
        match c, t with
        | "-"%char, String "-"%char (String ">"%char t') => String "."%char (replace_sep t')
        | _, _ => String c (replace_sep t)
        end
    end.
  (** The loop that cuts off the package (mapper.go 1867-1871), at most as often as there are bytes. *)
  Fixpoint cut_pkg (fuel : nat) (pkg s : string) : string :=
    match fuel with
    | 0 => s
    | S fuel => if has_prefix (pkg +:+ ".") s then cut_pkg fuel pkg (str_drop (String.length (pkg +:+ ".")) s) else s
    end.
  (** The name without its package (mapper.go 1861-1871). *)
  Definition handler_name (r : droute) : string :=
    let name := replace_sep (dr_function r) in
    if decide (dr_package r = "") then name else cut_pkg (String.length name) (dr_package r) name.
  (** handlerComments (mapper.go 1860-1885). *)
  Definition handler_comments (r : droute) (hms : list string) : string :=
    let pkg := dr_package r in let name := handler_name r in
    match split_last "." name with
    | Some (recv, m) => match method pkg (receiver_type pkg recv) m with Some c => c | None => value_comments pkg name hms end
    | None => match function pkg name with Some c => c | None => value_comments pkg name hms end
    end.
  (** handlerDoc (mapper.go 2068-2083). *)
  Definition handler_doc (r : droute) (hms : list string) : string * string :=
    if decide (dr_function r = "") then ("", "")
    else
      let doc := handler_comments r hms in
      if decide (doc = "") then ("", "")
      else match swaggo_doc doc with
           | Some sd => sd
           | None => if decide ((split_synopsis doc).1 = "") then (doc, "") else split_synopsis doc
           end.
End doc.
