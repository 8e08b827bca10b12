(** * Positions and the names of closures (internal/metadata/position.go). *)
From Coq Require Import Ascii ZArith.
From stdpp Require Import sorting.
From stdpp Require Import base numbers list strings gmap.
From Verif Require Import StrLib DecLib StringPoolModel.

(** token.Position: file name, line and column; valid if the line is positive. *)
Record place := Place { pl_file : string; pl_line : Z; pl_col : Z }.
Definition pl_valid (p : place) : bool := bool_decide (0 < pl_line p)%Z.
(** formatPosition (position.go 175-195). *)
Definition format_position (p : place) : string :=
  if pl_valid p then
    let buf := pl_file p in
    let buf := if decide (pl_file p = "") then buf else buf +:+ ":" in
    let buf := buf +:+ itoa (pl_line p) in
    if decide (pl_col p = 0%Z) then buf else (buf +:+ ":") +:+ itoa (pl_col p)
  else if decide (pl_file p = "") then "-" else pl_file p.

(** State read by positionIndex: the pool and posCache (a nil map holds nothing). *)
Record pstate := PState { ps_pool : pool; ps_cache : gmap Z Z }.
(** positionIndex (position.go 41-75), with a pool and a file set, which maps a token.Pos to its position (fset.Position). *)
Definition position_index (st : pstate) (fset : Z → place) (pos : Z) : pstate * Z :=
  if decide (pos = 0%Z) then (st, -1)%Z
  else match ps_cache st !! pos with
  | Some i => (st, i)
  | None =>
      let p := fset pos in
      if pl_valid p
      then let '(pl, i) := pool_get (ps_pool st) (format_position p) in (PState pl (<[pos := i]> (ps_cache st)), i)
      else (st, -1)%Z
  end.
(** positionString (position.go 80-86). *)
Definition position_string (st : pstate) (fset : Z → place) (pos : Z) : pstate * string :=
  let '(st, i) := position_index st fset pos in
  (st, if decide (i < 0)%Z then "" else pool_get_string (ps_pool st) i).
(** A history: positions asked for, and other texts put into the pool. *)
Inductive pop := PAsk (fset : Z → place) (pos : Z) | PText (s : string).
Definition pstep (st : pstate) (o : pop) : pstate * Z :=
  match o with
  | PAsk f pos => position_index st f pos
  | PText s => let '(pl, i) := pool_get (ps_pool st) s in (PState pl (ps_cache st), i)
  end.
Fixpoint prun (st : pstate) (h : list pop) : pstate * list Z :=
  match h with
  | [] => (st, [])
  | o :: h => let '(st, i) := pstep st o in let '(st, is) := prun st h in (st, i :: is)
  end.

(** A clean absolute path by its elements, and its text. *)
Fixpoint path_text (l : list string) : string := match l with [] => "" | s :: l => "/" +:+ s +:+ path_text l end.
(** filepath.Rel of clean absolute paths, as elements: up from what is left of the base, down what is left of the other. *)
Fixpoint rel_path (base file : list string) : list string :=
  match base, file with
  | [], _ => file
  | _, [] => repeat ".." (length base)
  | b :: base', f :: file' => if decide (b = f) then rel_path base' file' else repeat ".." (length base) ++ file
  end.
Definition rel_text (base file : list string) : string := match rel_path base file with [] => "." | l => str_join "/" l end.
(** The text behind the last occurrence of another (strings.LastIndex and the slice behind it). *)
Fixpoint behind_last (m s : string) : option string :=
  match s with
  | "" => if has_prefix m "" then Some "" else None
  | String _ t => match behind_last m t with Some r => Some r | None => if has_prefix m s then Some (str_drop (String.length m) s) else None end
  end.
Definition mod_cache_marker : string := "pkg/mod/".
(** stableFilename (position.go 133-146) of a file with an absolute clean path, on a system with forward slashes; [None] is an empty moduleDir. *)
Definition stable_filename (module : option (list string)) (file : list string) : string :=
  let outside := match behind_last mod_cache_marker (path_text file) with Some r => r | None => path_text file end in
  match module with
  | Some base => if has_prefix ".." (rel_text base file) then outside else rel_text base file
  | None => outside
  end.
(** stablePosition and funcLitName (position.go 96-98, 110-120): the name of a closure. *)
Definition closure_name (module : option (list string)) (file : list string) (line col : Z) : string :=
  "FuncLit:" +:+ format_position (Place (stable_filename module file) line col).
