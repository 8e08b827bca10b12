(** * HTTP verbs named by arguments and by handler names
    (internal/spec/pattern_matchers.go). *)
From Coq Require Import Ascii.
From stdpp Require Import base list strings gmap.
From Verif Require Import StrLib StrSplit PathModel.

(** One element of the comma list in [verbsFromArg] (pattern_matchers.go 1468):
    quotes, then white space, are trimmed, and the rest upper-cased (ASCII). *)
Definition verb_of (part : string) : string := to_upper (trim_any spaces (trim_any quotes part)).

(** [isValidHTTPMethod] (pattern_matchers.go 634-646): the same nine verbs as [isHTTPMethod],
    after upper-casing. *)
Definition valid_method (m : string) : bool :=
  bool_decide (to_upper m ∈ ["GET"; "POST"; "PUT"; "DELETE"; "PATCH"; "OPTIONS"; "HEAD"; "TRACE"; "CONNECT"]).

(** The loop of [verbsFromArg] (pattern_matchers.go 1465-1476).  [None] is the early
    [return nil]; [seen] is kept as the list of verbs so far, which has the same members. *)
Fixpoint verbs_loop (parts : list string) (acc : list string) : option (list string) :=
  match parts with
  | [] => Some acc
  | p :: rest =>
      let verb := verb_of p in
      if bool_decide (verb = "") || negb (valid_method verb) then None
      else verbs_loop rest (if decide (verb ∈ acc) then acc else acc ++ [verb])
  end.

(** [verbsFromArg] (pattern_matchers.go 1455-1478); [raw] is the constant value of the argument,
    [None] when it is not a constant.  The empty list models nil. *)
Definition verbs_from_arg (raw : option string) : list string :=
  match raw with
  | None => []
  | Some raw => if decide (raw = "") then [] else default [] (verbs_loop (split_byte "," raw) [])
  end.

(** ** Handler names
    Names are lists of runes; the Unicode tables (unicode.IsLetter, IsUpper, IsLower) and
    lower-casing are parameters, so the theorems hold whatever they say. *)
Section names.
Context {R : Type} `{EqDecision R} (is_letter is_upper is_lower : R → bool) (lower : R → R).

(** The loop of [splitNameWords] (pattern_matchers.go 1426-1439): [cur] is the word being
    built, the result the words completed from here on, the final [flush] included. *)
Fixpoint split_loop (cur : list R) (runes : list R) : list (list R) :=
  match runes with
  | [] => if decide (length cur = 0) then [] else [cur]
  | r :: rest =>
      if negb (is_letter r) then
        (if decide (length cur = 0) then [] else [cur]) ++ split_loop [] rest
      else
        let boundary :=
          match last cur with
          | Some prev =>
              is_upper r &&
              (is_lower prev ||
               (is_upper prev && match rest with next :: _ => is_lower next | [] => false end))
          | None => false
          end in
        if boundary then cur :: split_loop [r] rest else split_loop (cur ++ [r]) rest
  end.

(** [splitNameWords] (pattern_matchers.go 1416-1442). *)
Definition split_name_words (name : list R) : list (list R) := split_loop [] name.

(** [MethodMapping] (config.go 224-228); priorities are Go ints. *)
Record mapping := Mapping { mm_patterns : list (list R); mm_method : string; mm_priority : Z }.

(** [MethodExtractionConfig] (config.go 231-242). *)
Record mconfig := MConfig {
  mc_mappings : list mapping;
  mc_prefix : bool;
  mc_contains : bool;
  mc_case : bool;
  mc_default : string
}.

(** The inner loop of the bubble sort (pattern_matchers.go 1368-1372): [k] comparisons from the
    front, swapping a lower priority behind a higher one. *)
Fixpoint bubble_pass (k : nat) (l : list mapping) : list mapping :=
  match k, l with
  | S k', x :: y :: rest =>
      if decide (mm_priority x < mm_priority y)%Z then y :: bubble_pass k' (x :: rest)
      else x :: bubble_pass k' (y :: rest)
  | _, _ => l
  end.

(** The outer loop (pattern_matchers.go 1367-1373): passes of [k], [k-1], ..., [1] comparisons. *)
Fixpoint bubble (k : nat) (l : list mapping) : list mapping :=
  match k with
  | O => l
  | S k' => bubble k' (bubble_pass k l)
  end.

Definition bubble_sort (l : list mapping) : list mapping := bubble (length l - 1) l.

(** The two searches (pattern_matchers.go 1383-1407): the first mapping, in sorted order, with
    a pattern accepted by [hit].  Which pattern of a mapping hits does not matter. *)
Definition first_mapping (hit : list R → bool) (l : list mapping) : option mapping :=
  head (filter (λ m, existsb hit (mm_patterns m) = true) l).

(** [methodFromFunctionName] (pattern_matchers.go 1341-1410), for a given (non-nil)
    configuration; the default configuration is a particular [mconfig]. *)
Definition method_from_name (cfg : mconfig) (name : list R) : string * bool :=
  match name with
  | [] => ("", false)
  | _ =>
      let fold w := if mc_case cfg then w else lower <$> w in
      let words := fold <$> split_name_words name in
      let mappings := bubble_sort (mc_mappings cfg) in
      let by_prefix :=
        if mc_prefix cfg then
          match words with
          | [] => None
          | w :: _ => first_mapping (λ p, bool_decide (w = fold p)) mappings
          end
        else None in
      match by_prefix with
      | Some m => (mm_method m, true)
      | None =>
          match (if mc_contains cfg then first_mapping (λ p, bool_decide (fold p ∈ words)) mappings else None) with
          | Some m => (mm_method m, true)
          | None => (mc_default cfg, false)
          end
      end
  end.
End names.
Arguments mapping : clear implicits.
Arguments mconfig : clear implicits.

(** ** The default configuration *)

(** Identifier runes as ASCII bytes, for the examples: unicode.IsLetter/IsUpper/IsLower and
    ToLower restricted to ASCII. *)
Definition a_upper (c : ascii) : bool := in_range "A" "Z" c.
Definition a_lower (c : ascii) : bool := in_range "a" "z" c.
Definition a_letter (c : ascii) : bool := a_upper c || a_lower c.
Definition runes (s : string) : list ascii := String.list_ascii_of_string s.

(** [DefaultMethodExtractionConfig] (config_mux.go 22-38). *)
Definition default_methods : mconfig ascii :=
  MConfig
    [ Mapping (runes <$> ["get"; "list"; "show"; "find"; "fetch"; "retrieve"]) "GET" 10;
      Mapping (runes <$> ["post"; "create"; "add"; "new"; "insert"]) "POST" 10;
      Mapping (runes <$> ["put"; "update"; "edit"; "modify"; "replace"]) "PUT" 10;
      Mapping (runes <$> ["delete"; "remove"; "destroy"]) "DELETE" 10;
      Mapping (runes <$> ["patch"; "partial"]) "PATCH" 10;
      Mapping (runes <$> ["options"]) "OPTIONS" 10;
      Mapping (runes <$> ["head"]) "HEAD" 10 ]
    true true false "GET".
Definition default_method_from_name (name : string) : string * bool :=
  method_from_name a_letter a_upper a_lower lower_char default_methods (runes name).
