(** * Gitignore-style patterns (pkg/patterns/gitignore.go).

    The conversion of a pattern to the text of a regular expression is modelled
    character by character.  Go's [regexp] package is modelled on the syntax the
    conversion emits (parser and matcher below); for any other text - that is,
    when the pattern contains a closed bracket class - the answer is an oracle
    that is a parameter, [None] standing for a compile error.

    A string is a sequence of characters; Go's regexp works on UTF-8 code points,
    so for non-ASCII text read one model character as one code point. *)
From Coq Require Import Ascii.
From stdpp Require Import base list strings.
From Verif Require Import StrLib StrSplit.

Notation c_slash := "/"%char (only parsing).
Definition c_star : ascii := "*"%char.
Definition c_q : ascii := "?"%char.
Definition c_open : ascii := "["%char.
Definition c_close : ascii := "]"%char.
Definition c_bsl : ascii := "092"%char.
Definition newline : ascii := "010"%char.

(** The characters escaped with a backslash, gitignore.go 159. *)
Definition re_special (c : ascii) : bool := mem_byte c ".^$(){}+|\".

(** strings.ReplaceAll(charClass, a backslash, two backslashes), gitignore.go 147. *)
Fixpoint double_bsl (s : string) : string :=
  match s with
  | "" => ""
  | String c s => if decide (c = c_bsl) then String c (String c (double_bsl s)) else String c (double_bsl s)
  end.

(** The scan for the closing bracket, gitignore.go 139-142: the text up to and
    including it, and what follows. *)
Fixpoint find_close (s : string) : option (string * string) :=
  match s with
  | "" => None
  | String c s =>
    if decide (c = c_close) then Some (String c "", s)
    else match find_close s with Some (a, b) => Some (String c a, b) | None => None end
  end.

(** The loop of [patternToRegex], gitignore.go 95-169.  [prev] is [pattern[i-1]],
    [p] the pattern from index i on, [res] the builder's contents.  [fuel] bounds
    the iterations; the length of the pattern always suffices. *)
Fixpoint emit (fuel : nat) (prev : option ascii) (p : string) (res : string) : string :=
  match fuel with
  | 0 => res
  | S fuel =>
    match p with
    | "" => res
    | String c p1 =>
      if decide (c = c_star) then
        match p1 with
        | String c1 p2 =>
          if decide (c1 = c_star) then
            match p2 with
            | "" =>
              if decide (prev = Some c_slash) then
                (if has_suffix "/" res then str_take (String.length res - 1) res +:+ "(?:/.*)?"
                 else res +:+ "(?:/.*)?")
              else res +:+ ".*"
            | String c2 p3 =>
              if decide (c2 = c_slash) then emit fuel (Some c_slash) p3 (res +:+ "(?:.*?/)?")
              else emit fuel (Some c_star) p2 (res +:+ ".*")
            end
          else emit fuel (Some c_star) p1 (res +:+ "[^/]*")
        | "" => emit fuel (Some c_star) p1 (res +:+ "[^/]*")
        end
      else if decide (c = c_q) then emit fuel (Some c_q) p1 (res +:+ "[^/]")
      else if decide (c = c_open) then
        match find_close p1 with
        | Some (cls, p2) => emit fuel (Some c_close) p2 (res +:+ double_bsl (String c_open cls))
        | None => emit fuel (Some c_open) p1 (res +:+ String c_bsl (String c_open ""))
        end
      else if decide (c = c_slash) then emit fuel (Some c_slash) p1 (res +:+ "/")
      else if re_special c then emit fuel (Some c) p1 (res +:+ String c_bsl (String c ""))
      else emit fuel (Some c) p1 (res +:+ String c "")
    end
  end.

(** [patternToRegex], gitignore.go 75-178. *)
Definition pattern_to_regex (pattern : string) : string :=
  let trailing := has_suffix "/" pattern in
  let pattern := if trailing then str_take (String.length pattern - 1) pattern else pattern in
  let has_slash := contains_byte c_slash (trim_prefix "/" pattern) in
  let start := if negb has_slash && negb (has_prefix "/" pattern) then "^(?:.*/)?" else "^" in
  let body := emit (String.length pattern) None pattern start in
  (if trailing then body +:+ "(?:|/.*)" else body) +:+ "$".

(** What Go's regular expressions treat specially (package regexp/syntax): what may be escaped, and what is not literal unescaped.
    Kept apart from [re_special], which is the code's own list. *)
Definition rx_escapable (c : ascii) : bool := mem_byte c "\.+*?()|[]{}^$".
Definition rx_active (c : ascii) : bool := mem_byte c "\.+*?()|[{^$".
(** The fragment of Go's regexp syntax emitted above. *)
Inductive tok := TAnyDir | TAnyDirLazy | TSub | TOrSub | TAny | TSeg | TOne | TLit (c : ascii).

(** One token off the front of the text. Longer spellings first. *)
Definition parse_tok (s : string) : option (tok * string) :=
  if has_prefix "(?:.*/)?" s then Some (TAnyDir, str_drop 8 s)
  else if has_prefix "(?:.*?/)?" s then Some (TAnyDirLazy, str_drop 9 s)
  else if has_prefix "(?:/.*)?" s then Some (TSub, str_drop 8 s)
  else if has_prefix "(?:|/.*)" s then Some (TOrSub, str_drop 8 s)
  else if has_prefix ".*" s then Some (TAny, str_drop 2 s)
  else if has_prefix "[^/]*" s then Some (TSeg, str_drop 5 s)
  else if has_prefix "[^/]" s then Some (TOne, str_drop 4 s)
  else match s with
  | "" => None
  | String c s1 =>
    if decide (c = c_bsl) then
      match s1 with
      | String c1 s2 => if rx_escapable c1 then Some (TLit c1, s2) else None
      | "" => None
      end
    else if rx_active c then None
    else Some (TLit c, s1)
  end.
(** The whole text: an anchor, tokens, an anchor. *)
Fixpoint parse_toks (fuel : nat) (s : string) : option (list tok) :=
  if decide (s = "$") then Some []
  else match fuel with
  | 0 => None
  | S fuel =>
    '(t, s) ← parse_tok s; ts ← parse_toks fuel s; Some (t :: ts)
  end.
Definition re_parse (s : string) : option (list tok) :=
  match s with
  | String c s => if decide (c = "^"%char) then parse_toks (String.length s) s else None
  | "" => None
  end.

(** What one token matches.  In Go a dot does not match a newline, a negated
    class does. *)
Definition no_newline (u : string) : bool := negb (contains_byte newline u).
Definition tok_match (t : tok) (u : string) : bool :=
  match t with
  | TAnyDir | TAnyDirLazy => bool_decide (u = "") || (has_suffix "/" u && no_newline u)
  | TSub | TOrSub => bool_decide (u = "") || (has_prefix "/" u && no_newline u)
  | TAny => no_newline u
  | TSeg => negb (contains_byte c_slash u)
  | TOne => bool_decide (String.length u = 1) && negb (contains_byte c_slash u)
  | TLit c => bool_decide (u = String c "")
  end.
(** All ways to cut a string in two. *)
Fixpoint cuts (s : string) : list (string * string) :=
  ("", s) :: match s with "" => [] | String c s => (λ '(a, b), (String c a, b)) <$> cuts s end.
(** A sequence of tokens, matching the whole text (both anchors are always there). *)
Fixpoint toks_match (ts : list tok) (s : string) : bool :=
  match ts with
  | [] => bool_decide (s = "")
  | t :: ts => existsb (λ '(u, v), tok_match t u && toks_match ts v) (cuts s)
  end.

(** regexp.MatchString. *)
Definition go_match (other : string → string → option bool) (re s : string) : option bool :=
  match re_parse re with Some ts => Some (toks_match ts s) | None => other re s end.

Section matching.
Context (other : string → string → option bool).

(** [Match] and [matchGitignorePattern], gitignore.go 34-72. *)
Definition match_pos (pattern path : string) : bool :=
  let pattern := trim_prefix "/" pattern in
  let path := trim_prefix "/" path in
  match go_match other (pattern_to_regex pattern) path with
  | Some b => b
  | None => bool_decide (pattern = path)
  end.
Definition glob_match (pattern path : string) : bool :=
  let negated := has_prefix "!" pattern in
  let pattern := if negated then str_drop 1 pattern else pattern in
  if decide (pattern = "") then false
  else let matched := match_pos pattern path in if negated then negb matched else matched.

(** [MatchAny], gitignore.go 182-189. *)
Fixpoint match_any (patterns : list string) (path : string) : bool :=
  match patterns with
  | [] => false
  | p :: ps => if glob_match p path then true else match_any ps path
  end.

(** [Filter], gitignore.go 194-214. *)
Definition filter_step (includes excludes : list string) (result : list string) (path : string) : list string :=
  let included := match includes with [] => true | _ => match_any includes path end in
  if included then (if match_any excludes path then result else result ++ [path]) else result.
Definition filter_paths (paths includes excludes : list string) : list string :=
  fold_left (filter_step includes excludes) paths [].
End matching.
