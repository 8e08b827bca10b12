(** * Specification of gitignore-style patterns, on path segments. *)
From Coq Require Import Ascii.
From stdpp Require Import base list strings.
From Verif Require Import StrLib StrSplit.

(** A wildcard pattern matches one path segment: a star stands for any text, a
    question mark for any one character, everything else for itself. *)
Inductive seg_match : string → string → Prop :=
| sm_nil : seg_match "" ""
| sm_star u p s : seg_match p s → seg_match (String "*" p) (u +:+ s)
| sm_one c p s : seg_match p s → seg_match (String "?" p) (String c s)
| sm_lit c p s : c ≠ "*"%char → c ≠ "?"%char → seg_match p s → seg_match (String c p) (String c s).

(** A pattern matches a path segment by segment; a double star stands for any
    number of segments, including none. *)
Inductive seg_glob : list string → list string → Prop :=
| sg_nil : seg_glob [] []
| sg_seg p s ps ss : p ≠ "**" → seg_match p s → seg_glob ps ss → seg_glob (p :: ps) (s :: ss)
| sg_none ps ss : seg_glob ps ss → seg_glob ("**" :: ps) ss
| sg_more s ps ss : seg_glob ("**" :: ps) ss → seg_glob ("**" :: ps) (s :: ss).

(** No bracket class: no opening bracket is followed by a closing one. *)
Definition no_class (p : string) : Prop :=
  ∀ a b, p = a +:+ String "[" b → contains_byte "]" b = false.
(** Double stars occur only as whole segments. *)
Definition double_star_inside (s : string) : Prop := ∃ a b, s = a +:+ "**" +:+ b.
Definition whole_stars (segs : list string) : Prop := ∀ s, s ∈ segs → s = "**" ∨ ¬ double_star_inside s.
Definition ends_in_two_stars (segs : list string) : Prop := ∃ pre, segs = pre ++ ["**"; "**"].
Definition segments (p : string) : list string := split_byte "/" p.
Definition has_char (c : ascii) (s : string) : Prop := ∃ a b, s = a +:+ String c b.
(** An ordinary positive pattern: not empty, no class, no leading bang or slash. *)
Definition plain (p : string) : Prop := p ≠ "" ∧ no_class p ∧ ¬ starts_with "!" p ∧ ¬ starts_with "/" p.
(** An ordinary path: one line, no leading slash. *)
Definition plain_path (s : string) : Prop := ¬ has_char "010" s ∧ ¬ starts_with "/" s.
(** A pattern without wildcards. *)
Definition literal (p : string) : Prop := ¬ has_char "*" p ∧ ¬ has_char "?" p ∧ ¬ has_char "[" p.
(** The selection a filter is supposed to make. *)
Definition wanted (m : string → string → bool) (includes excludes : list string) (path : string) : Prop :=
  (includes = [] ∨ ∃ i, i ∈ includes ∧ m i path = true) ∧ ¬ ∃ e, e ∈ excludes ∧ m e path = true.
