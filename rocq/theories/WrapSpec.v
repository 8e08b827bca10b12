(** * Specification vocabulary for router wrappers. *)
From Coq Require Import Ascii.
From stdpp Require Import base list strings gmap relations.
From Coq Require Import ZArith.
From Verif Require Import StrLib StatModel WrapModel.

(** The parts of an expression. *)
Definition part_of (a b : sarg) : Prop := s_x a = Some b ∨ s_sel a = Some b ∨ s_fn a = Some b ∨ Some b ∈ s_args a.
(** A name is mentioned in an expression, no deeper than [d]. *)
Inductive mentions : nat → sarg → string → Prop :=
  | mentions_here d a : s_name a ≠ "" → mentions (S d) a (s_name a)
  | mentions_part d a b n : part_of a b → mentions d b n → mentions (S d) a n.

Section spec.
Context (method_of : wmethod → option (list string * (string → list sarg))) (function_of : wmethod → option (string → list sarg)).

(** The values assigned to a variable of a method: those recorded for the method,
    and when there are none those recorded for the function of its name. *)
Definition assigned_value (w : wmethod) (n : string) (v : sarg) : Prop :=
  (∃ ps asg, method_of w = Some (ps, asg) ∧ v ∈ asg n) ∨
  ((∀ ps asg, method_of w = Some (ps, asg) → asg n = []) ∧ ∃ asg, function_of w = Some asg ∧ v ∈ asg n).
(** A variable is given a value that mentions a name. *)
Definition uses (w : wmethod) (n m : string) : Prop := n ≠ "" ∧ ∃ v, assigned_value w n v ∧ mentions 6 v m.
(** The parameters of a method. *)
Definition parameter (w : wmethod) (i : nat) (p : string) : Prop :=
  ∃ ps asg, method_of w = Some (ps, asg) ∧ ps !! i = Some p.
(** An argument leads to a name over [k] assignments. *)
Definition leads (w : wmethod) (a : sarg) (k : nat) (p : string) : Prop := ∃ n, mentions 6 a n ∧ nsteps (uses w) k n p.

(** The argument comes from the parameter at a position: it leads to the parameter, the
    position is the first of that name, and it leads to no parameter over fewer
    assignments. *)
Definition comes_from (w : wmethod) (a : sarg) (i : nat) : Prop :=
  ∃ k p, k ≤ 3 ∧ leads w a k p ∧ parameter w i p ∧ (∀ j, j < i → ¬ parameter w j p) ∧
    ∀ k' i' p', k' < k → leads w a k' p' → ¬ parameter w i' p'.
(** The argument of a call at a position comes from a parameter. *)
Definition passes (w : wmethod) (e : wedge) (j : Z) (i : nat) : Prop :=
  (0 ≤ j)%Z ∧ ∃ a, we_args e !! Z.to_nat j = Some (Some a) ∧ comes_from w a i.
(** The position of the verb among the arguments of a registration. *)
Definition verb_argument (q : rpat) (j : Z) : Prop :=
  rp_verb_call q = false ∧ rp_verb_handler q = false ∧ rp_verb_path q = false ∧ j = rp_verb_idx q ∧
  (rp_verb q = false → (rp_path q = true → j ≠ rp_path_idx q) ∧ (rp_handler q = true → j ≠ rp_handler_idx q)).
(** Names mentioned otherwise than behind a dot. *)
Definition value_part (a b : sarg) : Prop := s_x a = Some b ∨ s_fn a = Some b ∨ Some b ∈ s_args a.
Inductive mentions_value : sarg → string → Prop :=
  | mentions_value_here a : s_name a ≠ "" → mentions_value a (s_name a)
  | mentions_value_part a b n : value_part a b → mentions_value b n → mentions_value a n.

(** ** Wrappers *)
Context (matches : rpat → wedge → bool) (modpath : string).
(** A call written in a method of the module. *)
Definition written_in (e : wedge) (w : wmethod) : Prop :=
  we_recv e ≠ "" ∧ we_pkg e ≠ "" ∧ modpath ≠ "" ∧ (∃ rest, we_pkg e = modpath +:+ rest) ∧
  w = WMethod (we_pkg e) (we_recv e) (we_name e).

(** A chain: a method calls something a pattern of the configuration, or the complete
    pattern recorded for another method, describes. *)
Inductive rests_on (config : list rpat) (es : list wedge) (found : gmap string dwrap) : nat → string → Prop :=
  | rests_config e w q : e ∈ es → written_in e w → q ∈ config → matches q e = true → rests_on config es found 1 (method_key w)
  | rests_step n k d e w : rests_on config es found n k → found !! k = Some d → dw_complete d = true →
      e ∈ es → written_in e w → matches (dw_pat d) e = true → rests_on config es found (S n) (method_key w).
End spec.

(** ** Groups *)
(** No byte of the name means something in a regular expression; no dot in it. *)
Definition special (c : ascii) : Prop := c ∈ ["\"; "."; "+"; "*"; "?"; "("; ")"; "|"; "["; "]"; "{"; "}"; "^"; "$"]%char.
Definition plain (s : string) : Prop := ∀ c, special c → contains_byte c s = false.
Definition dotless (s : string) : Prop := contains_byte "." s = false.

(** What is said about a method, apart from the call: two wrappers agree in it. *)
Definition same_roles (a b : dwrap) : Prop :=
  let p := dw_pat a in let q := dw_pat b in
  dw_recv a = dw_recv b ∧ dw_complete a = dw_complete b ∧ rp_recv p = rp_recv q ∧
  rp_path p = rp_path q ∧ rp_path_idx p = rp_path_idx q ∧ rp_handler p = rp_handler q ∧ rp_handler_idx p = rp_handler_idx q ∧
  rp_verb p = rp_verb q ∧ rp_verb_idx p = rp_verb_idx q ∧ rp_verb_call p = rp_verb_call q ∧
  rp_verb_handler p = rp_verb_handler q ∧ rp_verb_path p = rp_verb_path q.
(** A wrapper but for the report of what it delegates to. *)
Definition but_via (d : dwrap) : dwrap := DWrap (dw_recv d) (dw_methods d) "" (dw_pat d) (dw_complete d).
