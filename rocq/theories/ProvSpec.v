(** * Where an encoder writes and a decoder reads: specification for C69 and C70. *)
From stdpp Require Import base numbers list strings gmap.
From Verif Require Import ProvModel.

(** The first of some types that is known. *)
Definition first_set (l : list string) : string := default "" (head (filter (λ t, t ≠ "") l)).

Section spec.
Context (writer : string → bool) (s : site).

(** The type of a variable: resolved, declared, recorded at the call, or that of where it comes from. *)
Definition var_type (a : arg) : string :=
  first_set ([g_resolved a; g_type a; s_concrete s (g_name a)] ++ match s_traced s (g_name a) with Some o => [g_resolved o; g_type o] | None => [] end).
(** A variable is a writer by its type or, unless it is named like the caller, by a type of where it comes from. *)
Definition writer_variable (a : arg) : Prop :=
  writer (var_type a) = true ∨
  (g_name a ≠ s_caller s ∧ ∃ o, s_traced s (g_name a) = Some o ∧ ((g_resolved o ≠ "" ∧ writer (g_resolved o) = true) ∨ writer (g_type o) = true)).

(** What the resolver follows: address-of, dereference and parentheses, the latest assignment, the elements of a composite
    literal and its type, the key of a pair, and the arguments of a call; it ends at a variable without an assignment
    whose type is a writer's. *)
Inductive traced : arg → Prop :=
  | traced_through a y : g_kind a ∈ [KUnary; KStar; KParen] → g_x a = Some y → traced y → traced a
  | traced_param a : g_kind a = KIdent → g_name a ≠ "" → s_assigned s !! g_name a = None → writer_variable a → traced a
  | traced_assigned a rhs : g_kind a = KIdent → g_name a ≠ "" → s_assigned s !! g_name a = Some rhs → traced rhs → traced a
  | traced_element a e : g_kind a ∈ [KComposite; KKeyValue] → e ∈ g_args a → traced e → traced a
  | traced_type_or_key a y : g_kind a ∈ [KComposite; KKeyValue] → g_x a = Some y → traced y → traced a
  | traced_sel a y : g_kind a ∈ [KComposite; KKeyValue] → g_sel a = Some y → traced y → traced a
  | traced_argument a e : g_kind a = KCall → e ∈ g_args a → traced e → traced a.

(** What should be followed: the value holds the response writer. [params]: the function's parameters. A parameter of
    a writer type holds it, whatever else is assigned to it; so does what is assigned, wrapped or put into a field. *)
Context (params : list string).
Inductive holds : arg → Prop :=
  | holds_through a y : g_kind a ∈ [KUnary; KStar; KParen] → g_x a = Some y → holds y → holds a
  | holds_param a : g_kind a = KIdent → g_name a ∈ params → g_name a ≠ "" → writer_variable a → holds a
  | holds_assigned a rhs : g_kind a = KIdent → g_name a ≠ "" → s_assigned s !! g_name a = Some rhs → holds rhs → holds a
  | holds_element a e : g_kind a = KComposite → e ∈ g_args a → holds e → holds a
  | holds_value a v : g_kind a = KKeyValue → g_fun a = Some v → holds v → holds a
  | holds_argument a e : g_kind a = KCall → e ∈ g_args a → holds e → holds a
  | holds_field a base f rhs c e k v : g_kind a = KSelector → g_x a = Some base → g_sel a = Some f → g_kind base = KIdent → g_name base ≠ "" →
      s_assigned s !! g_name base = Some rhs → strip pass_write rhs = Some c → g_kind c = KComposite → e ∈ g_args c → g_kind e = KKeyValue →
      g_x e = Some k → g_name k = g_name f → g_fun e = Some v → holds v → holds a.

(** What a destination is followed to: through the same operators and the latest assignments. *)
Inductive leads_to : arg → arg → Prop :=
  | leads_self a : g_kind a ∉ [KUnary; KStar; KParen] → leads_to a a
  | leads_through a y b : g_kind a ∈ [KUnary; KStar; KParen] → g_x a = Some y → leads_to y b → leads_to a b
  | leads_assigned a rhs b : g_kind a = KIdent → g_name a ≠ "" → s_assigned s !! g_name a = Some rhs → leads_to rhs b → leads_to a b.
(** The type an expression is written with, as recorded. *)
Definition type_of (a : arg) : string := if bool_decide (g_kind a = KIdent) then var_type a else first_set [g_resolved a; g_type a; g_info a].
End spec.

(** Different expressions among those met at the call have different IDs (they end in their positions). [over]: the kinds that
    are passed over. *)
Definition distinct_ids (over : list kind) (s : site) (a : arg) : Prop :=
  ∀ b c, b ∈ universe s a → c ∈ universe s a → g_kind b ∉ over → g_kind c ∉ over → g_id b = g_id c → b = c.

Section spec_read.
Context (request accessor : string → bool) (s : site).
(** A chain of fields and method calls on a variable, with its accessors from the variable on. *)
Inductive chain : arg → arg → list seg → Prop :=
  | chain_root a : g_kind a = KIdent → chain a a []
  | chain_field a x f r l : g_kind a = KSelector → g_x a = Some x → g_sel a = Some f → chain x r l → chain a r (l ++ [(g_name f, false)])
  | chain_method a f x m r l : g_kind a = KCall → g_fun a = Some f → g_kind f = KSelector → g_x f = Some x → g_sel f = Some m → chain x r l → chain a r (l ++ [(g_name m, true)]).
(** The type of the variable and the text of the accessors. *)
Definition root_type (a : arg) : string :=
  first_set ([g_resolved a; g_type a; s_concrete s (g_name a)] ++ match s_traced s (g_name a) with Some o => [g_type o] | None => [] end).
Definition accessors (l : list seg) : string := String.concat "." ((λ g : seg, if g.2 then g.1 +:+ "()" else g.1) <$> l).
(** Reads the request's body: an accessor of the body on a request, or what was assigned from one. *)
Inductive reads_body : arg → Prop :=
  | reads_accessor a r l : chain a r l → l ≠ [] → root_type r ≠ "" → request (root_type r) = true → accessor (accessors l) = true → reads_body a
  | reads_through a y : g_kind a ∈ [KUnary; KStar] → g_x a = Some y → reads_body y → reads_body a
  | reads_assigned a r l rhs : chain a r l → g_name r ≠ "" → s_assigned s !! g_name r = Some rhs → reads_body rhs → reads_body a.
(** What should count: also what is read through another reader, io.LimitReader(r.Body, n), and what is in parentheses. *)
Inductive from_body : arg → Prop :=
  | from_accessor a : reads_body a → from_body a
  | from_through a y : g_kind a ∈ [KUnary; KStar; KParen] → g_x a = Some y → from_body y → from_body a
  | from_argument a e : g_kind a = KCall → e ∈ g_args a → from_body e → from_body a
  | from_assigned a rhs : g_kind a = KIdent → g_name a ≠ "" → s_assigned s !! g_name a = Some rhs → from_body rhs → from_body a.
End spec_read.
(** Every selector says which field or method it selects. *)
Definition selectors_named (s : site) (a : arg) : Prop := ∀ b, b ∈ universe s a → g_kind b = KSelector → is_Some (g_sel b).
