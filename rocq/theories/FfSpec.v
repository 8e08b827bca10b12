(** * Specification vocabulary for functions stored in fields. *)
From Coq Require Import Ascii.
From stdpp Require Import base list strings gmap.
From Verif Require Import StrLib FfModel.

(** The text of a function type, or of a pointer to one. *)
Definition function_type (t : string) : Prop := ∃ f, (t = f ∨ t = "*" +:+ f) ∧ (f = "func" ∨ ∃ r, f = "func(" +:+ r).
(** A field has a type: what is recorded for it last. *)
Definition field_is (fs : list (string * string)) (f t : string) : Prop := ∃ l1 l2, fs = l1 ++ (f, t) :: l2 ∧ f ∉ l2.*1.

Section spec.
Context (known : string → bool) (fields_of : string → string → list (string * string)) (entrypoint : string → string → bool).

(** A name written in a package names a function that can be expanded: as it stands, or
    else qualified by the package. *)
Definition names_function (pkg name key : string) : Prop :=
  name ≠ "" ∧ known key = true ∧ (key = name ∨ known name = false ∧ pkg ≠ "" ∧ key = pkg +:+ "." +:+ name).
Definition own_or (ctx pkg : string) : string := if decide (pkg = "") then ctx else pkg.
(** The receiver type of a selector: that of the method, or the type of the operand. *)
Definition receiver_text (v : farg) (r : string) : Prop :=
  f_recv v = Some r ∨ f_recv v = None ∧ ∃ x, f_x v = Some x ∧ f_type x = Some r.
(** A value names a function. *)
Inductive value_names (ctx : string) : farg → string → Prop :=
| value_ident v key : f_kind v = FIdent → names_function (own_or ctx (f_pkg v)) (f_name v) key → value_names ctx v key
| value_literal v key : f_kind v = FFuncLit → names_function ctx (f_name v) key → value_names ctx v key
| value_method v s r key : f_kind v = FSelector → f_sel v = Some s → f_name s ≠ "" → receiver_text v r → bare_type_name r ≠ "" →
    key = own_or ctx (f_pkg s) +:+ "." +:+ bare_type_name r +:+ "." +:+ f_name s → known key = true → value_names ctx v key
| value_selector v s key : f_kind v = FSelector → f_sel v = Some s → names_function (own_or ctx (f_pkg s)) (f_name s) key →
    (∀ r, receiver_text v r → bare_type_name r ≠ "" → known (own_or ctx (f_pkg s) +:+ "." +:+ bare_type_name r +:+ "." +:+ f_name s) = false) →
    value_names ctx v key.

(** The part of an expression the walk looks at next, and the type expected there. *)
Inductive below (ctx : string) : litt → farg → litt → farg → Prop :=
| below_part t a b : f_kind a ≠ FComposite → f_x a = Some b ∨ f_fun a = Some b ∨ f_sel a = Some b → below ctx t a t b
| below_arg t a b : f_kind a ≠ FComposite → Some b ∈ f_args a → below ctx t a ("", "") b
| below_value t a pkg ty e x v tf : f_kind a = FComposite → literal_type ctx a t = (pkg, ty) → Some e ∈ f_args a → f_kind e = FKeyValue →
    f_x e = x → f_fun e = Some v → field_is (fields_of pkg (bare_type_name ty)) (default "" (f_name <$> x)) tf → tf ≠ "" → below ctx t a (pkg, tf) v
| below_entry t a pkg ty e x v : f_kind a = FComposite → literal_type ctx a t = (pkg, ty) → Some e ∈ f_args a → f_kind e = FKeyValue →
    f_x e = x → f_fun e = Some v → (∀ tf, field_is (fields_of pkg (bare_type_name ty)) (default "" (f_name <$> x)) tf → tf = "") →
    below ctx t a (pkg, element_type_name ty) v
| below_position t a pkg ty i e f tf tf' : f_kind a = FComposite → literal_type ctx a t = (pkg, ty) → f_args a !! i = Some (Some e) → f_kind e ≠ FKeyValue →
    element_type_name ty = "" → fields_of pkg (bare_type_name ty) !! i = Some (f, tf') → field_is (fields_of pkg (bare_type_name ty)) f tf → below ctx t a (pkg, tf) e
| below_element t a pkg ty i e : f_kind a = FComposite → literal_type ctx a t = (pkg, ty) → f_args a !! i = Some (Some e) → f_kind e ≠ FKeyValue →
    element_type_name ty ≠ "" ∨ fields_of pkg (bare_type_name ty) !! i = None → below ctx t a (pkg, element_type_name ty) e.

(** [holds ctx t a d pkg ty f v]: [d] levels down in the expression [a], where a [t] is
    expected, a literal of the type [pkg.ty] has the value [v] in the field [f]. *)
Inductive holds (ctx : string) : litt → farg → nat → string → string → string → farg → Prop :=
| holds_keyed t a pkg ty e x v : f_kind a = FComposite → literal_type ctx a t = (pkg, ty) → Some e ∈ f_args a → f_kind e = FKeyValue →
    f_x e = Some x → f_name x ≠ "" → f_fun e = Some v → holds ctx t a 0 pkg (bare_type_name ty) (f_name x) v
| holds_position t a pkg ty i e f tf : f_kind a = FComposite → literal_type ctx a t = (pkg, ty) → f_args a !! i = Some (Some e) → f_kind e ≠ FKeyValue →
    element_type_name ty = "" → fields_of pkg (bare_type_name ty) !! i = Some (f, tf) → holds ctx t a 0 pkg (bare_type_name ty) f e
| holds_below t a t' b d pkg ty f v : below ctx t a t' b → holds ctx t' b d pkg ty f v → holds ctx t a (S d) pkg ty f v.

(** A field can be followed: it is declared an entrypoint or has a function type. *)
Definition followed (pkg ty f : string) : Prop :=
  entrypoint (pkg +:+ "." +:+ ty) f = true ∨ ∃ t, field_is (fields_of pkg ty) f t ∧ function_type t.

(** An import answers to the qualifier of a name: by its alias, or by the last element of
    its path, or the one before when the last is a major version. *)
Definition major (s : string) : Prop := ∃ d r, s = String "v" (String d r) ∧ DecLib.all_digits (String d r) = true.
Definition answers (imp : string * string) (q : string) : Prop :=
  imp.1 = q ∨ q ≠ "" ∧ imp.2 ≠ "" ∧ ∃ l, StrSplit.split_byte "/" imp.2 = l ++ [q] ∨ ∃ v, major v ∧ StrSplit.split_byte "/" imp.2 = l ++ [q; v].
End spec.
