(** * What validation rules and schemas accept: specification for C61. *)
From Coq Require Import Ascii.
From stdpp Require Import base numbers list strings.
From Verif Require Import StrLib StrSplit StrSub DecLib PathModel ScanModel TypeModel FieldModel NameProps ConModel.

(** ** Rules of go-playground/validator and their text *)
Inductive fmt := Email | Url | Uuid.
Inductive rule := Required | Min (k : Z) | Max (k : Z) | Len (k : Z) | Oneof (ws : list string) | Fmt (f : fmt)
  | Other (name : string) | OtherArg (name arg : string).
Definition fmt_rule (f : fmt) : string := match f with Email => "email" | Url => "url" | Uuid => "uuid" end.
Definition rule_parts (r : rule) : string * option string :=
  match r with
  | Required => ("required", None)
  | Min k => ("min", Some (itoa k))
  | Max k => ("max", Some (itoa k))
  | Len k => ("len", Some (itoa k))
  | Oneof ws => ("oneof", Some (str_join " " ws))
  | Fmt f => (fmt_rule f, None)
  | Other n => (n, None)
  | OtherArg n v => (n, Some v)
  end.
Definition parts_text (p : string * option string) : string := match p with (n, None) => n | (n, Some v) => n +:+ String "=" v end.
Definition rule_text (r : rule) : string := parts_text (rule_parts r).
(** Rules of one level, then dive, then the rules of the elements. *)
Fixpoint words (levels : list (list rule)) : list string :=
  match levels with
  | [] => []
  | [l] => rule_text <$> l
  | l :: ls => (rule_text <$> l) ++ "dive" :: words ls
  end.
(** The validate key is the last of the tag; [earlier] are the keys in front of it. *)
Definition validate_text (levels : list (list rule)) : string := "validate:" +:+ String dq (str_join "," (words levels) +:+ String dq "").
Definition tag_with (earlier : option string) (levels : list (list rule)) : string :=
  match earlier with None => validate_text levels | Some e => e +:+ String " " (validate_text levels) end.

(** A word: no separator of the tag syntax and no white space. *)
Definition separators : string := String dq (",{}:" +:+ spaces).
Definition plain_word (w : string) : bool := all_bytes (λ c, negb (mem_byte c separators)) w.
Definition exact_number (k : Z) : Prop := (-9007199254740992 ≤ k ≤ 9007199254740992)%Z.
Definition rule_ok (r : rule) : Prop :=
  match r with
  | Required | Fmt _ => True
  | Min k | Max k | Len k => exact_number k
  | Oneof ws => ws ≠ [] ∧ Forall (λ w, w ≠ "" ∧ plain_word w = true) ws
  | Other n => is_ident n = true ∧ n ≠ "required" ∧ n ≠ "dive" ∧ n ∉ rule_formats.*1 ∧ n ∉ rule_patterns.*1
  | OtherArg n v => is_ident n = true ∧ plain_word v = true ∧ n ∉ ["min"; "max"; "len"; "minlen"; "maxlen"; "regexp"; "oneof"]
  end.
Definition all_ok (levels : list (list rule)) : Prop := Forall (Forall rule_ok) levels.
(** The other keys do not look like the keys min, max, regexp and enum, and there is no second validate key. *)
Definition earlier_ok (earlier : option string) : Prop :=
  ∀ e k, earlier = Some e → k ∈ ["validate:"; "min:"; "max:"; "regexp:"; "enum:"] → str_contains k e = false.

(** ** Values, and what accepts them *)
(** The numbers of a field of type float64 that are integers stand for all of them. *)
Inductive value := VStr (s : string) | VInt (z : Z) | VList (vs : list value).
Inductive kind := KStr | KInt | KNum | KList (k : kind).
Fixpoint typed (k : kind) (v : value) : Prop :=
  match k, v with KStr, VStr _ | KInt, VInt _ | KNum, VInt _ => True | KList k, VList vs => Forall (typed k) vs | _, _ => False end.
(** The schema of the kind without constraints. *)
Fixpoint base (k : kind) : schema :=
  match k with
  | KStr => Schema "string" "" "" 0 0 0 0 0 0 [] None None
  | KInt => Schema "integer" "int64" "" 0 0 0 0 0 0 [] None None
  | KNum => Schema "number" "" "" 0 0 0 0 0 0 [] None None
  | KList k => Schema "array" "" "" 0 0 0 0 0 0 [] (Some (base k)) None
  end.

(** oneof is not used on numbers. *)
Fixpoint oneof_on_text (k : kind) (levels : list (list rule)) : Prop :=
  match levels with
  | [] => True
  | l :: ls => (k = KInt ∨ k = KNum → ∀ ws, Oneof ws ∉ l) ∧ ∀ k', k = KList k' → oneof_on_text k' ls
  end.

Section accept.
  (** Characters of a string; strings of a format; strings matched by a pattern; other rules. *)
  Context (chars : string → Z) (has_format matches : string → string → Prop) (other : string → value → Prop).
  Open Scope Z_scope.

  Definition size (v : value) : Z := match v with VStr s => chars s | VInt z => z | VList vs => Z.of_nat (length vs) end.
  Definition fmt_name (f : fmt) : string := match f with Email => "email" | Url => "uri" | Uuid => "uuid" end.
  (** The validator on one rule: min, max and len speak of the characters, the number or the elements. *)
  Definition accepts (r : rule) (v : value) : Prop :=
    match r with
    | Required => match v with VStr s => s ≠ "" | VInt z => z ≠ 0 | VList _ => True end
    | Min k => k ≤ size v
    | Max k => size v ≤ k
    | Len k => size v = k
    | Oneof ws => match v with VStr s => s ∈ ws | VInt z => itoa z ∈ ws | VList _ => False end
    | Fmt f => match v with VStr s => has_format (fmt_name f) s | _ => False end
    | Other n => other n v
    | OtherArg n a => other (n +:+ String "=" a) v
    end.
  Fixpoint valid (levels : list (list rule)) (v : value) : Prop :=
    match levels with
    | [] => True
    | l :: ls => Forall (λ r, accepts r v) l ∧ (ls = [] ∨ ∃ vs, v = VList vs ∧ Forall (valid ls) vs)
    end.

  (** JSON Schema on the document as written: a zero bound, an empty text or list is not there. *)
  Definition lower (b x : Z) : Prop := b ≠ 0 → b ≤ x.
  Definition upper (x b : Z) : Prop := b ≠ 0 → x ≤ b.
  Fixpoint conforms (s : schema) (v : value) {struct s} : Prop :=
    let '(Schema ty f p nl xl n x ni xi e i _) := s in
    (e ≠ [] → ∃ t, v = VStr t ∧ t ∈ e) ∧
    match v with
    | VStr t => ty = "string" ∧ lower nl (chars t) ∧ upper (chars t) xl ∧ (f ≠ "" → has_format f t) ∧ (p ≠ "" → matches p t)
    | VInt z => (ty = "integer" ∨ ty = "number") ∧ lower n z ∧ upper z x
    | VList vs => ty = "array" ∧ lower ni (Z.of_nat (length vs)) ∧ upper (Z.of_nat (length vs)) xi ∧
        match i with Some i => Forall (conforms i) vs | None => True end
    end.

  (** Rules that fit the kind, none twice, len not beside min or max, no zero bound. *)
  Definition fits (k : kind) (r : rule) : Prop :=
    match r with
    | Min b | Max b => b ≠ 0
    | Len b => b ≠ 0 ∧ k ≠ KNum
    | Oneof _ | Fmt _ => k = KStr
    | Required => ∃ k', k = KList k'
    | Other _ | OtherArg _ _ => False
    end.
  Definition clash (r r' : rule) : Prop :=
    match r, r' with
    | Min _, Min _ | Max _, Max _ | Len _, (Len _ | Min _ | Max _) | (Min _ | Max _), Len _ | Oneof _, Oneof _ | Fmt _, Fmt _ => True
    | _, _ => False
    end.
  Fixpoint alone (l : list rule) : Prop := match l with [] => True | r :: rs => Forall (λ r', ¬ clash r r') rs ∧ alone rs end.
  Fixpoint tidy (k : kind) (levels : list (list rule)) : Prop :=
    match levels with
    | [] => True
    | l :: ls => Forall (fits k) l ∧ alone l ∧ (ls = [] ∨ ∃ k', k = KList k' ∧ tidy k' ls)
    end.
End accept.
