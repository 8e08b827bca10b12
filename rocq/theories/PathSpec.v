(** * Specification of document paths and operations. *)
From Coq Require Import Ascii.
From stdpp Require Import base list strings gmap.
From Verif Require Import StrOrder StrLib RouteModel PathModel.

(** An identifier in the sense of the router: a letter or underscore, then letters,
    digits and underscores. *)
Definition ident (n : string) : Prop := ∃ c s, n = String c s ∧ ident_start c = true ∧ str_any (λ c, negb (ident_char c)) s = false.
Definition free_of (c : ascii) (s : string) : Prop := ¬ ∃ a b, s = a +:+ String c b.

(** Text with matching braces. *)
Inductive balanced : string → Prop :=
| bal_nil : balanced ""
| bal_char c s : c ≠ c_lbrace → c ≠ c_rbrace → balanced s → balanced (String c s)
| bal_group s t : balanced s → balanced t → balanced (String c_lbrace (s +:+ String c_rbrace t)).

(** A router path as people write it: literal text, [:name], and [{name}] with or
    without a constraint. *)
Inductive piece := Lit (s : string) | Colon (n : string) | Brace (n : string) (pattern : option string).
Definition piece_ok (p : piece) : Prop :=
  match p with
  | Lit s => s ≠ "" ∧ free_of c_lbrace s ∧ free_of c_rbrace s ∧ free_of c_colon s
  | Colon n => ident n
  | Brace n pat => free_of c_lbrace n ∧ free_of c_rbrace n ∧ free_of c_colon n ∧
                   match pat with Some r => balanced r | None => True end
  end.
(** After [:name] the name must end. *)
Fixpoint well_formed (ps : list piece) : Prop :=
  match ps with
  | [] => True
  | p :: ps =>
    piece_ok p ∧ well_formed ps ∧
    match p, ps with Colon _, Lit (String c _) :: _ => ident_char c = false | _, _ => True end
  end.
Definition show_piece (p : piece) : string :=
  match p with
  | Lit s => s
  | Colon n => String c_colon n
  | Brace n None => String c_lbrace (n +:+ String c_rbrace "")
  | Brace n (Some r) => String c_lbrace (n +:+ String c_colon (r +:+ String c_rbrace ""))
  end.
Definition show (ps : list piece) : string := foldr (λ p s, show_piece p +:+ s) "" ps.
(** The same path in OpenAPI syntax. *)
Definition openapi_piece (p : piece) : piece := match p with Lit s => Lit s | Colon n => Brace n None | Brace n _ => Brace n None end.
Definition openapi (ps : list piece) : list piece := openapi_piece <$> ps.

(** [{n}] occurs in the path, for an identifier [n]. *)
Definition placeholder (path n : string) : Prop :=
  ident n ∧ ∃ a b, path = a +:+ String c_lbrace (n +:+ String c_rbrace b).
(** No placeholder occurs twice. *)
Definition placeholders_distinct (path : string) : Prop :=
  ∀ n a b a' b', ident n → path = a +:+ String c_lbrace (n +:+ String c_rbrace b) →
    path = a' +:+ String c_lbrace (n +:+ String c_rbrace b') → a = a'.
(** A parameter object declares the required path parameter [n], directly or by
    reference to the document's component parameters. *)
Definition declares_here (p : prm) (n : string) : Prop :=
  pr_ref p = "" ∧ pr_name p = n ∧ pr_in p = "path" ∧ pr_required p = true.
Definition declares (comps : gmap string prm) (p : prm) (n : string) : Prop :=
  declares_here p n ∨
  ∃ key q, pr_ref p = "#/components/parameters/" +:+ key ∧ comps !! key = Some q ∧ declares_here q n.
(** What the handler analysis delivers: inline parameters, path parameters
    required. *)
Definition handler_params (ps : list prm) : Prop :=
  ∀ p, p ∈ ps → pr_ref p = "" ∧ (pr_in p = "path" → pr_required p = true) ∧ free_of ":"%char (pr_in p).
(** A name whose first letter is not upper case. *)
Definition uncapitalised (n : string) : Prop := ∃ c s, n = String c s ∧ in_range "A" "Z" c = false.

(** The last route for a path and method. *)
Definition last_for (routes : list oroute) (path method : string) (r : oroute) : Prop :=
  ∃ before after, routes = before ++ r :: after ∧ route_path r = path ∧ to_upper (o_method r) = method ∧
    ∀ r', r' ∈ after → ¬ (route_path r' = path ∧ to_upper (o_method r') = method).

(** A response whose status is known. *)
Definition known (r : resp) : Prop := (0 ≤ rp_status r)%Z.
(** The preferred one among several bodies: a concrete body beats a generic one and
    then the smaller type name wins. *)
Definition preferred (r x : resp) : Prop :=
  (response_concrete x = true → response_concrete r = true) ∧
  (response_concrete x = response_concrete r → string_le (rp_body r) (rp_body x)).
(** Statuses without a body: 1xx, 204, 205 and 304. *)
Definition no_body (code : Z) : Prop := (100 ≤ code < 200)%Z ∨ code = 204%Z ∨ code = 205%Z ∨ code = 304%Z.
Global Instance no_body_dec code : Decision (no_body code).
Proof. unfold no_body. apply _. Defined.
Global Instance known_dec r : Decision (known r).
Proof. unfold known. apply _. Defined.

(** ** ServeMux patterns: literal text, [{name}], [{name...}] and the end anchor. *)
Inductive mux := MuxLit (s : string) | MuxVar (n : string) | MuxRest (n : string) | MuxEnd.
Definition mux_ok (m : mux) : Prop :=
  match m with MuxLit s => free_of c_lbrace s | MuxVar n | MuxRest n => ident n | MuxEnd => True end.
Definition show_mux (m : mux) : string :=
  match m with
  | MuxLit s => s
  | MuxVar n => "{" +:+ n +:+ "}"
  | MuxRest n => "{" +:+ n +:+ "...}"
  | MuxEnd => "{$}"
  end.
(** The same piece in OpenAPI syntax. *)
Definition openapi_mux (m : mux) : string :=
  match m with MuxLit s => s | MuxVar n | MuxRest n => "{" +:+ n +:+ "}" | MuxEnd => "" end.
Definition all_of (cs s : string) : Prop := ∀ c a b, s = a +:+ String c b → ∃ x y, cs = x +:+ String c y.
(** A path as it stands in a pattern: it starts with a slash and does not end in
    white space or a quote. *)
Definition pattern_path (p : string) : Prop :=
  (∃ s, p = "/" +:+ s) ∧ ∃ s c, p = s +:+ String c "" ∧ free_of c (quotes +:+ spaces).
