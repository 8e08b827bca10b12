(** * Diagram pages: specification for C65. *)
From Coq Require Import Ascii ZArith.
From stdpp Require Import base numbers list strings gmap relations.
From Verif Require Import StrLib StrSub ScanModel DetModel DiagModel.

Definition unique_ids (data : ddata) : Prop := NoDup (n_id <$> d_nodes data).
Definition drawn (es : list dedge) (x y : string) : Prop := ∃ e, e ∈ es ∧ e_src e = x ∧ e_dst e = y.
(** A function nobody is drawn to call, or one called main. *)
Definition starts (data : ddata) (x : string) : Prop :=
  ∃ n, n ∈ d_nodes data ∧ n_id n = x ∧ ((∀ y, ¬ drawn (d_edges data) y x) ∨ n_label n = "main" ∨ n_fname n = "main").
(** [x] is [d] calls away from the nearest start. *)
Definition calls_away (data : ddata) (x : string) (d : nat) : Prop :=
  (∃ r, starts data r ∧ nsteps (drawn (d_edges data)) d r x) ∧ ∀ r d', starts data r → nsteps (drawn (d_edges data)) d' r x → d ≤ d'.

(** [term], without white space around it, occurs in [text], upper and lower case alike. *)
Definition occurs (term text : string) : Prop := ∃ a b, str_lower text = a +:+ str_lower (trim_space term) +:+ b.
(** A list of terms that is empty asks for nothing; otherwise one of them must do. *)
Definition one_of (terms : list string) (P : string → Prop) : Prop := terms = [] ∨ ∃ t, t ∈ terms ∧ P t.
Definition wanted (f : filters) (n : dnode) : Prop :=
  one_of (f_packages f) (λ t, ∃ a b, n_pkg n = a +:+ trim_space t +:+ b)
  ∧ one_of (f_functions f) (λ t, t ≠ "" ∧ occurs t (n_label n))
  ∧ one_of (f_files f) (λ t, (n_position n ≠ "" ∧ occurs t (n_position n)) ∨ ∃ p, p ∈ n_paths n ∧ occurs t p)
  ∧ (n_receiver n = "" ∨ one_of (f_receivers f) (λ t, occurs t (n_receiver n)))
  ∧ (n_signature n = "" ∨ one_of (f_signatures f) (λ t, occurs t (n_signature n)))
  ∧ (∀ gs, n_generics n = Some gs → one_of (f_generics f) (λ t, ∃ g, g ∈ gs ∧ occurs t g))
  ∧ (f_scope f = "" ∨ f_scope f = "all" ∨ (∀ s, s = "exported" ∨ s = "unexported" → str_lower (trim_space (f_scope f)) = s → str_lower (trim_space (n_scope n)) = s)).

(** Filters whose text cannot be taken apart wrongly in a key. *)
Definition plain_term (t : string) : Prop := t ≠ "" ∧ contains_byte " " t = false ∧ contains_byte "[" t = false ∧ contains_byte "]" t = false.
Definition plain_filters (f : filters) : Prop :=
  Forall plain_term (f_packages f) ∧ Forall plain_term (f_functions f) ∧ Forall plain_term (f_files f) ∧ Forall plain_term (f_receivers f) ∧ Forall plain_term (f_signatures f) ∧ Forall plain_term (f_generics f).
Definition plain_request (r : request) : Prop := (1 ≤ r_page r ∧ 1 ≤ r_size r)%Z ∧ plain_filters (r_filters r).

(** [p]: the function that encloses [n], marked as one, if it is not shown already. *)
Definition enclosing (all shown : list dnode) (n p : dnode) : Prop := n_parent n ≠ "" ∧ (∀ m, m ∈ shown → n_id m ≠ n_parent n) ∧ ∃ q, q ∈ all ∧ n_id q = n_parent n ∧ p = set_parent q.

(** The nodes that answer a request, whatever the page. *)
Definition listed (call_graph : bool) (data : ddata) (depth : Z) (f : filters) (n : dnode) : Prop :=
  n ∈ d_nodes data ∧ wanted f n ∧ (call_graph = true → (0 ≤ depth)%Z → ∃ d, calls_away data (n_id n) d ∧ (Z.of_nat d ≤ depth)%Z).
(** Node numbers of a tracker tree: the first node and those called main. *)
Definition main_node (n : dnode) : Prop := n_id n = "node_0" ∨ n_label n = "main".
Definition one_main (data : ddata) : Prop := ∀ n m, n ∈ d_nodes data → m ∈ d_nodes data → main_node n → main_node m → n = m.
(** Where a tracker tree starts: a node no edge leads to, or one of depth 0. *)
Definition tree_start (es : list dedge) (n : dnode) : Prop := (∀ x, ¬ drawn es x (n_id n)) ∨ n_depth n = 0.
Definition call_edges (es : list dedge) : list dedge := filter (λ e, e_type e = "calls") es.
(** The requests of a run ask for plain terms and nobody changes the project. *)
Definition quiet {D} (diagram : string) (work : D → request → option page_result) (s s' : server D) : Prop :=
  ∃ o, serve diagram work s o s' ∧ s_data s' = s_data s ∧ ∀ r p, (r, p) ∈ s_making s' → plain_request r.
