(** * Specification of documented security. *)
From stdpp Require Import base list strings gmap.
From Verif Require Import SecModel.

(** Credentials: for each scheme the scopes a caller holds, if it has the scheme
    at all. *)
Definition creds := string → option (list string).
Definition satisfies (c : creds) (r : gmap string (list string)) : Prop :=
  ∀ name scopes, r !! name = Some scopes → ∃ have, c name = Some have ∧ scopes ⊆ have.
(** OpenAPI: a list of requirements accepts credentials that satisfy one of them;
    an empty list accepts everything. *)
Definition accepts (c : creds) (reqs : list (gmap string (list string))) : Prop :=
  reqs = [] ∨ ∃ r, r ∈ reqs ∧ satisfies c r.
(** What one mapping demands, config.go 551-554: all of its schemes, and one of its
    groups if it has any. *)
Definition mapping_satisfied (c : creds) (m : smapping) : Prop :=
  (∀ r, r ∈ sm_schemes m → satisfies c r) ∧
  (sm_anyof m = [] ∨ ∃ g, g ∈ sm_anyof m ∧ ∀ r, r ∈ g → satisfies c r).

(** The mappings that contribute to a chain of middleware. *)
Definition contributing (mt : smapping → mref → bool) (refs : list mref) (mappings : list smapping)
  : list smapping :=
  r ← refs; filter (λ m, mt m r = true ∧ sm_skip m = false) mappings.
(** Requirements that name the same scheme ask for the same scopes of it. *)
Definition compatible (rs : list (gmap string (list string))) : Prop :=
  ∀ r1 r2 k v1 v2, r1 ∈ rs → r2 ∈ rs → r1 !! k = Some v1 → r2 !! k = Some v2 → v1 = v2.
Definition all_schemes (ms : list smapping) : list (gmap string (list string)) := m ← ms; sm_schemes m.

(** ** Reaching a middleware through calls *)
Section leads.
Context (mt : mref → bool) (edges : string → list mref).
(** One call through an unmatched, identified function. *)
Definition passes (k k' : string) : Prop :=
  ∃ r, r ∈ edges k ∧ mref_empty r = false ∧ mt r = false ∧ middleware_base_id r = k' ∧ k' ≠ "".
(** The body of [k], or of something it transitively calls, calls the matching [r]. *)
Definition leads (k : string) (r : mref) : Prop :=
  ∃ k', rtc passes k k' ∧ r ∈ edges k' ∧ mref_empty r = false ∧ mt r = true.
Definition acyclic : Prop := ∀ k, ¬ tc passes k k.
End leads.
(** Contained up to the rendered identity. *)
Definition listed (r : mref) (l : list mref) : Prop := ∃ r', r' ∈ l ∧ mref_string r' = mref_string r.

(** ** Names *)
Definition names_scheme (r : gmap string (list string)) (n : string) : Prop := is_Some (r !! n).
Definition mapping_names (m : smapping) (n : string) : Prop :=
  (∃ r, r ∈ sm_schemes m ∧ names_scheme r n) ∨ ∃ g r, g ∈ sm_anyof m ∧ r ∈ g ∧ names_scheme r n.
(** A document refers to a scheme, globally or from one of its operations. *)
Definition refers (doc : list (gmap string (list string))) (routes : list (list (gmap string (list string)))) (n : string) : Prop :=
  (∃ r, r ∈ doc ∧ names_scheme r n) ∨ ∃ rt r, rt ∈ routes ∧ r ∈ rt ∧ names_scheme r n.
(** A preset declares the schemes its mappings ask for. *)
Definition self_contained {S} (b : @bundle S) : Prop :=
  ∀ m n, m ∈ bd_mappings b → mapping_names m n → is_Some (bd_schemes b !! n).
(** The project imports something one of the preset's expressions matches. *)
Definition imported (re : string → string → option bool) (paths : list string) {S} (b : @bundle S) : Prop :=
  ∃ expr imp, expr ∈ bd_imports b ∧ imp ∈ paths ∧ imp ≠ "" ∧ re expr imp = Some true.
(** An identity whose parts can be read back from its rendering: a function name
    has no dot and is not the placeholder, an import path has no parenthesis. *)
Definition plain_ref (r : mref) : Prop :=
  ¬ (∃ a b, mr_fn r = a +:+ "." +:+ b) ∧ mr_fn r ≠ "<anonymous>" ∧ ¬ (∃ a b, mr_pkg r = a +:+ "(" +:+ b).
