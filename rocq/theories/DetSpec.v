(** * What framework detection should do, without reference to how it is done *)
From stdpp Require Import sorting.
From Coq Require Import Ascii.
From stdpp Require Import base list strings gmap relations.
From Verif Require Import StrOrder StrLib DetModel.

(** An import as written in the source, and the path it denotes: Go accepts interpreted
    (double-quoted) and raw (back-quoted) string literals. *)
Definition bquote : ascii := "`".
Definition quoted (path : string) : string := String dquote (path +:+ String dquote "").
Definition raw_quoted (path : string) : string := String bquote (path +:+ String bquote "").
Definition plain (path : string) : Prop := contains_byte dquote path = false ∧ contains_byte bquote path = false.
Definition denotes (lit path : string) : Prop := plain path ∧ (lit = quoted path ∨ lit = raw_quoted path).

(** Markers are non-empty and contain no quotes. *)
Definition good_marker (m : string) : Prop := m ≠ "" ∧ contains_byte bquote m = false ∧ contains_byte dquote m = false.

(** The markers users rely on (README): framework name and the import path fragment. *)
Definition documented_markers : list (string * string) :=
  [("gin", "gin-gonic/gin"); ("chi", "go-chi/chi"); ("echo", "labstack/echo");
   ("fiber", "gofiber/fiber"); ("mux", "gorilla/mux")].

(** The path contains one of the framework's markers. *)
Definition marked (f : framework) (path : string) : Prop :=
  ∃ m, m ∈ fw_source f ∧ ∃ a b, path = a +:+ m +:+ b.

(** The framework an import path stands for: the first registered one it is marked with. *)
Definition recognised (reg : list framework) (path n : string) : Prop :=
  ∃ pre f post, reg = pre ++ f :: post ∧ fw_name f = n ∧ marked f path ∧ ∀ g, g ∈ pre → ¬ marked g path.

(** [found] lists what the imports stand for, each once, in order of first appearance. *)
Definition first_seen (reg : list framework) (imports found : list string) : Prop :=
  NoDup found ∧
  (∀ n, n ∈ found ↔ ∃ i, i ∈ imports ∧ recognised reg i n) ∧
  (∀ a n b m, found = a ++ n :: b → m ∈ b →
     ∃ s1 i s2, imports = s1 ++ i :: s2 ∧ recognised reg i n ∧ ∀ j, j ∈ s1 → ¬ recognised reg j m).

(** The source files, as paths: parse failures contribute nothing. *)
Definition file_denotes (f : option (list string)) (paths : list string) : Prop :=
  match f with None => paths = [] | Some lits => Forall2 denotes lits paths end.

(** ** Classification *)

(** The package imports a path starting with a pattern registered for [k], and [k] is on. *)
Definition uses (cfg : dconfig) (paths : list string) (k : string) : Prop :=
  k ∉ dc_disabled cfg ∧
  ∃ pats pat i, dc_patterns cfg !! k = Some pats ∧ pat ∈ pats ∧ i ∈ paths ∧ ∃ t, i = pat +:+ t.

(** Known frameworks in this order, then other keys alphabetically, then "http". *)
Definition known : list string := ["gin"; "echo"; "fiber"; "chi"; "mux"; "fasthttp"].
Definition outranks (k1 k2 : string) : Prop :=
  (∃ a b c, known = a ++ k1 :: b ++ k2 :: c) ∨
  (k1 ∈ known ∧ k2 ∉ known) ∨
  (k1 ∉ known ∧ k2 ∉ known ∧ k1 ≠ "http" ∧ k2 ≠ "http" ∧ string_lt k1 k2 = true) ∨
  (k1 ≠ "http" ∧ k2 = "http").

(** Every import of the package is an interpreted (double-quoted) literal; [paths] are its
    import paths. *)
Definition imports_are (p : package) (paths : list string) : Prop :=
  Forall2 (λ lit path, plain path ∧ lit = quoted path) (concat (pk_files p)) paths.
(** Every import of the package is a Go string literal of either kind. *)
Definition imports_denote (p : package) (paths : list string) : Prop :=
  Forall2 denotes (concat (pk_files p)) paths.

(** Test and mock packages, recognised by a fragment of the lower-cased path. *)
Definition mocklike (cfg : dconfig) (path : string) : Prop :=
  ∃ m a b, m ∈ dc_mock cfg ∧ str_lower path = a +:+ m +:+ b.

(** ** Import graph *)

(** The package the analysis keeps for a path: the last one with it. *)
Definition package_at (pkgs : list package) (p : string) (pk : package) : Prop :=
  ∃ a b, pkgs = a ++ pk :: b ∧ pk_path pk = p ∧ ∀ x, x ∈ b → pk_path x ≠ p.
Definition imports (pkgs : list package) (p q : string) : Prop :=
  ∃ pk, package_at pkgs p pk ∧ q ∈ pk_imports pk.
Definition nonempty_imports (pkgs : list package) (p q : string) : Prop := imports pkgs p q ∧ q ≠ "".

(** ** Project root *)
Definition under (r p : string) : Prop := p = r ∨ ∃ t, p = r +:+ "/" +:+ t.
(** A bare host name: one segment with a dot. *)
Definition bare_host (s : string) : Prop := contains_byte "/" s = false ∧ contains_byte "." s = true.

(** A package of the project that itself imports a framework. *)
Definition framework_package (cfg : dconfig) (pkgs : list package) (p : string) : Prop :=
  ∃ pk, pk ∈ pkgs ∧ pk_path pk = p ∧ ¬ mocklike cfg p ∧ ∃ k, uses cfg (pk_imports pk) k.

(** Importing [q] pulls it into the analysis: it is not a bare standard-library name, it is
    wanted, and it is not already covered. *)
Definition pulled_by (pkgs : list package) (wanted covered : string → Prop) (p q : string) : Prop :=
  imports pkgs p q ∧ (contains_byte "/" q = true ∨ contains_byte "." q = true) ∧ wanted q ∧ ¬ covered q.
