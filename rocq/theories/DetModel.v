(** * Framework detection and the packages analysed because of it
    (internal/core/detector.go, internal/core/frameworks.go,
     internal/metadata/dependency_analyzer.go). *)
From stdpp Require Import sorting.
From Coq Require Import Ascii.
From stdpp Require Import base list strings gmap relations.
From Verif Require Import StrOrder StrLib StrSplit StrSub StableSort.

(** [strings.Trim(imp.Path.Value, dq)] with [dq] the double quote (detector.go 77, dependency_analyzer.go 269, 410, 527,
    697): the import literal as written in the source, stripped of double quotes. *)
Definition dquote : ascii := "034".
Definition unquote (lit : string) : string := trim dquote lit.

(** ** Registry (internal/core/frameworks.go 34-70)
    ExternalPrefixes and HasDefaultConfig are left out: no function modelled here reads them. *)
Record framework := Framework {
  fw_name : string;
  fw_key : string;
  fw_source : list string;
  fw_imports : list string;
  fw_rank : N
}.

(** [frameworks] (internal/core/frameworks.go 78-144) with [stdlibDetectionRank] (148). *)
Definition registry : list framework :=
  [ Framework "gin" "gin" ["gin-gonic/gin"] ["github.com/gin-gonic/gin"; "github.com/gin-contrib/"] 1;
    Framework "chi" "chi" ["go-chi/chi"] ["github.com/go-chi/chi"; "github.com/go-chi/chi/v5"] 4;
    Framework "echo" "echo" ["labstack/echo"] ["github.com/labstack/echo"; "github.com/labstack/echo/v4"] 2;
    Framework "fiber" "fiber" ["gofiber/fiber"] ["github.com/gofiber/fiber"; "github.com/gofiber/fiber/v2"] 3;
    Framework "mux" "mux" ["gorilla/mux"] ["github.com/gorilla/mux"] 5;
    Framework "fasthttp" "fasthttp" [] ["github.com/valyala/fasthttp"] 6;
    Framework "net/http" "http" [] ["net/http"] 1073741824 ].

(** [Framework.SourceDetectable] (internal/core/frameworks.go 73). *)
Definition source_detectable (f : framework) : bool := negb (bool_decide (fw_source f = [])).

(** [SourceDetectableFrameworks] (internal/core/frameworks.go 185-193). *)
Definition detectable (reg : list framework) : list framework :=
  filter (λ f, source_detectable f = true) reg.

(** [StdlibFramework] and [StdlibDependencyKey] (internal/core/frameworks.go 26, 153). *)
Definition stdlib_framework : string := "net/http".
Definition stdlib_key : string := "http".

(** [matchesAny] (internal/core/detector.go 100-107). *)
Definition matches_any (path : string) (patterns : list string) : bool :=
  existsb (λ p, str_contains p path) patterns.

(** The inner loop of [DetectAll] over the registry for one import
    (internal/core/detector.go 78-83): the first entry that matches, if any. *)
Definition detect_import (det : list framework) (lit : string) : option string :=
  match filter (λ f, matches_any (unquote lit) (fw_source f) = true) det with
  | [] => None
  | f :: _ => Some (fw_name f)
  end.

(** The [add] closure of [DetectAll] (internal/core/detector.go 58-63). *)
Definition det_add (acc : list string) (name : string) : list string :=
  if decide (name ∈ acc) then acc else acc ++ [name].

(** One file of the [DetectAll] loop (internal/core/detector.go 76-84).
    A file is the list of its import literals. *)
Definition det_file (det : list framework) (acc : list string) (imports : list string) : list string :=
  foldl (λ acc lit, match detect_import det lit with Some n => det_add acc n | None => acc end) acc imports.

(** The file loop of [DetectAll] (internal/core/detector.go 70-88), with its early stop.
    [None] is a file the Go parser rejects. *)
Fixpoint det_files (det : list framework) (files : list (option (list string))) (acc : list string) : list string :=
  match files with
  | [] => acc
  | None :: rest => det_files det rest acc
  | Some imports :: rest =>
      let acc' := det_file det acc imports in
      if decide (length acc' = length det) then acc' else det_files det rest acc'
  end.

(** [DetectAll] (internal/core/detector.go 50-96).  Collecting the files (CollectGoFiles) is
    not modelled: the files arrive as a list. *)
Definition detect_all (reg : list framework) (files : list (option (list string))) : list string :=
  match det_files (detectable reg) files [] with
  | [] => [stdlib_framework]
  | l => l
  end.

(** ** Packages
    [packages.Package]: its path and, per file, the import literals.  Everything else of a
    package (functions, types) only decorates the reported entry and is left out. *)
Record package := Package { pk_path : string; pk_files : list (list string) }.

(** All import paths of a package in source order (the nested loops at
    dependency_analyzer.go 266-269, 407-410, 523-527). *)
Definition pk_imports (p : package) : list string := unquote <$> concat (pk_files p).

(** [DependencyConfig] (dependency_analyzer.go 50-81): the parts read below. *)
Record dconfig := DConfig {
  dc_patterns : gmap string (list string);
  dc_external : list string;
  dc_project : list string;
  dc_mock : list string;
  dc_include_external : bool;
  dc_max_depth : nat;
  dc_disabled : gset string
}.

(** [FrameworksByDetectionRank] (internal/core/frameworks.go 157-163): a stable sort by rank. *)
Definition by_rank (reg : list framework) : list framework :=
  stable_sort fw_rank (λ a b, bool_decide (a < b)%N) reg.

(** [frameworkDetectionOrder] (dependency_analyzer.go 371-396).  [iter] is the order in which
    Go ranges over the pattern map. *)
Definition detection_order (reg : list framework) (iter : list string → list string)
    (pats : gmap string (list string)) : list string :=
  let '(order, seen) :=
    foldl (λ '(order, seen) f,
             let k := fw_key f in
             if decide (k ∈ seen) then (order, seen)
             else match pats !! k with
                  | Some _ => (order ++ [k], {[k]} ∪ seen)
                  | None => (order, seen)
                  end)
      ([], {[stdlib_key]} : gset string) (by_rank reg) in
  let extras := filter (λ k, k ∉ seen) (iter (elements (dom pats))) in
  order ++ ssort extras ++
  match pats !! stdlib_key with Some _ => [stdlib_key] | None => [] end.

(** Does the package import something starting with one of the patterns?  The nested loops of
    [detectFrameworkType] (dependency_analyzer.go 405-417). *)
Definition imports_pattern (pats : list string) (p : package) : bool :=
  existsb (λ pat, existsb (λ i, has_prefix pat i) (pk_imports p)) pats.

(** [detectFrameworkType] (dependency_analyzer.go 399-420). *)
Definition detect_type (reg : list framework) (iter : list string → list string) (cfg : dconfig) (p : package) : string :=
  match filter (λ k, k ∉ dc_disabled cfg ∧
                     imports_pattern (default [] (dc_patterns cfg !! k)) p = true)
          (detection_order reg iter (dc_patterns cfg)) with
  | [] => ""
  | k :: _ => k
  end.

(** ** The dependency graph
    [buildDependencyGraph] (dependency_analyzer.go 258-278).  The reverse graph is written but
    never read by the analysis, and is left out. *)
Definition build_graph (pkgs : list package) : gmap string (list string) :=
  foldl (λ g p, <[pk_path p := filter (λ d, d ≠ "") (pk_imports p)]> g) ∅ pkgs.

(** [fd.dependencyGraph[pkgPath]]: a missing key reads as an empty slice. *)
Definition deps_of (g : gmap string (list string)) (p : string) : list string := default [] (g !! p).

(** The loop of [hasTransitiveFrameworkDependency] over one package's dependencies
    (dependency_analyzer.go 451-460); [rec] is the recursive call. *)
Fixpoint trans_loop (rec : string → gset string → option (bool * gset string)) (fw : gset string)
    (ds : list string) (visited : gset string) : option (bool * gset string) :=
  match ds with
  | [] => Some (false, visited)
  | d :: ds' =>
      if decide (d ∈ fw) then Some (true, visited)
      else match rec d visited with
           | None => None
           | Some (true, v) => Some (true, v)
           | Some (false, v) => trans_loop rec fw ds' v
           end
  end.

(** [hasTransitiveFrameworkDependency] (dependency_analyzer.go 440-463).  [None]: the fuel,
    which bounds the recursion depth, ran out. *)
Fixpoint has_trans (fuel : nat) (g : gmap string (list string)) (fw : gset string)
    (p : string) (visited : gset string) : option (bool * gset string) :=
  match fuel with
  | O => None
  | S n =>
      if decide (p ∈ visited) then Some (false, visited)
      else trans_loop (has_trans n g fw) fw (deps_of g p) ({[p]} ∪ visited)
  end.

(** [dependsOnFrameworkPackage] (dependency_analyzer.go 423-437). *)
Definition depends_on (fuel : nat) (g : gmap string (list string)) (fw : gset string) (p : string) : option bool :=
  if existsb (λ d, bool_decide (d ∈ fw)) (deps_of g p) then Some true
  else fst <$> has_trans fuel g fw p ∅.

(** ** Project packages *)

(** [strings.ToLower] on ASCII letters (used at dependency_analyzer.go 582); other bytes are
    left alone, a simplification for non-ASCII paths. *)
Fixpoint str_lower (s : string) : string :=
  match s with
  | EmptyString => EmptyString
  | String c s' =>
      let n := nat_of_ascii c in
      String (if (65 <=? n)%nat && (n <=? 90)%nat then ascii_of_nat (n + 32) else c) (str_lower s')
  end.

(** [isTestMockPackage] (dependency_analyzer.go 581-589). *)
Definition is_mock (cfg : dconfig) (path : string) : bool :=
  existsb (λ p, str_contains p (str_lower path) || has_suffix p (str_lower path)) (dc_mock cfg).

(** [findCommonPrefix] (dependency_analyzer.go 681-688): the loop comparing segments. *)
Fixpoint common_segs (a b : list string) : list string :=
  match a, b with
  | x :: a', y :: b' => if decide (x = y) then x :: common_segs a' b' else []
  | _, _ => []
  end.

(** [findCommonPrefix] (dependency_analyzer.go 681-688). *)
Definition common_prefix (a b : string) : string :=
  str_join "/" (common_segs (split_byte "/" a) (split_byte "/" b)).

(** The loop of [detectProjectRoot] (dependency_analyzer.go 659-664). *)
Fixpoint root_loop (acc : string) (paths : list string) : string :=
  match paths with
  | [] => acc
  | p :: rest =>
      let acc' := common_prefix acc p in
      if decide (acc' = "") then "" else root_loop acc' rest
  end.

(** [detectProjectRoot] (dependency_analyzer.go 639-675).  [paths] is the key set of
    [fd.packages] in the order Go's map range yields it. *)
Definition project_root (paths : list string) : string :=
  match paths with
  | [] => ""
  | p :: rest =>
      let r := root_loop p rest in
      let segs := split_byte "/" r in
      if decide (r = "" ∨ (length segs = 1 ∧ contains_byte "." (default "" (head segs)) = true)) then ""
      else r
  end.

(** [isPackageImportedByProject] (dependency_analyzer.go 691-707). *)
Definition imported_by_project (pkgs : list package) (path : string) : bool :=
  existsb (λ p, existsb (λ i, bool_decide (i = path)) (pk_imports p)) pkgs.

(** [strings.Count(importPath, "/")], as the number of separators. *)
Definition count_slashes (s : string) : nat := length (split_byte "/" s) - 1.

(** [fallbackProjectPackageDetection] (dependency_analyzer.go 710-741). *)
Definition fallback_project (cfg : dconfig) (path : string) : bool :=
  if existsb (λ p, str_contains p path) (dc_project cfg) then true
  else
    let parts := split_byte "/" path in
    let first := default "" (head parts) in
    if (2 <=? length parts) && (contains_byte "-" first || contains_byte "_" first) then true
    else if (2 <=? length parts) && (bool_decide (length parts = 2) && negb (contains_byte "." first)) then true
    else (2 <=? count_slashes path) && negb (str_contains "vendor/" path).

(** [isProjectRelatedPackage] and [isIntelligentProjectPackage] (dependency_analyzer.go 592-634).
    [module] is the module path from go.mod, empty when unknown; [keys] the order in which Go
    ranges over the analysed packages. *)
Definition is_project (cfg : dconfig) (module : string) (pkgs : list package) (keys : list string) (path : string) : bool :=
  if is_mock cfg path then false
  else if existsb (λ p, has_prefix p path) (dc_external cfg) then false
  else if decide (module ≠ "") then bool_decide (path = module) || has_prefix (module +:+ "/") path
  else
    let root := project_root keys in
    if decide (root = "") then fallback_project cfg path
    else if bool_decide (path = root) || has_prefix (root +:+ "/") path then true
    else imported_by_project pkgs path.

(** ** Imported packages *)

(** A collected entry: the path and, when the package was not among the analysed ones, who
    imported it first (the "imported_by" note, dependency_analyzer.go 560-561). *)
Record imported := Imported { im_path : string; im_by : option string }.

(** [availablePackages] (dependency_analyzer.go 476-479): the last package with a path wins. *)
Definition available (pkgs : list package) : gmap string package :=
  foldl (λ m p, <[pk_path p := p]> m) ∅ pkgs.

(** Standard-library test (dependency_analyzer.go 537-539). *)
Definition has_domain (path : string) : bool := contains_byte "/" path || contains_byte "." path.

(** [findImportsRecursivelyWithDepth] (dependency_analyzer.go 506-578).  [k] is
    [MaxImportDepth - depth], so the recursion is structural; [incl] is the inclusion test
    (541-547); the state is [importedPackagePaths] and the collected list. *)
Fixpoint find_imports (k : nat) (avail : gmap string package) (processed : gset string)
    (incl : string → bool) (pkg : package) (st : gset string * list imported) : gset string * list imported :=
  match k with
  | O => st
  | S k' =>
      foldl (λ st path,
        if decide (path ∈ processed ∨ path ∈ st.1) then st
        else if negb (has_domain path) then st
        else if incl path then
          match avail !! path with
          | Some p => find_imports k' avail processed incl p ({[path]} ∪ st.1, st.2 ++ [Imported path None])
          | None => ({[path]} ∪ st.1, st.2 ++ [Imported path (Some (pk_path pkg))])
          end
        else st) st (pk_imports pkg)
  end.

(** [findImportedPackages] (dependency_analyzer.go 466-491).  [order] is the order in which Go
    ranges over the map of direct framework packages. *)
Definition find_imported (k : nat) (avail : gmap string package) (processed : gset string)
    (incl : string → bool) (order : list string) : gset string * list imported :=
  foldl (λ st path, match avail !! path with
                    | Some p => find_imports k avail processed incl p st
                    | None => st
                    end) (∅, []) order.

(** ** The whole analysis *)

(** [FrameworkDependency] (dependency_analyzer.go 27-40) without the decorations. *)
Record fdep := FDep { fd_path : string; fd_type : string; fd_direct : bool }.

(** First loop of [findAllFrameworkPackages] (dependency_analyzer.go 293-322). *)
Definition direct_deps (reg : list framework) (iter : list string → list string) (cfg : dconfig) (pkgs : list package) : list fdep :=
  (λ p, FDep (pk_path p) (detect_type reg iter cfg p) true) <$>
  filter (λ p, is_mock cfg (pk_path p) = false ∧ detect_type reg iter cfg p ≠ "") pkgs.

(** Second loop (dependency_analyzer.go 325-352).  Returns the entries and the processed set. *)
Fixpoint dependent_deps (fuel : nat) (cfg : dconfig) (g : gmap string (list string)) (fw : gset string)
    (pkgs : list package) (processed : gset string) : option (list fdep * gset string) :=
  match pkgs with
  | [] => Some ([], processed)
  | p :: rest =>
      if decide (pk_path p ∈ processed) then dependent_deps fuel cfg g fw rest processed
      else if is_mock cfg (pk_path p) then dependent_deps fuel cfg g fw rest processed
      else match depends_on fuel g fw (pk_path p) with
           | None => None
           | Some false => dependent_deps fuel cfg g fw rest processed
           | Some true =>
               '(l, pr) ← dependent_deps fuel cfg g fw rest ({[pk_path p]} ∪ processed);
               Some (FDep (pk_path p) "dependent" false :: l, pr)
           end
  end.

(** [findAllFrameworkPackages] (dependency_analyzer.go 281-364), called from
    [AnalyzeFrameworkDependencies] (213-256) after the package map and graph are built.
    [iter] orders every map range. *)
Definition find_all (fuel : nat) (reg : list framework) (iter : list string → list string) (cfg : dconfig)
    (module : string) (pkgs : list package) : option (list fdep) :=
  let direct := direct_deps reg iter cfg pkgs in
  let fw : gset string := list_to_set (fd_path <$> direct) in
  '(dependent, processed) ← dependent_deps fuel cfg (build_graph pkgs) fw pkgs fw;
  let incl path := dc_include_external cfg || is_project cfg module pkgs (iter (elements (dom (available pkgs)))) path in
  let imp := (find_imported (dc_max_depth cfg) (available pkgs) processed incl (iter (elements fw))).2 in
  Some (direct ++ dependent ++ ((λ i, FDep (im_path i) "imported" false) <$> imp)).
