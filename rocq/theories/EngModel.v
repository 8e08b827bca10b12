(** * What the engine analyses (internal/engine/engine.go). *)
From Coq Require Import Ascii.
From stdpp Require Import base numbers list strings gmap.
From Verif Require Import StrLib StrSub StrSplit DetModel GlobModel.

(** The four pattern lists of spec.IncludeExclude (internal/spec/config.go 673-679). *)
Record pats := Pats { p_files : list string; p_packages : list string; p_functions : list string; p_types : list string }.
(** EngineConfig (engine.go 110-190) as far as it decides what is analysed. [o_rel]: filepath.Rel against the module
    root, or the file itself when that fails. [o_module]: the module path of go.mod, empty when unreadable. *)
Record flags := Flags { o_cgo : bool; o_tests : bool; o_mocks : bool; o_analyse : bool; o_frameworks : bool }.
Record config := Config { o_include : pats; o_exclude : pats; o_flags : flags }.
(** spec.Info (openapi.go) as far as it is filled in from the engine's configuration (engine.go 771-798). *)
Record info := Info { i_title : string; i_description : string; i_version : string; i_terms : string }.
(** APISpecConfig (internal/spec/config.go 823-870): its filters and its info. Not modelled here: everything else. *)
Record apiconfig := ApiConfig { a_include : pats; a_exclude : pats; a_info : info }.
(** packages.Package: its path, GoFiles, Syntax and how many errors it has. A syntax tree is given by the name of the
    file it was parsed from; golang.org/x/tools/go/packages documents Syntax as the trees of CompiledGoFiles. *)
Record lpkg := LPkg { l_path : string; l_files : list string; l_syntax : list string; l_errors : nat }.

Section engine.
Context (other : string → string → option bool).

(** unionStrings (engine.go 960-977). *)
Definition union_step (acc : gset string * list string) (s : string) : gset string * list string :=
  if bool_decide (s ∈ acc.1) then acc else ({[ s ]} ∪ acc.1, acc.2 ++ [s]).
Definition union_strings (base extras : list string) : list string :=
  match extras with [] => base | _ => (foldl union_step (list_to_set base, base) extras).2 end.
(** applyConfigFilters (engine.go 943-956). *)
Definition union_pats (a b : pats) : pats :=
  Pats (union_strings (p_files a) (p_files b)) (union_strings (p_packages a) (p_packages b)) (union_strings (p_functions a) (p_functions b)) (union_strings (p_types a) (p_types b)).
Definition apply_filters (c : config) (api : option apiconfig) : config :=
  match api with None => c | Some a => Config (union_pats (o_include c) (a_include a)) (union_pats (o_exclude c) (a_exclude a)) (o_flags c) end.
(** mergeIncludeExcludePatterns (engine.go 979-1008); appending an empty list changes nothing. *)
Definition append_pats (a b : pats) : pats := Pats (p_files a ++ p_files b) (p_packages a ++ p_packages b) (p_functions a ++ p_functions b) (p_types a ++ p_types b).
Definition merge_filters (c : config) (a : apiconfig) : apiconfig := ApiConfig (append_pats (a_include a) (o_include c)) (append_pats (a_exclude a) (o_exclude c)) (a_info a).

(** shouldIncludePackage (engine.go 1065-1144). Every pattern of the list starts with its only star and slash, so that
    strings.Replace drops two bytes. *)
Definition cgo_patterns : list string := ["*/tensorflow/*"; "*/govips/*"; "*/opencv/*"; "*/ffmpeg/*"; "*/sqlite3"; "*/go-sqlite3"; "*/graft/tensorflow"].
Definition is_cgo (pkg : string) : bool := existsb (λ p, glob_match other p pkg || str_contains (str_drop 2 p) pkg) cgo_patterns.
Definition last_part (pkg : string) : string := match last (split_byte "/" pkg) with Some s => s | None => "" end.
Definition pkg_matches (pkg pattern : string) : bool := glob_match other pattern pkg || glob_match other pattern (last_part pkg).
Definition any_suffix (ends : list string) (s : string) : bool := existsb (λ e, has_suffix e s) ends.
Definition nonempty {A} (l : list A) : bool := match l with [] => false | _ => true end.
Definition include_package (c : config) (pkg : string) : bool :=
  let lower := str_lower pkg in
  if o_cgo (o_flags c) && is_cgo pkg then false
  else if o_tests (o_flags c) && any_suffix ["_test"; "_tests"] lower then false
  else if o_mocks (o_flags c) && any_suffix ["mock"; "mocks"; "fake"; "fakes"; "stub"; "stubs"] lower then false
  else if negb (nonempty (p_files (o_include c))) && negb (nonempty (p_files (o_exclude c))) && negb (nonempty (p_packages (o_include c))) && negb (nonempty (p_packages (o_exclude c))) then true
  else if existsb (pkg_matches pkg) (p_packages (o_exclude c)) then false
  else if nonempty (p_packages (o_include c)) then existsb (pkg_matches pkg) (p_packages (o_include c))
  else true.
(** shouldIncludeFile (engine.go 1147-1188). *)
Definition include_file (c : config) (file : string) : bool :=
  let lower := str_lower file in
  if o_tests (o_flags c) && (has_suffix "test.go" lower || str_contains "/test/" lower || str_contains "/tests/" lower) then false
  else if o_mocks (o_flags c) && any_suffix ["mock.go"; "fake.go"; "stub.go"; "mocks.go"; "fakes.go"; "stubs.go"] lower then false
  else if negb (nonempty (p_files (o_include c))) && negb (nonempty (p_files (o_exclude c))) then true
  else if existsb (λ p, glob_match other p file) (p_files (o_exclude c)) then false
  else if nonempty (p_files (o_include c)) then existsb (λ p, glob_match other p file) (p_files (o_include c))
  else true.

Context (rel : string → string) (module : string).

(** loadFilteredPackages after packages.Load (engine.go 1201-1238): the files that are kept, and the tree at the index of
    each of them, if there is one. *)
Definition keep_files (c : config) (p : lpkg) : list (nat * string) := filter (λ '(_, f), include_file c (rel f) = true) (imap pair (l_files p)).
Definition filter_package (c : config) (p : lpkg) : option lpkg :=
  if include_package c (l_path p) then
    match keep_files c p with
    | [] => None
    | kept => Some (LPkg (l_path p) kept.*2 (omap (λ '(i, _), l_syntax p !! i) kept) (l_errors p))
    end
  else None.
Definition load_filtered (c : config) (pkgs : list lpkg) : list lpkg := omap (filter_package c) pkgs.
(** engine.go 452-478: packages with errors are left out, those of the module are reported. *)
Definition in_module (pkg : string) : bool := bool_decide (pkg = module) || has_prefix (module +:+ "/") pkg.
Definition valid_packages (pkgs : list lpkg) : list lpkg := filter (λ p, l_errors p = 0) pkgs.
Definition skipped_packages (pkgs : list lpkg) : list string := l_path <$> filter (λ p, l_errors p ≠ 0 ∧ (bool_decide (module = "") || in_module (l_path p)) = true) pkgs.
(** One analysed file: package, file name, tree. *)
Definition afile : Type := string * string * string.
(** engine.go 491-522: the packages and files are checked once more; the tree at an index belongs to the file at it.
    pkgsMetadata, fileToInfo and importPaths are given as one list of what is put into them (packages have different paths, so nothing is overwritten). *)
Definition group_files (c : config) (pkgs : list lpkg) : list afile :=
  pkgs ≫= λ p, if include_package c (l_path p) then
    omap (λ '(f, t), if include_file c (rel f) then Some (l_path p, f, t) else None) (zip (l_files p) (l_syntax p)) else [].
(** autoIncludeFrameworkPackages (engine.go 1374-1397). *)
Definition auto_include (c : config) (deps : list string) : config :=
  let inc := o_include c in Config (Pats (p_files inc) (union_strings (p_packages inc) deps) (p_functions inc) (p_types inc)) (o_exclude c) (o_flags c).
(** filterToFrameworkPackages (engine.go 1418-1484). *)
Definition keep_package (deps : list string) (pkg : string) : bool := bool_decide (pkg ∈ deps) || (negb (bool_decide (module = "")) && in_module pkg).
Definition filter_frameworks (deps : list string) (fs : list afile) : list afile := filter (λ f : afile, keep_package deps f.1.1 = true) fs.
(** GenerateMetadataOnlyWithLogger (engine.go 402-578) up to the metadata: nothing when no package is valid, otherwise
    the configuration as it is afterwards and the files that are analysed. [analyse] stands for
    analyzeFrameworkDependencies: the packages it lists, or its failure. *)
Definition metadata_files (analyse : list lpkg → option (list string)) (c : config) (api : option apiconfig) (pkgs : list lpkg) : option (config * list afile) :=
  let c := apply_filters c api in
  let valid := valid_packages (load_filtered c pkgs) in
  if nonempty valid then
    let fs := group_files c valid in
    if o_analyse (o_flags c) then
      match analyse valid with
      | Some deps => if o_frameworks (o_flags c) then Some (auto_include c deps, filter_frameworks deps fs) else Some (c, fs)
      | None => Some (c, fs)
      end
    else Some (c, fs)
  else None.
(** engine.go 771-798: what the engine knows fills what the configuration leaves open. *)
Definition license : string := String "010" (String "010" "Copyright 2026 Ehab Terra. Licensed under the Apache License 2.0. See LICENSE and NOTICE.").
Definition or_else (a b : string) : string := if bool_decide (a = "") then b else a.
Definition fill_info (mine : info) (i : info) : info :=
  Info (or_else (i_title i) (i_title mine)) (or_else (i_description i) (if has_suffix license (i_description mine) then i_description mine else i_description mine +:+ license))
    (or_else (i_version i) (i_version mine)) (or_else (i_terms i) (i_terms mine)).
(** GenerateOpenAPI (engine.go 670-801): the configuration is the given one, else that of the file, else the default; only
    the given one takes part in the analysis. The given configuration is changed in place. *)
Definition generate (analyse : list lpkg → option (list string)) (mine : info) (c : config) (given from_file : option apiconfig) (default : apiconfig) (pkgs : list lpkg) : option (list afile * apiconfig) :=
  match metadata_files analyse c given pkgs with
  | None => None
  | Some (c, fs) =>
      let a := match given with Some a => a | None => match from_file with Some a => a | None => default end end in
      Some (fs, merge_filters c (ApiConfig (a_include a) (a_exclude a) (fill_info mine (a_info a))))
  end.
End engine.

(** A pattern as addPatternOnce sees it: its identity and the rest. *)
Record pattern := Pattern { pt_call : string; pt_recv : string; pt_rest : nat }.
(** addPatternOnce (engine.go 1555-1564). *)
Definition add_once (add : pattern) (ps : list pattern) : list pattern * bool :=
  if existsb (λ p, bool_decide (pt_call p = pt_call add) && bool_decide (pt_recv p = pt_recv add)) ps then (ps, false) else (add :: ps, true).
(** The pattern lists of FrameworkConfig that derived patterns go to. *)
Record framework := Framework { fw_mounts : list pattern; fw_responses : list pattern; fw_requests : list pattern; fw_params : list pattern; fw_routes : list pattern }.
(** DetectedWrapper (internal/spec/wrapper_detect.go); a response says whether one of its roles was resolved. *)
Record wrapper := Wrapper { wr_complete : bool; wr_mount : option pattern; wr_response : option (pattern * bool); wr_request : option pattern; wr_param : option pattern; wr_route : pattern }.
(** applyDetectedWrappers (engine.go 1501-1550). *)
Definition one (b : bool) : nat := if b then 1 else 0.
Definition apply_wrapper (acc : framework * nat) (w : wrapper) : framework * nat :=
  let '(f, n) := acc in
  if wr_complete w then
    let '(mounts, b1) := match wr_mount w with Some p => add_once p (fw_mounts f) | None => (fw_mounts f, false) end in
    let '(responses, b2) := match wr_response w with Some (p, true) => add_once p (fw_responses f) | _ => (fw_responses f, false) end in
    let '(requests, b3) := match wr_request w with Some p => add_once p (fw_requests f) | None => (fw_requests f, false) end in
    let '(params, b4) := match wr_param w with Some p => add_once p (fw_params f) | None => (fw_params f, false) end in
    let roled := match wr_mount w with Some _ => true | None => false end || match wr_response w with Some (_, true) => true | _ => false end
      || match wr_request w with Some _ => true | None => false end || match wr_param w with Some _ => true | None => false end in
    let '(routes, b5) := if roled then (fw_routes f, false) else add_once (wr_route w) (fw_routes f) in
    (Framework mounts responses requests params routes, n + one b1 + one b2 + one b3 + one b4 + one b5)
  else acc.
Definition apply_wrappers (f : framework) (ws : list wrapper) : framework * nat := foldl apply_wrapper (f, 0) ws.
