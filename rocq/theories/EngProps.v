(** * What the engine analyses (C67), and running it again (C68). *)
From Coq Require Import Ascii.
From stdpp Require Import base numbers list strings gmap.
From Verif Require Import StrLib StrSub StrSplit DetModel GlobModel EngModel EngSpec EngProofs.

Section engine.
Context (other : string → string → option bool) (rel : string → string) (module : string).

(** The rules for packages and files: excluded beats included, and with nothing to include everything is. *)
Theorem C67_package_rule c pkg : include_package other c pkg = true ↔ wanted_package other c pkg.
Proof. apply include_package_spec. Qed.
Theorem C67_file_rule c file : include_file other c file = true ↔ wanted_file other c file.
Proof. apply include_file_spec. Qed.

Lemma in_force_same c given d : in_force c given d → same_patterns (apply_filters c given) d.
Proof.
  intros (Hf & Hg). unfold apply_filters. destruct given as [a|]; [|subst d; repeat split; done].
  destruct Hg as (H1 & H2 & H3 & H4). unfold same_patterns, same_members. cbn. split; [|split; [|split; [|split]]].
  - intros x. rewrite elem_of_union_strings. symmetry. apply H1.
  - intros x. rewrite elem_of_union_strings. symmetry. apply H2.
  - intros x. rewrite elem_of_union_strings. symmetry. apply H3.
  - intros x. rewrite elem_of_union_strings. symmetry. apply H4.
  - done.
Qed.

(** A file is analysed exactly when its package loads without errors, package and file are wanted by the patterns in
    force, and, if packages are narrowed down to frameworks, the package is listed or belongs to the module. *)
Theorem C67_analysed analyse mine c given from_file default pkgs fs a d :
  generate other rel module analyse mine c given from_file default pkgs = Some (fs, a) → in_force c given d →
  ∃ deps : option (list string),
    (∀ l, deps = Some l → o_analyse (o_flags c) = true ∧ o_frameworks (o_flags c) = true ∧ ∃ valid, analyse valid = Some l ∧
       ∀ q, q ∈ valid → l_errors q = 0 ∧ wanted_package other d (l_path q)) ∧
    (deps = None → o_analyse (o_flags c) = false ∨ o_frameworks (o_flags c) = false ∨ ∃ valid, analyse valid = None) ∧
    ∀ pkg f t, (pkg, f, t) ∈ fs ↔
      (∃ p, p ∈ pkgs ∧ l_path p = pkg ∧ l_errors p = 0 ∧ paired p f t) ∧ wanted_package other d pkg ∧ wanted_file other d (rel f) ∧
      ∀ l, deps = Some l → pkg ∈ l ∨ module ≠ "" ∧ of_module module pkg.
Proof.
  intros Hgen Hd. apply in_force_same in Hd. unfold generate in Hgen.
  destruct (metadata_files other rel module analyse c given pkgs) as [[c' fs']|] eqn:Hm; [|done]. injection Hgen as -> _.
  unfold metadata_files in Hm. set (c1 := apply_filters c given) in *.
  assert (o_flags c1 = o_flags c) as Hfl by (by destruct given).
  destruct (nonempty (valid_packages (load_filtered other rel c1 pkgs))); [|done].
  assert (∀ pkg f t, (pkg, f, t) ∈ group_files other rel c1 (valid_packages (load_filtered other rel c1 pkgs)) ↔
    (∃ p, p ∈ pkgs ∧ l_path p = pkg ∧ l_errors p = 0 ∧ paired p f t) ∧ wanted_package other d pkg ∧ wanted_file other d (rel f)) as Hgroup.
  { intros pkg f t. rewrite group_spec. rewrite <- include_package_spec, <- include_file_spec.
    rewrite <- (same_include_package other c1 d) by done. rewrite <- (same_include_file other c1 d) by done.
    assert (∀ p, (f, t) ∈ zip (l_files p) (l_syntax p) ↔ paired p f t) as Hzip.
    { intros p. unfold paired. rewrite elem_of_lookup_zip_with. split.
      - intros (i & x & y & [= -> ->] & ? & ?). by exists i. - intros (i & ? & ?). by exists i, f, t. }
    setoid_rewrite Hzip. clear. split.
    - intros (p & ? & ? & ? & ? & ? & ?). split; [by exists p|done].
    - intros ((p & ? & ? & ? & ?) & ? & ?). by exists p. }
  rewrite Hfl in Hm. destruct (o_analyse (o_flags c)) eqn:Ha.
  2:{ injection Hm as _ <-. exists None. split; [done|]. split; [by left|]. intros pkg f t. rewrite Hgroup. clear. split; [intros (? & ? & ?); repeat (split; [done|]); by intros l [=]|intros (? & ? & ? & _); auto]. }
  destruct (analyse (valid_packages (load_filtered other rel c1 pkgs))) as [deps|] eqn:Hdeps.
  2:{ injection Hm as _ <-. exists None. split; [done|]. split; [intros _; right; right; by eexists|]. intros pkg f t. rewrite Hgroup. clear. split; [intros (? & ? & ?); repeat (split; [done|]); by intros l [=]|intros (? & ? & ? & _); auto]. }
  destruct (o_frameworks (o_flags c)) eqn:Hfr.
  2:{ injection Hm as _ <-. exists None. split; [done|]. split; [auto|]. intros pkg f t. rewrite Hgroup. clear. split; [intros (? & ? & ?); repeat (split; [done|]); by intros l [=]|intros (? & ? & ? & _); auto]. }
  injection Hm as _ <-. exists (Some deps). split; [|split; [done|]].
  - intros l [= <-]. split; [done|]. split; [done|]. eexists. split; [exact Hdeps|].
    intros q [He Hq]%elem_of_list_filter. apply elem_of_list_omap in Hq as (p & Hp & Hf).
    destruct (filter_package_zip other rel c1 p q Hf) as (Hpath & _ & Hi & _). split; [done|]. rewrite Hpath. apply include_package_spec. by rewrite <- (same_include_package other c1 d).
  - intros pkg f t. unfold filter_frameworks. rewrite elem_of_list_filter, Hgroup. cbn [fst].
    assert (keep_package module deps pkg = true ↔ ∀ l, Some deps = Some l → pkg ∈ l ∨ module ≠ "" ∧ of_module module pkg) as ->.
    { unfold keep_package. rewrite orb_true_iff, andb_true_iff, negb_true_iff, bool_decide_eq_true, bool_decide_eq_false, in_module_spec. split.
      - intros H l [= <-]. done. - intros H. by apply H. }
    clear. split; [intros (? & ? & ? & ?); auto|intros (? & ? & ? & ?); auto].
Qed.

(** The tree analysed under a file's name is that file's, provided every package's trees are those of its files. *)
Theorem C67_own_tree_partial analyse mine c given from_file default pkgs fs a pkg f t :
  generate other rel module analyse mine c given from_file default pkgs = Some (fs, a) →
  (∀ p, p ∈ pkgs → l_syntax p = l_files p) → (pkg, f, t) ∈ fs → t = f.
Proof.
  intros Hgen Hal Hin. assert (in_force c given (apply_filters c given)) as Hforce.
  { split; [by destruct given|]. destruct given as [g|]; [|done]. unfold union_of. cbn. repeat (split; [intros x; by rewrite elem_of_union_strings|]). intros x. by rewrite elem_of_union_strings. }
  destruct (C67_analysed _ _ _ _ _ _ _ _ _ _ Hgen Hforce) as (deps & _ & _ & Hiff).
  apply Hiff in Hin as ((p & Hp & _ & _ & i & Hf & Ht) & _). rewrite (Hal p Hp) in Ht. congruence.
Qed.

(** Packages with errors are reported when they are the module's own and would have been analysed. *)
Theorem C67_skipped c pkgs pkg :
  pkg ∈ skipped_packages module (load_filtered other rel c pkgs) ↔
  ∃ p f, p ∈ pkgs ∧ l_path p = pkg ∧ l_errors p ≠ 0 ∧ f ∈ l_files p ∧ wanted_package other c pkg ∧ wanted_file other c (rel f) ∧ (module = "" ∨ of_module module pkg).
Proof.
  unfold skipped_packages. rewrite elem_of_list_fmap. setoid_rewrite elem_of_list_filter. setoid_rewrite elem_of_list_omap.
  assert (∀ x, (bool_decide (module = "") || in_module module x) = true ↔ module = "" ∨ of_module module x) as Hmod.
  { intros x. by rewrite orb_true_iff, bool_decide_eq_true, in_module_spec. }
  assert (∀ p f, (∃ i, (i, f) ∈ keep_files other rel c p) ↔ f ∈ l_files p ∧ include_file other c (rel f) = true) as Hkeep.
  { intros p f. unfold keep_files. setoid_rewrite elem_of_list_filter. setoid_rewrite elem_of_lookup_imap. split.
    - intros (i & Hi & j & x & [= -> ->] & Hx). split; [by eapply elem_of_list_lookup_2|done].
    - intros [[i Hi]%elem_of_list_lookup Hf]. exists i. split; [done|]. by exists i, f. }
  split.
  - intros (q & -> & [He Hm] & p & Hp & Hf). destruct (filter_package_zip other rel c p q Hf) as (Hpath & Herr & Hi & _).
    unfold filter_package in Hf. rewrite Hi in Hf. destruct (keep_files other rel c p) as [|[i f] kept] eqn:Hk; [done|].
    destruct (proj1 (Hkeep p f)) as [Hfl Hinc]; [exists i; rewrite Hk; apply elem_of_cons; by left|].
    exists p, f. rewrite Hpath in *. split; [done|]. split; [done|]. split; [congruence|]. split; [done|].
    split; [by apply include_package_spec|]. split; [by apply include_file_spec|]. by apply Hmod.
  - intros (p & f & Hp & <- & He & Hf & Hw & Hwf & Hm). apply include_package_spec in Hw. apply include_file_spec in Hwf.
    destruct (proj2 (Hkeep p f)) as [i Hi]; [done|].
    unfold filter_package. destruct (keep_files other rel c p) as [|x kept] eqn:Hk; [by apply elem_of_nil in Hi|].
    exists (LPkg (l_path p) (x :: kept).*2 (omap (λ '(i, _), l_syntax p !! i) (x :: kept)) (l_errors p)). cbn [l_path l_errors].
    split; [done|]. split; [split; [done|by apply Hmod]|]. exists p. split; [done|]. by rewrite Hw, Hk.
Qed.

(** The patterns for functions and types, the filters of a configuration read from a file and those of the default do
    not change what is analysed. *)
Definition with_names (p : pats) (fns tys : list string) : pats := Pats (p_files p) (p_packages p) fns tys.
Theorem C67_functions_and_types_ignored analyse mine c given from_file default pkgs f1 t1 f2 t2 f3 t3 f4 t4 :
  fst <$> generate other rel module analyse mine (Config (with_names (o_include c) f1 t1) (with_names (o_exclude c) f2 t2) (o_flags c))
    ((λ a, ApiConfig (with_names (a_include a) f3 t3) (with_names (a_exclude a) f4 t4) (a_info a)) <$> given) from_file default pkgs =
  fst <$> generate other rel module analyse mine c given from_file default pkgs.
Proof.
  set (c' := Config _ _ _). set (g' := _ <$> given).
  assert (same_patterns (apply_filters c' g') (apply_filters c given)) as Hs.
  { destruct given as [g|]; unfold same_patterns, same_members; cbn; repeat split; done. }
  assert (snd <$> metadata_files other rel module analyse c' g' pkgs = snd <$> metadata_files other rel module analyse c given pkgs) as Hm.
  { unfold metadata_files. rewrite (same_load other rel _ _ pkgs Hs), (same_group other rel _ _ _ Hs). destruct Hs as (_ & _ & _ & _ & ->).
    destruct (nonempty _); [|done]. destruct (o_analyse _); [|done]. destruct (analyse _); [|done]. by destruct (o_frameworks _). }
  unfold generate. destruct (metadata_files other rel module analyse c' g' pkgs) as [[]|], (metadata_files other rel module analyse c given pkgs) as [[]|]; cbn in *; congruence.
Qed.
Theorem C67_config_file_ignored analyse mine c file file' default default' pkgs :
  fst <$> generate other rel module analyse mine c None file default pkgs = fst <$> generate other rel module analyse mine c None file' default' pkgs.
Proof. unfold generate. by destruct (metadata_files other rel module analyse c None pkgs) as [[]|]. Qed.

(** ** Running again *)
(** Only the members of the pattern lists decide. *)
Theorem C68_members_decide c d pkg file : same_patterns c d → include_package other c pkg = include_package other d pkg ∧ include_file other c file = include_file other d file.
Proof. intros H. split; [by apply same_include_package|by apply same_include_file]. Qed.

(** A second run on the configuration the first one left behind analyses the same files, unless framework packages are
    included on their own. *)
Theorem C68_rerun_partial analyse mine c a from_file default pkgs fs a' :
  o_analyse (o_flags c) = false ∨ o_frameworks (o_flags c) = false →
  generate other rel module analyse mine c (Some a) from_file default pkgs = Some (fs, a') →
  ∃ a'', generate other rel module analyse mine c (Some a') from_file default pkgs = Some (fs, a'').
Proof.
  intros Hoff Hgen. unfold generate in Hgen |- *.
  destruct (metadata_files other rel module analyse c (Some a) pkgs) as [[c1 fs1]|] eqn:Hm; [|done]. injection Hgen as -> <-.
  assert (c1 = apply_filters c (Some a)) as ->.
  { unfold metadata_files in Hm. destruct (nonempty _); [|done]. cbn [o_flags apply_filters] in Hm. destruct Hoff as [E|E].
    - rewrite E in Hm. by injection Hm.
    - destruct (o_analyse (o_flags c)); [|by injection Hm]. destruct (analyse _); [|by injection Hm]. rewrite E in Hm. by injection Hm. }
  set (a1 := merge_filters _ _).
  assert (same_patterns (apply_filters c (Some a)) (apply_filters c (Some a1))) as Hsame by apply rerun_same.
  unfold metadata_files in Hm |- *. rewrite <- (same_load other rel _ _ pkgs Hsame). rewrite <- (same_group other rel _ _ _ Hsame).
  destruct (nonempty (valid_packages (load_filtered other rel (apply_filters c (Some a)) pkgs))); [|done].
  cbn [o_flags apply_filters] in Hm |- *. destruct Hoff as [E|E]; rewrite E in Hm |- *.
  - injection Hm as <-. by eexists.
  - destruct (o_analyse (o_flags c)); [|injection Hm as <-; by eexists]. destruct (analyse _); injection Hm as <-; by eexists.
Qed.
End engine.

(** Applying derived patterns a second time changes nothing and counts nothing. *)
Theorem C68_wrappers_idempotent f ws : apply_wrappers (apply_wrappers f ws).1 ws = ((apply_wrappers f ws).1, 0).
Proof. unfold apply_wrappers. apply settled_all. intros w Hw. apply settled_fold. by right. Qed.

(** Derived patterns are put in front of the configured ones; they come from complete derivations and none has the call
    and the receiver of a configured one. *)
Theorem C68_wrappers_added f ws :
  let f' := (apply_wrappers f ws).1 in
  adds (fw_mounts f) (fw_mounts f') (from_complete wr_mount ws) ∧ adds (fw_responses f) (fw_responses f') (from_complete as_response ws) ∧
  adds (fw_requests f) (fw_requests f') (from_complete wr_request ws) ∧ adds (fw_params f) (fw_params f') (from_complete wr_param ws) ∧ adds (fw_routes f) (fw_routes f') (from_complete as_route ws).
Proof.
  cbn zeta. unfold apply_wrappers. repeat (split; [apply fold_put; intros; by rewrite apply_wrapper_put|]). apply fold_put; intros; by rewrite apply_wrapper_put.
Qed.
(** Every complete derivation ends up with a pattern for its call and receiver. *)
Theorem C68_wrappers_present f ws w p :
  w ∈ ws → wr_complete w = true →
  (wr_mount w = Some p → ∃ q, q ∈ fw_mounts (apply_wrappers f ws).1 ∧ pt_call q = pt_call p ∧ pt_recv q = pt_recv p) ∧
  (as_response w = Some p → ∃ q, q ∈ fw_responses (apply_wrappers f ws).1 ∧ pt_call q = pt_call p ∧ pt_recv q = pt_recv p) ∧
  (wr_request w = Some p → ∃ q, q ∈ fw_requests (apply_wrappers f ws).1 ∧ pt_call q = pt_call p ∧ pt_recv q = pt_recv p) ∧
  (wr_param w = Some p → ∃ q, q ∈ fw_params (apply_wrappers f ws).1 ∧ pt_call q = pt_call p ∧ pt_recv q = pt_recv p) ∧
  (as_route w = Some p → ∃ q, q ∈ fw_routes (apply_wrappers f ws).1 ∧ pt_call q = pt_call p ∧ pt_recv q = pt_recv p).
Proof.
  intros Hw Hc. destruct (settled_fold ws f 0 w (or_intror Hw)) as (H1 & H2 & H3 & H4 & H5). unfold if_complete in *. rewrite Hc in *. unfold apply_wrappers.
  split; [intros E; rewrite E in H1; by apply has_identity_spec|]. split; [intros E; rewrite E in H2; by apply has_identity_spec|].
  split; [intros E; rewrite E in H3; by apply has_identity_spec|]. split; [intros E; rewrite E in H4; by apply has_identity_spec|]. intros E; rewrite E in H5; by apply has_identity_spec.
Qed.

(** ** Where it goes wrong *)
(* The cases below are computed with [lazy], which does not look into what is marked opaque. *)
#[local] Transparent gmap_empty.
Definition no_pats : pats := Pats [] [] [] [].
Definition no_info : info := Info "" "" "" "".
Definition all_on : flags := Flags true true true true true.
(** DefaultEngineConfig (engine.go): the CLI's and the generator's defaults for these flags. *)
Definition plain : config := Config no_pats no_pats all_on.
Definition bare : apiconfig := ApiConfig no_pats no_pats no_info.
Definition no_analysis : list lpkg → option (list string) := λ _, None.

(** A package with C code: the loader's GoFiles and the trees of its CompiledGoFiles. *)
Definition cgo_pkg : lpkg :=
  LPkg "m/api" ["main.go"; "handlers.go"; "routes_mock.go"] ["main.go"; "_cgo_gotypes.go"; "handlers.cgo1.go"; "routes_mock.cgo1.go"] 0.
(** The handlers' own tree is analysed under no name: its place is taken by another tree. *)
Theorem C67_own_tree_refuted : ∃ other pkgs,
  (∃ p, p ∈ pkgs ∧ "handlers.cgo1.go" ∈ l_syntax p) ∧
  fst <$> generate other id "m" no_analysis no_info plain None None bare pkgs = Some [("m/api", "main.go", "main.go"); ("m/api", "handlers.go", "_cgo_gotypes.go")].
Proof. exists (λ _ _, None), [cgo_pkg]. split; [exists cgo_pkg; split; [by apply elem_of_list_singleton|by apply (bool_decide_unpack _)]|lazy; reflexivity]. Qed.

(** Sources that are no tests, mocks or C code are left out by their names. *)
Theorem C67_left_out_by_name_refuted : ∃ pkgs,
  (∀ p, p ∈ pkgs → l_errors p = 0 ∧ l_syntax p = l_files p) ∧
  (∃ p, p ∈ pkgs ∧ l_path p = "m/hammock" ∧ l_files p = ["hammock/rest.go"]) ∧ (∃ p, p ∈ pkgs ∧ l_path p = "m/sqlite3s" ∧ l_files p = ["sqlite3s/h.go"]) ∧
  (∃ p, p ∈ pkgs ∧ l_path p = "m/api" ∧ l_files p = ["api/users.go"; "api/latest.go"; "api/contest.go"]) ∧
  ∀ other, fst <$> generate other id "m" no_analysis no_info plain None None bare pkgs = Some [("m/api", "api/users.go", "api/users.go")].
Proof.
  exists [LPkg "m/hammock" ["hammock/rest.go"] ["hammock/rest.go"] 0; LPkg "m/sqlite3s" ["sqlite3s/h.go"] ["sqlite3s/h.go"] 0;
    LPkg "m/api" ["api/users.go"; "api/latest.go"; "api/contest.go"] ["api/users.go"; "api/latest.go"; "api/contest.go"] 0].
  split; [intros p [-> | [-> | [-> | []%elem_of_nil]%elem_of_cons]%elem_of_cons]%elem_of_cons; done|].
  split; [eexists; split; [apply elem_of_cons; by left|done]|]. split; [eexists; split; [apply elem_of_cons; right; apply elem_of_cons; by left|done]|].
  split; [eexists; split; [apply elem_of_cons; right; apply elem_of_cons; right; apply elem_of_cons; by left|done]|].
  intros other. lazy; reflexivity.
Qed.
(** And sources under a directory of tests are analysed when the directory is at the root. *)
Theorem C67_tests_at_root_refuted : ∃ pkgs, ∀ other,
  fst <$> generate other id "m" no_analysis no_info plain None None bare pkgs = Some [("m/test", "test/server.go", "test/server.go")] ∧
  (∃ p, p ∈ pkgs ∧ "api/test/server.go" ∈ l_files p).
Proof.
  exists [LPkg "m/test" ["test/server.go"] ["test/server.go"] 0; LPkg "m/api/test" ["api/test/server.go"] ["api/test/server.go"] 0]. intros other. split; [lazy; reflexivity|].
  eexists. split; [apply elem_of_cons; right; apply elem_of_cons; by left|]. by apply elem_of_list_singleton.
Qed.
(** A configuration excludes a package; given as a file it excludes nothing. *)
Theorem C67_config_file_refuted : ∃ a pkgs, ∀ other,
  fst <$> generate other id "m" no_analysis no_info plain (Some a) None bare pkgs = Some [("m/api", "api/users.go", "api/users.go")] ∧
  fst <$> generate other id "m" no_analysis no_info plain None (Some a) bare pkgs = Some [("m/api", "api/users.go", "api/users.go"); ("m/internal", "internal/x.go", "internal/x.go")].
Proof.
  exists (ApiConfig no_pats (Pats [] ["m/internal"] [] []) no_info), [LPkg "m/api" ["api/users.go"] ["api/users.go"] 0; LPkg "m/internal" ["internal/x.go"] ["internal/x.go"] 0].
  intros other. split; (lazy; reflexivity).
Qed.

(** The framework package and everything of the module is analysed; the run leaves the framework packages behind as
    the only ones to include, so that the same run again loses the rest of the module. *)
Definition project : list lpkg := [LPkg "m/api" ["api/users.go"] ["api/users.go"] 0; LPkg "m/model" ["model/user.go"] ["model/user.go"] 0].
Definition lists_api : list lpkg → option (list string) := λ ps, Some (l_path <$> filter (λ p, l_path p = "m/api") ps).
Theorem C68_rerun_refuted : ∃ a fs a', ∀ other,
  generate other id "m" lists_api no_info plain (Some a) None bare project = Some (fs, a') ∧ ("m/model", "model/user.go", "model/user.go") ∈ fs ∧
  fst <$> generate other id "m" lists_api no_info plain (Some a') None bare project = Some [("m/api", "api/users.go", "api/users.go")].
Proof.
  exists bare, [("m/api", "api/users.go", "api/users.go"); ("m/model", "model/user.go", "model/user.go")],
    (ApiConfig (Pats [] ["m/api"] [] []) no_pats (Info "" license "" "")).
  intros other. split; [lazy; reflexivity|]. split; [by apply (bool_decide_unpack _)|lazy; reflexivity].
Qed.
(** Another project analysed with the configuration the first left behind has no packages at all. *)
Definition project2 : list lpkg := [LPkg "n/web" ["web/orders.go"] ["web/orders.go"] 0].
Theorem C68_other_project_refuted : ∃ a fs a', ∀ other,
  generate other id "m" lists_api no_info plain (Some a) None bare project = Some (fs, a') ∧
  generate other id "n" lists_api no_info plain (Some a') None bare project2 = None ∧ is_Some (generate other id "n" lists_api no_info plain (Some a) None bare project2).
Proof.
  exists bare, [("m/api", "api/users.go", "api/users.go"); ("m/model", "model/user.go", "model/user.go")],
    (ApiConfig (Pats [] ["m/api"] [] []) no_pats (Info "" license "" "")).
  intros other. split; [lazy; reflexivity|]. split; [lazy; reflexivity|]. lazy. by eexists.
Qed.
(** The title of the first run stays for all later ones. *)
Theorem C68_title_stays other rel module analyse mine mine' c c' a from_file default pkgs pkgs' fs a' fs' a'' :
  i_title (a_info a) = "" → i_title mine ≠ "" →
  generate other rel module analyse mine c (Some a) from_file default pkgs = Some (fs, a') →
  generate other rel module analyse mine' c' (Some a') from_file default pkgs' = Some (fs', a'') → i_title (a_info a'') = i_title mine.
Proof.
  unfold generate. intros Ht Hm. destruct (metadata_files other rel module analyse c (Some a) pkgs) as [[]|]; [|done]. intros [= _ <-].
  destruct (metadata_files other rel module analyse c' _ pkgs') as [[]|]; [|done]. intros [= _ <-]. cbn. rewrite Ht. unfold or_else.
  rewrite (bool_decide_eq_true_2 ("" = "")) by done. by rewrite (bool_decide_eq_false_2 (i_title mine = "")).
Qed.
(** Every run appends the patterns in force to those of the configuration, which are among them. *)
Theorem C68_filters_grow other rel module analyse mine c a from_file default pkgs fs a' :
  generate other rel module analyse mine c (Some a) from_file default pkgs = Some (fs, a') →
  ∃ more more', p_files (a_include a') = p_files (a_include a) ++ more ∧ p_packages (a_exclude a') = p_packages (a_exclude a) ++ more' ∧
    (∀ x, x ∈ p_files (a_include a) → x ∈ more) ∧ (∀ x, x ∈ p_packages (a_exclude a) → x ∈ more').
Proof.
  unfold generate. destruct (metadata_files other rel module analyse c (Some a) pkgs) as [[c1 fs1]|] eqn:Hm; [|done]. intros [= _ <-]. cbn.
  exists (p_files (o_include c1)), (p_packages (o_exclude c1)). split; [done|]. split; [done|].
  assert (p_files (o_include c1) = p_files (o_include (apply_filters c (Some a))) ∧ p_packages (o_exclude c1) = p_packages (o_exclude (apply_filters c (Some a)))) as [-> ->].
  { unfold metadata_files in Hm. destruct (nonempty _); [|done]. destruct (o_analyse _); [|by injection Hm as <- _]. destruct (analyse _); [|by injection Hm as <- _].
    destruct (o_frameworks _); by injection Hm as <- _. }
  cbn. split; intros x Hx; rewrite elem_of_union_strings; by right.
Qed.

(** ** Examples *)
(** Excluding wins over including; a package pattern may name the last element; framework packages and the module. *)
Example C67_example : ∀ other,
  let c := Config (Pats ["**/*.go"] ["m/**"; "gin"] [] []) (Pats ["**/gen_*.go"] ["internal"] [] []) all_on in
  fst <$> generate other id "m" (λ _, Some ["github.com/gin-gonic/gin"]) no_info c None None bare
    [LPkg "m/api" ["api/users.go"; "api/gen_users.go"; "api/users_test.go"] ["api/users.go"; "api/gen_users.go"; "api/users_test.go"] 0;
     LPkg "m/internal" ["internal/x.go"] ["internal/x.go"] 0; LPkg "m/broken" ["broken/b.go"] ["broken/b.go"] 1;
     LPkg "github.com/gin-gonic/gin" ["gin/context.go"] ["gin/context.go"] 0; LPkg "other/lib" ["lib/l.go"] ["lib/l.go"] 0]
  = Some [("m/api", "api/users.go", "api/users.go"); ("github.com/gin-gonic/gin", "gin/context.go", "gin/context.go")].
Proof. intros other. lazy; reflexivity. Qed.
Example C67_skipped_example : ∀ other,
  skipped_packages "m" (load_filtered other id plain [LPkg "m/broken" ["broken/b.go"] ["broken/b.go"] 2; LPkg "dep/broken" ["b.go"] ["b.go"] 1; LPkg "m/api" ["api/a.go"] ["api/a.go"] 0]) = ["m/broken"].
Proof. intros other. lazy; reflexivity. Qed.
Example C68_rerun_example : ∀ other,
  let c := Config (Pats [] ["m/**"] [] []) no_pats (Flags true true true false true) in
  let a := ApiConfig no_pats (Pats [] ["model"] [] []) no_info in
  ∃ a', generate other id "m" lists_api no_info c (Some a) None bare project = Some ([("m/api", "api/users.go", "api/users.go")], a') ∧ p_packages (a_exclude a') = ["model"; "model"].
Proof. intros other. eexists. split; (lazy; reflexivity). Qed.
Example C68_wrappers_example :
  apply_wrappers (Framework [] [Pattern "JSON" "Ctx" 0] [] [] [])
    [Wrapper true None (Some (Pattern "JSON" "Ctx" 7, true)) None None (Pattern "w" "" 1); Wrapper true None (Some (Pattern "Reply" "" 8, true)) None None (Pattern "w" "" 2);
     Wrapper true None (Some (Pattern "Odd" "" 9, false)) None None (Pattern "Handle" "App" 3); Wrapper false (Some (Pattern "M" "" 4)) None None None (Pattern "x" "" 5)]
  = (Framework [] [Pattern "Reply" "" 8; Pattern "JSON" "Ctx" 0] [] [] [Pattern "Handle" "App" 3], 2).
Proof. lazy; reflexivity. Qed.

Print Assumptions C67_package_rule.
Print Assumptions C67_file_rule.
Print Assumptions C67_analysed.
Print Assumptions C67_own_tree_partial.
Print Assumptions C67_skipped.
Print Assumptions C67_functions_and_types_ignored.
Print Assumptions C67_config_file_ignored.
Print Assumptions C68_members_decide.
Print Assumptions C68_rerun_partial.
Print Assumptions C68_wrappers_idempotent.
Print Assumptions C68_wrappers_added.
Print Assumptions C68_wrappers_present.
Print Assumptions C67_own_tree_refuted.
Print Assumptions C67_left_out_by_name_refuted.
Print Assumptions C67_tests_at_root_refuted.
Print Assumptions C67_config_file_refuted.
Print Assumptions C68_rerun_refuted.
Print Assumptions C68_other_project_refuted.
Print Assumptions C68_title_stays.
Print Assumptions C68_filters_grow.
