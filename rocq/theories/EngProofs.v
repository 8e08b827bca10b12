(** * What the engine analyses: proofs. *)
From Coq Require Import Ascii.
From stdpp Require Import base numbers list strings gmap.
From Verif Require Import StrLib StrSub StrSplit DetModel GlobModel EngModel EngSpec.

Lemma existsb_spec {A} (f : A → bool) l : existsb f l = true ↔ ∃ x, x ∈ l ∧ f x = true.
Proof. rewrite existsb_exists. by setoid_rewrite elem_of_list_In. Qed.
Lemma any_suffix_spec ends s : any_suffix ends s = true ↔ ends_in ends s.
Proof.
  unfold any_suffix, ends_in. rewrite existsb_spec. split.
  - intros (e & He & [t Ht]%has_suffix_spec). by exists e, t.
  - intros (e & t & He & Ht). exists e. split; [done|]. apply has_suffix_spec. by exists t.
Qed.
Lemma nonempty_spec {A} (l : list A) : nonempty l = true ↔ l ≠ [].
Proof. by destruct l. Qed.
Lemma last_part_spec pkg : ∃ above, split_byte "/" pkg = above ++ [last_part pkg].
Proof.
  unfold last_part. destruct (last (split_byte "/" pkg)) as [b|] eqn:H.
  - apply last_Some in H as [above ->]. by exists above.
  - apply last_None in H. by destruct (split_byte_nonnil "/" pkg).
Qed.

Section rules.
Context (other : string → string → option bool).
Lemma pkg_matches_spec pkg pat : pkg_matches other pkg pat = true ↔ names other pat pkg.
Proof.
  unfold pkg_matches, names. rewrite orb_true_iff. destruct (last_part_spec pkg) as [above Ha]. split.
  - intros [H|H]; [by left|]. right. by exists above, (last_part pkg).
  - intros [H|(above' & base & Hb & H)]; [by left|]. right. rewrite Ha in Hb. by apply app_inj_tail in Hb as [_ ->].
Qed.
Lemma is_cgo_spec pkg : is_cgo other pkg = true ↔ named_like_cgo other pkg.
Proof.
  unfold is_cgo. rewrite existsb_spec. unfold named_like_cgo, within. split.
  - intros (p & Hp & [H|H]%orb_true_iff); [left; by exists p|right].
    exists (str_drop 2 p). split; [|by apply str_contains_spec].
    change ["tensorflow/*"; "govips/*"; "opencv/*"; "ffmpeg/*"; "sqlite3"; "go-sqlite3"; "graft/tensorflow"] with (str_drop 2 <$> cgo_patterns).
    apply elem_of_list_fmap. by exists p.
  - intros [(p & Hp & H)|(part & Hp & H)].
    + exists p. by rewrite H.
    + change ["tensorflow/*"; "govips/*"; "opencv/*"; "ffmpeg/*"; "sqlite3"; "go-sqlite3"; "graft/tensorflow"] with (str_drop 2 <$> cgo_patterns) in Hp.
      apply elem_of_list_fmap in Hp as (p & -> & Hp). exists p. split; [done|]. apply orb_true_iff. right. by apply str_contains_spec.
Qed.
Lemma guarded (b c : bool) (P : Prop) : (c = true ↔ P) → (b && c = false ↔ (b = true → ¬ P)).
Proof. intros H. destruct b, c; cbn; split; intros; try done; [by exfalso; apply H0; [|apply H]|]. intros Hp. by apply H in Hp. Qed.
Lemma include_package_spec c pkg : include_package other c pkg = true ↔ wanted_package other c pkg.
Proof.
  unfold include_package, wanted_package.
  rewrite <- (guarded (o_cgo (o_flags c)) (is_cgo other pkg)) by apply is_cgo_spec.
  rewrite <- (guarded (o_tests (o_flags c)) (any_suffix ["_test"; "_tests"] (str_lower pkg))) by apply any_suffix_spec.
  rewrite <- (guarded (o_mocks (o_flags c)) (any_suffix ["mock"; "mocks"; "fake"; "fakes"; "stub"; "stubs"] (str_lower pkg))) by apply any_suffix_spec.
  destruct (o_cgo (o_flags c) && is_cgo other pkg); [by split; [|intros (? & _)]|].
  destruct (o_tests (o_flags c) && _); [by split; [|intros (_ & ? & _)]|].
  destruct (o_mocks (o_flags c) && _); [by split; [|intros (_ & _ & ? & _)]|].
  assert ((∀ pat, pat ∈ p_packages (o_exclude c) → ¬ names other pat pkg) ↔ existsb (pkg_matches other pkg) (p_packages (o_exclude c)) = false) as ->.
  { split.
    - intros H. destruct (existsb _ _) eqn:E; [|done]. apply existsb_spec in E as (p & Hp & Hm%pkg_matches_spec). by destruct (H p Hp).
    - intros E p Hp Hm%pkg_matches_spec. assert (existsb (pkg_matches other pkg) (p_packages (o_exclude c)) = true); [|congruence].
      apply existsb_spec. by exists p. }
  assert ((∃ pat, pat ∈ p_packages (o_include c) ∧ names other pat pkg) ↔ existsb (pkg_matches other pkg) (p_packages (o_include c)) = true) as ->.
  { rewrite existsb_spec. by setoid_rewrite pkg_matches_spec. }
  destruct (negb (nonempty (p_files (o_include c))) && negb (nonempty (p_files (o_exclude c))) && negb (nonempty (p_packages (o_include c))) && negb (nonempty (p_packages (o_exclude c)))) eqn:Hall.
  - apply andb_true_iff in Hall as [[Hall Hi]%andb_true_iff He].
    destruct (p_packages (o_include c)); [|done]. destruct (p_packages (o_exclude c)); [|done]. cbn. clear. split; [intros _; auto 10|done].
  - clear Hall. destruct (existsb (pkg_matches other pkg) (p_packages (o_exclude c))); [by split; [|intros (_ & _ & _ & ? & _)]|].
    destruct (p_packages (o_include c)) as [|x l] eqn:Hi; cbn [nonempty].
    + split; [intros _; auto 10|done].
    + split; [intros H; auto 10|]. intros (_ & _ & _ & _ & [?|?]); done.
Qed.
Lemma include_file_spec c file : include_file other c file = true ↔ wanted_file other c file.
Proof.
  unfold include_file, wanted_file.
  rewrite <- (guarded (o_tests (o_flags c)) (has_suffix "test.go" (str_lower file) || str_contains "/test/" (str_lower file) || str_contains "/tests/" (str_lower file))).
  2:{ rewrite !orb_true_iff, has_suffix_spec, !str_contains_spec. unfold ends_in, within. split.
      - intros [[[t Ht]|H]|H]; [|auto..]. left. exists "test.go", t. split; [by apply elem_of_list_singleton|done].
      - intros [(e & t & ->%elem_of_list_singleton & Ht)|[H|H]]; [|auto..]. left. left. by exists t. }
  rewrite <- (guarded (o_mocks (o_flags c)) (any_suffix ["mock.go"; "fake.go"; "stub.go"; "mocks.go"; "fakes.go"; "stubs.go"] (str_lower file))) by apply any_suffix_spec.
  destruct (o_tests (o_flags c) && _); [by split; [|intros (? & _)]|].
  destruct (o_mocks (o_flags c) && _); [by split; [|intros (_ & ? & _)]|].
  assert ((∀ pat, pat ∈ p_files (o_exclude c) → glob_match other pat file = false) ↔ existsb (λ p, glob_match other p file) (p_files (o_exclude c)) = false) as ->.
  { split.
    - intros H. destruct (existsb _ _) eqn:E; [|done]. apply existsb_spec in E as (p & Hp & Hm). rewrite (H p Hp) in Hm. done.
    - intros E p Hp. destruct (glob_match other p file) eqn:Hm; [|done]. assert (existsb (λ p, glob_match other p file) (p_files (o_exclude c)) = true); [|congruence].
      apply existsb_spec. by exists p. }
  assert ((∃ pat, pat ∈ p_files (o_include c) ∧ glob_match other pat file = true) ↔ existsb (λ p, glob_match other p file) (p_files (o_include c)) = true) as -> by (by rewrite existsb_spec).
  destruct (negb (nonempty (p_files (o_include c))) && negb (nonempty (p_files (o_exclude c)))) eqn:Hall.
  - apply andb_true_iff in Hall as [Hi He]. destruct (p_files (o_include c)); [|done]. destruct (p_files (o_exclude c)); [|done]. cbn. clear. split; [intros _; auto 10|done].
  - clear Hall. destruct (existsb (λ p, glob_match other p file) (p_files (o_exclude c))); [by split; [|intros (_ & _ & ? & _)]|].
    destruct (p_files (o_include c)) as [|x l] eqn:Hi; cbn [nonempty].
    + split; [intros _; auto 10|done].
    + split; [intros H; auto 10|]. intros (_ & _ & _ & [?|?]); done.
Qed.
End rules.

(** ** Unions *)
Lemma union_fold extras acc :
  (∀ x, x ∈ acc.1 ↔ x ∈ acc.2) → ∀ x, x ∈ (foldl union_step acc extras).2 ↔ x ∈ acc.2 ∨ x ∈ extras.
Proof.
  revert acc. induction extras as [|s extras IH]; intros acc Hacc x; cbn; [set_solver|].
  rewrite IH.
  - unfold union_step. destruct (decide (s ∈ acc.1)) as [Hs|Hs]; [rewrite bool_decide_eq_true_2 by done|rewrite bool_decide_eq_false_2 by done; cbn].
    + rewrite elem_of_cons. apply Hacc in Hs. clear -Hs. split; [tauto|]. intros [?|[-> | ?]]; auto.
    + rewrite elem_of_app, elem_of_list_singleton, elem_of_cons. clear. tauto.
  - intros y. unfold union_step. destruct (decide (s ∈ acc.1)) as [Hs|Hs]; [rewrite bool_decide_eq_true_2 by done; apply Hacc|rewrite bool_decide_eq_false_2 by done; cbn].
    rewrite elem_of_union, elem_of_singleton, elem_of_app, elem_of_list_singleton, Hacc. clear. tauto.
Qed.
Lemma elem_of_union_strings base extras x : x ∈ union_strings base extras ↔ x ∈ base ∨ x ∈ extras.
Proof.
  unfold union_strings. destruct extras as [|s extras]; [set_solver|]. rewrite union_fold; [done|]. intros y. cbn. apply elem_of_list_to_set.
Qed.
Lemma union_fold_same extras acc : (∀ x, x ∈ extras → x ∈ acc.1) → foldl union_step acc extras = acc.
Proof.
  induction extras as [|s extras IH]; intros H; cbn; [done|].
  assert (union_step acc s = acc) as ->; [|apply IH; intros; apply H; by apply elem_of_cons; right].
  unfold union_step. rewrite bool_decide_eq_true_2; [done|]. apply H, elem_of_cons. by left.
Qed.
Lemma union_strings_same base extras : (∀ x, x ∈ extras → x ∈ base) → union_strings base extras = base.
Proof. intros H. unfold union_strings. destruct extras as [|s l]; [done|]. rewrite union_fold_same; [done|]. intros x Hx. cbn. by apply elem_of_list_to_set, H. Qed.
Lemma union_fold_nodup extras acc : (∀ x, x ∈ acc.1 ↔ x ∈ acc.2) → NoDup acc.2 → NoDup (foldl union_step acc extras).2.
Proof.
  revert acc. induction extras as [|s extras IH]; intros acc Hacc Hnd; cbn; [done|]. unfold union_step at 2.
  destruct (decide (s ∈ acc.1)) as [Hs|Hs]; [rewrite bool_decide_eq_true_2 by done; by apply IH|rewrite bool_decide_eq_false_2 by done].
  apply IH; cbn.
  - intros y. rewrite elem_of_union, elem_of_singleton, elem_of_app, elem_of_list_singleton, Hacc. clear. tauto.
  - apply NoDup_app. split; [done|]. split; [|apply NoDup_singleton]. intros x Hx ->%elem_of_list_singleton. by apply Hs, Hacc.
Qed.
Lemma union_fold_prefix extras acc : ∃ more, (foldl union_step acc extras).2 = acc.2 ++ more.
Proof.
  revert acc. induction extras as [|s extras IH]; intros acc; cbn; [exists []; by rewrite app_nil_r|].
  destruct (IH (union_step acc s)) as [m ->]. unfold union_step. destruct (bool_decide (s ∈ acc.1)); [by exists m|]. cbn. exists ([s] ++ m). by rewrite app_assoc.
Qed.
Lemma union_strings_prefix base extras : ∃ more, union_strings base extras = base ++ more.
Proof. unfold union_strings. destruct extras; [exists []; by rewrite app_nil_r|]. apply union_fold_prefix. Qed.

(** ** Files and their trees *)
Section files.
Context (other : string → string → option bool) (rel : string → string) (module : string).
Lemma kept_zip (keep : string → bool) (files all : list string) n :
  let kept := filter (λ '(_, f), keep f = true) (imap (λ i f, (n + i, f)) files) in
  zip kept.*2 (omap (λ '(i, _), all !! i) kept) = filter (λ '(f, _), keep f = true) (zip files (drop n all)).
Proof.
  cbn zeta. revert n. induction files as [|f files IH]; intros n; [done|].
  assert (imap (λ i f, (n + i, f)) (f :: files) = (n, f) :: imap (λ i f, (S n + i, f)) files) as ->.
  { rewrite imap_cons. f_equal; [by rewrite Nat.add_0_r|]. apply imap_ext. intros i x _. cbn. by rewrite Nat.add_succ_r. }
  destruct (all !! n) as [t|] eqn:Ht.
  - rewrite (drop_S all t n) by done. cbn [zip zip_with]. destruct (keep f) eqn:Hk.
    + rewrite (filter_cons_True _ (n, f)) by done. rewrite (filter_cons_True _ (f, t)) by done. cbn [omap list_omap fmap list_fmap snd]. rewrite Ht. cbn [zip zip_with]. f_equal. apply IH.
    + rewrite (filter_cons_False _ (n, f)) by (by rewrite Hk). rewrite (filter_cons_False _ (f, t)) by (by rewrite Hk). apply IH.
  - assert (drop n all = []) as -> by (apply drop_ge; by apply lookup_ge_None). cbn [zip zip_with].
    assert (∀ l : list (nat * string), (∀ i f, (i, f) ∈ l → n ≤ i) → omap (λ '(i, _), all !! i) l = []) as Hnone.
    { induction l as [|[i g] l IHl]; intros Hl; [done|]. cbn. assert (all !! i = None) as ->.
      { apply lookup_ge_None. apply lookup_ge_None in Ht. specialize (Hl i g ltac:(apply elem_of_cons; by left)). lia. }
      apply IHl. intros. apply (Hl i0 f0), elem_of_cons. by right. }
    rewrite Hnone; [by rewrite zip_with_nil_r|].
    intros i g [_ [Heq|Hin]%elem_of_cons]%elem_of_list_filter; [injection Heq as -> ->; lia|].
    apply elem_of_lookup_imap in Hin as (j & x & Heq & _). injection Heq as -> ->. lia.
Qed.
Lemma filter_package_zip c p q : filter_package other rel c p = Some q →
  l_path q = l_path p ∧ l_errors q = l_errors p ∧ include_package other c (l_path p) = true ∧
  zip (l_files q) (l_syntax q) = filter (λ '(f, _), include_file other c (rel f) = true) (zip (l_files p) (l_syntax p)).
Proof.
  unfold filter_package. destruct (include_package other c (l_path p)) eqn:Hi; [|done].
  pose proof (kept_zip (λ f, include_file other c (rel f)) (l_files p) (l_syntax p) 0) as Hz. cbn zeta in Hz. rewrite drop_0 in Hz.
  assert (imap (λ i f, (0 + i, f)) (l_files p) = imap pair (l_files p)) as Himap by done. rewrite Himap in Hz. unfold keep_files.
  destruct (filter (λ '(_, f), include_file other c (rel f) = true) (imap pair (l_files p))) as [|x kept] eqn:Hk; [done|].
  intros [= <-]. cbn [l_path l_errors l_files l_syntax]. split; [done|]. split; [done|]. split; [done|]. exact Hz.
Qed.
Lemma filter_package_none c p f t :
  filter_package other rel c p = None → include_package other c (l_path p) = true → (f, t) ∈ zip (l_files p) (l_syntax p) → include_file other c (rel f) = false.
Proof.
  unfold filter_package. intros H Hi. rewrite Hi in H. destruct (keep_files other rel c p) eqn:Hk; [|done]. intros Hin.
  destruct (include_file other c (rel f)) eqn:Hf; [|done]. exfalso.
  apply elem_of_lookup_zip_with in Hin as (i & x & y & [= <- <-] & Hx & _).
  assert ((i, f) ∈ keep_files other rel c p) as He; [|rewrite Hk in He; by apply elem_of_nil in He].
  unfold keep_files. apply elem_of_list_filter. split; [done|]. apply elem_of_lookup_imap. by exists i, f.
Qed.
Lemma group_spec c pkgs pkg f t :
  (pkg, f, t) ∈ group_files other rel c (valid_packages (load_filtered other rel c pkgs)) ↔
  ∃ p, p ∈ pkgs ∧ l_path p = pkg ∧ l_errors p = 0 ∧ (f, t) ∈ zip (l_files p) (l_syntax p) ∧ include_package other c pkg = true ∧ include_file other c (rel f) = true.
Proof.
  unfold group_files. rewrite elem_of_list_bind. split.
  - intros (q & Hin & [He Hq]%elem_of_list_filter). apply elem_of_list_omap in Hq as (p & Hp & Hf).
    destruct (filter_package_zip c p q Hf) as (Hpath & Herr & Hi & Hz). rewrite Hz in Hin. rewrite Hpath, Hi in Hin.
    apply elem_of_list_omap in Hin as ([f' t'] & [Hinc Hzip]%elem_of_list_filter & Hsome).
    rewrite Hinc in Hsome. injection Hsome as <- <- <-. exists p. split; [done|]. split; [done|]. split; [congruence|]. done.
  - intros (p & Hp & <- & He & Hz & Hi & Hinc). destruct (filter_package other rel c p) as [q|] eqn:Hf.
    + destruct (filter_package_zip c p q Hf) as (Hpath & Herr & _ & Hzq). exists q. split.
      * rewrite Hpath, Hi, Hzq. apply elem_of_list_omap. exists (f, t). rewrite Hinc. split; [|done]. apply elem_of_list_filter. done.
      * apply elem_of_list_filter. split; [congruence|]. apply elem_of_list_omap. by exists p.
    + rewrite (filter_package_none c p f t Hf Hi Hz) in Hinc. done.
Qed.
Lemma in_module_spec pkg : in_module module pkg = true ↔ of_module module pkg.
Proof.
  unfold in_module, of_module. rewrite orb_true_iff, bool_decide_eq_true, has_prefix_spec. split; (intros [?|[t Ht]]; [by left|right; exists t]).
  - by rewrite Ht, sapp_assoc. - by rewrite Ht, sapp_assoc.
Qed.

(** ** Only the members of the lists matter *)
Lemma same_empty a b : same_members a b → nonempty a = nonempty b.
Proof. intros H. destruct a as [|x a], b as [|y b]; [done|..|done]; exfalso; [apply (elem_of_nil y), H|apply (elem_of_nil x), H]; apply elem_of_cons; by left. Qed.
Lemma same_existsb (f : string → bool) a b : same_members a b → existsb f a = existsb f b.
Proof.
  intros H. apply eq_true_iff_eq. rewrite !existsb_spec. by setoid_rewrite (H _).
Qed.
Lemma same_include_package c d pkg : same_patterns c d → include_package other c pkg = include_package other d pkg.
Proof.
  intros (H1 & H2 & H3 & H4 & Hf). unfold include_package. rewrite Hf, (same_empty _ _ H1), (same_empty _ _ H2), (same_empty _ _ H3), (same_empty _ _ H4).
  by rewrite (same_existsb _ _ _ H2), (same_existsb _ _ _ H4).
Qed.
Lemma same_include_file c d f : same_patterns c d → include_file other c f = include_file other d f.
Proof.
  intros (H1 & H2 & H3 & H4 & Hf). unfold include_file. rewrite Hf, (same_empty _ _ H1), (same_empty _ _ H3).
  by rewrite (same_existsb _ _ _ H1), (same_existsb _ _ _ H3).
Qed.
Lemma same_load c d pkgs : same_patterns c d → load_filtered other rel c pkgs = load_filtered other rel d pkgs.
Proof.
  intros H. unfold load_filtered. induction pkgs as [|p pkgs IH]; [done|]. cbn. rewrite IH.
  assert (filter_package other rel c p = filter_package other rel d p) as ->; [|done].
  unfold filter_package, keep_files. rewrite (same_include_package c d) by done.
  assert (filter (λ '(_, f), include_file other c (rel f) = true) (imap pair (l_files p)) = filter (λ '(_, f), include_file other d (rel f) = true) (imap pair (l_files p))) as ->; [|done].
  apply list_filter_iff. intros [i f]. by rewrite (same_include_file c d).
Qed.
Lemma same_group c d pkgs : same_patterns c d → group_files other rel c pkgs = group_files other rel d pkgs.
Proof.
  intros H. unfold group_files. induction pkgs as [|p pkgs IH]; [done|]. cbn. rewrite IH, (same_include_package c d) by done. f_equal.
  destruct (include_package other d (l_path p)); [|done]. induction (zip (l_files p) (l_syntax p)) as [|[f t] l IHl]; [done|]. cbn. by rewrite IHl, (same_include_file c d).
Qed.
Lemma rerun_same c a : same_patterns (apply_filters c (Some a)) (apply_filters c (Some (merge_filters (apply_filters c (Some a)) a))).
Proof.
  unfold same_patterns, same_members. cbn. repeat split; rewrite ?elem_of_union_strings, ?elem_of_app, ?elem_of_union_strings; clear; tauto.
Qed.
End files.

(** ** Derived patterns *)
Lemma add_once_spec add ps : add_once add ps = (if existsb (λ p, bool_decide (pt_call p = pt_call add) && bool_decide (pt_recv p = pt_recv add)) ps then (ps, false) else (add :: ps, true)).
Proof. done. Qed.
Definition has_identity (add : pattern) (ps : list pattern) : bool := existsb (λ p, bool_decide (pt_call p = pt_call add) && bool_decide (pt_recv p = pt_recv add)) ps.
Lemma has_identity_spec add ps : has_identity add ps = true ↔ ∃ p, p ∈ ps ∧ pt_call p = pt_call add ∧ pt_recv p = pt_recv add.
Proof. unfold has_identity. rewrite existsb_spec. setoid_rewrite andb_true_iff. by setoid_rewrite bool_decide_eq_true. Qed.
Lemma add_once_has add ps : has_identity add (add_once add ps).1 = true.
Proof.
  unfold add_once. fold (has_identity add ps). destruct (has_identity add ps) eqn:H; [done|]. apply has_identity_spec. exists add. split; [apply elem_of_cons; by left|done].
Qed.
Lemma add_once_keeps q add ps : has_identity q ps = true → has_identity q (add_once add ps).1 = true.
Proof.
  intros (p & Hp & Hi)%has_identity_spec. apply has_identity_spec. exists p. split; [|done]. unfold add_once. destruct (existsb _ ps); [done|]. cbn. apply elem_of_cons. by right.
Qed.
Lemma add_once_old add ps : has_identity add ps = true → add_once add ps = (ps, false).
Proof. intros H. unfold add_once. fold (has_identity add ps). by rewrite H. Qed.
Definition put (o : option pattern) (ps : list pattern) : list pattern := match o with Some p => (add_once p ps).1 | None => ps end.
Definition if_complete (w : wrapper) (o : option pattern) : option pattern := if wr_complete w then o else None.
Lemma apply_wrapper_put f n w :
  (apply_wrapper (f, n) w).1 = Framework (put (if_complete w (wr_mount w)) (fw_mounts f)) (put (if_complete w (as_response w)) (fw_responses f)) (put (if_complete w (wr_request w)) (fw_requests f))
    (put (if_complete w (wr_param w)) (fw_params f)) (put (if_complete w (as_route w)) (fw_routes f)).
Proof.
  unfold apply_wrapper, if_complete. destruct (wr_complete w); [|by destruct f].
  unfold as_route, as_response.
  destruct (wr_mount w) as [p1|]; [destruct (add_once p1 (fw_mounts f)) as [? b1] eqn:E1|];
  destruct (wr_response w) as [[p2 []]|]; try destruct (add_once p2 (fw_responses f)) as [? b2] eqn:E2;
  destruct (wr_request w) as [p3|]; try destruct (add_once p3 (fw_requests f)) as [? b3] eqn:E3;
  destruct (wr_param w) as [p4|]; try destruct (add_once p4 (fw_params f)) as [? b4] eqn:E4; cbn [orb put];
  rewrite ?E1, ?E2, ?E3, ?E4; cbn; try done;
  destruct (add_once (wr_route w) (fw_routes f)) as [? b5] eqn:E5; done.
Qed.
Definition settled_in (o : option pattern) (ps : list pattern) : Prop := match o with Some p => has_identity p ps = true | None => True end.
Definition settled (f : framework) (w : wrapper) : Prop :=
  settled_in (if_complete w (wr_mount w)) (fw_mounts f) ∧ settled_in (if_complete w (as_response w)) (fw_responses f) ∧ settled_in (if_complete w (wr_request w)) (fw_requests f) ∧
  settled_in (if_complete w (wr_param w)) (fw_params f) ∧ settled_in (if_complete w (as_route w)) (fw_routes f).
Lemma settled_put o ps : settled_in o (put o ps).
Proof. destruct o; cbn; [apply add_once_has|done]. Qed.
Lemma settled_keeps o o' ps : settled_in o ps → settled_in o (put o' ps).
Proof. destruct o, o'; cbn; try done. apply add_once_keeps. Qed.
Lemma settled_step f n w w' : settled f w' ∨ w' = w → settled (apply_wrapper (f, n) w).1 w'.
Proof.
  rewrite apply_wrapper_put. unfold settled. cbn [fw_mounts fw_responses fw_requests fw_params fw_routes].
  intros [(H1 & H2 & H3 & H4 & H5)| ->].
  - repeat (split; [by apply settled_keeps|]). by apply settled_keeps.
  - repeat (split; [by apply settled_put|]). by apply settled_put.
Qed.
Lemma settled_fold ws f n w : settled f w ∨ w ∈ ws → settled (foldl apply_wrapper (f, n) ws).1 w.
Proof.
  revert f n. induction ws as [|w0 ws IH]; intros f n; cbn [foldl]; [intros [?|[]%elem_of_nil]; done|].
  intros H. destruct (apply_wrapper (f, n) w0) as [f' n'] eqn:E. apply IH.
  assert (settled (apply_wrapper (f, n) w0).1 w ∨ w ∈ ws) as Hs; [|by rewrite E in Hs].
  destruct H as [H|[-> | H]%elem_of_cons]; [left; apply settled_step; by left|left; apply settled_step; by right|by right].
Qed.
Lemma settled_same f n w : settled f w → apply_wrapper (f, n) w = (f, n).
Proof.
  intros (H1 & H2 & H3 & H4 & H5). unfold apply_wrapper. unfold if_complete in *. destruct (wr_complete w); [|done].
  unfold as_route, as_response in *.
  destruct (wr_mount w) as [p1|]; cbn in H1; [rewrite (add_once_old _ _ H1)|];
  destruct (wr_response w) as [[p2 []]|]; cbn in H2; try rewrite (add_once_old _ _ H2);
  destruct (wr_request w) as [p3|]; cbn in H3; try rewrite (add_once_old _ _ H3);
  destruct (wr_param w) as [p4|]; cbn in H4; try rewrite (add_once_old _ _ H4); cbn [orb];
  cbn in H5; try rewrite (add_once_old _ _ H5); destruct f; cbn; by rewrite ?Nat.add_0_r.
Qed.
Lemma settled_all f n ws : (∀ w, w ∈ ws → settled f w) → foldl apply_wrapper (f, n) ws = (f, n).
Proof.
  induction ws as [|w ws IH]; intros H; [done|]. cbn [foldl]. rewrite settled_same by (apply H, elem_of_cons; by left). apply IH. intros w' Hw'. apply H, elem_of_cons. by right.
Qed.
(** What has been put in front. *)
Lemma put_adds o ps before from : adds before ps from → adds before (put o ps) (match o with Some p => from ++ [p] | None => from end).
Proof.
  intros (new & -> & Hfrom & Hdiff). destruct o as [p|]; cbn; [|by exists new].
  unfold add_once. fold (has_identity p (new ++ before)). destruct (has_identity p (new ++ before)) eqn:Hi; cbn.
  - exists new. split; [done|]. split; [|done]. intros q Hq. apply elem_of_app. left. by apply Hfrom.
  - exists (p :: new). split; [done|]. split.
    + intros q [-> | Hq]%elem_of_cons; apply elem_of_app; [right; by apply elem_of_list_singleton|left; by apply Hfrom].
    + intros q r [-> | Hq]%elem_of_cons Hr; [|by apply Hdiff]. intros [E1 E2].
      assert (has_identity p (new ++ before) = true); [|congruence]. apply has_identity_spec. exists r. rewrite elem_of_app. auto.
Qed.
Lemma fold_put pick (field : framework → list pattern) :
  (∀ f n w, field (apply_wrapper (f, n) w).1 = put (if_complete w (pick w)) (field f)) →
  ∀ ws f n, adds (field f) (field (foldl apply_wrapper (f, n) ws).1) (from_complete pick ws).
Proof.
  intros Hfield ws f n. induction ws as [|w ws IH] using rev_ind.
  { exists []. split; [done|]. split; intros ? ?; intros; by (match goal with H : _ ∈ [] |- _ => apply elem_of_nil in H end). }
  rewrite foldl_snoc. destruct (foldl apply_wrapper (f, n) ws) as [f' n'] eqn:E. cbn [fst] in IH. rewrite Hfield.
  unfold from_complete. rewrite omap_app. cbn [omap list_omap]. fold (if_complete w (pick w)).
  apply (put_adds (if_complete w (pick w))) in IH. unfold from_complete in IH. destruct (if_complete w (pick w)); [done|]. by rewrite app_nil_r.
Qed.
