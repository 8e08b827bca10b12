(** * Proofs about entrypoints. *)
From Coq Require Import Ascii.
From stdpp Require Import sorting.
From stdpp Require Import base list strings gmap relations.
From Verif Require Import StrLib StrOrder SccModel SccSpec SccProofs Worklist IdModel ReachModel ReachSpec ReachProofs SecModel
  EntryModel EntrySpec.

Section roots.
Context (name : cg_edge → string) (args : gset string).

Lemma elem_of_main_keys es k : k ∈ main_keys name args es ↔
  ∃ e, e ∈ es ∧ name e = "main" ∧ k = strip_to_base (ce_caller e).
Proof.
  unfold main_keys, call_graph_roots. rewrite elem_of_list_fmap. split.
  - intros (e & -> & He). rewrite !elem_of_list_filter in He. naive_solver.
  - intros (e & He & Hn & ->). exists e. rewrite !elem_of_list_filter. tauto.
Qed.

Lemma reachable_ok es : ∃ r, reachable_from_mains name args es = Some r ∧ ∀ k, k ∈ r ↔ from_main name es k.
Proof.
  unfold reachable_from_mains.
  set (succ := λ k, ce_callee <$> callers_of es k).
  set (U := list_to_set (main_keys name args es ++ (ce_callee <$> es)) : gset string).
  destruct (wl_run_total false succ U (2 * length es) (main_keys name args es)) as [r Hr].
  - intros x Hx. apply elem_of_list_to_set, elem_of_app. by left.
  - intros x y _ Hy. apply elem_of_list_to_set, elem_of_app. right.
    unfold succ, callers_of in Hy. apply elem_of_list_fmap in Hy as (e & -> & He).
    apply elem_of_list_filter in He as [_ He]. apply elem_of_list_fmap. eauto.
  - etrans; [apply size_list_to_set_le|]. rewrite app_length, fmap_length. unfold main_keys.
    rewrite fmap_length. unfold call_graph_roots.
    pose proof (filter_length (λ e, name e = "main") (filter (λ e, name e = "main" ∨
      (ce_caller e ∉ (ce_callee <$> es) ∧ ce_caller e ∉ args)) es)) as H1.
    pose proof (filter_length (λ e, name e = "main" ∨
      (ce_caller e ∉ (ce_callee <$> es) ∧ ce_caller e ∉ args)) es) as H2. lia.
  - exists r. split; [exact Hr|]. intros k. rewrite (wl_run_spec _ _ _ _ _ Hr).
    assert (∀ a b, wl_rel succ a b ↔ calls_to es a b) as Hrel.
    { intros a b. unfold wl_rel, succ, callers_of, calls_to. rewrite elem_of_list_fmap. split.
      - intros (e & -> & He). apply elem_of_list_filter in He as [Ha He]. exists e. split; [exact He|]. split; [exact Ha|done].
      - intros (e & He & <- & <-). exists e. by rewrite elem_of_list_filter. }
    split.
    + intros (s & Hs & Hk). apply elem_of_main_keys in Hs as (e & He & Hn & ->).
      exists e. split; [done|]. split; [done|]. eapply rtc_subrel; [|exact Hk]. apply Hrel.
    + intros (e & He & Hn & Hk). exists (strip_to_base (ce_caller e)). split; [apply elem_of_main_keys; eauto|].
      eapply rtc_subrel; [|exact Hk]. apply Hrel.
Qed.

Lemma split_three (P Q : string → Prop) `{∀ k, Decision (P k)} `{∀ k, Decision (Q k)} (l : list string) :
  length l = length (filter (λ k, ¬ P k ∧ Q k) l) + length (filter P l) + length (filter (λ k, ¬ P k ∧ ¬ Q k) l).
Proof.
  induction l as [|k l IH]; [done|]. rewrite !filter_cons.
  repeat case_decide; simpl; try lia; exfalso; tauto.
Qed.
End roots.

Lemma add_root_split rooted : ∀ S roots, ∃ extra,
  fold_left add_root rooted (S, roots) = (list_to_set extra ∪ S, roots ++ extra) ∧
  NoDup extra ∧ (∀ k, k ∈ extra ↔ k ∈ rooted ∧ k ∉ S) ∧ sublist extra rooted.
Proof.
  induction rooted as [|k rooted IH]; intros S roots; simpl.
  - exists []. rewrite app_nil_r. split_and!; [f_equal; set_solver|constructor| |constructor].
    intros k. rewrite elem_of_nil. tauto.
  - unfold add_root at 2. simpl. destruct (decide (k ∈ S)) as [Hk|Hk].
    + destruct (IH S roots) as (extra & E & Hnd & Hm & Hs). exists extra. split; [exact E|]. split; [done|].
      split; [|by apply sublist_cons].
      intros x. rewrite Hm, elem_of_cons. split; [tauto|]. intros [[->|?] ?]; tauto.
    + destruct (IH ({[ k ]} ∪ S) (roots ++ [k])) as (extra & E & Hnd & Hm & Hs). exists (k :: extra).
      rewrite E. split_and!.
      * f_equal; [set_solver|]. by rewrite <- app_assoc.
      * constructor; [|done]. rewrite Hm. set_solver.
      * intros x. rewrite !elem_of_cons, Hm. destruct (decide (x = k)) as [->|]; set_solver.
      * by apply sublist_skip.
Qed.

(** ** Presets *)
Section presets.
Context (re : string → string → option bool).

Lemma re_match_true e s : re_match re e s = true ↔ re e s = Some true.
Proof. unfold re_match. destruct (re e s) as [[]|]; split; congruence. Qed.

Lemma used_spec paths b : any_import_matches re (collect_imports paths) (eb_imports b) = true ↔ library_used re paths b.
Proof.
  unfold any_import_matches, library_used. rewrite existsb_elem. setoid_rewrite existsb_elem. split.
  - intros (x & Hx & i & Hi & Hm). exists x, i. unfold collect_imports in Hi.
    rewrite merge_sort_Permutation, elem_of_remove_dups, elem_of_list_filter in Hi.
    destruct (re x i) as [[]|]; done || naive_solver.
  - intros (x & i & Hx & Hi & Hn & Hm). exists x. split; [done|]. exists i. split; [|by rewrite Hm].
    unfold collect_imports. by rewrite merge_sort_Permutation, elem_of_remove_dups, elem_of_list_filter.
Qed.

(** What a run of additions does, for any list of patterns. *)
Lemma add_epatterns_split qs : ∀ S ps, ∃ added,
  fold_left add_epattern qs (S, ps) = (list_to_set (epattern_key <$> added) ∪ S, ps ++ added) ∧
  NoDup (epattern_key <$> added) ∧ (∀ p, p ∈ added → p ∈ qs ∧ epattern_key p ∉ S) ∧
  (∀ p, p ∈ qs → epattern_key p ∈ S ∨ epattern_key p ∈ (epattern_key <$> added)) ∧ sublist added qs.
Proof.
  induction qs as [|q qs IH]; intros S ps; simpl.
  - exists []. rewrite app_nil_r. split_and!; [f_equal; set_solver|constructor|set_solver|set_solver|constructor].
  - unfold add_epattern at 2. cbn [fst snd]. destruct (decide (epattern_key q ∈ S)) as [Hk|Hk].
    + destruct (IH S ps) as (added & E & H1 & H2 & H3 & H4). exists added. split_and!; [exact E|done| | |by apply sublist_cons].
      * intros p Hp. destruct (H2 p Hp). split; [by right|done].
      * intros p Hp. apply elem_of_cons in Hp as [->|Hp]; [by left|by apply H3].
    + destruct (IH ({[ epattern_key q ]} ∪ S) (ps ++ [q])) as (added & E & H1 & H2 & H3 & H4). exists (q :: added).
      rewrite E. split_and!; [| | | |by apply sublist_skip].
      * f_equal; [rewrite fmap_cons, list_to_set_cons; set_solver|]. by rewrite <- app_assoc.
      * rewrite fmap_cons. constructor; [|done]. rewrite elem_of_list_fmap. intros (p & Hp & Hin).
        destruct (H2 p Hin) as [_ Hn]. apply Hn. rewrite <- Hp. set_solver.
      * intros p Hp. apply elem_of_cons in Hp as [->|Hp]; [by split; [left|]|].
        destruct (H2 p Hp). split; [by right|set_solver].
      * intros p Hp. rewrite fmap_cons, elem_of_cons. apply elem_of_cons in Hp as [->|Hp]; [tauto|].
        destruct (H3 p Hp) as [Hs|Hs]; [|tauto]. apply elem_of_union in Hs as [Hs%elem_of_singleton|Hs]; tauto.
Qed.

(** A run over the bundles is one run over the patterns of those used. *)
Lemma add_ebundles imports bs : ∀ acc,
  fold_left (add_ebundle re imports) bs acc =
  fold_left add_epattern
    (filter (λ b, any_import_matches re imports (eb_imports b) = true) bs ≫= eb_patterns) acc.
Proof.
  induction bs as [|b bs IH]; intros acc; [done|]. cbn [fold_left]. rewrite IH. rewrite filter_cons.
  unfold add_ebundle at 1. destruct (any_import_matches re imports (eb_imports b)) eqn:Em.
  - rewrite (decide_True (P := true = true)) by done. rewrite bind_cons, fold_left_app.
    destruct (eb_patterns b) as [|p ps] eqn:Ep.
    + rewrite bool_decide_eq_true_2 by done. done.
    + rewrite bool_decide_eq_false_2 by done. done.
  - rewrite (decide_False (P := false = true)) by done. by rewrite orb_true_r.
Qed.

Definition used_patterns (bundles : list ebundle) (paths : list string) : list epattern :=
  filter (λ b, any_import_matches re (collect_imports paths) (eb_imports b) = true) bundles ≫= eb_patterns.

Lemma elem_of_used bundles paths p : p ∈ used_patterns bundles paths ↔
  ∃ b, b ∈ bundles ∧ library_used re paths b ∧ p ∈ eb_patterns b.
Proof.
  unfold used_patterns. rewrite elem_of_list_bind. split.
  - intros (b & Hp & Hb). apply elem_of_list_filter in Hb as [Hu Hb]. apply used_spec in Hu. eauto.
  - intros (b & Hb & Hu & Hp). exists b. split; [done|]. apply elem_of_list_filter. by rewrite used_spec.
Qed.

Lemma presets_eq bundles ps paths :
  apply_entrypoint_presets re bundles ps paths =
  (fold_left add_epattern (used_patterns bundles paths) (list_to_set (epattern_key <$> ps), ps)).2.
Proof.
  unfold apply_entrypoint_presets. destruct (collect_imports paths) as [|i is] eqn:E.
  - assert (used_patterns bundles paths = []) as ->; [|done].
    unfold used_patterns. rewrite E.
    assert (filter (λ b, any_import_matches re [] (eb_imports b) = true) bundles = []) as ->; [|done].
    apply filter_nothing. intros b _. unfold any_import_matches. intros H.
    apply existsb_elem in H as (x & _ & H). done.
  - rewrite add_ebundles. unfold used_patterns. by rewrite E.
Qed.

Lemma presets_split bundles ps paths : ∃ added,
  apply_entrypoint_presets re bundles ps paths = ps ++ added ∧
  NoDup (epattern_key <$> added) ∧
  (∀ p, p ∈ added → (∃ b, b ∈ bundles ∧ library_used re paths b ∧ p ∈ eb_patterns b) ∧
     epattern_key p ∉ (epattern_key <$> ps)) ∧
  (∀ b p, b ∈ bundles → library_used re paths b → p ∈ eb_patterns b → epattern_key p ∈ (epattern_key <$> ps ++ added)).
Proof.
  rewrite presets_eq.
  destruct (add_epatterns_split (used_patterns bundles paths) (list_to_set (epattern_key <$> ps)) ps)
    as (added & E & H1 & H2 & H3 & _).
  exists added. rewrite E. split; [done|]. split; [done|]. split.
  - intros p Hp. destruct (H2 p Hp) as [Hu Hn]. split; [by apply elem_of_used|]. by rewrite elem_of_list_to_set in Hn.
  - intros b p Hb Hu Hp. rewrite fmap_app, elem_of_app.
    destruct (H3 p) as [Hs|Hs]; [apply elem_of_used; eauto| |by right]. left. by rewrite elem_of_list_to_set in Hs.
Qed.

Lemma add_epatterns_nop qs : ∀ S ps, (∀ p, p ∈ qs → epattern_key p ∈ S) → fold_left add_epattern qs (S, ps) = (S, ps).
Proof.
  induction qs as [|q qs IH]; intros S ps H; [done|]. cbn [fold_left]. unfold add_epattern at 2. cbn [fst].
  rewrite decide_True by (apply H; left). apply IH. intros p Hp. apply H. by right.
Qed.

Lemma presets_twice bundles ps paths :
  apply_entrypoint_presets re bundles (apply_entrypoint_presets re bundles ps paths) paths =
  apply_entrypoint_presets re bundles ps paths.
Proof.
  destruct (presets_split bundles ps paths) as (added & E & _ & _ & H3). rewrite E, presets_eq.
  rewrite add_epatterns_nop; [done|]. intros p Hp. apply elem_of_used in Hp as (b & Hb & Hu & Hp).
  apply elem_of_list_to_set. by eapply H3.
Qed.

Lemma presets_perm bundles ps paths paths' : paths ≡ₚ paths' →
  apply_entrypoint_presets re bundles ps paths = apply_entrypoint_presets re bundles ps paths'.
Proof.
  intros Hp. rewrite !presets_eq. f_equal. f_equal. unfold used_patterns. f_equal.
  assert (∀ b, any_import_matches re (collect_imports paths) (eb_imports b) = true ↔
               any_import_matches re (collect_imports paths') (eb_imports b) = true) as Hb.
  { intros b. rewrite !used_spec. unfold library_used. by setoid_rewrite Hp. }
  induction bundles as [|b bs IH]; [done|]. rewrite !filter_cons. rewrite IH.
  pose proof (Hb b). repeat case_decide; tauto || done.
Qed.

Lemma keys_determine p q : (∀ s, s ∈ [ep_field p; ep_recv p; ep_field q; ep_recv q] → mem_byte "000"%char s = false) →
  epattern_key p = epattern_key q → p = q.
Proof.
  assert (∀ a b x y, mem_byte "000"%char a = false → mem_byte "000"%char b = false →
    a +:+ String "000" "" +:+ x = b +:+ String "000" "" +:+ y → a = b ∧ x = y) as Hcut.
  { intros a. induction a as [|c a IH]; intros [|d b] x y Ha Hb E.
    - cbn in E. injection E as E. by split.
    - cbn in E. injection E as Ec E. exfalso. subst d. revert Hb. cbn. done.
    - cbn in E. injection E as Ec E. exfalso. subst c. revert Ha. cbn. done.
    - change (String c (a +:+ String "000" "" +:+ x) = String d (b +:+ String "000" "" +:+ y)) in E.
      injection E as -> E. cbn [mem_byte] in Ha, Hb.
      apply orb_false_iff in Ha as [_ Ha]. apply orb_false_iff in Hb as [_ Hb].
      destruct (IH b x y Ha Hb E) as [-> ->]. done. }
  intros H E. unfold epattern_key in E.
  apply Hcut in E as [E1 E]; [|apply H; left|apply H; right; right; left].
  apply Hcut in E as [E2 E3]; [|apply H; right; left|apply H; right; right; right; left].
  destruct p, q; cbn in *; by subst.
Qed.
End presets.
