(** * C106: the middleware that guards a route. *)
From Coq Require Import Ascii ZArith Lia.
From stdpp Require Import sorting.
From stdpp Require Import base numbers list strings gmap.
From Verif Require Import StrLib StrOrder PairProofs RouteModel SecModel SecProofs GuardModel ReportProps.

(** ** Specification *)
(** The name, package and receiver an argument stands for. *)
Inductive stands : marg → string → string → string → Prop :=
| st_ident n p pos r s f l : stands (MArg MIdent n p pos r s f l) n p ""
| st_selector n p pos r s f l : a_pkg s ≠ "" → stands (MArg MSelector n p pos r (Some s) f l) (a_name s) (a_pkg s) (default "" r)
| st_selector_pkg n p pos r s f l : a_pkg s = "" → stands (MArg MSelector n p pos r (Some s) f l) (a_name s) p (default "" r)
| st_selector_bare n p pos r f l : stands (MArg MSelector n p pos r None f l) "" p (default "" r)
| st_call_selector n p pos r s f l n' p' r' : a_kind f = MSelector → stands f n' p' r' → stands (MArg MCall n p pos r s (Some f) l) n' p' r'
| st_call n p pos r s f l : a_kind f ≠ MSelector → stands (MArg MCall n p pos r s (Some f) l) (a_name f) (a_pkg f) "".
(** C106a: the middleware of an argument is what it stands for, if that is anything. *)
Theorem C106_identity_iff a r : ref_from_arg a = Some r ↔ stands a (mr_fn r) (mr_pkg r) (mr_recv r) ∧ mr_pos r = a_pos a ∧ ¬ (mr_fn r = "" ∧ mr_pkg r = "" ∧ mr_recv r = "").
Proof.
  assert (E : ∀ r, mref_empty r = true ↔ mr_fn r = "" ∧ mr_pkg r = "" ∧ mr_recv r = ""). { intros r0. unfold mref_empty. rewrite !andb_true_iff, !bool_decide_eq_true. by intuition. }
  assert (S1 : ∀ a pos, a_kind a = MSelector → stands a (mr_fn (selected a pos)) (mr_pkg (selected a pos)) (mr_recv (selected a pos)) ∧ mr_pos (selected a pos) = pos ∧ ∀ n p rv, stands a n p rv → selected a pos = MRef n p rv pos).
  { intros [k n p ps rv s f l] pos K. cbn in K. subst k. unfold selected. cbn [a_sel a_recv a_pkg]. destruct s as [s|]; cbn [mr_fn mr_pkg mr_recv mr_pos].
    - destruct (decide (a_pkg s = "")) as [e|e]; (split; [by constructor|]; split; [done|]); intros n' p' r' H; inversion H; subst; congruence.
    - destruct (decide _) as [_|e]; [|done]. split; [by constructor|]. split; [done|]. intros n' p' r' H; inversion H; subst; done. }
  unfold ref_from_arg. set (o := match a_kind a with MIdent => _ | _ => _ end). assert (O : ∀ r, o = Some r ↔ stands a (mr_fn r) (mr_pkg r) (mr_recv r) ∧ mr_pos r = a_pos a).
  { intros r0. unfold o. destruct a as [k n p ps rv s f l]. destruct k; cbn [a_kind a_pos a_fn].
    - split; [intros [= <-]; cbn; split; [constructor|done]|]. intros [H P]. inversion H; subst. destruct r0; cbn in *; subst. done.
    - destruct (S1 (MArg MSelector n p ps rv s f l) ps eq_refl) as (A & B & C). split; [intros [= <-]; done|]. intros [H P]. f_equal. rewrite (C _ _ _ H). destruct r0; cbn in *; by subst.
    - destruct f as [f|]; cbn [mbind option_bind].
      + destruct (decide (a_kind f = MSelector)) as [K|K].
        * destruct (S1 f ps K) as (A & B & C). split; [intros [= <-]; split; [by apply st_call_selector|done]|]. intros [H P]. f_equal. assert (X : stands f (mr_fn r0) (mr_pkg r0) (mr_recv r0)) by (inversion H; subst; [done|congruence]). rewrite (C _ _ _ X). destruct r0; cbn in *; by subst.
        * split; [intros [= <-]; cbn; split; [by apply st_call|done]|]. intros [H P]. f_equal. inversion H; subst; [congruence|]. destruct r0; cbn in *; subst. done.
      + split; [done|]. intros [H _]. inversion H.
    - split; [done|]. intros [H _]. inversion H. }
  clearbody o. destruct o as [r0|]; cbn [mbind option_bind].
  - specialize (E r0). destruct (mref_empty r0).
    + split; [done|]. intros (H & P & N). assert (r0 = r) as -> by (assert (X : Some r0 = Some r) by (by apply O); congruence). exfalso. apply N. by apply E.
    + split; [intros [= <-]; destruct (proj1 (O r0) eq_refl) as [H P]; split; [done|]; split; [done|]; intros X; by apply E in X|]. intros (H & P & N). by apply O.
  - split; [done|]. intros (H & P & _). assert (X : None = Some r) by (by apply O). done.
Qed.

(** ** Variables *)
(** A function or method of the caller's name, in the caller's package, with its records of assignments. *)
Inductive scope_map (pkgs : gmap string (gmap string mfile)) (e : medge) : mamap → Prop :=
| sc_function files fn f m : pkgs !! me_pkg e = Some files → files !! fn = Some f → mf_functions f !! me_caller e = Some m → scope_map pkgs e m
| sc_method files fn f t ms m : pkgs !! me_pkg e = Some files → files !! fn = Some f → mf_types f !! t = Some ms → m ∈ ms → mm_name m = me_caller e →
    (trim_prefix "*" (me_recv e) = "" ∨ trim_prefix "*" (mm_recv m) = "" ∨ trim_prefix "*" (mm_recv m) = trim_prefix "*" (me_recv e)) → scope_map pkgs e (mm_map m).
Lemma first_records_spec var l : (first_records var l = [] ↔ ∀ m, m ∈ l → in_map var m = []) ∧ (first_records var l ≠ [] → ∃ m, m ∈ l ∧ in_map var m = first_records var l).
Proof.
  induction l as [|m l [I1 I2]]; cbn [first_records]; [split; [split; [intros _ m Hm; by apply not_elem_of_nil in Hm|done]|done]|].
  destruct (in_map var m) eqn:F.
  - split.
    + rewrite I1. split; [intros H m' Hm; apply elem_of_cons in Hm as [->|Hm]; [done|by apply H]|intros H m' Hm; apply H; by right].
    + intros H. destruct (I2 H) as (m' & Hm & E). exists m'. split; [by right|done].
  - split; [split; [done|]; intros H; rewrite (H m) in F by left; done|]. intros _. exists m. split; [by left|done].
Qed.
Lemma files_spec pkgs e files m : pkgs !! me_pkg e = Some files → m ∈ concat ((λ f, match files !! f with Some f => file_maps e f | None => [] end) <$> ssort (elements (dom files))) ↔ scope_map pkgs e m.
Proof.
  intros P. rewrite in_concat_fmap. split.
  - intros (fn & _ & H). destruct (files !! fn) as [f|] eqn:F; [|by apply not_elem_of_nil in H]. unfold file_maps in H. apply elem_of_app in H as [H|H].
    + destruct (mf_functions f !! me_caller e) as [m'|] eqn:M; cbn in H; [|by apply not_elem_of_nil in H]. apply elem_of_list_singleton in H as ->. by eapply sc_function.
    + apply in_concat_fmap in H as (t & _ & H). apply elem_of_list_fmap in H as (m' & E & H). subst m. apply elem_of_list_filter in H as [Hf Hm]. destruct (mf_types f !! t) as [ms|] eqn:T; cbn in Hm; [|by apply not_elem_of_nil in Hm]. unfold meth_fits in Hf. apply andb_true_iff in Hf as [F1 F2]. apply bool_decide_eq_true in F1. rewrite !orb_true_iff, !bool_decide_eq_true in F2. eapply sc_method; [done..|]. destruct F2 as [[?|?]|?]; [by left|by right; left|by right; right].
  - intros H. destruct H as [files' fn f m P' F M|files' fn f t ms m P' F T Hm N R]; assert (files' = files) as -> by congruence.
    + exists fn. split; [apply elem_of_ssort, elem_of_elements, elem_of_dom; by eexists|]. rewrite F. unfold file_maps. rewrite M. apply elem_of_app. left. by left.
    + exists fn. split; [apply elem_of_ssort, elem_of_elements, elem_of_dom; by eexists|]. rewrite F. unfold file_maps. apply elem_of_app. right. apply in_concat_fmap. exists t. split; [apply elem_of_ssort, elem_of_elements, elem_of_dom; by eexists|]. apply elem_of_list_fmap. exists m. split; [done|]. apply elem_of_list_filter. rewrite T. split; [|done]. unfold meth_fits. apply andb_true_iff. split; [by apply bool_decide_eq_true|]. rewrite !orb_true_iff, !bool_decide_eq_true. destruct R as [?|[?|?]]; [by left; left|by left; right|by right].
Qed.
(** C106b: the records of a variable are the call's own, or those of a function or method of the caller's name that has some; none exactly if there are none. *)
Theorem C106_lookup pkgs e var : me_caller e ≠ "" → me_pkg e ≠ "" →
  (in_map var (me_map e) ≠ [] → lookup_assignments pkgs e var = in_map var (me_map e)) ∧
  (in_map var (me_map e) = [] → lookup_assignments pkgs e var ≠ [] → ∃ m, scope_map pkgs e m ∧ lookup_assignments pkgs e var = default [] (m !! var)) ∧
  (lookup_assignments pkgs e var = [] ↔ default [] (me_map e !! var) = [] ∧ ∀ m, scope_map pkgs e m → default [] (m !! var) = []).
Proof.
  intros N1 N2. unfold lookup_assignments. split; [intros H; by destruct (in_map var (me_map e))|]. change (default [] (me_map e !! var)) with (in_map var (me_map e)).
  destruct (in_map var (me_map e)) as [|a l] eqn:I; [|split; [done|]; split; [done|by intros [? _]]]. rewrite decide_False by (by intros [?|?]). destruct (pkgs !! me_pkg e) as [files|] eqn:P.
  - destruct (first_records_spec var (concat ((λ f, match files !! f with Some f => file_maps e f | None => [] end) <$> ssort (elements (dom files))))) as [F1 F2]. split.
    + intros _ H. destruct (F2 H) as (m & Hm & E). exists m. split; [by apply (files_spec pkgs e files m P)|done].
    + rewrite F1. split; [intros H; split; [done|]; intros m Hm; apply H; by apply (files_spec pkgs e files m P)|]. intros [_ H] m Hm. apply H. by apply (files_spec pkgs e files m P).
  - split; [done|]. split; [|done]. intros _. split; [done|]. intros m H. destruct H; congruence.
Qed.

(** ** The arguments of a call *)
(** C106c: of a call's arguments, those from the pattern's on, one or all, without the last if that is the handler, are its middleware; a wrapper is the handler if that is a call. *)
Theorem C106_extract_iff pkgs p e r : sp_scope p ≠ ScWrapper → r ∈ extract_middleware pkgs p e ↔ ∃ i a, me_args e !! i = Some a ∧ Z.to_nat (sp_at p) ≤ i ∧ (sp_variadic p = false → i = Z.to_nat (sp_at p)) ∧ (sp_variadic p = true → sp_but_last p = true → i + 1 < length (me_args e)) ∧ arg_ref pkgs e a = Some r.
Proof.
  intros W. unfold extract_middleware. rewrite decide_False by done. set (s := Z.to_nat (sp_at p)). set (n := length (me_args e)). rewrite elem_of_list_omap. split.
  - intros (a & Ha & R). apply elem_of_list_lookup in Ha as [j Hj]. apply lookup_take_Some in Hj as [Hj L]. rewrite lookup_drop in Hj. exists (s + j), a. split; [done|]. apply lookup_lt_Some in Hj. fold n in Hj. split; [lia|]. split; [intros V; rewrite V in L; lia|]. split; [intros V B; rewrite V, B in L; cbn [andb] in L; destruct (bool_decide (s < n)) eqn:D; [apply bool_decide_eq_true in D|apply bool_decide_eq_false in D]; lia|done].
  - intros (i & a & Hi & L & V0 & V1 & R). exists a. split; [|done]. apply elem_of_list_lookup. exists (i - s). apply lookup_take_Some. split; [rewrite lookup_drop; by replace (s + (i - s)) with i by lia|]. apply lookup_lt_Some in Hi. fold n in Hi, V1. destruct (sp_variadic p).
    + destruct (sp_but_last p) eqn:B; cbn [andb]; [|lia]. specialize (V1 eq_refl eq_refl). rewrite bool_decide_eq_true_2 by lia. lia.
    + specialize (V0 eq_refl). lia.
Qed.
Theorem C106_wrapper_iff pkgs p e r : sp_scope p = ScWrapper → r ∈ extract_middleware pkgs p e ↔ (0 ≤ sp_handler p)%Z ∧ ∃ h, me_args e !! Z.to_nat (sp_handler p) = Some h ∧ a_kind h = MCall ∧ ref_from_arg h = Some r.
Proof.
  intros W. unfold extract_middleware. rewrite decide_True by done. destruct (decide (0 ≤ sp_handler p)%Z) as [L|L]; [|split; [intros H; by apply not_elem_of_nil in H|by intros [? _]]].
  destruct (me_args e !! Z.to_nat (sp_handler p)) as [h|]; [|split; [intros H; by apply not_elem_of_nil in H|by intros (_ & h & ? & _)]]. destruct (decide (a_kind h = MCall)) as [K|K].
  - rewrite elem_of_option_list || idtac. destruct (ref_from_arg h) as [r'|] eqn:R; cbn.
    + split; [intros H; apply elem_of_list_singleton in H as ->; split; [done|]; by exists h|]. intros (_ & h' & [= <-] & _ & E). assert (r = r') as -> by congruence. by left.
    + split; [intros H; by apply not_elem_of_nil in H|]. intros (_ & h' & [= <-] & _ & E). congruence.
  - split; [intros H; by apply not_elem_of_nil in H|]. intros (_ & h' & [= <-] & ? & _). done.
Qed.

(** ** The best match *)
(** The first of the highest priority. *)
Definition best (l : list smatch) (m : smatch) : Prop := ∃ i, l !! i = Some m ∧ ∀ j m', l !! j = Some m' → (sx_prio m' ≤ sx_prio m)%Z ∧ (j < i → (sx_prio m' < sx_prio m)%Z).
Lemma best_spec l : match best_match l with Some m => best l m | None => l = [] end.
Proof.
  unfold best_match. induction l as [|m l IH] using rev_ind; [done|]. rewrite foldl_app. cbn [foldl]. set (b := foldl _ None l) in *. clearbody b. destruct b as [b|].
  - destruct IH as (i & Hi & B). assert (Li : i < length l) by (by eapply lookup_lt_Some). destruct (decide (sx_prio b < sx_prio m)%Z) as [L|L].
    + exists (length l). split; [by rewrite list_lookup_middle|]. intros j m' Hj. apply lookup_app_Some in Hj as [Hj|[G Hj]].
      * apply B in Hj as [Hj _]. split; [lia|lia].
      * apply list_lookup_singleton_Some in Hj as [? <-]. split; lia.
    + exists i. split; [by apply lookup_app_l_Some|]. intros j m' Hj. apply lookup_app_Some in Hj as [Hj|[G Hj]]; [by apply B in Hj|]. apply list_lookup_singleton_Some in Hj as [? <-]. split; lia.
  - subst l. exists 0. split; [done|]. intros j m' Hj. apply list_lookup_singleton_Some in Hj as [-> <-]. split; lia.
Qed.
Lemma best_unique l m m' : best l m → best l m' → m = m'.
Proof. intros (i & Hi & B) (j & Hj & B'). destruct (B _ _ Hj) as [L1 L2], (B' _ _ Hi) as [L3 L4]. destruct (decide (i = j)) as [->|N]; [congruence|]. exfalso. destruct (decide (j < i)); [specialize (L2 l0); lia|]. assert (i < j) by lia. specialize (L4 H). lia. Qed.
(** The middleware a call applies over a scope. *)
Definition applies (s : scope) (n : gnode) (r : mref) : Prop := ∃ m, best (g_sec n) m ∧ sx_scope m = s ∧ r ∈ sx_refs m.
Lemma scoped_spec s n r : r ∈ scoped s n ↔ applies s n r.
Proof.
  unfold scoped, applies. pose proof (best_spec (g_sec n)) as B. destruct (best_match (g_sec n)) as [m|].
  - destruct (decide (sx_scope m = s)) as [E|E].
    + split; [intros H; by exists m|]. intros (m' & B' & _ & H). by rewrite (best_unique _ _ _ B B').
    + split; [intros H; by apply not_elem_of_nil in H|]. intros (m' & B' & E' & _). rewrite (best_unique _ _ _ B' B) in E'. done.
  - split; [intros H; by apply not_elem_of_nil in H|]. intros (m' & (i & Hi & _) & _). rewrite B in Hi. done.
Qed.

(** ** The tree *)
(** A call beside a node, made in the same function: a child of the same parent with the same caller. *)
Definition beside (parent child : gnode) (r : mref) : Prop := ∃ u, u ∈ g_kids parent ∧ g_caller u = g_caller child ∧ applies ScRouter u r.
(** A route below a node, its mount path, and the middleware met on the way down: beside each node passed and on each mount. *)
Inductive meets : gnode → string → gnode → string → (mref → Prop) → Prop :=
| meets_route n mp : g_kind n = NRoute → meets n mp n mp (λ _, False)
| meets_plain n mp k r mp' G : g_kind n = NPlain → k ∈ g_kids n → meets k mp r mp' G → meets n mp r mp' (λ m, beside n k m ∨ G m)
| meets_mount n mp p k r mp' G : g_kind n = NMount p → k ∈ g_kids n → meets k (mount_down mp p) r mp' G → meets n mp r mp' (λ m, applies ScSubtree n m ∨ beside n k m ∨ G m).
(** The texts under which the traversal marks the nodes it visits. *)
Fixpoint visits (n : gnode) (mp : string) : list string :=
  let 'GNode key caller kind sec chain router kids := n in
  let all mp := (fix all (ks : list gnode) := match ks with [] => [] | k :: ks => visits k mp ++ all ks end) kids in
  (key +:+ "@" +:+ mp) :: match kind with NRoute => [] | NPlain => all mp | NMount p => all (mount_down mp p) end.
(** A list of middleware says what a predicate says, middleware being known by its text. *)
Definition same_refs (l : list mref) (P : mref → Prop) : Prop := ∀ t, (∃ m, m ∈ l ∧ mref_string m = t) ↔ ∃ m, P m ∧ mref_string m = t.

Lemma gnode_ind' (P : gnode → Prop) : (∀ key caller kind sec chain router kids, Forall P kids → P (GNode key caller kind sec chain router kids)) → ∀ n, P n.
Proof.
  intros H. fix IH 1. intros [key caller kind sec chain router kids]. apply H. clear H. induction kids as [|k kids IHk]; constructor; [apply IH|done].
Qed.
Definition trav_all (kids : list gnode) (mp : string) (mw : list mref) : list gnode → gset string * list met → gset string * list met :=
  fix all (ks : list gnode) (st : gset string * list met) := match ks with [] => st | k :: ks => all ks (traverse k mp (merge_mw mw (router_refs kids (g_caller k))) st) end.
Lemma traverse_eq n mp mw st : traverse n mp mw st =
  if decide (visit_key n mp ∈ st.1) then st
  else match g_kind n with
       | NMount p => trav_all (g_kids n) (mount_down mp p) (merge_mw mw (scoped ScSubtree n)) (g_kids n) ({[visit_key n mp]} ∪ st.1, st.2)
       | NRoute => ({[visit_key n mp]} ∪ st.1, st.2 ++ [Met n mp mw])
       | NPlain => trav_all (g_kids n) mp mw (g_kids n) ({[visit_key n mp]} ∪ st.1, st.2)
       end.
Proof. destruct n as [key caller kind sec chain router kids]. done. Qed.
Lemma visits_eq n mp : visits n mp = visit_key n mp :: match g_kind n with NRoute => [] | NPlain => concat ((λ k, visits k mp) <$> g_kids n) | NMount p => concat ((λ k, visits k (mount_down mp p)) <$> g_kids n) end.
Proof.
  destruct n as [key caller kind sec chain router kids]. cbn [visits g_kind g_kids]. unfold visit_key. cbn [g_key]. f_equal. assert (E : ∀ mp, (fix all (ks : list gnode) := match ks with [] => [] | k :: ks => visits k mp ++ all ks end) kids = concat ((λ k, visits k mp) <$> kids)) by (intros mp'; induction kids as [|k kids IH]; [done|]; cbn; by rewrite IH). by destruct kind; rewrite ?E.
Qed.
Lemma or_shift (A B C D : Prop) : (B ∨ C ↔ D) → ((A ∨ B) ∨ C) ↔ A ∨ D.
Proof. tauto. Qed.
Lemma merge_listed base extra t : (∃ m, m ∈ merge_mw base extra ∧ mref_string m = t) ↔ (∃ m, m ∈ base ∧ mref_string m = t) ∨ ∃ m, m ∈ extra ∧ mref_string m = t.
Proof.
  unfold merge_mw. destruct extra as [|x extra].
  - split; [by left|]. intros [?|(m & H & _)]; [done|by apply not_elem_of_nil in H].
  - split.
    + intros (m & H & E). apply dedup_refs_sub in H. apply elem_of_app in H as [H|H]; [left|right]; by exists m.
    + intros H. assert (∃ m, m ∈ base ++ x :: extra ∧ mref_string m = t) as (m & Hm & E) by (destruct H as [(m & ? & ?)|(m & ? & ?)]; exists m; (split; [apply elem_of_app|done]); [by left|by right]). apply dedup_refs_listed in Hm as (m' & Hm & E'). exists m'. split; [done|congruence].
Qed.
Lemma router_spec n k r : r ∈ router_refs (g_kids n) (g_caller k) ↔ beside n k r.
Proof.
  unfold router_refs, beside. rewrite in_concat_fmap. split; intros (u & H1 & H2).
  - apply elem_of_list_filter in H1 as [H1 H3]. exists u. split; [done|]. split; [done|]. by apply scoped_spec.
  - destruct H2 as [H2 H3]. exists u. split; [by apply elem_of_list_filter|by apply scoped_spec].
Qed.
Definition ok_met (P : met → Prop) (st : gset string * list met) : Prop := ∀ x, x ∈ st.2 → P x.
Lemma traverse_sound n : ∀ mp mw st x, x ∈ (traverse n mp mw st).2 → x ∈ st.2 ∨ ∃ G, meets n mp (mt_node x) (mt_path x) G ∧ ∀ t, (∃ m, m ∈ mt_mw x ∧ mref_string m = t) ↔ (∃ m, m ∈ mw ∧ mref_string m = t) ∨ ∃ m, G m ∧ mref_string m = t.
Proof.
  induction n as [key caller kind sec chain router kids IH] using gnode_ind'. intros mp mw st x. set (n := GNode key caller kind sec chain router kids). rewrite traverse_eq. destruct (decide _); [by left|].
  assert (L : ∀ mp' mw' ks st', (∀ k, k ∈ ks → k ∈ kids) → x ∈ (trav_all kids mp' mw' ks st').2 → x ∈ st'.2 ∨ ∃ k G, k ∈ kids ∧ meets k mp' (mt_node x) (mt_path x) G ∧ ∀ t, (∃ m, m ∈ mt_mw x ∧ mref_string m = t) ↔ (∃ m, m ∈ mw' ∧ mref_string m = t) ∨ ∃ m, (beside n k m ∨ G m) ∧ mref_string m = t).
  { intros mp' mw'. induction ks as [|k ks IHk]; intros st' Hk H; cbn [trav_all] in H; [by left|]. apply IHk in H as [H|H]; [|by right|intros k' ?; apply Hk; by right].
    assert (Hin : k ∈ kids) by (apply Hk; by left). rewrite Forall_forall in IH. apply (IH k Hin) in H as [H|(G & M & E)]; [by left|]. right. exists k, G. split; [done|]. split; [done|]. intros t. rewrite E, merge_listed. apply or_shift. split.
    - intros [(m & H & ?)|(m & H & ?)]; exists m; (split; [|done]); [left; by apply (router_spec n) in H|by right].
    - intros (m & [H|H] & ?); [left|right]; exists m; [split; [by apply (router_spec n)|done]|done]. }
  change (g_kids n) with kids. change (g_kind n) with kind. destruct kind as [p| |]; intros H.
  - apply L in H as [H|(k & G & Hk & M & E)]; [by left| |done]. right. exists (λ m, applies ScSubtree n m ∨ beside n k m ∨ G m). split; [by eapply meets_mount|]. intros t. rewrite E, merge_listed. apply or_shift. split.
    + intros [(m & X & ?)|(m & X & ?)]; exists m; (split; [|done]); [left; by apply scoped_spec|by right].
    + intros (m & [X|X] & ?); [left|right]; exists m; [split; [by apply scoped_spec|done]|done].
  - cbn [snd] in H. apply elem_of_app in H as [H|H]; [by left|]. apply elem_of_list_singleton in H as ->. right. exists (λ _, False). split; [by apply meets_route|]. intros t. cbn [mt_mw]. split; [by left|]. intros [?|(m & [] & _)]. done.
  - apply L in H as [H|(k & G & Hk & M & E)]; [by left| |done]. right. exists (λ m, beside n k m ∨ G m). split; [by eapply meets_plain|done].
Qed.
Lemma traverse_visited n : ∀ mp mw st v, v ∈ (traverse n mp mw st).1 → v ∈ st.1 ∨ v ∈ visits n mp.
Proof.
  induction n as [key caller kind sec chain router kids IH] using gnode_ind'. intros mp mw st v. set (n := GNode key caller kind sec chain router kids). rewrite traverse_eq, visits_eq. destruct (decide _); [by left|]. rewrite Forall_forall in IH.
  assert (L : ∀ mp' mw' ks st', (∀ k, k ∈ ks → k ∈ kids) → v ∈ (trav_all kids mp' mw' ks st').1 → v ∈ st'.1 ∨ v ∈ concat ((λ k, visits k mp') <$> ks)).
  { intros mp' mw'. induction ks as [|k ks IHk]; intros st' Hk H; cbn [trav_all] in H; [by left|]. rewrite fmap_cons. cbn [concat]. rewrite elem_of_app. apply IHk in H as [H|H]; [|by right; right|intros k' ?; apply Hk; by right]. apply IH in H as [H|H]; [by left|by right; left|apply Hk; by left]. }
  change (g_kids n) with kids. change (g_kind n) with kind. rewrite elem_of_cons. destruct kind as [p| |]; intros H.
  - apply L in H as [H|H]; [|by right; right|done]. cbn in H. apply elem_of_union in H as [H|H]; [apply elem_of_singleton in H; by right; left|by left].
  - cbn in H. apply elem_of_union in H as [H|H]; [apply elem_of_singleton in H; by right; left|by left].
  - apply L in H as [H|H]; [|by right; right|done]. cbn in H. apply elem_of_union in H as [H|H]; [apply elem_of_singleton in H; by right; left|by left].
Qed.
Lemma traverse_keeps n : ∀ mp mw st x, x ∈ st.2 → x ∈ (traverse n mp mw st).2.
Proof.
  induction n as [key caller kind sec chain router kids IH] using gnode_ind'. intros mp mw st x H. set (n := GNode key caller kind sec chain router kids). rewrite traverse_eq. destruct (decide _); [done|]. rewrite Forall_forall in IH.
  assert (L : ∀ mp' mw' ks st', (∀ k, k ∈ ks → k ∈ kids) → x ∈ st'.2 → x ∈ (trav_all kids mp' mw' ks st').2).
  { intros mp' mw'. induction ks as [|k ks IHk]; intros st' Hk Hx; cbn [trav_all]; [done|]. apply IHk; [intros k' ?; apply Hk; by right|]. apply IH; [apply Hk; by left|done]. }
  change (g_kids n) with kids. change (g_kind n) with kind. destruct kind as [p| |]; [by apply L|cbn; apply elem_of_app; by left|by apply L].
Qed.
Lemma traverse_complete n : ∀ mp mw st r mp' G, NoDup (visits n mp) → (∀ v, v ∈ visits n mp → v ∉ st.1) → meets n mp r mp' G →
  ∃ x, x ∈ (traverse n mp mw st).2 ∧ mt_node x = r ∧ mt_path x = mp' ∧ ∀ t, (∃ m, m ∈ mt_mw x ∧ mref_string m = t) ↔ (∃ m, m ∈ mw ∧ mref_string m = t) ∨ ∃ m, G m ∧ mref_string m = t.
Proof.
  induction n as [key caller kind sec chain router kids IH] using gnode_ind'. intros mp mw st r mp' G ND NV M. set (n := GNode key caller kind sec chain router kids) in *. rewrite traverse_eq, decide_False by (apply NV; rewrite visits_eq; by left). rewrite visits_eq in ND, NV. apply NoDup_cons in ND as [NI ND]. rewrite Forall_forall in IH.
  assert (L : ∀ mp0 mw0 k ks st', (∀ k, k ∈ ks → k ∈ kids) → NoDup (concat ((λ k, visits k mp0) <$> ks)) → (∀ v, v ∈ concat ((λ k, visits k mp0) <$> ks) → v ∉ st'.1) → k ∈ ks → ∀ G, meets k mp0 r mp' G →
    ∃ x, x ∈ (trav_all kids mp0 mw0 ks st').2 ∧ mt_node x = r ∧ mt_path x = mp' ∧ ∀ t, (∃ m, m ∈ mt_mw x ∧ mref_string m = t) ↔ (∃ m, m ∈ mw0 ∧ mref_string m = t) ∨ ∃ m, (beside n k m ∨ G m) ∧ mref_string m = t).
  { intros mp0 mw0 k. induction ks as [|k0 ks IHk]; intros st' Hk D V Hin G' M'; [by apply not_elem_of_nil in Hin|]. cbn [trav_all]. rewrite fmap_cons in D, V. cbn [concat] in D, V. apply NoDup_app in D as (D1 & D2 & D3). apply elem_of_cons in Hin as [<-|Hin].
    - destruct (IH k (Hk k ltac:(by left)) mp0 (merge_mw mw0 (router_refs kids (g_caller k))) st' r mp' G' D1) as (x & Hx & X1 & X2 & X3); [intros v Hv; apply V, elem_of_app; by left|done|]. exists x. split.
      + clear IHk D2 D3 V M' Hk D1. revert Hx. generalize (traverse k mp0 (merge_mw mw0 (router_refs kids (g_caller k))) st'). induction ks as [|k' ks IHks]; intros st0 Hx; cbn [trav_all]; [done|]. apply IHks. by apply traverse_keeps.
      + split; [done|]. split; [done|]. intros t. rewrite X3, merge_listed. apply or_shift. split.
        * intros [(m & X & ?)|(m & X & ?)]; exists m; (split; [|done]); [left; by apply (router_spec n) in X|by right].
        * intros (m & [X|X] & ?); [left|right]; exists m; [split; [by apply (router_spec n)|done]|done].
    - apply IHk; [intros k' ?; apply Hk; by right|done| |done|done]. intros v Hv Hv'. apply traverse_visited in Hv' as [Hv'|Hv']; [by apply (V v); [apply elem_of_app; by right|]|]. by apply (D2 v). }
  change (g_kids n) with kids in *. change (g_kind n) with kind in *. inversion M as [n0 mp0 K|n0 mp0 k r0 mp0' G0 K Hk M0|n0 mp0 p k r0 mp0' G0 K Hk M0]; subst; change (g_kind n) with kind in K; rewrite K in *.
  - exists (Met n mp' mw). cbn. split; [apply elem_of_app; right; by left|]. split; [done|]. split; [done|]. intros t. split; [by left|]. intros [?|(m & [] & _)]. done.
  - apply (L mp mw k kids); [done|done| |done|done]. intros v Hv. cbn. rewrite elem_of_union, elem_of_singleton. intros [->|Hv']; [done|]. apply (NV v); [by right|done].
  - destruct (L (mount_down mp p) (merge_mw mw (scoped ScSubtree n)) k kids ({[visit_key n mp]} ∪ st.1, st.2)) with (G := G0) as (x & X0 & X1 & X2 & X3); [done|done| |done|done|].
    + intros v Hv. cbn. rewrite elem_of_union, elem_of_singleton. intros [->|Hv']; [done|]. apply (NV v); [by right|done].
    + exists x. split; [done|]. split; [done|]. split; [done|]. intros t. rewrite X3, merge_listed. apply or_shift. split.
      * intros [(m & X & ?)|(m & X & ?)]; exists m; (split; [|done]); [left; by apply scoped_spec|by right].
      * intros (m & [X|X] & ?); [left|right]; exists m; [split; [by apply scoped_spec|done]|done].
Qed.
(** C106d: every route found is guarded by the middleware met on a way down to it, and by no other. *)
Theorem C106_found root x : x ∈ routes_met root → ∃ G, meets root "" (mt_node x) (mt_path x) G ∧ same_refs (mt_mw x) G.
Proof.
  intros H. apply traverse_sound in H as [H|(G & M & E)]; [by apply not_elem_of_nil in H|]. exists G. split; [done|]. intros t. rewrite E. split; [|by right]. intros [(m & Hm & _)|?]; [by apply not_elem_of_nil in Hm|done].
Qed.
(** C106e: every route is found with the middleware on the way to it, unless two nodes are visited under one text. *)
Theorem C106_all_found root r mp G : NoDup (visits root "") → meets root "" r mp G → ∃ mw, Met r mp mw ∈ routes_met root ∧ same_refs mw G.
Proof.
  intros ND M. destruct (traverse_complete root "" [] (∅, []) r mp G ND) as ([r' mp0 mw] & Hx & X1 & X2 & X3); [intros v _; apply not_elem_of_empty|done|]. cbn in X1, X2, X3. subst. exists mw. split; [done|]. intros t. rewrite X3. split; [|by right]. intros [(m & Hm & _)|?]; [by apply not_elem_of_nil in Hm|done].
Qed.
(** C106f: a route's definite middleware: what is carried to it, applied at it, or at the calls it is chained on. *)
Definition chained (n : gnode) (r : mref) : Prop := ∃ l m, l ∈ g_chain n ∧ best (filter (λ m, sx_scope m = ScRoute) l) m ∧ r ∈ sx_refs m.
Theorem C106_definite n mw : same_refs (definite_refs n mw) (λ m, m ∈ mw ∨ applies ScRoute n m ∨ chained n m).
Proof.
  intros t. unfold definite_refs. assert (C : ∀ m, m ∈ chain_refs n ↔ chained n m).
  { intros m. unfold chain_refs, chained. rewrite in_concat_fmap. split.
    - intros (l & Hl & H). pose proof (best_spec (filter (λ m, sx_scope m = ScRoute) l)) as B. destruct (best_match _) as [b|]; [by exists l, b|by apply not_elem_of_nil in H].
    - intros (l & b & Hl & B & H). exists l. split; [done|]. pose proof (best_spec (filter (λ m, sx_scope m = ScRoute) l)) as B'. destruct (best_match _) as [b'|]; [by rewrite (best_unique _ _ _ B' B)|]. destruct B as (i & Hi & _). rewrite B' in Hi. done. }
  assert (D : ∀ m, m ∈ mw ++ scoped ScRoute n ++ chain_refs n ↔ m ∈ mw ∨ applies ScRoute n m ∨ chained n m) by (intros m; by rewrite !elem_of_app, scoped_spec, C). split.
  - intros (m & H & E). apply dedup_refs_sub, D in H. by exists m.
  - intros (m & H & E). apply D, dedup_refs_listed in H as (m' & H & E'). exists m'. split; [done|congruence].
Qed.
Print Assumptions C106_identity_iff. Print Assumptions C106_lookup. Print Assumptions C106_extract_iff. Print Assumptions C106_wrapper_iff. Print Assumptions C106_found. Print Assumptions C106_all_found. Print Assumptions C106_definite.
(** A variable stands for what its latest record was assigned from: the function called, or what the value stands for; otherwise for itself. *)
Theorem C106_latest pkgs e a l asn : a_kind a = MIdent → lookup_assignments pkgs e (a_name a) = l ++ [asn] →
  arg_ref pkgs e a =
  if decide (mn_func asn = "") then
    if decide (a_kind (mn_value asn) = MCall ∨ a_kind (mn_value asn) = MSelector) then match ref_from_arg (mn_value asn) with Some r => Some r | None => ref_from_arg a end else ref_from_arg a
  else Some (MRef (mn_func asn) (mn_pkg asn) "" (a_pos a)).
Proof. intros K L. unfold arg_ref, ident_ref. rewrite decide_True by done. rewrite L, last_snoc. cbn. by repeat case_decide. Qed.
Theorem C106_unrecorded pkgs e a : a_kind a ≠ MIdent ∨ lookup_assignments pkgs e (a_name a) = [] → arg_ref pkgs e a = ref_from_arg a.
Proof. intros H. unfold arg_ref, ident_ref. destruct (decide (a_kind a = MIdent)); [|done]. by destruct H as [?| ->]. Qed.
(** A route's speculative middleware: what wraps its handler. *)
Theorem C106_speculative n : same_refs (speculative_refs n) (applies ScWrapper n).
Proof.
  intros t. unfold speculative_refs. split.
  - intros (m & H & E). apply dedup_refs_sub in H. rewrite scoped_spec in H. by exists m.
  - intros (m & H & E). rewrite <- scoped_spec in H. apply dedup_refs_listed in H as (m' & H & E'). exists m'. split; [done|congruence].
Qed.
(** Callers are told apart by name and package (names have no bar). *)
Theorem C106_callers n p n' p' : contains_byte "|" n = false → contains_byte "|" n' = false → caller_key n p = caller_key n' p' ↔ n = n' ∧ p = p'.
Proof. intros Hn Hn'. unfold caller_key. split; [|by intros [-> ->]]. intros H. by apply (PairProofs.first_split_inj "|") in H. Qed.
Print Assumptions C106_latest. Print Assumptions C106_unrecorded. Print Assumptions C106_speculative. Print Assumptions C106_callers.
Example C106_latest_case : arg_ref ∅ (MEdge {["mw" := [MAsn (MArg MOther "" "" "" None None None []) "Old" "app"; MAsn (MArg MOther "" "" "" None None None []) "New" "jwt"]]} "main" "app" "" []) (MArg MIdent "mw" "app" "p" None None None []) = Some (MRef "New" "jwt" "" "p").
Proof. by vm_compute. Qed.
Example C106_callers_case : caller_key "Serve" "app" ≠ caller_key "Serve" "lib".
Proof. by intros [_ ?]%C106_callers. Qed.
