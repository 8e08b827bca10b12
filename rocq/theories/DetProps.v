(** * Framework detection: the properties *)
From stdpp Require Import sorting.
From Coq Require Import Ascii.
From stdpp Require Import base list strings gmap relations.
From Verif Require Import StrOrder StrLib StrSplit StrSub StableSort SccSpec DetModel DetSpec DetProofs DetProofs2 DetProofs3 DetProofs4.

Local Ltac by_dec := match goal with |- ?P => apply (bool_decide_eq_true_1 P) end; vm_compute; reflexivity.

(** ** C38 *)
Lemma registry_good f m : f ∈ registry → m ∈ fw_source f → good_marker m.
Proof.
  intros Hf Hm.
  assert (Forall (λ f, Forall good_marker (fw_source f)) registry) as H.
  { unfold registry, good_marker. repeat constructor; done. }
  rewrite Forall_forall in H. specialize (H f Hf). rewrite Forall_forall in H. by apply H.
Qed.

(** Whenever some import stands for a registered framework, the answer is the frameworks found,
    each once, in order of first appearance; files that do not parse contribute nothing, and
    stopping early loses nothing (no bound on the number of files appears). *)
Theorem C38_first_seen_order files pathss i n :
  Forall2 file_denotes files pathss → i ∈ concat pathss → recognised registry i n →
  first_seen registry (concat pathss) (detect_all registry files).
Proof.
  intros Hf Hi Hr. destruct (detect_all_cases registry files pathss registry_good Hf) as [[(_ & Hm & _) _]|[H _]]; [|done].
  exfalso. assert (n ∈ ([] : list string)) as Hn by (apply Hm; by exists i). by apply elem_of_nil in Hn.
Qed.
Print Assumptions C38_first_seen_order.

(** The three conditions of [first_seen] leave no freedom. *)
Theorem C38_answer_is_unique imports l1 l2 :
  first_seen registry imports l1 → first_seen registry imports l2 → l1 = l2.
Proof. intros H1 H2. eapply first_seen_unique; [done|done|]. intros i n m. apply recognised_fun. Qed.
Print Assumptions C38_answer_is_unique.

(** Nothing recognised: the standard library is reported; the answer is never empty. *)
Theorem C38_fallback files pathss : Forall2 file_denotes files pathss →
  (∀ i n, i ∈ concat pathss → ¬ recognised registry i n) → detect_all registry files = ["net/http"].
Proof.
  intros Hf Hno. destruct (detect_all_cases registry files pathss registry_good Hf) as [[_ H]|[(_ & Hm & _) Hne]]; [done|].
  exfalso. destruct (detect_all registry files) as [|x l]; [done|].
  assert (x ∈ x :: l) as Hx by left. apply Hm in Hx as (i & Hi & Hr). by apply (Hno i x).
Qed.
Print Assumptions C38_fallback.

Theorem C38_never_empty reg files : detect_all reg files ≠ [].
Proof. unfold detect_all. by destruct (det_files (detectable reg) files []). Qed.
Print Assumptions C38_never_empty.

(** The same holds for any registry whose markers are non-empty and quote-free: adding a
    framework does not shorten the scan. *)
Theorem C38_any_registry reg files pathss i n : (∀ f m, f ∈ reg → m ∈ fw_source f → good_marker m) →
  Forall2 file_denotes files pathss → i ∈ concat pathss → recognised reg i n →
  first_seen reg (concat pathss) (detect_all reg files).
Proof.
  intros Hg Hf Hi Hr. destruct (detect_all_cases reg files pathss Hg Hf) as [[(_ & Hm & _) _]|[H _]]; [|done].
  exfalso. assert (n ∈ ([] : list string)) as Hn by (apply Hm; by exists i). by apply elem_of_nil in Hn.
Qed.
Print Assumptions C38_any_registry.

(** Each documented marker stands for its framework, unless the path carries another one too. *)
Theorem C38_documented_markers n m path : (n, m) ∈ documented_markers → (∃ a b, path = a +:+ m +:+ b) →
  (∀ n' m', (n', m') ∈ documented_markers → n' ≠ n → ¬ ∃ a b, path = a +:+ m' +:+ b) →
  recognised registry path n.
Proof.
  intros Hin Hm Hno.
  assert (∀ f, f ∈ registry → fw_source f = [] ∨ ∃ m', fw_source f = [m'] ∧ (fw_name f, m') ∈ documented_markers) as Hreg.
  { intros f Hf. unfold registry in Hf. repeat (apply elem_of_cons in Hf as [->|Hf]; [simpl; first [left; reflexivity|right; eexists; split; [reflexivity|by_dec]]|]).
    by apply elem_of_nil in Hf. }
  assert (∃ pre f post, registry = pre ++ f :: post ∧ fw_name f = n ∧ fw_source f = [m] ∧ ∀ g, g ∈ pre → fw_name g ≠ n) as
    (pre & f & post & Heq & Hn & Hs & Hpre).
  { unfold documented_markers in Hin. unfold registry.
    apply elem_of_cons in Hin as [[= -> ->]|Hin]; [eexists [], _, _; repeat split; by intros ? ?%elem_of_nil|].
    apply elem_of_cons in Hin as [[= -> ->]|Hin]; [eexists [_], _, _; repeat split; intros g Hg; repeat (apply elem_of_cons in Hg as [->|Hg]; [done|]); by apply elem_of_nil in Hg|].
    apply elem_of_cons in Hin as [[= -> ->]|Hin]; [eexists [_;_], _, _; repeat split; intros g Hg; repeat (apply elem_of_cons in Hg as [->|Hg]; [done|]); by apply elem_of_nil in Hg|].
    apply elem_of_cons in Hin as [[= -> ->]|Hin]; [eexists [_;_;_], _, _; repeat split; intros g Hg; repeat (apply elem_of_cons in Hg as [->|Hg]; [done|]); by apply elem_of_nil in Hg|].
    apply elem_of_list_singleton in Hin as [= -> ->]. eexists [_;_;_;_], _, _; repeat split; intros g Hg; repeat (apply elem_of_cons in Hg as [->|Hg]; [done|]); by apply elem_of_nil in Hg. }
  exists pre, f, post. split; [done|]. split; [done|]. split.
  - exists m. rewrite Hs. split; [left|done].
  - intros g Hg (m' & Hm' & Hsub).
    destruct (Hreg g) as [Hs'|(m2 & Hs' & Hd)]; [rewrite Heq; apply elem_of_app; by left| |].
    + rewrite Hs' in Hm'. by apply elem_of_nil in Hm'.
    + rewrite Hs' in Hm'. apply elem_of_list_singleton in Hm' as ->. apply (Hno _ _ Hd); [by apply Hpre|done].
Qed.
Print Assumptions C38_documented_markers.

(** Two frameworks, one raw literal, one unparseable file, a duplicate. *)
Example C38_example :
  let files := [None; Some [quoted "fmt"; raw_quoted "github.com/go-chi/chi/v5"]; Some [quoted "github.com/gin-gonic/gin"; quoted "github.com/go-chi/chi"]] in
  let pathss := [[]; ["fmt"; "github.com/go-chi/chi/v5"]; ["github.com/gin-gonic/gin"; "github.com/go-chi/chi"]] in
  Forall2 file_denotes files pathss ∧ detect_all registry files = ["chi"; "gin"].
Proof.
  split; [|vm_compute; reflexivity].
  repeat constructor; simpl; try done; try (by left); by right.
Qed.
Example C38_example_recognised : recognised registry "github.com/go-chi/chi/v5" "chi".
Proof.
  apply (C38_documented_markers "chi" "go-chi/chi").
  - by_dec.
  - by exists "github.com/", "/v5".
  - intros n' m' Hin Hne Hs. apply str_contains_spec in Hs. revert Hs.
    unfold documented_markers in Hin.
    repeat (apply elem_of_cons in Hin as [[= -> ->]|Hin]; [first [done|vm_compute; done]|]). by apply elem_of_nil in Hin.
Qed.
Example C38_example_none : detect_all registry [Some [quoted "net/http"]; None] = ["net/http"].
Proof. vm_compute. reflexivity. Qed.

(** ** C54 *)
Lemma imports_are_eq p paths : imports_are p paths → pk_imports p = paths.
Proof.
  unfold imports_are, pk_imports. induction 1 as [|lit path lits paths [Hp ->] _ IH]; [done|]. simpl.
  f_equal; [by apply unquote_quoted, Hp|exact IH].
Qed.

(** A package is filed under a framework it imports and that is not switched off; no other
    framework it imports outranks the one chosen; and something is chosen whenever it imports
    one at all. *)
Theorem C54_strongest_framework_wins_partial iter cfg p paths :
  is_order iter → dc_patterns cfg !! "" = None → imports_are p paths →
  (detect_type registry iter cfg p = "" ↔ ∀ k, ¬ uses cfg paths k) ∧
  (detect_type registry iter cfg p ≠ "" → uses cfg paths (detect_type registry iter cfg p)) ∧
  (∀ k, uses cfg paths k → k ≠ detect_type registry iter cfg p → outranks (detect_type registry iter cfg p) k).
Proof.
  intros Ho Hemp Hp. apply imports_are_eq in Hp as <-. split; [split|split].
  - intros Ht k Hu. by destruct (detect_type_wins iter cfg p k Ho Hemp Hu) as [? _].
  - intros Hno. destruct (decide (detect_type registry iter cfg p = "")) as [?|Hne]; [done|].
    exfalso. by apply (Hno _ (detect_type_sound iter cfg p Ho Hne)).
  - intros Hne. by apply detect_type_sound.
  - intros k Hu Hne. by apply (detect_type_wins iter cfg p k Ho Hemp Hu).
Qed.
Print Assumptions C54_strongest_framework_wins_partial.

(** [outranks] is a strict order on the keys, so the answer is pinned. *)
Theorem C54_outranks_strict k1 k2 : outranks k1 k2 → ¬ outranks k2 k1.
Proof.
  assert ("http" ∉ known) as Hh by by_dec.
  assert (NoDup known) as Hn by by_dec.
  assert (∀ a x b y c, known = a ++ x :: b ++ y :: c → x ∈ known ∧ y ∈ known) as Hk.
  { intros a x b y c ->. split; apply elem_of_app; right; [left|]. right. apply elem_of_app. right. left. }
  intros [(a & b & c & H)|[[H1 H2]|[(H1 & H2 & H3 & H4 & H5)|[H1 ->]]]] [(a' & b' & c' & H')|[[H1' H2']|[(H1' & H2' & H3' & H4' & H5')|[H1' H2']]]]; try done.
  - clear Hk Hh.
    assert (∀ (l : list string) x y a b c a' b' c', NoDup l → l = a ++ x :: b ++ y :: c → l = a' ++ y :: b' ++ x :: c' → False) as Hno.
    { clear. intros l x y a b c a' b' c' Hn H H'.
      assert (l !! length a = Some x) as L1 by (rewrite H, lookup_app_r, Nat.sub_diag by lia; done).
      assert (l !! (length a + 1 + length b) = Some y) as L2.
      { rewrite H, lookup_app_r by lia. replace (length a + 1 + length b - length a) with (S (length b)) by lia. simpl.
        by rewrite lookup_app_r, Nat.sub_diag by lia. }
      assert (l !! length a' = Some y) as L3 by (rewrite H', lookup_app_r, Nat.sub_diag by lia; done).
      assert (l !! (length a' + 1 + length b') = Some x) as L4.
      { rewrite H', lookup_app_r by lia. replace (length a' + 1 + length b' - length a') with (S (length b')) by lia. simpl.
        by rewrite lookup_app_r, Nat.sub_diag by lia. }
      pose proof (NoDup_lookup _ _ _ _ Hn L1 L4). pose proof (NoDup_lookup _ _ _ _ Hn L2 L3). lia. }
    by apply (Hno known k1 k2 a b c a' b' c').
  - destruct (Hk _ _ _ _ _ H). done.
  - destruct (Hk _ _ _ _ _ H). done.
  - subst. destruct (Hk _ _ _ _ _ H). done.
  - destruct (Hk _ _ _ _ _ H'). done.
  - by subst.
  - destruct (Hk _ _ _ _ _ H'). done.
  - assert (string_lt k1 k1 = true) as Hc by (by eapply string_lt_trans). by rewrite string_lt_irrefl in Hc.
  - destruct (Hk _ _ _ _ _ H'). done.
Qed.
Print Assumptions C54_outranks_strict.

(** The classification does not depend on Go's map order. *)
Theorem C54_map_order_irrelevant iter1 iter2 cfg p : is_order iter1 → is_order iter2 →
  detect_type registry iter1 cfg p = detect_type registry iter2 cfg p.
Proof. apply detect_type_iter. Qed.
Print Assumptions C54_map_order_irrelevant.

(** The default configuration's patterns ([DefaultDependencyConfig], built from the registry). *)
Definition default_patterns : gmap string (list string) := list_to_map ((λ f, (fw_key f, fw_imports f)) <$> registry).
Definition default_cfg : dconfig := DConfig default_patterns [] [] ["mock"; "_test"] false 3 ∅.

(** Without the restriction to double-quoted imports the claim fails: a raw import literal
    keeps its back quotes, so no prefix matches. *)
Theorem C54_raw_import_refuted : ∃ iter cfg p paths k,
  is_order iter ∧ dc_patterns cfg !! "" = None ∧ imports_denote p paths ∧ uses cfg paths k ∧ detect_type registry iter cfg p = "".
Proof.
  exists (λ l, l), default_cfg, (Package "app/api" [[raw_quoted "github.com/gin-gonic/gin"]]), ["github.com/gin-gonic/gin"], "gin".
  split; [by intros l|]. split; [vm_compute; reflexivity|]. split; [|split].
  - unfold imports_denote. simpl. constructor; [|constructor]. unfold denotes. split; [done|by right].
  - split; [by_dec|]. eexists _, "github.com/gin-gonic/gin", _. split; [vm_compute; reflexivity|].
    split; [left|]. split; [left|]. by exists "".
  - vm_compute. reflexivity.
Qed.
Print Assumptions C54_raw_import_refuted.

Example C54_example :
  let p := Package "app/api" [[quoted "net/http"; quoted "github.com/valyala/fasthttp"]; [quoted "github.com/labstack/echo/v4"]] in
  imports_are p ["net/http"; "github.com/valyala/fasthttp"; "github.com/labstack/echo/v4"] ∧
  detect_type registry reverse default_cfg p = "echo".
Proof. split; [repeat constructor; done|vm_compute; reflexivity]. Qed.

(** ** C40 *)
Lemma dep_iff pkgs p q : dep (build_graph pkgs) p q ↔ nonempty_imports pkgs p q.
Proof. apply deps_of_spec. Qed.
Lemma tc_iff {A} (R S : A → A → Prop) x y : (∀ x y, R x y ↔ S x y) → tc R x y ↔ tc S x y.
Proof.
  intros H. split; induction 1 as [x y Hxy|x y z Hxy _ IH].
  - by apply tc_once, H.
  - eapply tc_l; [by apply H|done].
  - by apply tc_once, H.
  - eapply tc_l; [by apply H|done].
Qed.

(** The search ends on every import graph, cyclic or not, and answers yes exactly when a chain
    of imports leads to one of the given packages. *)
Theorem C40_transitive_dependency pkgs fw p fuel : length pkgs < fuel →
  ∃ b, depends_on fuel (build_graph pkgs) fw p = Some b ∧
       (b = true ↔ ∃ q, q ∈ fw ∧ tc (nonempty_imports pkgs) p q).
Proof.
  intros Hf. destruct (depends_on_spec fuel (build_graph pkgs) fw p) as (b & Hb & Hs).
  { pose proof (build_graph_size pkgs). lia. }
  exists b. split; [done|]. rewrite Hs. split; intros (q & Hq & Ht); exists q; (split; [done|]); revert Ht; apply tc_iff; intros; [|symmetry]; first [apply dep_iff|symmetry; apply dep_iff].
Qed.
Print Assumptions C40_transitive_dependency.

(** A cycle a → b → a with an exit b → c → chi user; and one without exit. *)
Example C40_example :
  let pkgs := [Package "a" [[quoted "b"]]; Package "b" [[quoted "a"]; [quoted "c"]]; Package "c" [[quoted "f"]]; Package "x" [[quoted "y"]]; Package "y" [[quoted "x"]]] in
  depends_on 6 (build_graph pkgs) {["f"]} "a" = Some true ∧ depends_on 6 (build_graph pkgs) {["f"]} "x" = Some false.
Proof. vm_compute. done. Qed.

(** ** C55 *)

(** The framework packages of the report. *)
Theorem C55_direct_entries fuel iter cfg module pkgs l p t : is_order iter → dc_patterns cfg !! "" = None → length pkgs < fuel →
  find_all fuel registry iter cfg module pkgs = Some l →
  FDep p t true ∈ l ↔
  ∃ pk, pk ∈ pkgs ∧ pk_path pk = p ∧ ¬ mocklike cfg p ∧ uses cfg (pk_imports pk) t ∧
        ∀ k, uses cfg (pk_imports pk) k → k ≠ t → outranks t k.
Proof.
  intros Ho Hemp Hfuel Hall. destruct (find_all_parts fuel iter cfg module pkgs Ho Hfuel) as (dd & pr & E & _ & _ & _ & Hs & _).
  rewrite Hall in E. injection E as ->. rewrite !elem_of_app, direct_deps_elem. split.
  - intros [(pk & Hpk & Hm & Hne & [= -> ->])|[Hin|Hin]].
    + exists pk. split; [done|]. split; [done|]. split; [by apply is_mock_false|]. split; [by apply detect_type_sound|].
      intros k Hk Hkn. by apply (detect_type_wins iter cfg pk k Ho Hemp Hk).
    + by destruct (Hs _ Hin) as [? _].
    + apply elem_of_list_fmap in Hin as (i & ? & _). done.
  - intros (pk & Hpk & Hp & Hm & Hu & Hr). left. exists pk. split; [done|]. rewrite Hp. split; [by apply is_mock_false|].
    destruct (detect_type_wins iter cfg pk t Ho Hemp Hu) as [Hne Hw]. split; [done|].
    destruct (decide (t = detect_type registry iter cfg pk)) as [<-|Hd]; [done|]. exfalso.
    apply (C54_outranks_strict _ _ (Hw Hd)). apply Hr; [by apply detect_type_sound|done].
Qed.
Print Assumptions C55_direct_entries.

Lemma direct_paths iter cfg pkgs p : is_order iter → dc_patterns cfg !! "" = None →
  p ∈ fd_path <$> direct_deps registry iter cfg pkgs ↔ framework_package cfg pkgs p.
Proof.
  intros Ho Hemp. rewrite elem_of_list_fmap. unfold framework_package. split.
  - intros (e & -> & He). apply direct_deps_elem in He as (pk & Hpk & Hm & Hne & ->). simpl. exists pk.
    split; [done|]. split; [done|]. split; [by apply is_mock_false|]. eexists. by apply (detect_type_sound iter).
  - intros (pk & Hpk & Hp & Hm & k & Hk). exists (FDep (pk_path pk) (detect_type registry iter cfg pk) true). split; [done|].
    apply direct_deps_elem. exists pk. split; [done|]. rewrite Hp. split; [by apply is_mock_false|]. split; [|done].
    by apply (detect_type_wins iter cfg pk k Ho Hemp Hk).
Qed.

(** The dependent packages of the report: those that reach a framework package by imports. *)
Theorem C55_dependent_entries fuel iter cfg module pkgs l p : is_order iter → dc_patterns cfg !! "" = None → length pkgs < fuel →
  find_all fuel registry iter cfg module pkgs = Some l →
  FDep p "dependent" false ∈ l ↔
  (∃ pk, pk ∈ pkgs ∧ pk_path pk = p) ∧ ¬ mocklike cfg p ∧ ¬ framework_package cfg pkgs p ∧
  ∃ q, framework_package cfg pkgs q ∧ tc (nonempty_imports pkgs) p q.
Proof.
  intros Ho Hemp Hfuel Hall. destruct (find_all_parts fuel iter cfg module pkgs Ho Hfuel) as (dd & pr & E & _ & _ & _ & Hs & Hc).
  rewrite Hall in E. injection E as ->.
  assert (∀ p, reaches_fw (build_graph pkgs) (list_to_set (fd_path <$> direct_deps registry iter cfg pkgs)) p ↔
    ∃ q, framework_package cfg pkgs q ∧ tc (nonempty_imports pkgs) p q) as Hreach.
  { intros p0. unfold reaches_fw. split; intros (q & Hq & Ht); exists q.
    - rewrite elem_of_list_to_set, direct_paths in Hq by done. split; [done|]. revert Ht. apply tc_iff. intros; first [apply dep_iff|symmetry; apply dep_iff].
    - rewrite elem_of_list_to_set, direct_paths by done. split; [done|]. revert Ht. apply tc_iff. intros; first [apply dep_iff|symmetry; apply dep_iff]. }
  rewrite !elem_of_app. split.
  - intros [Hin|[Hin|Hin]].
    + by apply direct_deps_elem in Hin as (? & _ & _ & _ & ?).
    + destruct (Hs _ Hin) as (_ & Hn & Hm & Hr & Hp). simpl in *. split; [done|]. split; [by apply is_mock_false|].
      split; [|by apply Hreach]. intros Hf. apply Hn. by apply direct_paths.
    + by apply elem_of_list_fmap in Hin as (i & ? & _).
  - intros ((pk & Hpk & <-) & Hm & Hn & Hr). right; left.
    assert (pk_path pk ∈ fd_path <$> dd) as Hin.
    { apply Hc; [done| |by apply is_mock_false|by apply Hreach]. intros Hf. apply Hn. by apply (direct_paths iter). }
    apply elem_of_list_fmap in Hin as (e & He & Hin). destruct (Hs _ Hin) as [He' _]. rewrite <-He in He'. by rewrite <-He'.
Qed.
Print Assumptions C55_dependent_entries.

(** No package is reported twice, when the loaded packages have distinct paths. *)
Theorem C55_listed_once fuel iter cfg module pkgs : is_order iter → length pkgs < fuel → NoDup (pk_path <$> pkgs) →
  ∃ l, find_all fuel registry iter cfg module pkgs = Some l ∧ NoDup (fd_path <$> l).
Proof.
  intros Ho Hfuel Hn. destruct (find_all_parts fuel iter cfg module pkgs Ho Hfuel) as (dd & pr & E & _ & Hnd & Hpr & Hs & _).
  eexists. split; [exact E|]. set (st := find_imported _ _ _ _ _). rewrite !fmap_app, <-list_fmap_compose.
  destruct (find_imported_ok (available pkgs) pr (includable cfg module pkgs) (dc_max_depth cfg)
    (iter (elements (list_to_set (fd_path <$> direct_deps registry iter cfg pkgs) : gset string)))) as [Hni Hset].
  fold st in Hni, Hset.
  assert (fd_path ∘ (λ i, FDep (im_path i) "imported" false) <$> st.2 = im_path <$> st.2) as -> by done.
  assert (∀ x, x ∈ im_path <$> st.2 → x ∉ pr) as Hdis.
  { intros x Hx. apply Hset in Hx. unfold st in Hx. apply find_imported_sound in Hx as (f & _ & Ht).
    by apply pulls_elig in Ht as [? _]. }
  apply NoDup_app. split; [by apply direct_deps_nodup|]. split.
  - intros x Hx Hx'. apply elem_of_app in Hx' as [Hx'|Hx'].
    + apply elem_of_list_fmap in Hx' as (e & -> & He). by destruct (Hs e He) as (_ & ? & _).
    + apply (Hdis x Hx'). rewrite Hpr. apply elem_of_union. right. by apply elem_of_list_to_set.
  - apply NoDup_app. split; [done|]. split; [|done]. intros x Hx Hx'. apply (Hdis x Hx').
    rewrite Hpr. apply elem_of_union. left. by apply elem_of_list_to_set.
Qed.
Print Assumptions C55_listed_once.

(** ** C39 *)
Lemma pulls_pulled_by pkgs pr incl f x :
  tc (pulls (available pkgs) pr incl) f x ↔ tc (pulled_by pkgs (λ q, incl q = true) (λ q, q ∈ pr)) f x.
Proof.
  apply tc_iff. intros a b. unfold pulls, pulled_by, imports, elig, has_domain. split.
  - intros (pk & Hpk & Hb & Hn & Hd & Hi). apply available_spec in Hpk. apply orb_true_iff in Hd. split; [by exists pk|]. done.
  - intros ((pk & Hpk & Hb) & Hd & Hi & Hn). apply orb_true_iff in Hd. exists pk. split; [by apply available_spec|]. done.
Qed.

(** When the depth limit exceeds the number of packages, the packages pulled in are exactly
    those on import chains out of the framework packages... *)
Theorem C39_closure_partial fuel iter cfg module pkgs l x : is_order iter → dc_patterns cfg !! "" = None → length pkgs < fuel →
  length pkgs < dc_max_depth cfg → find_all fuel registry iter cfg module pkgs = Some l →
  FDep x "imported" false ∈ l ↔
  ∃ f, framework_package cfg pkgs f ∧
       tc (pulled_by pkgs (λ q, includable cfg module pkgs q = true)
                          (λ q, framework_package cfg pkgs q ∨ FDep q "dependent" false ∈ l)) f x.
Proof.
  intros Ho Hemp Hfuel Hdepth Hall. destruct (find_all_parts fuel iter cfg module pkgs Ho Hfuel) as (dd & pr & E & _ & Hnd & Hpr & Hs & _).
  rewrite Hall in E. injection E as Hl. set (st := find_imported _ _ _ _ _) in Hl.
  assert (∀ q, q ∈ pr ↔ framework_package cfg pkgs q ∨ FDep q "dependent" false ∈ l) as Hcov.
  { intros q. rewrite Hpr, elem_of_union, !elem_of_list_to_set, (direct_paths iter) by done. split.
    - intros [Hq|?]; [|by left]. right. rewrite Hl. apply elem_of_app. right. apply elem_of_app. left.
      apply elem_of_list_fmap in Hq as (e & -> & He). destruct (Hs e He) as [<- _]. done.
    - intros [?|Hq]; [by right|]. left. rewrite Hl in Hq. apply elem_of_app in Hq as [Hq|Hq].
      { by apply direct_deps_elem in Hq as (? & _ & _ & _ & ?). }
      apply elem_of_app in Hq as [Hq|Hq]; [|by apply elem_of_list_fmap in Hq as (? & ? & _)].
      apply elem_of_list_fmap. by exists (FDep q "dependent" false). }
  assert (FDep x "imported" false ∈ l ↔ x ∈ st.1) as Hx.
  { destruct (find_imported_ok (available pkgs) pr (includable cfg module pkgs) (dc_max_depth cfg)
      (iter (elements (list_to_set (fd_path <$> direct_deps registry iter cfg pkgs) : gset string)))) as [_ Hset].
    fold st in Hset. rewrite Hset, Hl, !elem_of_app, !elem_of_list_fmap. split.
    - intros [Hq|[Hq|(i & Hi & Hin)]].
      + by apply direct_deps_elem in Hq as (? & _ & _ & _ & ?).
      + by destruct (Hs _ Hq) as [? _].
      + injection Hi as ->. by exists i.
    - intros (i & -> & Hi). right; right. by exists i. }
  rewrite Hx. unfold st.
  assert (∀ f, f ∈ iter (elements (list_to_set (fd_path <$> direct_deps registry iter cfg pkgs) : gset string)) ↔ framework_package cfg pkgs f) as Hord.
  { intros f. rewrite (Ho _), elem_of_elements, elem_of_list_to_set. by apply direct_paths. }
  assert (∀ f, tc (pulls (available pkgs) pr (includable cfg module pkgs)) f x ↔
    tc (pulled_by pkgs (λ q, includable cfg module pkgs q = true) (λ q, framework_package cfg pkgs q ∨ FDep q "dependent" false ∈ l)) f x) as Htc.
  { intros f. rewrite pulls_pulled_by. apply tc_iff. intros a b. unfold pulled_by. by rewrite Hcov. }
  split.
  - intros Hin. apply find_imported_sound in Hin as (f & Hf & Ht). exists f. split; [by apply Hord|]. by apply Htc.
  - intros (f & Hf & Ht). apply (find_imported_complete _ _ _ _ _ x f); [|by apply Hord|by apply Htc].
    pose proof (available_size pkgs). lia.
Qed.
Print Assumptions C39_closure_partial.

(** ...and so the report is the same, up to order, whatever Go's map order. *)
Theorem C39_same_packages_partial fuel iter1 iter2 cfg module pkgs l1 l2 : is_order iter1 → is_order iter2 →
  dc_patterns cfg !! "" = None → length pkgs < fuel → length pkgs < dc_max_depth cfg → NoDup (pk_path <$> pkgs) →
  find_all fuel registry iter1 cfg module pkgs = Some l1 → find_all fuel registry iter2 cfg module pkgs = Some l2 →
  l1 ≡ₚ l2.
Proof.
  intros H1 H2 Hemp Hfuel Hdepth Hn E1 E2.
  assert (NoDup l1) as N1.
  { destruct (C55_listed_once fuel iter1 cfg module pkgs H1 Hfuel Hn) as (l & E & Hl). rewrite E1 in E. injection E as <-. by eapply NoDup_fmap_1. }
  assert (NoDup l2) as N2.
  { destruct (C55_listed_once fuel iter2 cfg module pkgs H2 Hfuel Hn) as (l & E & Hl). rewrite E2 in E. injection E as <-. by eapply NoDup_fmap_1. }
  apply NoDup_Permutation; [done|done|].
  destruct (find_all_parts fuel iter1 cfg module pkgs H1 Hfuel) as (d1 & pr1 & F1 & D1 & _ & _ & S1 & _).
  destruct (find_all_parts fuel iter2 cfg module pkgs H2 Hfuel) as (d2 & pr2 & F2 & D2 & _ & _ & S2 & _).
  rewrite (direct_deps_iter iter2 iter1) in D2, F2 by done. rewrite D1 in D2. injection D2 as <- <-.
  assert (∀ q, FDep q "dependent" false ∈ l1 ↔ FDep q "dependent" false ∈ l2) as Hdep.
  { intros q. by rewrite (C55_dependent_entries fuel iter1 cfg module pkgs l1), (C55_dependent_entries fuel iter2 cfg module pkgs l2). }
  assert (∀ x, FDep x "imported" false ∈ l1 ↔ FDep x "imported" false ∈ l2) as Himp.
  { intros x. rewrite (C39_closure_partial fuel iter1 cfg module pkgs l1), (C39_closure_partial fuel iter2 cfg module pkgs l2) by done.
    split; intros (f & Hf & Ht); exists f; (split; [done|]); revert Ht; apply tc_iff; intros a b; unfold pulled_by; rewrite Hdep; done. }
  rewrite E1 in F1. rewrite E2 in F2. injection F1 as F1. injection F2 as F2.
  intros e. split; intros He.
  - rewrite F1 in He. apply elem_of_app in He as [He|He]; [rewrite F2; apply elem_of_app; by left|].
    apply elem_of_app in He as [He|He]; [rewrite F2; apply elem_of_app; right; apply elem_of_app; by left|].
    assert (e ∈ l1) as He1 by (rewrite F1; apply elem_of_app; right; apply elem_of_app; by right).
    apply elem_of_list_fmap in He as (i & -> & _). by apply Himp.
  - rewrite F2 in He. apply elem_of_app in He as [He|He]; [rewrite F1; apply elem_of_app; by left|].
    apply elem_of_app in He as [He|He]; [rewrite F1; apply elem_of_app; right; apply elem_of_app; by left|].
    assert (e ∈ l2) as He1 by (rewrite F2; apply elem_of_app; right; apply elem_of_app; by right).
    apply elem_of_list_fmap in He as (i & -> & _). by apply Himp.
Qed.
Print Assumptions C39_same_packages_partial.

(** At any limit, the framework and dependent packages come out the same, in the same order. *)
Theorem C39_project_part_is_fixed fuel iter1 iter2 cfg module pkgs l1 l2 : is_order iter1 → is_order iter2 → length pkgs < fuel →
  find_all fuel registry iter1 cfg module pkgs = Some l1 → find_all fuel registry iter2 cfg module pkgs = Some l2 →
  ∃ common i1 i2, l1 = common ++ i1 ∧ l2 = common ++ i2 ∧
    (∀ e, e ∈ i1 ∨ e ∈ i2 → fd_type e = "imported" ∧ fd_direct e = false).
Proof.
  intros H1 H2 Hfuel E1 E2.
  destruct (find_all_parts fuel iter1 cfg module pkgs H1 Hfuel) as (d1 & pr1 & F1 & D1 & _).
  destruct (find_all_parts fuel iter2 cfg module pkgs H2 Hfuel) as (d2 & pr2 & F2 & D2 & _).
  rewrite (direct_deps_iter iter2 iter1) in D2, F2 by done. rewrite D1 in D2. injection D2 as <- <-.
  rewrite E1 in F1. rewrite E2 in F2. injection F1 as ->. injection F2 as ->.
  eexists (_ ++ d1), _, _. split; [by rewrite <-app_assoc|]. split; [by rewrite <-app_assoc|].
  intros e [He|He]; apply elem_of_list_fmap in He as (i & -> & _); done.
Qed.
Print Assumptions C39_project_part_is_fixed.

(** At any limit of at least one, what a framework package imports itself is there whatever the
    order. *)
Theorem C39_direct_imports_always fuel iter cfg module pkgs l f x : is_order iter → dc_patterns cfg !! "" = None →
  length pkgs < fuel → 1 ≤ dc_max_depth cfg → find_all fuel registry iter cfg module pkgs = Some l →
  framework_package cfg pkgs f →
  pulled_by pkgs (λ q, includable cfg module pkgs q = true) (λ q, framework_package cfg pkgs q ∨ FDep q "dependent" false ∈ l) f x →
  FDep x "imported" false ∈ l.
Proof.
  intros Ho Hemp Hfuel Hdepth Hall Hf ((pk & Hpk & Hx) & Hd & Hi & Hn).
  destruct (find_all_parts fuel iter cfg module pkgs Ho Hfuel) as (dd & pr & E & _ & Hnd & Hpr & Hs & _).
  rewrite Hall in E. injection E as Hl. set (st := find_imported _ _ _ _ _) in Hl.
  assert (x ∈ st.1) as Hin.
  { unfold st. destruct (dc_max_depth cfg) as [|k]; [lia|]. apply (find_imported_direct _ _ _ _ _ f).
    - rewrite (Ho _), elem_of_elements, elem_of_list_to_set. by apply direct_paths.
    - exists pk. split; [by apply available_spec|]. split; [done|]. split; [|split; [|done]].
      + intros Hp. apply Hn. rewrite Hpr, elem_of_union, !elem_of_list_to_set, (direct_paths iter) in Hp by done.
        destruct Hp as [Hp|?]; [|by left]. right. rewrite Hl. apply elem_of_app. right. apply elem_of_app. left.
        apply elem_of_list_fmap in Hp as (e & -> & He). destruct (Hs e He) as [<- _]. done.
      + unfold has_domain. by apply orb_true_iff. }
  destruct (find_imported_ok (available pkgs) pr (includable cfg module pkgs) (dc_max_depth cfg)
      (iter (elements (list_to_set (fd_path <$> direct_deps registry iter cfg pkgs) : gset string)))) as [_ Hset].
  fold st in Hset. apply Hset in Hin. rewrite Hl. apply elem_of_app. right. apply elem_of_app. right.
  apply elem_of_list_fmap in Hin as (i & -> & Hi'). apply elem_of_list_fmap. by exists i.
Qed.
Print Assumptions C39_direct_imports_always.

(** With the default limit of three levels the claim is false: "m/a" → "m/x" → "m/y" → "m/z" → "m/w"
    and "m/b" → "m/z".  Visiting "m/a" first marks "m/z" at the limit, so "m/w" is never
    collected; visiting "m/b" first collects it. *)
Definition c39_pkgs : list package :=
  [ Package "m/a" [[quoted "net/http"; quoted "m/x"]];
    Package "m/b" [[quoted "net/http"; quoted "m/z"]];
    Package "m/x" [[quoted "m/y"]]; Package "m/y" [[quoted "m/z"]]; Package "m/z" [[quoted "m/w"]]; Package "m/w" [] ].
Lemma some_default (o : option (list fdep)) : is_Some o → o = Some (default [] o).
Proof. by intros [l ->]. Qed.
Theorem C39_map_order_refuted : ∃ iter1 iter2 cfg module pkgs fuel l1 l2 x,
  is_order iter1 ∧ is_order iter2 ∧ dc_max_depth cfg = 3 ∧ NoDup (pk_path <$> pkgs) ∧ length pkgs < fuel ∧
  find_all fuel registry iter1 cfg module pkgs = Some l1 ∧
  find_all fuel registry iter2 cfg module pkgs = Some l2 ∧
  x ∈ fd_path <$> l1 ∧ x ∉ fd_path <$> l2.
Proof.
  exists (λ l, l), reverse, default_cfg, "m", c39_pkgs, 7.
  exists (default [] (find_all 7 registry (λ l, l) default_cfg "m" c39_pkgs)),
         (default [] (find_all 7 registry reverse default_cfg "m" c39_pkgs)), "m/w".
  split; [by intros l|]. split; [intros l; apply reverse_Permutation|]. split; [done|]. split; [by_dec|].
  split; [simpl; lia|].
  split; [apply some_default|split; [apply some_default|]].
  - destruct (C55_listed_once 7 (λ l, l) default_cfg "m" c39_pkgs) as (l & E & _); [by intros l|simpl; lia|by_dec|].
    by eexists.
  - destruct (C55_listed_once 7 reverse default_cfg "m" c39_pkgs) as (l & E & _); [intros l; apply reverse_Permutation|simpl; lia|by_dec|].
    by eexists.
  - by_dec.
Qed.
Print Assumptions C39_map_order_refuted.

(** The same project with a generous limit: both orders agree. *)
Example C39_example :
  let cfg := DConfig default_patterns [] [] ["mock"; "_test"] false 7 ∅ in
  (fd_path <$> default [] (find_all 7 registry (λ l, l) cfg "m" c39_pkgs)) ≡ₚ (fd_path <$> default [] (find_all 7 registry reverse cfg "m" c39_pkgs)) ∧
  length (default [] (find_all 7 registry reverse cfg "m" c39_pkgs)) = 6.
Proof. split; [by_dec|vm_compute; reflexivity]. Qed.

Example C55_example :
  find_all 6 registry reverse default_cfg "m"
    [Package "m/api" [[quoted "github.com/go-chi/chi/v5"; quoted "m/store"; quoted "net/http"]]; Package "m/main" [[quoted "m/api"]];
     Package "m/store" [[quoted "fmt"]]; Package "m/api_mock" [[quoted "github.com/go-chi/chi/v5"]]] =
  Some [FDep "m/api" "chi" true; FDep "m/main" "dependent" false; FDep "m/store" "imported" false].
Proof. vm_compute. reflexivity. Qed.

(** ** C56 *)

(** The inferred project root does not depend on the order of the packages, every package lies
    at or below it, and it is the lowest such place — unless that is only a host name, in which
    case there is no root. *)
Theorem C56_root_order_irrelevant l1 l2 : l1 ≡ₚ l2 → project_root l1 = project_root l2.
Proof. apply project_root_perm. Qed.
Print Assumptions C56_root_order_irrelevant.

Theorem C56_everything_is_below_the_root paths p : project_root paths ≠ "" → p ∈ paths → under (project_root paths) p.
Proof. apply project_root_under. Qed.
Print Assumptions C56_everything_is_below_the_root.

Theorem C56_root_is_lowest paths s : paths ≠ [] → (∀ p, p ∈ paths → under s p) → s ≠ "" → ¬ bare_host s →
  project_root paths ≠ "" ∧ under s (project_root paths).
Proof. apply project_root_longest. Qed.
Print Assumptions C56_root_is_lowest.

Theorem C56_root_is_no_host paths : ¬ bare_host (project_root paths).
Proof.
  intros [H1 H2]. unfold project_root in *. destruct paths as [|p paths]; [done|]. case_match; [done|].
  apply n. right. rewrite split_byte_none by done. done.
Qed.
Print Assumptions C56_root_is_no_host.

(** With a module path, a package belongs to the project exactly when it is the module or below
    it, is not a test or mock package and has no external prefix. *)
Theorem C56_module_decides cfg module pkgs keys path : module ≠ "" →
  is_project cfg module pkgs keys path = true ↔
  under module path ∧ ¬ mocklike cfg path ∧ ∀ e, e ∈ dc_external cfg → ¬ ∃ t, path = e +:+ t.
Proof.
  intros Hm. unfold is_project. rewrite (decide_True (P := module ≠ "")) by done.
  destruct (is_mock cfg path) eqn:E.
  { split; [done|]. intros (_ & Hn & _). exfalso. apply Hn. by apply is_mock_spec. }
  apply is_mock_false in E. destruct (existsb _ (dc_external cfg)) eqn:E2.
  { split; [done|]. intros (_ & _ & Hn). apply existsb_exists in E2 as (e & He & Hp). exfalso.
    apply (Hn e); [by apply elem_of_list_In|]. by apply has_prefix_spec. }
  rewrite orb_true_iff, bool_decide_eq_true, has_prefix_spec. unfold under. split.
  - intros H. split; [|split; [done|]].
    + destruct H as [?|[t ->]]; [by left|]. right. exists t. by rewrite sapp_assoc.
    + intros e He Ht. apply has_prefix_spec in Ht.
      assert (existsb (λ p, has_prefix p path) (dc_external cfg) = true); [|congruence].
      apply existsb_exists. exists e. split; [by apply elem_of_list_In|done].
  - intros ([?|[t ->]] & _); [by left|]. right. exists t. by rewrite sapp_assoc.
Qed.
Print Assumptions C56_module_decides.

Example C56_example :
  project_root ["github.com/acme/api"; "github.com/acme/app"] = "github.com/acme" ∧
  project_root ["github.com/acme/api"; "github.com/other"] = "" ∧
  project_root ["shop/orders"; "shop/users/v2"; "shop/orders/x"] = "shop".
Proof. vm_compute. done. Qed.
