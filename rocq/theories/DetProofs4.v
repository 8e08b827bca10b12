From stdpp Require Import sorting.
From Coq Require Import Ascii.
From stdpp Require Import base list strings gmap relations.
From Verif Require Import StrOrder StrLib StrSplit StrSub StableSort SccSpec DetModel DetSpec DetProofs DetProofs2 DetProofs3.

Lemma marked_detectable f p : marked f p → source_detectable f = true.
Proof.
  intros (m & Hm & _). unfold source_detectable. destruct (fw_source f); [by apply elem_of_nil in Hm|done].
Qed.

Lemma filter_split {A} (P : A → Prop) `{∀ x, Decision (P x)} l pre x post : filter P l = pre ++ x :: post →
  ∃ a b, l = a ++ x :: b ∧ filter P a = pre ∧ P x.
Proof.
  revert pre. induction l as [|y l IH]; intros pre Hf; [by destruct pre|]. rewrite filter_cons in Hf.
  destruct (decide (P y)) as [Hy|Hy].
  - destruct pre as [|z pre]; simpl in Hf.
    + injection Hf as -> Hf. by exists [], l.
    + injection Hf as -> Hf. destruct (IH _ Hf) as (a & b & -> & Ha & Hx). exists (z :: a), b.
      split; [done|]. split; [|done]. rewrite filter_cons, decide_True by done. by rewrite Ha.
  - destruct (IH _ Hf) as (a & b & -> & Ha & Hx). exists (y :: a), b. split; [done|]. split; [|done].
    rewrite filter_cons, decide_False by done. done.
Qed.

Lemma recognised_detectable reg p n : recognised (detectable reg) p n ↔ recognised reg p n.
Proof.
  unfold recognised, detectable. split.
  - intros (pre & f & post & Heq & Hn & Hm & Hpre). apply filter_split in Heq as (a & b & -> & Ha & _).
    exists a, f, b. split; [done|]. split; [done|]. split; [done|]. intros g Hg Hmg. apply (Hpre g); [|done].
    rewrite <-Ha. apply elem_of_list_filter. split; [|done]. by eapply marked_detectable.
  - intros (a & f & b & -> & Hn & Hm & Hpre). rewrite filter_app, filter_cons, decide_True by (by eapply marked_detectable).
    eexists _, f, _. split; [done|]. split; [done|]. split; [done|]. intros g Hg.
    apply elem_of_list_filter in Hg as [_ Hg]. by apply Hpre.
Qed.

Lemma recognised_fun reg p n m : recognised reg p n → recognised reg p m → n = m.
Proof.
  intros (a & f & b & -> & <- & Hf & Ha) (c & g & d & Heq & <- & Hg & Hc).
  assert (length a = length c ∨ length a < length c ∨ length c < length a) as [E|[E|E]] by lia.
  - apply app_inj_1 in Heq as [_ Heq]; [|done]. by injection Heq as -> _.
  - exfalso. apply (Hc f); [|done].
    assert ((a ++ f :: b) !! length a = Some f) as L by (by rewrite lookup_app_r, Nat.sub_diag by lia).
    rewrite Heq, lookup_app_l in L by done. by eapply elem_of_list_lookup_2.
  - exfalso. apply (Ha g); [|done].
    assert ((c ++ g :: d) !! length c = Some g) as L by (by rewrite lookup_app_r, Nat.sub_diag by lia).
    rewrite <-Heq, lookup_app_l in L by done. by eapply elem_of_list_lookup_2.
Qed.

Lemma first_seen_detectable reg is l : first_seen (detectable reg) is l ↔ first_seen reg is l.
Proof.
  unfold first_seen. split; intros (H1 & H2 & H3); (split; [done|]); split.
  - intros n. rewrite H2. by setoid_rewrite recognised_detectable.
  - intros a n b m Hab Hm. destruct (H3 a n b m Hab Hm) as (s1 & i & s2 & Hs & Hi & Hj). exists s1, i, s2.
    split; [done|]. split; [by apply recognised_detectable|]. intros j Hj' Hr. apply (Hj j Hj'). by apply recognised_detectable.
  - intros n. rewrite H2. by setoid_rewrite recognised_detectable.
  - intros a n b m Hab Hm. destruct (H3 a n b m Hab Hm) as (s1 & i & s2 & Hs & Hi & Hj). exists s1, i, s2.
    split; [done|]. split; [by apply recognised_detectable|]. intros j Hj' Hr. apply (Hj j Hj'). by apply recognised_detectable.
Qed.

Lemma detect_all_cases reg files pathss : (∀ f m, f ∈ reg → m ∈ fw_source f → good_marker m) →
  Forall2 file_denotes files pathss →
  (first_seen reg (concat pathss) [] ∧ detect_all reg files = ["net/http"]) ∨
  (first_seen reg (concat pathss) (detect_all reg files) ∧ detect_all reg files ≠ []).
Proof.
  intros Hg Hf. unfold detect_all.
  assert (first_seen reg (concat pathss) (det_files (detectable reg) files [])) as H.
  { apply first_seen_detectable, det_first_seen; [|done]. intros f m Hf'. apply elem_of_list_filter in Hf' as [_ Hf']. by apply Hg. }
  destruct (det_files (detectable reg) files []) as [|x l]; [left|right]; done.
Qed.

(** ** The whole analysis *)
Lemma is_mock_spec cfg path : is_mock cfg path = true ↔ mocklike cfg path.
Proof.
  unfold is_mock, mocklike. rewrite existsb_exists. split.
  - intros (m & Hm & Hc). apply elem_of_list_In in Hm. exists m. apply orb_true_iff in Hc as [Hc|Hc].
    + apply str_contains_spec in Hc as (a & b & Hab). by exists a, b.
    + apply has_suffix_spec in Hc as [a Ha]. exists a, "". by rewrite sapp_nil.
  - intros (m & a & b & Hm & Hs). exists m. split; [by apply elem_of_list_In|]. apply orb_true_iff. left.
    apply str_contains_spec. by exists a, b.
Qed.
Lemma is_mock_false cfg path : is_mock cfg path = false ↔ ¬ mocklike cfg path.
Proof. rewrite <-is_mock_spec. destruct (is_mock cfg path); split; intros; congruence. Qed.

Lemma direct_deps_iter iter1 iter2 cfg pkgs : is_order iter1 → is_order iter2 →
  direct_deps registry iter1 cfg pkgs = direct_deps registry iter2 cfg pkgs.
Proof.
  intros H1 H2. unfold direct_deps.
  assert (∀ p, detect_type registry iter1 cfg p = detect_type registry iter2 cfg p) as Hd.
  { intros p. by apply detect_type_iter. }
  rewrite (list_filter_iff _ (λ p, is_mock cfg (pk_path p) = false ∧ detect_type registry iter2 cfg p ≠ "")).
  2: { intros p. by rewrite Hd. }
  apply list_fmap_ext. intros _ p _. by rewrite Hd.
Qed.

Lemma direct_deps_nodup iter cfg pkgs : NoDup (pk_path <$> pkgs) → NoDup (fd_path <$> direct_deps registry iter cfg pkgs).
Proof.
  intros Hn. unfold direct_deps. rewrite <-list_fmap_compose.
  assert (∀ l, NoDup (pk_path <$> l) → NoDup (fd_path ∘ (λ p, FDep (pk_path p) (detect_type registry iter cfg p) true) <$>
    filter (λ p, is_mock cfg (pk_path p) = false ∧ detect_type registry iter cfg p ≠ "") l)) as H; [|by apply H].
  clear. induction l as [|p l IH]; simpl; [constructor|]. intros Hn. apply NoDup_cons in Hn as [Hp Hn].
  rewrite filter_cons. destruct (decide _) as [Hd|Hd]; [|by apply IH]. simpl. constructor; [|by apply IH].
  intros Hin. apply Hp. apply elem_of_list_fmap in Hin as (q & Hq & Hin). apply elem_of_list_filter in Hin as [_ Hin].
  simpl in Hq. rewrite Hq. by apply elem_of_list_fmap_1.
Qed.

Lemma direct_deps_elem iter cfg pkgs e : e ∈ direct_deps registry iter cfg pkgs ↔
  ∃ p, p ∈ pkgs ∧ is_mock cfg (pk_path p) = false ∧ detect_type registry iter cfg p ≠ "" ∧
       e = FDep (pk_path p) (detect_type registry iter cfg p) true.
Proof.
  unfold direct_deps. rewrite elem_of_list_fmap. split.
  - intros (p & -> & Hp). apply elem_of_list_filter in Hp as [[H1 H2] H3]. by exists p.
  - intros (p & Hp & H1 & H2 & ->). exists p. split; [done|]. by apply elem_of_list_filter.
Qed.

Definition reaches_fw (g : gmap string (list string)) (fw : gset string) (p : string) : Prop :=
  ∃ q, q ∈ fw ∧ tc (dep g) p q.

Lemma dependent_deps_spec fuel cfg g fw pkgs : size (dom g) < fuel → ∀ processed, ∃ l pr,
  dependent_deps fuel cfg g fw pkgs processed = Some (l, pr) ∧
  NoDup (fd_path <$> l) ∧ pr = list_to_set (fd_path <$> l) ∪ processed ∧
  (∀ e, e ∈ l → e = FDep (fd_path e) "dependent" false ∧ fd_path e ∉ processed ∧
     is_mock cfg (fd_path e) = false ∧ reaches_fw g fw (fd_path e) ∧ ∃ p, p ∈ pkgs ∧ pk_path p = fd_path e) ∧
  (∀ p, p ∈ pkgs → pk_path p ∉ processed → is_mock cfg (pk_path p) = false → reaches_fw g fw (pk_path p) →
     pk_path p ∈ fd_path <$> l).
Proof.
  intros Hfuel. induction pkgs as [|p pkgs IH]; intros processed; simpl.
  { exists [], processed. split; [done|]. split; [constructor|]. split; [set_solver|].
    split; [by intros ? ?%elem_of_nil|by intros ? ?%elem_of_nil]. }
  assert (∀ Q : Prop, (pk_path p ∈ processed ∨ is_mock cfg (pk_path p) = true ∨ ¬ reaches_fw g fw (pk_path p)) →
    (∀ l pr, dependent_deps fuel cfg g fw pkgs processed = Some (l, pr) →
      NoDup (fd_path <$> l) ∧ pr = list_to_set (fd_path <$> l) ∪ processed ∧
      (∀ e, e ∈ l → e = FDep (fd_path e) "dependent" false ∧ fd_path e ∉ processed ∧
        is_mock cfg (fd_path e) = false ∧ reaches_fw g fw (fd_path e) ∧ ∃ p0, p0 ∈ p :: pkgs ∧ pk_path p0 = fd_path e) ∧
      (∀ p0, p0 ∈ p :: pkgs → pk_path p0 ∉ processed → is_mock cfg (pk_path p0) = false → reaches_fw g fw (pk_path p0) →
        pk_path p0 ∈ fd_path <$> l) → Q) → Q) as Hskip.
  { intros Q Hor HQ. destruct (IH processed) as (l & pr & E & Hn & Hpr & Hs & Hc). apply (HQ l pr E).
    split; [done|]. split; [done|]. split.
    - intros e He. destruct (Hs e He) as (H1 & H2 & H3 & H4 & p0 & H5 & H6). repeat (split; [done|]). exists p0. split; [by right|done].
    - intros p0 Hp0 H1 H2 H3. apply elem_of_cons in Hp0 as [->|Hp0]; [|by apply Hc].
      exfalso. destruct Hor as [?|[?|?]]; [done|congruence|done]. }
  destruct (decide (pk_path p ∈ processed)) as [Hp|Hp].
  { apply Hskip; [by left|]. intros l pr E H. by exists l, pr. }
  destruct (is_mock cfg (pk_path p)) eqn:Em.
  { apply Hskip; [by right; left|]. intros l pr E H. by exists l, pr. }
  destruct (depends_on_spec fuel g fw (pk_path p) Hfuel) as (b & Eb & Hb). rewrite Eb.
  destruct b.
  2: { apply Hskip; [right; right; intros Hr; by apply Hb in Hr|]. intros l pr E H. by exists l, pr. }
  destruct (IH ({[pk_path p]} ∪ processed)) as (l & pr & E & Hn & Hpr & Hs & Hc). rewrite E. simpl.
  exists (FDep (pk_path p) "dependent" false :: l), pr. split; [done|]. simpl. split.
  { constructor; [|done]. intros Hin. apply elem_of_list_fmap in Hin as (e & He & Hin).
    destruct (Hs e Hin) as (_ & Hn' & _). rewrite <-He in Hn'. set_solver. }
  split; [rewrite Hpr; set_solver|]. split.
  - intros e He. apply elem_of_cons in He as [->|He]; simpl.
    + split; [done|]. split; [done|]. split; [done|]. split; [by apply Hb|]. exists p. split; [left|done].
    + destruct (Hs e He) as (H1 & H2 & H3 & H4 & p0 & H5 & H6). split; [done|]. split; [set_solver|].
      split; [done|]. split; [done|]. exists p0. split; [by right|done].
  - intros p0 Hp0 H1 H2 H3. apply elem_of_cons in Hp0 as [->|Hp0]; [left|].
    destruct (decide (pk_path p0 = pk_path p)) as [->|Hne]; [left|]. right. apply Hc; [done| |done|done]. set_solver.
Qed.

Lemma is_project_perm cfg module pkgs k1 k2 path : k1 ≡ₚ k2 →
  is_project cfg module pkgs k1 path = is_project cfg module pkgs k2 path.
Proof. intros Hp. unfold is_project. by rewrite (project_root_perm _ _ Hp). Qed.

(** The parts of the result. *)
Definition includable (cfg : dconfig) (module : string) (pkgs : list package) (path : string) : bool :=
  dc_include_external cfg || is_project cfg module pkgs (elements (dom (available pkgs))) path.

Lemma find_imports_ext k avail processed incl1 incl2 : (∀ p, incl1 p = incl2 p) →
  ∀ pkg st, find_imports k avail processed incl1 pkg st = find_imports k avail processed incl2 pkg st.
Proof.
  intros He. induction k as [|k IH]; intros pkg st; [done|]. simpl. apply foldl_ext_pt. intros st' path.
  rewrite He. destruct (avail !! path); [|done]. by rewrite IH.
Qed.

Lemma find_all_parts fuel iter cfg module pkgs : is_order iter → length pkgs < fuel →
  ∃ dependent processed,
    find_all fuel registry iter cfg module pkgs =
      Some (direct_deps registry iter cfg pkgs ++ dependent ++
        ((λ i, FDep (im_path i) "imported" false) <$>
          (find_imported (dc_max_depth cfg) (available pkgs) processed (includable cfg module pkgs)
             (iter (elements (list_to_set (fd_path <$> direct_deps registry iter cfg pkgs) : gset string)))).2)) ∧
    dependent_deps fuel cfg (build_graph pkgs) (list_to_set (fd_path <$> direct_deps registry iter cfg pkgs)) pkgs
      (list_to_set (fd_path <$> direct_deps registry iter cfg pkgs)) = Some (dependent, processed) ∧
    NoDup (fd_path <$> dependent) ∧
    processed = list_to_set (fd_path <$> dependent) ∪ list_to_set (fd_path <$> direct_deps registry iter cfg pkgs) ∧
    (∀ e, e ∈ dependent → e = FDep (fd_path e) "dependent" false ∧ fd_path e ∉ fd_path <$> direct_deps registry iter cfg pkgs ∧
       is_mock cfg (fd_path e) = false ∧
       reaches_fw (build_graph pkgs) (list_to_set (fd_path <$> direct_deps registry iter cfg pkgs)) (fd_path e) ∧
       ∃ p, p ∈ pkgs ∧ pk_path p = fd_path e) ∧
    (∀ p, p ∈ pkgs → pk_path p ∉ fd_path <$> direct_deps registry iter cfg pkgs → is_mock cfg (pk_path p) = false →
       reaches_fw (build_graph pkgs) (list_to_set (fd_path <$> direct_deps registry iter cfg pkgs)) (pk_path p) →
       pk_path p ∈ fd_path <$> dependent).
Proof.
  intros Ho Hfuel. set (D := direct_deps registry iter cfg pkgs).
  set (fw := list_to_set (fd_path <$> D) : gset string).
  destruct (dependent_deps_spec fuel cfg (build_graph pkgs) fw pkgs) with (processed := fw)
    as (l & pr & E & Hn & Hpr & Hs & Hc).
  { pose proof (build_graph_size pkgs). lia. }
  exists l, pr. split.
  { unfold find_all. fold D. fold fw. rewrite E. simpl. do 4 f_equal. unfold find_imported. f_equal.
    apply foldl_ext_pt. intros st path. destruct (available pkgs !! path) as [p|]; [|done].
    apply find_imports_ext. intros q. unfold includable. f_equal. apply is_project_perm. apply Ho. }
  split; [done|]. split; [done|]. split; [done|]. split.
  - intros e He. destruct (Hs e He) as (H1 & H2 & H3 & H4 & H5). split; [done|]. split; [|done].
    intros Hin. apply H2. unfold fw. by apply elem_of_list_to_set.
  - intros p Hp H1 H2 H3. apply Hc; [done| |done|done]. unfold fw. by rewrite elem_of_list_to_set.
Qed.
