From stdpp Require Import sorting.
From stdpp Require Import base list strings gmap relations.
From Verif Require Import StrOrder SccModel SccSpec SccTarjan SccProofs Worklist ReachModel ReachSpec.

(** ** reachSet *)

Lemma elem_of_edge_pairs es u v : (u, v) ∈ edge_pairs es ↔ ∃ e, e ∈ es ∧ ce_caller e = u ∧ ce_callee e = v.
Proof.
  unfold edge_pairs. rewrite elem_of_list_fmap. split.
  - intros (e & [= -> ->] & He). eauto.
  - intros (e & He & <- & <-). eauto.
Qed.

Lemma existsb_elem {A} (f : A → bool) l : existsb f l = true ↔ ∃ x, x ∈ l ∧ f x = true.
Proof.
  rewrite existsb_exists. split; intros (x & Hx & Hf); exists x; (split; [|done]); by apply elem_of_list_In.
Qed.

Section reach_set.
Context (iter : list string → list string) (itern : list nat → list nat).
Context (Hit : is_order iter) (Hitn : is_order itern).
Context (es : list cg_edge) (r : scc) (mtch : cg_edge → bool).
Context (Hr : result_ok iter (edge_pairs es) r).

Lemma reaches_call f g : can_call (edge_pairs es) f g → reaches_match es mtch g → reaches_match es mtch f.
Proof.
  intros Hfg (h & e & Hgh & He & Hh & Hm). exists h, e. split; [|done]. by eapply rtc_transitive.
Qed.

Lemma comp_all i c x y : scc_components r !! i = Some c → x ∈ c → y ∈ c →
  reaches_match es mtch x → reaches_match es mtch y.
Proof.
  intros Hi Hx Hy. apply reaches_call.
  apply (R_can_call iter Hit), (co_mutual _ _ _ (ro_comps _ _ _ Hr) i c); done.
Qed.

Definition good (k : nat) (acc : list bool) : Prop :=
  length acc = length (scc_components r) ∧
  ∀ i b, acc !! i = Some b →
    (i < k → b = true ↔ ∃ c x, scc_components r !! i = Some c ∧ x ∈ c ∧ reaches_match es mtch x) ∧
    (k ≤ i → b = false).

Lemma comp_reached_ok acc i c : good i acc → scc_components r !! i = Some c →
  comp_reached es r mtch acc i c = true ↔ ∃ x, x ∈ c ∧ reaches_match es mtch x.
Proof.
  intros [Hlen Hg] Hi. pose proof (ro_comps _ _ _ Hr) as Hc. unfold comp_reached. rewrite existsb_elem. split.
  - intros (x & Hx & Hex). exists x. split; [done|].
    apply existsb_elem in Hex as (e & He & Hb). unfold callers_of in He.
    apply elem_of_list_filter in He as [Hcal He].
    apply orb_true_iff in Hb as [Hm|Hb].
    + exists x, e. split; [apply rtc_refl|done].
    + destruct (scc_component_of r !! ce_callee e) as [cc|] eqn:Hcc; [|done].
      apply andb_true_iff in Hb as [Hne Hacc].
      apply negb_true_iff, bool_decide_eq_false in Hne.
      destruct (acc !! cc) as [b|] eqn:Hb; [|done]. simpl in Hacc. subst b.
      destruct (Hg cc true Hb) as [H1 H2].
      destruct (decide (cc < i)) as [Hlt|Hge]; [|by specialize (H2 ltac:(lia))].
      destruct (proj1 (H1 Hlt) eq_refl) as (c' & y & Hc' & Hy & Hry).
      apply (co_of _ _ _ Hc) in Hcc as (c'' & Hc'' & Hcallee). assert (c'' = c') as -> by congruence.
      assert (reaches_match es mtch (ce_callee e)) as Hrc by (eapply comp_all; eauto).
      eapply reaches_call; [|exact Hrc]. apply rtc_once. split; [|split].
      * apply elem_of_edge_pairs. eauto.
      * assert (appears (edge_pairs es) x) as Ha by (apply (ro_members _ _ _ Hr), concat_elem; eauto).
        destruct Ha as [g [(_&?&?)|(_&?&?)]]; done.
      * assert (appears (edge_pairs es) (ce_callee e)) as Ha by (apply (ro_members _ _ _ Hr), concat_elem; eauto).
        destruct Ha as [g [(_&?&?)|(_&?&?)]]; done.
  - intros (x & Hx & g & e & Hxg & He & Hge & Hm).
    revert Hx. induction Hxg as [x|x z g Hxz Hzg IH]; intros Hx.
    + exists x. split; [done|]. apply existsb_elem. exists e. split; [apply elem_of_list_filter; done|].
      by rewrite Hm.
    + destruct (reach_down iter Hit _ _ x z i Hr) as (j & Hj & Hzj).
      { by apply rtc_once. }
      { apply (co_of _ _ _ Hc). eauto. }
      apply (co_of _ _ _ Hc) in Hzj as Hzc. destruct Hzc as (cj & Hcj & Hz).
      destruct (decide (j = i)) as [->|Hne]; [apply IH; [done|congruence]|].
      exists x. split; [done|]. apply existsb_elem.
      destruct Hxz as (Hxz & _ & _). apply elem_of_edge_pairs in Hxz as (e' & He' & Hce & Hcl).
      exists e'. split; [apply elem_of_list_filter; done|].
      apply orb_true_iff. right. rewrite Hcl, Hzj. apply andb_true_iff. split.
      { apply negb_true_iff, bool_decide_eq_false. done. }
      assert (is_Some (acc !! j)) as [b Hb].
      { apply lookup_lt_is_Some. rewrite Hlen. by eapply lookup_lt_Some. }
      rewrite Hb. simpl. apply (proj1 (Hg j b Hb)); [lia|]. exists cj, z. split; [done|]. split; [done|].
      exists g, e. done.
Qed.

Lemma comps_reached_ok comps : ∀ i acc, good i acc →
  (∀ j, comps !! j = scc_components r !! (i + j)) →
  good (length (scc_components r)) (comps_reached es r mtch i comps acc).
Proof.
  induction comps as [|c comps IH]; intros i acc Hg Hcs; simpl.
  - destruct Hg as [Hl Hg]. split; [done|]. intros k b Hk. split.
    + intros Hlt. apply (proj1 (Hg k b Hk)).
      specialize (Hcs 0). rewrite Nat.add_0_r in Hcs. simpl in Hcs. symmetry in Hcs.
      apply lookup_ge_None in Hcs. lia.
    + intros Hge. apply lookup_lt_Some in Hk. lia.
  - assert (scc_components r !! i = Some c) as Hi.
    { specialize (Hcs 0). rewrite Nat.add_0_r in Hcs. by rewrite <- Hcs. }
    apply IH.
    + pose proof (comp_reached_ok acc i c Hg Hi) as Hok. destruct Hg as [Hl Hg]. split; [by rewrite insert_length|].
      intros k b Hk. destruct (decide (k = i)) as [->|Hne].
      * rewrite list_lookup_insert in Hk by (rewrite Hl; by eapply lookup_lt_Some).
        injection Hk as <-. split; [|lia]. intros _. rewrite Hok. split.
        { intros (x & Hx & Hm). eauto. }
        intros (c' & x & Hc' & Hx & Hm). exists x. split; [congruence|done].
      * rewrite list_lookup_insert_ne in Hk by done. destruct (Hg k b Hk) as [H1 H2].
        split; [intros; apply H1; lia|intros; apply H2; lia].
    + intros j. specialize (Hcs (S j)). simpl in Hcs. rewrite Hcs. f_equal. lia.
Qed.

Lemma reach_set_of_ok f : f ∈ reach_set_of es r mtch ↔ appears (edge_pairs es) f ∧ reaches_match es mtch f.
Proof.
  unfold reach_set_of.
  assert (good (length (scc_components r)) (comps_reached es r mtch 0 (scc_components r)
            (replicate (length (scc_components r)) false))) as Hg.
  { apply comps_reached_ok; [|done]. split; [apply replicate_length|].
    intros i b Hb. apply lookup_replicate in Hb as [-> ?]. split; [lia|done]. }
  revert Hg. set (cr := comps_reached _ _ _ _ _ _). intros [Hl Hg].
  pose proof (ro_comps _ _ _ Hr) as Hc.
  rewrite elem_of_list_to_set, elem_of_list_omap. split.
  - intros ([id i] & Hin & Hx). apply elem_of_map_to_list in Hin. simpl in Hx.
    destruct (cr !! i) as [b|] eqn:Hb; [|done]. destruct b; [|done]. injection Hx as ->.
    apply (co_of _ _ _ Hc) in Hin as (c & Hci & Hf).
    split; [apply (ro_members _ _ _ Hr), concat_elem; eauto|].
    destruct (proj1 (proj1 (Hg i true Hb) ltac:(by eapply lookup_lt_Some)) eq_refl) as (c' & x & Hc' & Hx & Hm).
    eapply (comp_all i c' x); [done|done|congruence|done].
  - intros [Ha Hm]. apply (ro_members _ _ _ Hr), concat_elem in Ha as (i & c & Hci & Hf).
    exists (f, i). split; [apply elem_of_map_to_list, (co_of _ _ _ Hc); eauto|]. simpl.
    assert (is_Some (cr !! i)) as [b Hb].
    { apply lookup_lt_is_Some. rewrite Hl. by eapply lookup_lt_Some. }
    rewrite Hb. simpl.
    assert (b = true) as ->; [|done].
    apply (proj1 (Hg i b Hb)); [by eapply lookup_lt_Some|]. eauto.
Qed.
End reach_set.

(** Histories: the cache never changes an answer provided a key always comes
    with equivalent predicates. *)
Lemma reach_calls_ok iter itern es qs : is_order iter → is_order itern →
  (∀ i j k p q, qs !! i = Some (k, p) → qs !! j = Some (k, q) → ∀ e, e ∈ es → p e = q e) →
  ∃ ss, reach_calls iter itern es ∅ qs = Some ss ∧
    Forall2 (λ q s, ∀ f, f ∈ s ↔ appears (edge_pairs es) f ∧ reaches_match es (q.2) f) qs ss.
Proof.
  intros Hit Hitn Hq.
  assert (∀ qs' cache, (∀ x, x ∈ qs' → x ∈ qs) →
    (∀ k s, cache !! k = Some s → ∃ p, (k, p) ∈ qs ∧
        ∀ f, f ∈ s ↔ appears (edge_pairs es) f ∧ reaches_match es p f) →
    ∃ ss, reach_calls iter itern es cache qs' = Some ss ∧
    Forall2 (λ q s, ∀ f, f ∈ s ↔ appears (edge_pairs es) f ∧ reaches_match es (q.2) f) qs' ss) as Hgen.
  { induction qs' as [|[k p] qs' IH]; intros cache Hsub Hc; simpl; [eauto|].
    assert ((k, p) ∈ qs) as Hkp by (apply Hsub; left).
    unfold reach_set. destruct (cache !! k) as [s|] eqn:Hk; simpl.
    - destruct (IH cache) as (ss & -> & Hss); [intros; apply Hsub; by right|done|]. simpl.
      eexists; split; [reflexivity|]. constructor; [|done].
      destruct (Hc k s Hk) as (p' & Hp' & Hf). intros f. rewrite Hf. simpl.
      apply elem_of_list_lookup in Hp' as [i Hi]. apply elem_of_list_lookup in Hkp as [j Hj].
      pose proof (Hq i j k p' p Hi Hj) as Heq. unfold reaches_match.
      split; intros [Ha (g & e & Hg & He & Hce & Hm)]; (split; [done|]); exists g, e; (split; [done|]);
        (split; [done|]); (split; [done|]); [by rewrite <- Heq|by rewrite Heq].
    - destruct (build_ok iter itern Hit Hitn (edge_pairs es)) as (r & -> & Hr). simpl.
      destruct (IH (<[k:=reach_set_of es r p]> cache)) as (ss & -> & Hss).
      { intros; apply Hsub; by right. }
      { intros k' s'. rewrite lookup_insert_Some. intros [[<- <-]|[_ Hk']]; [|by apply Hc].
        exists p. split; [done|]. intros f. by apply (reach_set_of_ok iter). }
      simpl. eexists; split; [reflexivity|]. constructor; [|done].
      intros f. simpl. by apply (reach_set_of_ok iter). }
  apply Hgen; [done|]. intros k s Hk. by rewrite lookup_empty in Hk.
Qed.

(** ** routeReachSet *)

Lemma elem_of_add_pred preds of pred k x :
  x ∈ default [] (add_pred preds of pred !! k) ↔
  x ∈ default [] (preds !! k) ∨ (of ≠ "" ∧ pred ≠ "" ∧ of ≠ pred ∧ k = of ∧ x = pred).
Proof.
  unfold add_pred. case_decide as Hd.
  - split; [tauto|]. intros [?|(?&?&?&?)]; [done|]. tauto.
  - destruct (decide (k = of)) as [->|Hne].
    + rewrite lookup_insert. simpl. rewrite elem_of_app, elem_of_list_singleton.
      split; [intros [?| ->]; [by left|]|intros [?|(?&?&?&?&?)]; [by left|by right]].
      right. repeat split; intros ?; apply Hd; tauto.
    + rewrite lookup_insert_ne by done. split; [tauto|]. intros [?|(?&?&?&?&?)]; done.
Qed.

Lemma elem_of_preds es x k :
  x ∈ default [] (fold_left edge_preds es ∅ !! k) ↔ x ≠ k ∧ expands_to es x k.
Proof.
  assert (∀ m, x ∈ default [] (fold_left edge_preds es m !! k) ↔
     x ∈ default [] (m !! k) ∨ (x ≠ k ∧ expands_to es x k)) as Hgen.
  { induction es as [|e es IH]; intros m; simpl.
    - split; [tauto|]. intros [?|(_ & _ & _ & e & He & _)]; [done|]. by apply not_elem_of_nil in He.
    - rewrite IH. unfold edge_preds at 1.
      assert (x ≠ k ∧ expands_to (e :: es) x k ↔
        (x ≠ k ∧ expands_to es x k) ∨ (x ≠ k ∧ x ≠ "" ∧ k ≠ "" ∧
          ((ce_caller e = x ∧ ce_callee e = k) ∨ (ce_parent e = Some x ∧ ce_caller e = k)))) as ->.
      { unfold expands_to. split.
        - intros (Hne & H1 & H2 & e' & He' & Hor). apply elem_of_cons in He' as [->|He']; [by right|].
          left. split; [done|]. split; [done|]. split; [done|]. eauto.
        - intros [(Hne & H1 & H2 & e' & He' & Hor)|(Hne & H1 & H2 & Hor)];
            (split; [done|]); (split; [done|]); (split; [done|]).
          + exists e'. split; [by right|done].
          + exists e. split; [left|done]. }
      destruct (ce_parent e) as [p|].
      + rewrite !elem_of_add_pred. split.
        * intros [[[?|(?&?&?&->&->)]|(?&?&?&->&->)]|?]; [by left| | |by right; left].
          all: right; right; split; [by apply not_eq_sym|]; split; [done|]; split; [done|]; tauto.
        * intros [?|[?|(?&?&?&[[<- <-]|[[= ->] <-]])]]; [tauto|tauto| |].
          { left; left; right. split; [done|]. split; [done|]. split; [by apply not_eq_sym|done]. }
          { left; right. split; [done|]. split; [done|]. split; [by apply not_eq_sym|done]. }
      + rewrite elem_of_add_pred. split.
        * intros [[?|(?&?&?&->&->)]|?]; [by left| |by right; left].
          right; right; split; [by apply not_eq_sym|]; split; [done|]; split; [done|]; tauto.
        * intros [?|[?|(?&?&?&[[<- <-]|[[=] _]])]]; [tauto|tauto|].
          left; right. split; [done|]. split; [done|]. split; [by apply not_eq_sym|done]. }
  rewrite Hgen, lookup_empty. simpl. split; [|tauto]. intros [H|?]; [by apply not_elem_of_nil in H|done].
Qed.

Lemma elem_of_route_seeds m es x :
  x ∈ route_seeds m es ↔ ∃ e, e ∈ es ∧ m e = true ∧ ce_caller e ≠ "" ∧ ce_caller e = x.
Proof.
  unfold route_seeds. rewrite elem_of_list_omap. split.
  - intros (e & He & Hx). exists e. destruct (m e); [|done]. simpl in Hx. case_bool_decide; [done|].
    by injection Hx.
  - intros (e & He & Hm & Hn & <-). exists e. split; [done|]. rewrite Hm. simpl.
    by rewrite bool_decide_eq_false_2.
Qed.

Definition edge_keys (e : cg_edge) : list string :=
  ce_caller e :: ce_callee e :: match ce_parent e with Some p => [p] | None => [] end.

Lemma edge_keys_length es : length (es ≫= edge_keys) ≤ 3 * length es.
Proof.
  induction es as [|e es IH]; [done|]. rewrite bind_cons, app_length.
  assert (length (edge_keys e) ≤ 3) by (unfold edge_keys; destruct (ce_parent e); simpl; lia).
  change (length (e :: es)) with (S (length es)). lia.
Qed.

Lemma size_list_to_set_le (l : list string) : size (list_to_set l : gset string) ≤ length l.
Proof.
  induction l as [|x l IH]; [apply reflexivity|].
  rewrite list_to_set_cons, size_union_alt, size_singleton.
  pose proof (subseteq_size (list_to_set l ∖ {[x]} : gset string) (list_to_set l) ltac:(set_solver)). simpl. lia.
Qed.

Lemma rtc_drop_loops {A} `{EqDecision A} (R : relation A) x y :
  rtc (λ a b, b ≠ a ∧ R b a) x y ↔ rtc R y x.
Proof.
  split.
  - induction 1 as [x|x z y [Hne Hxz] Hzy IH]; [apply rtc_refl|]. eapply rtc_r; eauto.
  - induction 1 as [x|x z y Hxz Hzy IH]; [apply rtc_refl|].
    destruct (decide (x = z)) as [->|Hne]; [done|]. eapply rtc_r; eauto.
Qed.

Lemma rtc_subrel {A} (R1 R2 : relation A) x y : (∀ a b, R1 a b → R2 a b) → rtc R1 x y → rtc R2 x y.
Proof. intros Hsub. induction 1; [apply rtc_refl|]. eapply rtc_l; eauto. Qed.

Lemma route_reach_ok es m :
  ∃ r, route_reach_set es (Some m) = Some (Some r) ∧ ∀ a, a ∈ r ↔ leads_to_match es m a.
Proof.
  unfold route_reach_set.
  set (succ := λ k, default [] (fold_left edge_preds es ∅ !! k)).
  destruct (wl_run_total false succ (list_to_set (es ≫= edge_keys)) (3 * length es) (route_seeds m es))
    as [r Hrun].
  - intros x Hx. apply elem_of_route_seeds in Hx as (e & He & _ & _ & <-).
    apply elem_of_list_to_set, elem_of_list_bind. exists e. split; [left|done].
  - intros x y _ Hy. unfold succ in Hy. apply elem_of_preds in Hy as (_ & _ & _ & e & He & Hor).
    apply elem_of_list_to_set, elem_of_list_bind. exists e. split; [|done]. unfold edge_keys.
    destruct Hor as [[<- _]|[-> _]]; [left|]. right; right; left.
  - etrans; [apply size_list_to_set_le|apply edge_keys_length].
  - rewrite Hrun. eexists; split; [reflexivity|]. intros a.
    rewrite (wl_run_spec _ _ _ _ _ Hrun).
    assert (∀ s, rtc (wl_rel succ) s a ↔ rtc (expands_to es) a s) as Hrel.
    { intros s. rewrite <- (rtc_drop_loops (expands_to es) s a). split; apply rtc_subrel; intros u v;
      unfold wl_rel, succ; apply elem_of_preds. }
    split.
    + intros (s & Hs & Hsa). apply elem_of_route_seeds in Hs as (e & He & Hm & Hn & <-).
      exists e. split; [done|]. split; [done|]. split; [done|]. by apply Hrel.
    + intros (e & He & Hm & Hn & Hsa). exists (ce_caller e). split; [|by apply Hrel].
      apply elem_of_route_seeds. eauto.
Qed.

(** ** orderTowardRoutes *)

Lemma filter_all {A} (P : A → Prop) `{∀ x, Decision (P x)} (l : list A) : (∀ x, x ∈ l → P x) → filter P l = l.
Proof.
  induction l as [|x l IH]; intros Hl; [done|]. rewrite filter_cons_True by (apply Hl; left).
  f_equal. apply IH. intros y Hy. apply Hl. by right.
Qed.
Lemma filter_nothing {A} (P : A → Prop) `{∀ x, Decision (P x)} (l : list A) : (∀ x, x ∈ l → ¬ P x) → filter P l = [].
Proof.
  induction l as [|x l IH]; intros Hl; [done|]. rewrite filter_cons_False by (apply Hl; left).
  apply IH. intros y Hy. apply Hl. by right.
Qed.
Lemma partition_perm {A} (f : A → bool) (l : list A) :
  filter (λ s, f s = true) l ++ filter (λ s, f s = false) l ≡ₚ l.
Proof.
  induction l as [|x l IH]; [done|]. rewrite !filter_cons. destruct (f x); simpl.
  - by constructor.
  - rewrite <- Permutation_middle. by constructor.
Qed.

Lemma order_shape {A} (leads : A → bool) plan from :
  order_toward_routes true leads plan from =
  take from plan ++ filter (λ s, leads s = true) (drop from plan) ++ filter (λ s, leads s = false) (drop from plan).
Proof.
  unfold order_toward_routes. simpl. case_bool_decide as Hle.
  - rewrite drop_ge, take_ge by lia. simpl. by rewrite app_nil_r.
  - pose proof (take_drop from plan) as Htd.
    destruct (filter (λ s, leads s = true) (drop from plan)) as [|x l] eqn:E1.
    + simpl. rewrite filter_all; [done|]. intros y Hy. destruct (leads y) eqn:Ey; [|done].
      assert (y ∈ filter (λ s, leads s = true) (drop from plan)) as Hin by by apply elem_of_list_filter.
      rewrite E1 in Hin. by apply not_elem_of_nil in Hin.
    + destruct (filter (λ s, leads s = false) (drop from plan)) as [|z l'] eqn:E2; [|done].
      rewrite app_nil_r, <- E1, filter_all; [done|]. intros y Hy. destruct (leads y) eqn:Ey; [done|].
      assert (y ∈ filter (λ s, leads s = false) (drop from plan)) as Hin by by apply elem_of_list_filter.
      rewrite E2 in Hin. by apply not_elem_of_nil in Hin.
Qed.

(** ** computeReach *)
Section compute_reach.
Context {K : Type} `{Countable K}.
Context (childrenOf : K → list K) (mtch : K → bool).
Implicit Types s : cr_state K.
Local Notation wlst s := (cr_seen s, cr_frontier s).
Local Notation revof s id := (default [] (cr_rev s !! id)).

(** The forward loop is the generic LIFO loop on ([cr_seen], [cr_frontier])
    plus bookkeeping. *)
Lemma cr_visit_wl s id : wlst (cr_visit mtch s id) = wl_mark true (wlst s) id.
Proof.
  unfold cr_visit, wl_mark. simpl. destruct (decide (id ∈ cr_seen s)); [done|].
  by destruct (mtch id && _).
Qed.
Lemma cr_child_wl id s c : wlst (cr_child mtch id s c) = wl_mark true (wlst s) c.
Proof. unfold cr_child. by rewrite cr_visit_wl. Qed.
Lemma cr_visits_wl ids : ∀ s, wlst (fold_left (cr_visit mtch) ids s) = fold_left (wl_mark true) ids (wlst s).
Proof. induction ids as [|i ids IH]; intros s; simpl; [done|]. by rewrite IH, cr_visit_wl. Qed.
Lemma cr_childs_wl id cs : ∀ s, wlst (fold_left (cr_child mtch id) cs s) = fold_left (wl_mark true) cs (wlst s).
Proof. induction cs as [|i cs IH]; intros s; simpl; [done|]. by rewrite IH, cr_child_wl. Qed.

Lemma cr_forward_wl fuel : ∀ s,
  (λ s', cr_seen s') <$> cr_forward childrenOf mtch fuel s = wl_loop true childrenOf fuel (wlst s).
Proof.
  induction fuel as [|fuel IH]; intros s; simpl; destruct (cr_frontier s) as [|id fr]; try done.
  rewrite IH, cr_childs_wl. done.
Qed.

(** Seeds: marked identities that match. *)
Definition seeds_ok s : Prop :=
  NoDup (cr_seeds s) ∧
  (∀ x, x ∈ cr_seeds s ↔ x ∈ cr_reach s) ∧ (∀ x, x ∈ cr_reach s ↔ x ∈ cr_seen s ∧ mtch x = true).

Lemma seeds_visit s id : seeds_ok s → seeds_ok (cr_visit mtch s id).
Proof.
  intros (H0 & H1 & H2). unfold cr_visit. destruct (decide (id ∈ cr_seen s)) as [|Hn]; [done|].
  destruct (mtch id) eqn:Hm; simpl.
  - rewrite bool_decide_eq_false_2 by (rewrite H2; tauto). simpl. split; [|split]; simpl.
    + constructor; [|done]. rewrite H1, H2. tauto.
    + intros x. rewrite elem_of_cons, H1. set_solver.
    + intros x. rewrite !elem_of_union, H2, elem_of_singleton. split.
      * intros [->|[? ?]]; [|tauto]. split; [tauto|done].
      * intros [[?|?] ?]; tauto.
  - split; [done|]. split; simpl; [done|]. intros x. rewrite H2, elem_of_union, elem_of_singleton. split; [tauto|].
    intros [[->|?] ?]; [congruence|done].
Qed.
Lemma seeds_visits ids : ∀ s, seeds_ok s → seeds_ok (fold_left (cr_visit mtch) ids s).
Proof. induction ids as [|i ids IH]; intros s Hs; simpl; [done|]. by apply IH, seeds_visit. Qed.
Lemma seeds_childs id cs : ∀ s, seeds_ok s → seeds_ok (fold_left (cr_child mtch id) cs s).
Proof. induction cs as [|i cs IH]; intros s Hs; simpl; [done|]. apply IH. unfold cr_child. by apply seeds_visit. Qed.

(** Reverse edges: exactly those out of the identities already expanded. *)
Lemma rev_visit s id : cr_rev (cr_visit mtch s id) = cr_rev s.
Proof. unfold cr_visit. destruct (decide _); [done|]. by destruct (mtch id && _). Qed.
Lemma rev_visits ids : ∀ s, cr_rev (fold_left (cr_visit mtch) ids s) = cr_rev s.
Proof. induction ids as [|i ids IH]; intros s; simpl; [done|]. by rewrite IH, rev_visit. Qed.
Lemma rev_childs id cs : ∀ s p c,
  p ∈ revof (fold_left (cr_child mtch id) cs s) c ↔ p ∈ revof s c ∨ (p = id ∧ c ∈ cs).
Proof.
  induction cs as [|i cs IH]; intros s p c; simpl.
  - split; [tauto|]. intros [?|[_ Hc]]; [done|by apply not_elem_of_nil in Hc].
  - rewrite IH. unfold cr_child at 1. rewrite rev_visit. simpl.
    destruct (decide (c = i)) as [->|Hne].
    + rewrite lookup_insert. simpl. rewrite elem_of_app, elem_of_list_singleton, elem_of_cons. tauto.
    + rewrite lookup_insert_ne by done. rewrite elem_of_cons. tauto.
Qed.

Definition rev_ok s : Prop :=
  ∀ p c, p ∈ revof s c ↔ p ∈ cr_seen s ∧ p ∉ cr_frontier s ∧ c ∈ childrenOf p.

Definition fr_ok s : Prop := NoDup (cr_frontier s) ∧ ∀ x, x ∈ cr_frontier s → x ∈ cr_seen s.

Lemma marks_nodup lifo (xs : list K) : ∀ st : gset K * list K,
  NoDup st.2 ∧ (∀ x, x ∈ st.2 → x ∈ st.1) →
  let st' := fold_left (wl_mark lifo) xs st in NoDup st'.2 ∧ (∀ x, x ∈ st'.2 → x ∈ st'.1).
Proof.
  induction xs as [|x xs IH]; intros st [Hn Hs]; simpl; [done|]. apply IH.
  unfold wl_mark. destruct (decide (x ∈ st.1)) as [|Hx]; [done|]. simpl. split.
  - destruct lifo; simpl.
    + constructor; [|done]. intros ?. by apply Hx, Hs.
    + apply NoDup_app. split; [done|]. split; [|apply NoDup_singleton].
      intros y Hy Hy'. apply elem_of_list_singleton in Hy' as ->. by apply Hx, Hs.
  - intros y Hy. apply elem_of_wl_push in Hy as [->|Hy]; set_solver.
Qed.

Lemma cr_forward_ok fuel : ∀ s s', seeds_ok s → rev_ok s → fr_ok s →
  cr_forward childrenOf mtch fuel s = Some s' →
  seeds_ok s' ∧ rev_ok s' ∧ cr_frontier s' = [].
Proof.
  induction fuel as [|fuel IH]; intros s s' H1 H2 H3; simpl; destruct (cr_frontier s) as [|id fr] eqn:Hfr.
  1,3: by intros [= <-]. 1: done.
  intros Hs'. eapply IH; [..|exact Hs'].
  - apply seeds_childs. done.
  - intros p c. rewrite rev_childs. simpl.
    set (s1 := Cr _ _ _ _ _).
    pose proof (cr_childs_wl id (childrenOf id) s1) as Hw. simpl in Hw.
    destruct (wl_marks true (childrenOf id) (cr_seen s, fr)) as (M1 & M2 & M3 & M4 & _). rewrite <- Hw in M1, M2, M3, M4. simpl in *.
    rewrite (H2 p c), Hfr. destruct H3 as [Hnd Hin]. rewrite Hfr in Hnd, Hin.
    apply NoDup_cons in Hnd as [Hid Hnd].
    split.
    + intros [(Hp & Hnf & Hc)|[-> Hc]].
      * split; [apply M1; by left|]. split; [|done]. intros Hf. apply M2 in Hf as [Hf|[_ Hf]]; [|done].
        apply Hnf. by right.
      * assert (id ∈ cr_seen s) as Hids by (apply Hin; left).
        split; [apply M1; by left|]. split; [|done]. intros Hf. by apply M2 in Hf as [Hf|[_ Hf]].
    + intros (Hp & Hnf & Hc). destruct (decide (p = id)) as [->|Hne]; [by right|]. left.
      assert (p ∈ cr_seen s) as Hps.
      { destruct (decide (p ∈ cr_seen s)); [done|]. exfalso. apply Hnf, M4; [|done].
        by apply M1 in Hp as [?|?]. }
      split; [done|]. split; [|done]. intros Hf. apply elem_of_cons in Hf as [?|Hf]; [done|]. by apply Hnf, M3.
  - unfold fr_ok. set (s1 := Cr _ _ _ _ _).
    pose proof (cr_childs_wl id (childrenOf id) s1) as Hw. simpl in Hw.
    pose proof (marks_nodup true (childrenOf id) (cr_seen s, fr)) as Hmn.
    rewrite <- Hw in Hmn. apply Hmn. simpl. destruct H3 as [Hnd Hin]. rewrite Hfr in Hnd, Hin.
    apply NoDup_cons in Hnd as [_ Hnd]. split; [done|]. intros x Hx. apply Hin. by right.
Qed.

Lemma compute_reach_ok roots (U : gset K) fuel :
  (∀ x, x ∈ roots → x ∈ U) → (∀ x y, x ∈ U → y ∈ childrenOf x → y ∈ U) → size U ≤ fuel →
  ∃ r, compute_reach childrenOf mtch fuel roots = Some r ∧
    ∀ id, id ∈ r ↔ (∃ x, x ∈ roots ∧ rtc (wl_rel childrenOf) x id) ∧
                   (∃ y, rtc (wl_rel childrenOf) id y ∧ mtch y = true).
Proof.
  intros HU Hcl Hf. unfold compute_reach.
  set (s0 := fold_left (cr_visit mtch) roots (Cr ∅ ∅ ∅ [] [])).
  pose proof (cr_visits_wl roots (Cr ∅ ∅ ∅ [] [])) as Hw. fold s0 in Hw. simpl in Hw.
  destruct (wl_run_total true childrenOf U fuel roots HU Hcl Hf) as [seen Hseen].
  pose proof (cr_forward_wl fuel s0) as Hfw. rewrite Hw, Hseen in Hfw.
  destruct (cr_forward childrenOf mtch fuel s0) as [s|] eqn:Hs; [|done]. simpl in Hfw. injection Hfw as Hfw.
  pose proof (wl_run_spec _ _ _ _ _ Hseen) as Hspec. rewrite <- Hfw in Hspec.
  assert (seeds_ok s ∧ rev_ok s ∧ cr_frontier s = []) as ((Hs0 & Hs1 & Hs2) & Hrev & Hfr).
  { apply (cr_forward_ok fuel s0); [| | |done].
    - apply seeds_visits. split; [constructor|]. split; simpl; [|set_solver]. intros x. split; [|set_solver]. intros Hx. by apply not_elem_of_nil in Hx.
    - intros p c. unfold s0. rewrite rev_visits. simpl. rewrite lookup_empty. simpl.
      split; [intros Hx; by apply not_elem_of_nil in Hx|]. fold s0. intros (Hp & Hnf & _).
      destruct (wl_marks true roots (∅, [])) as (M1 & _ & _ & M4 & _). rewrite <- Hw in M1, M4. simpl in *.
      apply M1 in Hp as [Hp|Hp]; [set_solver|]. exfalso. apply Hnf, M4; [done|set_solver].
    - unfold fr_ok. pose proof (marks_nodup true roots (∅, [])) as Hmn. rewrite <- Hw in Hmn. apply Hmn.
      simpl. split; [constructor|]. intros x Hx. by apply not_elem_of_nil in Hx. }
  assert (∀ x, x ∈ cr_seen s → x ∈ U) as HsU.
  { intros x Hx. apply Hspec in Hx as (r0 & Hr0 & Hrt). apply HU in Hr0. clear -Hr0 Hrt Hcl.
    induction Hrt as [|x y z Hxy Hyz IH]; [done|]. apply IH. by eapply Hcl. }
  simpl.
  set (succ := λ id, revof s id).
  assert (∀ x y, y ∈ succ x ↔ y ∈ cr_seen s ∧ x ∈ childrenOf y) as Hsucc.
  { intros x y. unfold succ. rewrite (Hrev y x), Hfr. split; [tauto|]. intros [? ?].
    split; [done|]. split; [apply not_elem_of_nil|done]. }
  destruct (wl_loop_total true succ U (size U) (cr_reach s) (cr_seeds s)) as [r0 Hr0].
  { intros x Hx. apply Hs2 in Hx as [Hx _]. by apply HsU. }
  { intros x Hx. apply Hs1, Hs2 in Hx as [Hx _]. by apply HsU. }
  { intros x y Hx Hy. apply Hsucc in Hy as [Hy _]. by apply HsU. }
  { rewrite <- (size_list_to_set (C:=gset K) (cr_seeds s)) by done.
    assert (list_to_set (cr_seeds s) = cr_reach s) as ->; [|lia].
    apply set_eq. intros x. by rewrite elem_of_list_to_set. }
  assert (wl_loop true succ fuel (cr_reach s, cr_seeds s) = Some r0) as Hr.
  { revert Hr0 Hf. generalize (size U), (cr_reach s, cr_seeds s). clear. intros n st.
    revert fuel st. induction n as [|n IH]; intros fuel st Hr Hle; simpl in Hr.
    - destruct fuel; simpl; by destruct (st.2).
    - destruct fuel as [|fuel]; simpl; destruct (st.2); try done; [lia|]. apply IH; [done|lia]. }
  exists r0. split; [exact Hr|]. clear Hr.
  assert (wl_inv succ (λ x, x ∈ cr_seen s ∧ mtch x = true) (cr_reach s, cr_seeds s)) as Hinv.
  { split; simpl.
    - intros x Hx. by apply Hs1.
    - intros x Hx. by apply Hs2.
    - intros x Hx. exists x. split; [by apply Hs2|apply rtc_refl].
    - intros x y Hx Hn. by apply Hs1 in Hx. }
  pose proof (wl_loop_sound true succ _ _ _ r0 Hinv Hr0) as Hsound.
  intros id. rewrite Hsound. rewrite <- Hspec. clear - Hsucc Hspec.
  split.
  - intros (y & [Hy Hm] & Hr). split.
    + apply rtc_inv_r in Hr as [->|(z & _ & Hz)]; [done|]. apply Hsucc in Hz as [Hz _]. done.
    + exists y. split; [|done]. clear -Hr Hsucc. induction Hr as [|a b c Hab Hbc IH]; [apply rtc_refl|].
      eapply rtc_r; [exact IH|]. apply Hsucc in Hab as [_ Hab]. exact Hab.
  - intros (Hid & y & Hr & Hm). exists y.
    assert (y ∈ cr_seen s ∧ rtc (wl_rel succ) y id) as [Hy Hyr]; [|done].
    clear Hm. induction Hr as [x|a b c Hab Hbc IH]; [split; [done|apply rtc_refl]|].
    assert (b ∈ cr_seen s) as Hb.
    { apply Hspec. apply Hspec in Hid as (x & Hx & Hxa). exists x. split; [done|]. eapply rtc_r; eauto. }
    destruct (IH Hb) as [Hc Hcb]. split; [done|]. eapply rtc_r; [exact Hcb|].
    apply Hsucc. split; [exact Hid|exact Hab].
Qed.
End compute_reach.
