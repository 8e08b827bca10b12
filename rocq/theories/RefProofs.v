From Coq Require Import Ascii.
From stdpp Require Import sorting.
From stdpp Require Import base list strings gmap relations.
From Verif Require Import StrOrder StrLib SccSpec RefModel RefSpec.

Lemma comp_name_spec r name : component_schema_name r = Some name ↔ names_component r name.
Proof.
  unfold component_schema_name, names_component. split.
  - destruct (bool_decide (r = "")) eqn:Hr; [done|].
    destruct (has_prefix schema_prefix r) eqn:Hp; cbn [orb negb]; [|done].
    apply has_prefix_spec in Hp as [t ->]. rewrite trim_prefix_app. destruct (decide (t = "")); [done|].
    intros Heq. injection Heq as <-. done.
  - intros [Hn ->]. change "#/components/schemas/" with schema_prefix.
    rewrite bool_decide_eq_false_2 by done. rewrite (proj2 (has_prefix_spec schema_prefix _)) by eauto.
    simpl negb. cbv iota. rewrite trim_prefix_app. by destruct (decide (name = "")).
Qed.

Lemma elem_ref_names r x : x ∈ ref_names r ↔ names_component r x.
Proof.
  unfold ref_names. rewrite <- comp_name_spec. destruct (component_schema_name r); split.
  - intros Hx. apply elem_of_list_singleton in Hx as ->. done.
  - intros [= ->]. by apply elem_of_list_singleton.
  - intros Hx. by apply not_elem_of_nil in Hx.
  - done.
Qed.

Lemma children_sub h a n b : h !! a = Some n → Some b ∈ children n ↔ sub_of h a b.
Proof.
  intros Hn. unfold children. rewrite !elem_of_app, !elem_of_cons. split.
  - intros [Hp|[[Hi|[Hi|[Hi|Hi]]]|[Hi|[Hi|Hi]]]].
    + apply elem_of_list_fmap in Hp as ([k p] & Hb & Hp). simpl in Hb. subst p. by eapply so_prop.
    + by eapply so_items.
    + by eapply so_addl.
    + by eapply so_not.
    + by apply not_elem_of_nil in Hi.
    + by eapply so_all.
    + by eapply so_one.
    + by eapply so_any.
  - intros Hs. destruct Hs as [a n' k b H1 H2|a n' b H1 H2|a n' b H1 H2|a n' b H1 H2|a n' b H1 H2|a n' b H1 H2|a n' b H1 H2];
      assert (n' = n) as -> by congruence; try rewrite H2; try tauto.
    left. apply elem_of_list_fmap. by exists (k, Some b).
Qed.

Lemma elem_of_concat {A} (ls : list (list A)) x : x ∈ concat ls ↔ ∃ l, x ∈ l ∧ l ∈ ls.
Proof.
  induction ls as [|l ls IH]; simpl.
  - split; [intros Hx; by apply not_elem_of_nil in Hx|intros (l & _ & Hl); by apply not_elem_of_nil in Hl].
  - rewrite elem_of_app, IH. split.
    + intros [Hx|(l' & Hx & Hl)]; [exists l; split; [done|left]|exists l'; split; [done|by right]].
    + intros (l' & Hx & Hl). apply elem_of_cons in Hl as [->|Hl]; [by left|right; eauto].
Qed.

(** ** The walk *)
Section walk.
Context (h : heap).
Definition step_avoid (X : gset positive) (a b : positive) : Prop := sub_of h a b ∧ b ∉ X.

Lemma avoid_split X l0 l : rtc (step_avoid X) l0 l →
  l = l0 ∨ ∃ c, sub_of h l0 c ∧ c ∉ {[l0]} ∪ X ∧ rtc (step_avoid ({[l0]} ∪ X)) c l.
Proof.
  revert l. apply rtc_ind_r; [by left|]. intros z l Hz [Hzl Hl] IH.
  destruct (decide (l = l0)) as [->|Hne]; [by left|]. right.
  destruct IH as [->|(c & Hc & Hcn & Hcz)].
  - exists l. split; [done|]. split; [set_solver|]. apply rtc_refl.
  - exists c. split; [done|]. split; [done|]. eapply rtc_r; [exact Hcz|]. split; [done|set_solver].
Qed.

Lemma avoid_mono X Y a b : X ⊆ Y → rtc (step_avoid Y) a b → rtc (step_avoid X) a b.
Proof. intros HXY. induction 1 as [|a b c [H1 H2] _ IH]; [apply rtc_refl|]. eapply rtc_l; [|exact IH]. split; [done|set_solver]. Qed.

Lemma walk_total fuel : ∀ X s, size (dom h ∖ X) ≤ fuel → is_Some (walk h fuel X s).
Proof.
  induction fuel as [|fuel IH]; intros X s Hf; simpl; (destruct s as [l|]; [|by eexists]);
    (destruct (decide (l ∈ X)) as [|Hl]; [by eexists|]); (destruct (h !! l) as [n|] eqn:Hn; [|by eexists]).
  - exfalso. assert (l ∈ dom h ∖ X) as Hin by (apply elem_of_difference; split; [by eapply elem_of_dom_2|done]).
    apply Nat.le_0_r, size_empty_inv in Hf. set_solver.
  - assert (is_Some (mapM (walk h fuel ({[l]} ∪ X)) (children n))) as [subs ->].
    { apply mapM_is_Some. apply Forall_forall. intros c _. apply IH.
      assert (dom h ∖ X = {[l]} ∪ (dom h ∖ ({[l]} ∪ X))) as Heq.
      { apply set_eq. intros x. destruct (decide (x = l)) as [->|]; [|set_solver].
        assert (l ∈ dom h) by by eapply elem_of_dom_2. set_solver. }
      rewrite Heq, size_union, size_singleton in Hf by set_solver. lia. }
    by eexists.
Qed.

Lemma walk_ok fuel : ∀ X s names, walk h fuel X s = Some names →
  ∀ x, x ∈ names ↔ ∃ l l' n, s = Some l ∧ l ∉ X ∧ rtc (step_avoid X) l l' ∧ h !! l' = Some n ∧
     names_component (sn_ref n) x.
Proof.
  induction fuel as [|fuel IH]; intros X s names; simpl.
  all: destruct s as [l|]; [|intros [= <-] x; split; [intros Hx; by apply not_elem_of_nil in Hx|by intros (?&?&?&?&_)]].
  all: destruct (decide (l ∈ X)) as [Hl|Hl];
    [intros [= <-] x; split; [intros Hx; by apply not_elem_of_nil in Hx|intros (?&?&?&[= <-]&?&_); done]|].
  all: destruct (h !! l) as [n|] eqn:Hn.
  2,4: intros [= <-] x; split; [intros Hx; by apply not_elem_of_nil in Hx|];
      intros (l0 & l' & n' & [= <-] & _ & Hr & Hn' & _);
      inversion Hr as [?|? ? ? [Hs _] _]; subst; [congruence|];
      inversion Hs; congruence.
  { done. }
  destruct (mapM _ _) as [subs|] eqn:Hm; [|done]. intros [= <-] x. simpl.
  apply mapM_Some in Hm. rewrite elem_of_app, elem_ref_names, elem_of_concat. split.
  - intros [Hx|(sub & Hx & Hsub)].
    + exists l, l, n. split; [done|]. split; [done|]. split; [apply rtc_refl|done].
    + apply elem_of_list_lookup in Hsub as [i Hi].
      destruct (Forall2_lookup_r _ _ _ _ _ Hm Hi) as (c & Hc & Hw).
      apply (IH _ _ _ Hw) in Hx as (cl & l' & n' & -> & Hcn & Hr & Hn' & Hx).
      apply elem_of_list_lookup_2 in Hc. apply (children_sub h l n cl Hn) in Hc.
      exists l, l', n'. split; [done|]. split; [done|]. split; [|done].
      eapply rtc_l; [split; [exact Hc|set_solver]|]. eapply avoid_mono; [|exact Hr]. set_solver.
  - intros (l0 & l' & n' & [= <-] & _ & Hr & Hn' & Hx).
    apply avoid_split in Hr as [->|(c & Hc & Hcn & Hr)].
    + left. congruence.
    + right. apply (children_sub h l n c Hn) in Hc. apply elem_of_list_lookup in Hc as [i Hi].
      destruct (Forall2_lookup_l _ _ _ _ _ Hm Hi) as (sub & Hsub & Hw).
      exists sub. split; [|by eapply elem_of_list_lookup_2].
      apply (IH _ _ _ Hw). exists c, l', n'. done.
Qed.
End walk.

Lemma avoid_empty h a b : rtc (step_avoid h ∅) a b ↔ rtc (sub_of h) a b.
Proof.
  split.
  - induction 1 as [|a b c [H1 _] _ IH]; [apply rtc_refl|]. by eapply rtc_l.
  - induction 1 as [|a b c H1 _ IH]; [apply rtc_refl|]. eapply rtc_l; [|done]. split; [done|set_solver].
Qed.

(** ** Positions *)
Definition pos_has (h : heap) (p : pos) (x : string) : Prop :=
  match p with
  | PRef r => names_component r x
  | PSchema s => ∃ l l' n, s = Some l ∧ rtc (sub_of h) l l' ∧ h !! l' = Some n ∧ names_component (sn_ref n) x
  end.

Lemma pos_names_ok h p : ∃ names, pos_names h p = Some names ∧ ∀ x, x ∈ names ↔ pos_has h p x.
Proof.
  destruct p as [s|r]; unfold pos_names, pos_has.
  - destruct (walk_total h (S (size h)) ∅ s) as [names Hw].
    { rewrite difference_empty_L. pose proof (size_dom (D:=gset positive) h) as Hsz. lia. }
    rewrite Hw. exists names. split; [done|]. intros x.
    rewrite (walk_ok h (S (size h)) ∅ s names Hw x). split.
    + intros (l & l' & n & Hs & _ & Hr & Hn & Hx). exists l, l', n. split; [done|].
      split; [by apply avoid_empty|done].
    + intros (l & l' & n & Hs & Hr & Hn & Hx). exists l, l', n. split; [done|]. split; [set_solver|].
      split; [by apply avoid_empty|done].
  - eexists; split; [reflexivity|]. intros x. apply elem_ref_names.
Qed.

Lemma elem_param_pos ps q : q ∈ param_pos ps ↔ ∃ p, p ∈ ps ∧ (q = PRef (pm_ref p) ∨ q = PSchema (pm_schema p)).
Proof.
  unfold param_pos. rewrite elem_of_list_bind. split.
  - intros (p & Hq & Hp). exists p. split; [done|].
    apply elem_of_cons in Hq as [?|Hq]; [by left|]. apply elem_of_list_singleton in Hq. by right.
  - intros (p & Hp & Hq). exists p. split; [|done]. destruct Hq as [->| ->]; [left|]. right. left.
Qed.
Lemma elem_content_pos c q : q ∈ content_pos c ↔ ∃ k m, (k, m) ∈ c ∧ q = PSchema (mt_schema m).
Proof.
  unfold content_pos. rewrite elem_of_list_fmap. split.
  - intros ([k m] & -> & Hm). eauto.
  - intros (k & m & Hm & ->). by exists (k, m).
Qed.
Lemma elem_response_pos r q : q ∈ response_pos r ↔ ∃ s, in_response r s ∧ q = PSchema s.
Proof.
  unfold response_pos. rewrite elem_of_app, elem_content_pos, elem_of_list_fmap. split.
  - intros [(k & m & Hm & ->)|([k hd] & -> & Hh)]; eexists; (split; [|reflexivity]); by econstructor.
  - intros (s & Hs & ->). destruct Hs as [k m Hm|k hd Hh]; [left; eauto|right]. by exists (k, hd).
Qed.

Lemma elem_op_pos it q :
  q ∈ ([pi_get it; pi_post it; pi_put it; pi_delete it; pi_patch it; pi_head it; pi_options it] ≫= operation_pos) ↔
  ∃ o, op_of it o ∧ q ∈ operation_pos (Some o).
Proof.
  rewrite elem_of_list_bind. split.
  - intros (oo & Hq & Ho). destruct oo as [o|]; [|by apply not_elem_of_nil in Hq].
    exists o. split; [|done]. unfold op_of. rewrite !elem_of_cons, elem_of_nil in Ho.
    destruct Ho as [Ho|[Ho|[Ho|[Ho|[Ho|[Ho|[Ho|[]]]]]]]]; rewrite Ho; tauto.
  - intros (o & Ho & Hq). exists (Some o). split; [done|]. unfold op_of in Ho. rewrite !elem_of_cons.
    destruct Ho as [Ho|[Ho|[Ho|[Ho|[Ho|[Ho|Ho]]]]]]; rewrite Ho; tauto.
Qed.

Lemma elem_operation_pos o q : q ∈ operation_pos (Some o) ↔
  (q ∈ param_pos (op_params o)) ∨
  (∃ c k m, op_body o = Some c ∧ (k, m) ∈ c ∧ q = PSchema (mt_schema m)) ∨
  (∃ st r s, (st, r) ∈ op_responses o ∧ in_response r s ∧ q = PSchema s).
Proof.
  unfold operation_pos. rewrite !elem_of_app. split.
  - intros [H|[H|H]]; [by left| |].
    + destruct (op_body o) as [c|]; [|by apply not_elem_of_nil in H].
      apply elem_content_pos in H as (k & m & Hm & ->). right; left. eauto 10.
    + apply elem_of_list_bind in H as ([st r] & Hq & Hr). apply elem_response_pos in Hq as (s & Hs & ->).
      right; right. eauto 10.
  - intros [H|[(c & k & m & -> & Hm & ->)|(st & r & s & Hr & Hs & ->)]]; [by left| |].
    + right; left. apply elem_content_pos. eauto.
    + right; right. apply elem_of_list_bind. exists (st, r). split; [|done]. apply elem_response_pos. eauto.
Qed.

(** Positions are exactly the places of the specification. *)
Lemma doc_pos_spec d q : q ∈ doc_pos d ↔
  (∃ p, param_in d p ∧ q = PRef (pm_ref p)) ∨ (∃ s, placed d s ∧ q = PSchema s).
Proof.
  unfold doc_pos. rewrite elem_of_app, elem_of_list_bind. split.
  - intros [([k it] & Hq & Hit)|Hq].
    + unfold item_pos in Hq. cbn [snd] in Hq. rewrite elem_of_app, elem_op_pos in Hq.
      destruct Hq as [Hq|(o & Ho & Hq)].
      * apply elem_param_pos in Hq as (p & Hp & [->| ->]).
        { left. exists p. split; [by eapply pa_item|done]. }
        { right. eexists. split; [|reflexivity]. apply pl_param. by eapply pa_item. }
      * apply elem_operation_pos in Hq as [Hq|[(c & m & mt & Hb & Hm & ->)|(st & r & s & Hr & Hs & ->)]].
        { apply elem_param_pos in Hq as (p & Hp & [->| ->]).
          - left. exists p. split; [by eapply pa_op|done].
          - right. eexists. split; [|reflexivity]. apply pl_param. by eapply pa_op. }
        { right. eexists. split; [|reflexivity]. by eapply pl_body. }
        { right. eexists. split; [|reflexivity]. by eapply pl_resp. }
    + right. unfold comps_pos in Hq. destruct (d_comps d) as [c|] eqn:Hc; [|by apply not_elem_of_nil in Hq].
      rewrite !elem_of_app in Hq. destruct Hq as [Hq|[Hq|[Hq|[Hq|Hq]]]].
      * apply elem_of_list_fmap in Hq as ([k s] & -> & Hk). apply elem_of_map_to_list in Hk.
        eexists. split; [|reflexivity]. by eapply pl_cschema.
      * apply elem_of_list_bind in Hq as ([k [p|]] & Hq & Hk); simpl in Hq; [|by apply not_elem_of_nil in Hq].
        apply elem_of_list_singleton in Hq as ->. eexists. split; [|reflexivity]. by eapply pl_cparam.
      * apply elem_of_list_bind in Hq as ([k [b|]] & Hq & Hk); simpl in Hq; [|by apply not_elem_of_nil in Hq].
        apply elem_content_pos in Hq as (m & mt & Hm & ->). eexists. split; [|reflexivity]. by eapply pl_cbody.
      * apply elem_of_list_bind in Hq as ([k [r|]] & Hq & Hk); simpl in Hq; [|by apply not_elem_of_nil in Hq].
        apply elem_response_pos in Hq as (s & Hs & ->). eexists. split; [|reflexivity]. by eapply pl_cresp.
      * apply elem_of_list_bind in Hq as ([k [hd|]] & Hq & Hk); simpl in Hq; [|by apply not_elem_of_nil in Hq].
        apply elem_of_list_singleton in Hq as ->. eexists. split; [|reflexivity]. by eapply pl_cheader.
  - assert (∀ p q, param_in d p → (q = PRef (pm_ref p) ∨ q = PSchema (pm_schema p)) →
        ∃ y, q ∈ item_pos y.2 ∧ y ∈ d_paths d) as Hpar.
    { intros p q' Hp Hq. destruct Hp as [k it p Hit Hp|k it o p Hit Ho Hp].
      - exists (k, it). split; [|done]. unfold item_pos. apply elem_of_app. left. apply elem_param_pos. eauto.
      - exists (k, it). split; [|done]. unfold item_pos. apply elem_of_app. right. apply elem_op_pos.
        exists o. split; [done|]. apply elem_operation_pos. left. apply elem_param_pos. eauto. }
    intros [(p & Hp & ->)|(s & Hs & ->)]; [left; eauto|].
    destruct Hs as [p Hp|k it o c m mt Hit Ho Hb Hm|k it o st r s Hit Ho Hr Hs|c k s Hc Hk|c k p Hc Hk
      |c k b m mt Hc Hk Hm|c k r s Hc Hk Hs|c k hd Hc Hk].
    + left; eauto.
    + left. exists (k, it). split; [|done]. apply elem_of_app. right. apply elem_op_pos. exists o. split; [done|].
      apply elem_operation_pos. right; left. eauto 10.
    + left. exists (k, it). split; [|done]. apply elem_of_app. right. apply elem_op_pos. exists o. split; [done|].
      apply elem_operation_pos. right; right. eauto 10.
    + right. unfold comps_pos. rewrite Hc, !elem_of_app. left. apply elem_of_list_fmap. exists (k, s).
      split; [done|]. by apply elem_of_map_to_list.
    + right. unfold comps_pos. rewrite Hc, !elem_of_app. right; left. apply elem_of_list_bind. exists (k, Some p).
      split; [left|done].
    + right. unfold comps_pos. rewrite Hc, !elem_of_app. right; right; left. apply elem_of_list_bind. exists (k, Some b).
      split; [|done]. apply elem_content_pos. eauto.
    + right. unfold comps_pos. rewrite Hc, !elem_of_app. right; right; right; left. apply elem_of_list_bind.
      exists (k, Some r). split; [|done]. apply elem_response_pos. eauto.
    + right. unfold comps_pos. rewrite Hc, !elem_of_app. right; right; right; right. apply elem_of_list_bind.
      exists (k, Some hd). split; [left|done].
Qed.

Lemma visited_ok d : ∃ names, visited_names d = Some names ∧
  ∀ x, x ∈ names ↔ ∃ r, has_ref d r ∧ names_component r x.
Proof.
  unfold visited_names.
  assert (is_Some (mapM (pos_names (d_heap d)) (doc_pos d))) as [nss Hn].
  { apply mapM_is_Some, Forall_forall. intros p _. destruct (pos_names_ok (d_heap d) p) as (ns & Hns & _). exists ns. exact Hns. }
  rewrite Hn. simpl. eexists; split; [reflexivity|]. intros x. apply mapM_Some in Hn.
  rewrite elem_of_concat. split.
  - intros (ns & Hx & Hns). apply elem_of_list_lookup in Hns as [i Hi].
    destruct (Forall2_lookup_r _ _ _ _ _ Hn Hi) as (p & Hp & Hpn).
    destruct (pos_names_ok (d_heap d) p) as (ns' & Hpn' & Hok). assert (ns' = ns) as -> by congruence.
    apply Hok in Hx. apply elem_of_list_lookup_2, doc_pos_spec in Hp as [(q & Hq & ->)|(s & Hs & ->)].
    + simpl in Hx. exists (pm_ref q). split; [by apply hr_param|done].
    + simpl in Hx. destruct Hx as (l & l' & n & -> & Hr & Hl' & Hx). exists (sn_ref n). split; [|done].
      by eapply hr_schema.
  - intros (r & Hr & Hx).
    assert (∃ p, p ∈ doc_pos d ∧ pos_has (d_heap d) p x) as (p & Hp & Hpx).
    { destruct Hr as [l l' n Hp Hr Hl'|p Hp].
      - exists (PSchema (Some l)). split; [apply doc_pos_spec; eauto|]. exists l, l', n. done.
      - exists (PRef (pm_ref p)). split; [apply doc_pos_spec; eauto|done]. }
    apply elem_of_list_lookup in Hp as [i Hi].
    destruct (Forall2_lookup_l _ _ _ _ _ Hn Hi) as (ns & Hns & Hpn).
    destruct (pos_names_ok (d_heap d) p) as (ns' & Hpn' & Hok). assert (ns' = ns) as -> by congruence.
    exists ns. split; [by apply Hok|by eapply elem_of_list_lookup_2].
Qed.

(** ** The repair loop *)
Record repaired (gotypes : gmap string string) (names : list string) (h0 : heap) (s0 : gmap string (option positive))
    (done_ : list string) (acc : heap * gmap string (option positive) * list unresolved) : Prop := {
  rp_heap : h0 ⊆ acc.1.1;
  rp_new : ∀ l n, acc.1.1 !! l = Some n → h0 !! l = Some n ∨ (h0 !! l = None ∧ ∃ t, n = placeholder t);
  rp_schemas : ∀ k v, s0 !! k = Some v → k ∉ done_ → acc.1.2 !! k = Some v;
  rp_dom : ∀ k, is_Some (acc.1.2 !! k) ↔ is_Some (s0 !! k) ∨ k ∈ done_;
  rp_added : ∀ k v, k ∈ done_ → acc.1.2 !! k = Some v → ∃ l, v = Some l ∧ h0 !! l = None ∧
      acc.1.1 !! l = Some (placeholder (if decide (default "" (gotypes !! k) = "") then k else default "" (gotypes !! k)));
  rp_out : acc.2 = (λ k, Unresolved k (default "" (gotypes !! k)) (count_of k names)) <$> done_
}.

Lemma repair_loop gotypes names h0 s0 todo : ∀ done_ acc, NoDup (done_ ++ todo) →
  repaired gotypes names h0 s0 done_ acc →
  repaired gotypes names h0 s0 (done_ ++ todo) (fold_left (repair_one gotypes names) todo acc).
Proof.
  induction todo as [|k todo IH]; intros done_ acc Hnd Hr; simpl; [by rewrite app_nil_r|].
  replace (done_ ++ k :: todo) with ((done_ ++ [k]) ++ todo) in * by by rewrite <- app_assoc.
  apply IH; [done|]. apply NoDup_app in Hnd as (Hnd & _ & _).
  assert (k ∉ done_) as Hk.
  { apply NoDup_app in Hnd as (_ & Hnd & _). intros Hin. apply (Hnd k Hin). left. }
  destruct acc as [[h s] out]. destruct Hr as [H1 H2 H3 H4 H5 H6]. simpl in *.
  set (l := fresh_ptr h). assert (h !! l = None) as Hl.
  { apply (not_elem_of_dom (D:=gset positive)). unfold l, fresh_ptr. apply is_fresh. }
  assert (h0 !! l = None) as Hl0.
  { destruct (h0 !! l) eqn:E; [|done]. pose proof (lookup_weaken _ _ _ _ E H1) as Hx. congruence. }
  split; simpl.
  - etrans; [exact H1|]. by apply insert_subseteq.
  - intros l' n. rewrite lookup_insert_Some. intros [[<- <-]|[_ Hn]]; [|by apply H2]. right. eauto.
  - intros k' v Hv Hn. rewrite lookup_insert_ne; [|set_solver]. apply H3; [done|set_solver].
  - intros k'. destruct (decide (k' = k)) as [->|Hne].
    + rewrite lookup_insert. split; [|eauto]. intros _. right. apply elem_of_app. right. left.
    + rewrite lookup_insert_ne by done. rewrite H4, elem_of_app, elem_of_list_singleton. tauto.
  - intros k' v Hin. destruct (decide (k' = k)) as [->|Hne].
    + rewrite lookup_insert. intros [= <-]. exists l. split; [done|]. split; [done|]. by rewrite lookup_insert.
    + rewrite lookup_insert_ne by done. intros Hv.
      apply elem_of_app in Hin as [Hin|Hin]; [|by apply elem_of_list_singleton in Hin].
      destruct (H5 k' v Hin Hv) as (l' & -> & Hl'0 & Hl'). exists l'. split; [done|]. split; [done|].
      rewrite lookup_insert_ne by congruence. done.
  - by rewrite H6, fmap_app.
Qed.

Lemma elem_missing iter names schemas k : is_order iter →
  k ∈ missing_names iter names schemas ↔ k ∈ names ∧ schemas !! k = None.
Proof.
  intros Hit. unfold missing_names. rewrite elem_of_ssort, elem_of_list_filter, Hit, elem_of_remove_dups. tauto.
Qed.
Lemma NoDup_missing iter names schemas : is_order iter → NoDup (missing_names iter names schemas).
Proof.
  intros Hit. unfold missing_names. apply NoDup_ssort, NoDup_filter. rewrite (Hit _). apply NoDup_remove_dups.
Qed.
Lemma missing_order iter1 iter2 names schemas : is_order iter1 → is_order iter2 →
  missing_names iter1 names schemas = missing_names iter2 names schemas.
Proof. intros H1 H2. unfold missing_names. apply ssort_unique. apply filter_Permutation. by rewrite (H1 _), (H2 _). Qed.

Definition comps_or_empty (d : doc) : components := default (Components ∅ [] [] [] []) (d_comps d).

(** Everything the repair does. *)
Lemma repair_ok iter gotypes d : is_order iter → ∃ d' out names, repair iter gotypes d = Some (d', out) ∧
  visited_names d = Some names ∧
  d_paths d' = d_paths d ∧
  repaired gotypes names (d_heap d) (cm_schemas (comps_or_empty d))
    (missing_names iter names (cm_schemas (comps_or_empty d)))
    (d_heap d', cm_schemas (comps_or_empty d'), out) ∧
  (d_comps d' = d_comps d ∨ is_Some (d_comps d')) ∧
  cm_params (comps_or_empty d') = cm_params (comps_or_empty d) ∧
  cm_bodies (comps_or_empty d') = cm_bodies (comps_or_empty d) ∧
  cm_responses (comps_or_empty d') = cm_responses (comps_or_empty d) ∧
  cm_headers (comps_or_empty d') = cm_headers (comps_or_empty d) ∧
  (missing_names iter names (cm_schemas (comps_or_empty d)) = [] → d' = d).
Proof.
  intros Hit. destruct (visited_ok d) as (names & Hn & _). unfold repair. rewrite Hn. simpl.
  fold (comps_or_empty d).
  assert (repaired gotypes names (d_heap d) (cm_schemas (comps_or_empty d)) [] (d_heap d, cm_schemas (comps_or_empty d), [])) as Hinit.
  { split; simpl; try done.
    - auto.
    - intros k. split; [by left|]. intros [?|Hx]; [done|by apply not_elem_of_nil in Hx].
    - intros k v Hx. by apply not_elem_of_nil in Hx. }
  pose proof (repair_loop gotypes names (d_heap d) (cm_schemas (comps_or_empty d))
    (missing_names iter names (cm_schemas (comps_or_empty d))) [] _ (NoDup_missing _ _ _ Hit) Hinit) as Hloop.
  simpl in Hloop.
  destruct (missing_names iter names (cm_schemas (comps_or_empty d))) as [|k ks] eqn:Hm.
  - simpl in Hloop. exists d, [], names. split; [done|]. split; [done|]. split; [done|]. split; [by rewrite Hm|].
    split; [by left|]. done.
  - destruct (fold_left _ _ _) as [[h schemas] out]. exists (Doc h (d_paths d)
       (Some (Components schemas (cm_params (comps_or_empty d)) (cm_bodies (comps_or_empty d))
          (cm_responses (comps_or_empty d)) (cm_headers (comps_or_empty d))))), out, names.
    split; [done|]. split; [done|]. split; [done|]. split; [by rewrite Hm|]. split; [right; by eexists|].
    rewrite Hm. done.
Qed.

Lemma defined_schemas d k : defined d k ↔ is_Some (cm_schemas (comps_or_empty d) !! k).
Proof.
  unfold defined, comps_or_empty. destruct (d_comps d) as [c|]; simpl.
  - split; [by intros (? & [= <-] & ?)|eauto].
  - rewrite lookup_empty. split; [by intros (? & ? & _)|by intros [? ?]].
Qed.

Section after.
Context (iter : list string → list string) (Hit : is_order iter) (gotypes : gmap string string).
Context (d d' : doc) (out : list unresolved) (Hrun : repair iter gotypes d = Some (d', out)).

Lemma after_facts : ∃ names, visited_names d = Some names ∧
  d_paths d' = d_paths d ∧
  repaired gotypes names (d_heap d) (cm_schemas (comps_or_empty d))
    (missing_names iter names (cm_schemas (comps_or_empty d)))
    (d_heap d', cm_schemas (comps_or_empty d'), out) ∧
  cm_params (comps_or_empty d') = cm_params (comps_or_empty d) ∧
  cm_bodies (comps_or_empty d') = cm_bodies (comps_or_empty d) ∧
  cm_responses (comps_or_empty d') = cm_responses (comps_or_empty d) ∧
  cm_headers (comps_or_empty d') = cm_headers (comps_or_empty d) ∧
  (missing_names iter names (cm_schemas (comps_or_empty d)) = [] → d' = d).
Proof.
  destruct (repair_ok iter gotypes d Hit) as (d1 & o1 & names & H1 & H2 & H3 & H4 & _ & H5 & H6 & H7 & H8 & H9).
  assert (d1 = d' ∧ o1 = out) as [-> ->] by (split; congruence). exists names. done.
Qed.

Lemma param_in_after p : param_in d' p ↔ param_in d p.
Proof.
  destruct after_facts as (names & _ & Hp & _).
  split; intros [k it q Hk Hq|k it o q Hk Ho Hq].
  - rewrite Hp in Hk. by eapply pa_item.
  - rewrite Hp in Hk. by eapply pa_op.
  - rewrite <- Hp in Hk. by eapply pa_item.
  - rewrite <- Hp in Hk. by eapply pa_op.
Qed.

Lemma comps_some c : d_comps d' = Some c → comps_or_empty d' = c.
Proof. unfold comps_or_empty. by intros ->. Qed.

Lemma placed_after s : placed d' s → placed d s ∨
  (∃ l t, s = Some l ∧ d_heap d !! l = None ∧ d_heap d' !! l = Some (placeholder t)).
Proof.
  destruct after_facts as (names & _ & Hp & Hr & E1 & E2 & E3 & E4 & _).
  assert (∀ k x, (k, x) ∈ cm_params (comps_or_empty d) → ∃ c, d_comps d = Some c ∧ comps_or_empty d = c) as F1.
  { unfold comps_or_empty. destruct (d_comps d); simpl; [eauto|]. intros k x Hx. by apply not_elem_of_nil in Hx. }
  assert (∀ k x, (k, x) ∈ cm_bodies (comps_or_empty d) → ∃ c, d_comps d = Some c ∧ comps_or_empty d = c) as F2.
  { unfold comps_or_empty. destruct (d_comps d); simpl; [eauto|]. intros k x Hx. by apply not_elem_of_nil in Hx. }
  assert (∀ k x, (k, x) ∈ cm_responses (comps_or_empty d) → ∃ c, d_comps d = Some c ∧ comps_or_empty d = c) as F3.
  { unfold comps_or_empty. destruct (d_comps d); simpl; [eauto|]. intros k x Hx. by apply not_elem_of_nil in Hx. }
  assert (∀ k x, (k, x) ∈ cm_headers (comps_or_empty d) → ∃ c, d_comps d = Some c ∧ comps_or_empty d = c) as F4.
  { unfold comps_or_empty. destruct (d_comps d); simpl; [eauto|]. intros k x Hx. by apply not_elem_of_nil in Hx. }
  intros Hs. destruct Hs as [p Hpp|k it o c m mt Hk Ho Hb Hm|k it o st r s Hk Ho Hst Hs|c k s Hc Hk|c k p Hc Hk
      |c k b m mt Hc Hk Hm|c k r s Hc Hk Hs|c k hd Hc Hk].
  - left. apply pl_param. by apply param_in_after.
  - left. rewrite Hp in Hk. by eapply pl_body.
  - left. rewrite Hp in Hk. by eapply pl_resp.
  - apply comps_some in Hc as <-.
    destruct (decide (k ∈ missing_names iter names (cm_schemas (comps_or_empty d)))) as [Hin|Hin].
    + right. destruct (rp_added _ _ _ _ _ _ Hr k s Hin Hk) as (l & -> & Hl0 & Hl). eauto.
    + left. assert (is_Some (cm_schemas (comps_or_empty d) !! k)) as [v Hv].
      { assert (is_Some (cm_schemas (comps_or_empty d') !! k)) as Hsm by eauto.
        apply (rp_dom _ _ _ _ _ _ Hr) in Hsm as [?|?]; done. }
      pose proof (rp_schemas _ _ _ _ _ _ Hr k v Hv Hin) as Hv'. simpl in Hv'. assert (v = s) as -> by congruence.
      destruct (d_comps d) as [c|] eqn:Hcd.
      * eapply pl_cschema; [exact Hcd|]. unfold comps_or_empty in Hv. by rewrite Hcd in Hv.
      * unfold comps_or_empty in Hv. rewrite Hcd in Hv. simpl in Hv. by rewrite lookup_empty in Hv.
  - left. apply comps_some in Hc as <-. rewrite E1 in Hk. destruct (F1 _ _ Hk) as (c & Hc & Heq).
    rewrite Heq in Hk. by eapply pl_cparam.
  - left. apply comps_some in Hc as <-. rewrite E2 in Hk. destruct (F2 _ _ Hk) as (c & Hc & Heq).
    rewrite Heq in Hk. by eapply pl_cbody.
  - left. apply comps_some in Hc as <-. rewrite E3 in Hk. destruct (F3 _ _ Hk) as (c & Hc & Heq).
    rewrite Heq in Hk. by eapply pl_cresp.
  - left. apply comps_some in Hc as <-. rewrite E4 in Hk. destruct (F4 _ _ Hk) as (c & Hc & Heq).
    rewrite Heq in Hk. by eapply pl_cheader.
Qed.

Lemma sub_after a b : sub_of (d_heap d') a b → sub_of (d_heap d) a b.
Proof.
  destruct after_facts as (names & _ & _ & Hr & _). pose proof (rp_new _ _ _ _ _ _ Hr) as Hnew. simpl in Hnew.
  intros Hs. destruct Hs as [a n k b H1 H2|a n b H1 H2|a n b H1 H2|a n b H1 H2|a n b H1 H2|a n b H1 H2|a n b H1 H2].
  all: apply Hnew in H1 as [H1|(_ & t & ->)]; simpl in H2; try (by apply not_elem_of_nil in H2); try done.
  - by eapply so_prop.
  - by eapply so_items.
  - by eapply so_addl.
  - by eapply so_not.
  - by eapply so_all.
  - by eapply so_one.
  - by eapply so_any.
Qed.

Lemma has_ref_after r : has_ref d' r → has_ref d r ∨ r = "".
Proof.
  destruct after_facts as (names & _ & _ & Hr & _). pose proof (rp_new _ _ _ _ _ _ Hr) as Hnew. simpl in Hnew.
  intros [l l' n Hp Hrt Hn|p Hp].
  - apply Hnew in Hn as [Hn|(_ & t & ->)]; [|by right]. left.
    assert (rtc (sub_of (d_heap d)) l l') as Hrt'.
    { clear -Hrt Hrun Hit. induction Hrt; [apply rtc_refl|]. eapply rtc_l; [by apply sub_after|done]. }
    apply placed_after in Hp as [Hp|(l0 & t & [= <-] & Hl0 & Hl1)]; [by eapply hr_schema|].
    exfalso. inversion Hrt' as [|? y ? Hs _]; subst; [congruence|]. inversion Hs; congruence.
  - left. apply hr_param. by apply param_in_after.
Qed.

Lemma missing_iff k : (∃ u, u ∈ out ∧ ur_component u = k) ↔
  (∃ r, has_ref d r ∧ names_component r k) ∧ ¬ defined d k.
Proof.
  destruct after_facts as (names & Hn & _ & Hr & _).
  pose proof (rp_out _ _ _ _ _ _ Hr) as Ho. simpl in Ho. rewrite Ho.
  destruct (visited_ok d) as (names' & Hn' & Hok). assert (names' = names) as -> by congruence.
  rewrite <- Hok, defined_schemas. split.
  - intros (u & Hu & <-). apply elem_of_list_fmap in Hu as (k' & -> & Hk'). simpl.
    apply elem_missing in Hk' as [H1 H2]; [|done]. split; [done|]. rewrite H2. by intros [? ?].
  - intros [H1 H2]. eexists. split; [apply elem_of_list_fmap; exists k; split; [reflexivity|]|done].
    apply elem_missing; [done|]. split; [done|]. by apply eq_None_not_Some.
Qed.

Lemma no_dangling r k : has_ref d' r → names_component r k → defined d' k.
Proof.
  intros Hr Hk. apply has_ref_after in Hr as [Hr| ->]; [|by destruct Hk].
  destruct after_facts as (names & Hn & _ & Hrp & _).
  destruct (visited_ok d) as (names' & Hn' & Hok). assert (names' = names) as -> by congruence.
  apply defined_schemas. apply (rp_dom _ _ _ _ _ _ Hrp). simpl.
  destruct (cm_schemas (comps_or_empty d) !! k) eqn:E; [left; eauto|right].
  apply elem_missing; [done|]. split; [|done]. apply Hok. eauto.
Qed.

Lemma repair_again iter2 gotypes2 : is_order iter2 → repair iter2 gotypes2 d' = Some (d', []).
Proof.
  intros Hit2. destruct (visited_ok d') as (names & Hn & Hok). unfold repair. rewrite Hn. simpl.
  fold (comps_or_empty d').
  destruct (missing_names iter2 names (cm_schemas (comps_or_empty d'))) as [|k ks] eqn:E; [done|].
  exfalso. assert (k ∈ missing_names iter2 names (cm_schemas (comps_or_empty d'))) as Hk by (rewrite E; left).
  apply elem_missing in Hk as [Hk Hnone]; [|done]. apply Hok in Hk as (r & Hr & Hrk).
  pose proof (no_dangling r k Hr Hrk) as Hd. apply defined_schemas in Hd. rewrite Hnone in Hd. by destruct Hd.
Qed.

Lemma report_sorted : NoDup (ur_component <$> out) ∧ StronglySorted string_le (ur_component <$> out) ∧
  ∀ u, u ∈ out → 0 < ur_sites u ∧ ur_gotype u = default "" (gotypes !! ur_component u).
Proof.
  destruct after_facts as (names & Hn & _ & Hr & _).
  pose proof (rp_out _ _ _ _ _ _ Hr) as Ho. simpl in Ho. rewrite Ho.
  set (ms := missing_names _ _ _).
  assert (ur_component <$> ((λ k, Unresolved k (default "" (gotypes !! k)) (count_of k names)) <$> ms) = ms) as ->.
  { rewrite <- list_fmap_compose. apply list_fmap_id. }
  split; [by apply NoDup_missing|]. split; [apply ssort_sorted|].
  intros u Hu. apply elem_of_list_fmap in Hu as (k & -> & Hk). simpl. split; [|done].
  apply elem_missing in Hk as [Hk _]; [|done]. unfold count_of.
  assert (k ∈ filter (λ x, x = k) names) as Hf by by apply elem_of_list_filter.
  destruct (filter _ names); [by apply not_elem_of_nil in Hf|simpl; lia].
Qed.

Lemma repair_conservative :
  d_paths d' = d_paths d ∧ d_heap d ⊆ d_heap d' ∧
  (∀ c, d_comps d = Some c → ∃ c', d_comps d' = Some c' ∧
     cm_params c' = cm_params c ∧ cm_bodies c' = cm_bodies c ∧ cm_responses c' = cm_responses c ∧
     cm_headers c' = cm_headers c ∧ ∀ k v, cm_schemas c !! k = Some v → cm_schemas c' !! k = Some v) ∧
  (∀ k, defined d' k ↔ defined d k ∨ ((∃ r, has_ref d r ∧ names_component r k) ∧ ¬ defined d k)) ∧
  (∀ k c', d_comps d' = Some c' → ¬ defined d k → ∀ v, cm_schemas c' !! k = Some v →
     ∃ l t, v = Some l ∧ d_heap d !! l = None ∧ d_heap d' !! l = Some (placeholder t)).
Proof.
  destruct after_facts as (names & Hn & Hp & Hr & E1 & E2 & E3 & E4 & Hnil).
  destruct (visited_ok d) as (names' & Hn' & Hok). assert (names' = names) as -> by congruence.
  split; [done|]. split; [apply (rp_heap _ _ _ _ _ _ Hr)|]. split; [|split].
  - intros c Hc. assert (comps_or_empty d = c) as Hcc by (unfold comps_or_empty; by rewrite Hc).
    destruct (d_comps d') as [c'|] eqn:Hc'.
    + assert (comps_or_empty d' = c') as Hcc' by (unfold comps_or_empty; by rewrite Hc'). rewrite Hcc, Hcc' in *.
      exists c'. split; [done|]. split; [done|]. split; [done|]. split; [done|]. split; [done|].
      intros k v Hv. apply (rp_schemas _ _ _ _ _ _ Hr); [done|]. intros Hin.
      apply elem_missing in Hin as [_ Hin]; [congruence|done].
    + exfalso. revert Hrun. unfold repair. rewrite Hn. simpl.
      destruct (missing_names _ _ _).
      * intros Heq. injection Heq as -> _. congruence.
      * destruct (fold_left _ _ _) as [[? ?] ?]. intros Heq. injection Heq as <- _. done.
  - intros k. rewrite !defined_schemas, <- Hok. rewrite (rp_dom _ _ _ _ _ _ Hr k), elem_missing by done.
    rewrite eq_None_not_Some. tauto.
  - intros k c' Hc' Hnd v Hv. assert (comps_or_empty d' = c') as Hcc' by (unfold comps_or_empty; by rewrite Hc').
    assert (k ∈ missing_names iter names (cm_schemas (comps_or_empty d))) as Hin.
    { assert (is_Some (cm_schemas (comps_or_empty d') !! k)) as Hs by (rewrite Hcc'; eauto).
      apply (rp_dom _ _ _ _ _ _ Hr) in Hs as [Hs|?]; [|done]. by apply defined_schemas in Hs. }
    rewrite <- Hcc' in Hv. destruct (rp_added _ _ _ _ _ _ Hr k v Hin Hv) as (l & -> & Hl0 & Hl). eauto.
Qed.
End after.

(** ** goTypeByComponentName *)
Lemma gotype_ok mangle used name g :
  gotype_by_name mangle used !! name = Some g ↔
  (∃ t, t ∈ used ∧ trim_prefix "*" t = g ∧ mangle g = name) ∧
  (∀ t, t ∈ used → mangle (trim_prefix "*" t) = name → trim_prefix "*" t = g).
Proof.
  unfold gotype_by_name.
  assert (∀ used, let acc := fold_left (gotype_step mangle) used (∅, ∅) in
    (∀ n g, acc.1 !! n = Some g → ∃ t, t ∈ used ∧ trim_prefix "*" t = g ∧ mangle g = n) ∧
    (∀ t, t ∈ used → is_Some (acc.1 !! mangle (trim_prefix "*" t))) ∧
    (∀ n, n ∈ acc.2 ↔ ∃ t1 t2, t1 ∈ used ∧ t2 ∈ used ∧ trim_prefix "*" t1 ≠ trim_prefix "*" t2 ∧
        mangle (trim_prefix "*" t1) = n ∧ mangle (trim_prefix "*" t2) = n)) as Hgen.
  { intros us. induction us as [|t us IH] using rev_ind.
    - simpl. split; [|split].
      + intros n g' Hg. by rewrite lookup_empty in Hg.
      + intros t Ht. by apply not_elem_of_nil in Ht.
      + intros n. split; [set_solver|]. intros (t1 & _ & Ht & _). by apply not_elem_of_nil in Ht.
    - rewrite fold_left_app. simpl.
      destruct (fold_left (gotype_step mangle) us (∅, ∅)) as [o amb]. simpl in IH. destruct IH as (I1 & I2 & I3).
      unfold gotype_step. simpl. set (b := trim_prefix "*" t). set (nm := mangle b).
      assert (∀ x, x ∈ us ++ [t] ↔ x ∈ us ∨ x = t) as Hin.
      { intros x. by rewrite elem_of_app, elem_of_list_singleton. }
      destruct (o !! nm) as [prev|] eqn:Hprev.
      + destruct (decide (prev = b)) as [->|Hne]; simpl.
        * rewrite insert_id by done. split; [|split].
          { intros n g' Hg. destruct (I1 n g' Hg) as (t' & Ht' & ?). exists t'. split; [apply Hin; by left|done]. }
          { intros t' Ht'. apply Hin in Ht' as [Ht'| ->]; [by apply I2|]. fold b. fold nm. by rewrite Hprev. }
          { intros n. rewrite I3. destruct (I1 nm b Hprev) as (t0 & Ht0 & Hb0 & _). split.
            - intros (t1 & t2 & H1 & H2 & ?). exists t1, t2. split; [apply Hin; by left|]. split; [apply Hin; by left|done].
            - intros (t1 & t2 & H1 & H2 & Hd & H3 & H4).
              apply Hin in H1 as [H1| ->]; apply Hin in H2 as [H2| ->].
              + by exists t1, t2.
              + exists t1, t0. rewrite Hb0. done.
              + exists t0, t2. rewrite Hb0. done.
              + done. }
        * split; [|split].
          { intros n g' Hg. destruct (I1 n g' Hg) as (t' & Ht' & ?). exists t'. split; [apply Hin; by left|done]. }
          { intros t' Ht'. apply Hin in Ht' as [Ht'| ->]; [by apply I2|]. fold b. fold nm. by rewrite Hprev. }
          { intros n. rewrite elem_of_union, elem_of_singleton, I3. destruct (I1 nm prev Hprev) as (t0 & Ht0 & Hb0 & Hm0). split.
            - intros [->|(t1 & t2 & H1 & H2 & ?)].
              + exists t0, t. split; [apply Hin; by left|]. split; [apply Hin; by right|].
                rewrite Hb0. fold b. done.
              + exists t1, t2. split; [apply Hin; by left|]. split; [apply Hin; by left|done].
            - intros (t1 & t2 & H1 & H2 & Hd & H3 & H4).
              apply Hin in H1 as [H1| ->]; apply Hin in H2 as [H2| ->].
              + right. by exists t1, t2.
              + by left.
              + by left.
              + done. }
      + simpl. split; [|split].
        { intros n g'. rewrite lookup_insert_Some. intros [[<- <-]|[_ Hg]].
          - exists t. split; [apply Hin; by right|done].
          - destruct (I1 n g' Hg) as (t' & Ht' & ?). exists t'. split; [apply Hin; by left|done]. }
        { intros t' Ht'. apply Hin in Ht' as [Ht'| ->].
          - destruct (decide (mangle (trim_prefix "*" t') = nm)) as [->|Hne]; [rewrite lookup_insert; eauto|].
            rewrite lookup_insert_ne by congruence. by apply I2.
          - fold b. fold nm. rewrite lookup_insert. eauto. }
        { intros n. rewrite I3. split.
          - intros (t1 & t2 & H1 & H2 & ?). exists t1, t2. split; [apply Hin; by left|]. split; [apply Hin; by left|done].
          - intros (t1 & t2 & H1 & H2 & Hd & H3 & H4).
            apply Hin in H1 as [H1| ->]; apply Hin in H2 as [H2| ->].
            + by exists t1, t2.
            + exfalso. destruct (I2 t1 H1) as [z Hz]. rewrite H3, <- H4 in Hz. fold b in Hz. fold nm in Hz. congruence.
            + exfalso. destruct (I2 t2 H2) as [z Hz]. rewrite H4, <- H3 in Hz. fold b in Hz. fold nm in Hz. congruence.
            + done. } }
  specialize (Hgen used). destruct (fold_left _ _ _) as [o amb]. simpl in Hgen. destruct Hgen as (G1 & G2 & G3).
  rewrite map_filter_lookup_Some. simpl. split.
  - intros [Ho Hna]. destruct (G1 _ _ Ho) as (t & Ht & Hb & Hm). split; [eauto|].
    intros t' Ht' Hm'. destruct (decide (trim_prefix "*" t' = g)) as [|Hne]; [done|].
    exfalso. apply Hna, G3. exists t', t. rewrite Hb. done.
  - intros [(t & Ht & Hb & Hm) Hall]. split.
    + destruct (G2 t Ht) as [z Hz]. rewrite Hb, Hm in Hz. destruct (G1 _ _ Hz) as (t' & Ht' & Hb' & Hm').
      assert (z = g) as ->; [|done]. rewrite <- Hb'. apply Hall; [done|]. by rewrite Hb'.
    + intros Hamb. apply G3 in Hamb as (t1 & t2 & H1 & H2 & Hd & H3 & H4). apply Hd.
      by rewrite (Hall t1 H1 H3), (Hall t2 H2 H4).
Qed.
