(** * Overrides: C42. *)
From Coq Require Import Ascii.
From stdpp Require Import sorting.
From stdpp Require Import base list strings gmap.
From Verif Require Import StrLib StrOrder DecLib SccSpec RouteModel RouteProofs PathModel PathSpec PathProofs PathProofs2 OverModel.

(** ** Specification *)

(** [x] is the value the last override of [fn] that sets the field gives to it. *)
Definition last_set {A} (os : list override) (fn : string) (field : override → A) (unset : A) (x : A) : Prop :=
  x ≠ unset ∧ ∃ before o after, os = before ++ o :: after ∧ ov_fn o = fn ∧ field o = x ∧
    ∀ o', o' ∈ after → ov_fn o' = fn → field o' = unset.
Definition never_set {A} (os : list override) (fn : string) (field : override → A) (unset : A) : Prop :=
  ∀ o, o ∈ os → ov_fn o = fn → field o = unset.
(** Every response is stored under its status. *)
Definition keyed (rs : gmap string resp) : Prop := ∀ k r, rs !! k = Some r → k = itoa (rp_status r).

(** ** Lemmas *)
Lemma apply_fn os r : v_fn (apply_overrides os r) = v_fn r.
Proof.
  unfold apply_overrides. revert r. induction os as [|o os IH]; intros r; [done|]. cbn. rewrite IH. unfold apply_override. by destruct (decide _).
Qed.
Lemma apply_app a b r : apply_overrides (a ++ b) r = apply_overrides b (apply_overrides a r).
Proof. apply foldl_app. Qed.
Lemma step_fn o r : v_fn (apply_override r o) = v_fn r.
Proof. unfold apply_override. by destruct (decide _). Qed.
(** A field written only by non-empty values keeps the last of them. *)
Lemma fold_field {A B} (get : vroute → A) (field : override → B) (unset : B) (write : B → A → Prop) :
  (∀ r o, (ov_fn o = v_fn r → field o = unset) → get (apply_override r o) = get r) →
  (∀ os r, never_set os (v_fn r) field unset → get (apply_overrides os r) = get r).
Proof.
  intros Hno os. induction os as [|o os IH]; intros r Hn; [done|]. unfold apply_overrides in *. cbn. rewrite IH.
  - apply Hno. apply Hn. left.
  - intros o' Ho'. rewrite step_fn. apply Hn. by right.
Qed.
Lemma summary_step r o : (ov_fn o = v_fn r → ov_summary o = "") → v_summary (apply_override r o) = v_summary r.
Proof. unfold apply_override. destruct (decide _) as [E|]; [|done]. intros H. cbn. by rewrite decide_True by auto. Qed.
Lemma tags_step r o : (ov_fn o = v_fn r → ov_tags o = []) → v_tags (apply_override r o) = v_tags r.
Proof. unfold apply_override. destruct (decide _) as [E|]; [|done]. intros H. cbn. by rewrite H. Qed.
Definition bodies (r : vroute) : gmap string string := rp_body <$> v_responses r.
Lemma alter_body k z (rs : gmap string resp) : rp_body <$> alter (set_status z) k rs = rp_body <$> rs.
Proof.
  apply map_eq. intros j. rewrite !lookup_fmap. destruct (decide (j = k)) as [->|Hne].
  - rewrite lookup_alter. by destruct (rs !! k).
  - by rewrite lookup_alter_ne.
Qed.
Lemma bodies_step r o : (ov_fn o = v_fn r → ov_type o = "") → bodies (apply_override r o) = bodies r.
Proof.
  unfold apply_override, bodies. destruct (decide _) as [E|]; [|done]. intros H. cbn. rewrite (decide_True (P := ov_type o = "")) by auto.
  destruct (decide _); [done|]. apply alter_body.
Qed.
Lemma after_set {A} os r (field : override → A) unset x : last_set os (v_fn r) field unset x →
  ∃ before o after, apply_overrides os r = apply_overrides after (apply_override (apply_overrides before r) o) ∧
    ov_fn o = v_fn (apply_overrides before r) ∧ field o = x ∧ x ≠ unset ∧ never_set after (v_fn (apply_override (apply_overrides before r) o)) field unset.
Proof.
  intros (Hx & before & o & after & -> & Hf & Hv & Hn). exists before, o, after. rewrite apply_app. split; [done|].
  split; [by rewrite apply_fn|]. split; [done|]. split; [done|]. intros o' Ho'. rewrite step_fn, apply_fn. by apply Hn.
Qed.
(** Statuses stored under their own key are never changed. *)
Lemma status_noop z rs : keyed rs → alter (set_status z) (itoa z) rs = rs.
Proof.
  intros H. apply map_eq. intros j. destruct (decide (j = itoa z)) as [->|Hne]; [|by rewrite lookup_alter_ne].
  rewrite lookup_alter. destruct (rs !! itoa z) as [r|] eqn:E; [|done]. cbn. f_equal. apply H in E as E'. apply itoa_inj in E'.
  destruct r as [a b c d]. cbn in E'. unfold set_status. cbn. by rewrite E'.
Qed.
Definition visible (r : resp) : option sch * string * Z := (rp_schema r, rp_ctype r, rp_status r).
Lemma visible_step r o : keyed (v_responses r) →
  visible <$> v_responses (apply_override r o) = visible <$> v_responses r ∧ keyed (v_responses (apply_override r o)).
Proof.
  intros H. unfold apply_override. destruct (decide _) as [E|]; [|done]. cbn.
  assert ((if decide (ov_status o = 0%Z) then v_responses r else alter (set_status (ov_status o)) (itoa (ov_status o)) (v_responses r)) = v_responses r) as ->.
  { destruct (decide _); [done|]. by apply status_noop. }
  destruct (decide _); [done|]. split.
  - apply map_eq. intros j. rewrite !lookup_fmap. by destruct (v_responses r !! j).
  - intros k x Hx. rewrite lookup_fmap in Hx. destruct (v_responses r !! k) as [y|] eqn:Ey; [|done]. injection Hx as <-. cbn. by apply H.
Qed.
Lemma visible_all os : ∀ r, keyed (v_responses r) → visible <$> v_responses (apply_overrides os r) = visible <$> v_responses r ∧ keyed (v_responses (apply_overrides os r)).
Proof.
  unfold apply_overrides. induction os as [|o os IH]; intros r H; [done|]. cbn. destruct (visible_step r o H) as [H1 H2]. destruct (IH _ H2) as [H3 H4].
  split; [by rewrite H3|done].
Qed.
Lemma same_visible_empty (rs rs' : gmap string resp) : visible <$> rs' = visible <$> rs → rs = ∅ ↔ rs' = ∅.
Proof. intros H. split; intros ->; rewrite fmap_empty in H; [by apply fmap_empty_inv in H|symmetry in H; by apply fmap_empty_inv in H]. Qed.
Lemma itoa_not_default z : itoa z ≠ "default".
Proof.
  intros E. assert (contains_byte "d"%char (itoa z) = false) as H by (by apply contains_itoa). rewrite E in H. vm_compute in H. done.
Qed.
Lemma responses_visible plain txt iter (rs rs' : gmap string resp) : is_order iter → keyed rs → (∀ k r, rs !! k = Some r → known r) →
  visible <$> rs' = visible <$> rs → build_responses plain txt iter rs' = build_responses plain txt iter rs.
Proof.
  intros Hi Hk Hkn Hv.
  assert (∀ k, visible <$> rs' !! k = visible <$> rs !! k) as Hl.
  { intros k. by rewrite <- !lookup_fmap, Hv. }
  assert (rs !! "default" = None) as Hd.
  { destruct (rs !! "default") as [r|] eqn:E; [|done]. apply Hk in E. by destruct (itoa_not_default (rp_status r)). }
  assert (rs' !! "default" = None) as Hd'.
  { specialize (Hl "default"). rewrite Hd in Hl. by destruct (rs' !! "default"). }
  assert (∀ k r, rs' !! k = Some r → known r) as Hkn'.
  { intros k r Hr. specialize (Hl k). rewrite Hr in Hl. destruct (rs !! k) as [x|] eqn:Ex; [|done]. apply Hkn in Ex. unfold known, visible in *. cbn in Hl. injection Hl as _ _ H. lia. }
  destruct (decide (rs = ∅)) as [E|Hne].
  { assert (rs' = ∅) as -> by by apply (same_visible_empty rs). by rewrite E. }
  assert (rs' ≠ ∅) as Hne' by (intros E; by apply Hne, (same_visible_empty rs rs' Hv)).
  assert (∀ r, rs !! "default" = Some r → (rp_status r < 0)%Z) as Hdd by (intros r Hr; congruence).
  assert (∀ r, rs' !! "default" = Some r → (rp_status r < 0)%Z) as Hdd' by (intros r Hr; congruence).
  apply map_eq. intros k. destruct (decide (k = "default")) as [->|Hk'].
  - rewrite (out_default rs plain txt iter Hne), (out_default rs' plain txt iter Hne').
    pose proof (chosen_default rs Hdd iter Hi) as H1. pose proof (chosen_default rs' Hdd' iter Hi) as H2.
    destruct (fold_left (choose rs) _ ∅ !! "default") as [w|].
    { destruct H1 as ([j Hj] & Hs & _). apply Hkn in Hj. unfold known in Hj. lia. }
    destruct (fold_left (choose rs') _ ∅ !! "default") as [w|]; [|done].
    destruct H2 as ([j Hj] & Hs & _). apply Hkn' in Hj. unfold known in Hj. lia.
  - rewrite (out_other rs Hdd plain txt iter Hi Hne k Hk'), (out_other rs' Hdd' plain txt iter Hi Hne' k Hk').
    specialize (Hl k). unfold known_at. destruct (rs !! k) as [x|], (rs' !! k) as [y|]; try done. cbn in Hl. unfold visible in Hl. injection Hl as H1 H2 H3.
    rewrite H3. destruct (bool_decide _); [done|]. cbn. f_equal. unfold render_response. by rewrite H1, H2, H3.
Qed.

(** ** The property *)

(** A route whose function no override names is left alone. *)
Theorem C42_only_named os r : (∀ o, o ∈ os → ov_fn o ≠ v_fn r) → apply_overrides os r = r.
Proof.
  unfold apply_overrides. induction os as [|o os IH]; intros H; [done|]. cbn. unfold apply_override at 2.
  rewrite decide_False by (apply H; left). apply IH. intros o' Ho'. apply H. by right.
Qed.
Theorem C42_has_override os fn : has_override os fn = true ↔ ∃ o, o ∈ os ∧ ov_fn o = fn.
Proof.
  unfold has_override. rewrite existsb_exists. split; intros (o & H1 & H2); exists o.
  - by rewrite elem_of_list_In, <- (bool_decide_eq_true (ov_fn o = fn)).
  - by rewrite <- elem_of_list_In, bool_decide_eq_true.
Qed.
(** Whatever the overrides, everything but summary, tags, body types and statuses stays. *)
Theorem C42_nothing_else os r : v_fn (apply_overrides os r) = v_fn r ∧ v_rest (apply_overrides os r) = v_rest r ∧
  ∀ k, (λ x, (rp_schema x, rp_ctype x)) <$> v_responses (apply_overrides os r) !! k = (λ x, (rp_schema x, rp_ctype x)) <$> v_responses r !! k.
Proof.
  unfold apply_overrides. revert r. induction os as [|o os IH]; intros r; [done|]. cbn. destruct (IH (apply_override r o)) as (H1 & H2 & H3).
  rewrite H1, H2. clear H1 H2. unfold apply_override in *. destruct (decide _); [|split; [done|]; split; [done|]; intros k; by rewrite H3]. cbn [v_fn v_rest v_responses] in *. split; [done|]. split; [done|].
  intros k. rewrite H3. destruct (decide (ov_type o = "")).
  - destruct (decide (ov_status o = 0%Z)); [done|]. destruct (decide (k = itoa (ov_status o))) as [->|Hne]; [|by rewrite lookup_alter_ne]. rewrite lookup_alter. by destruct (_ !! _).
  - rewrite lookup_fmap. destruct (decide (ov_status o = 0%Z)); [by destruct (_ !! _)|]. destruct (decide (k = itoa (ov_status o))) as [->|Hne].
    + rewrite lookup_alter. by destruct (_ !! _).
    + rewrite lookup_alter_ne by done. by destruct (_ !! _).
Qed.
(** The last summary given for the function is the documented one. *)
Theorem C42_summary os r s doc : last_set os (v_fn r) ov_summary "" s → shown_summary doc (apply_overrides os r) = s.
Proof.
  intros H. destruct (after_set _ _ _ _ _ H) as (before & o & after & E & Hf & Hv & Hx & Hn). rewrite E. unfold shown_summary.
  assert (v_summary (apply_overrides after (apply_override (apply_overrides before r) o)) = s) as ->; [|by rewrite decide_False].
  rewrite (fold_field v_summary ov_summary "" (λ _ _, True) summary_step after) by done. unfold apply_override. rewrite decide_True by done. cbn. rewrite decide_False; [done|congruence].
Qed.
Theorem C42_summary_kept os r doc : never_set os (v_fn r) ov_summary "" → shown_summary doc (apply_overrides os r) = shown_summary doc r.
Proof. intros H. unfold shown_summary. by rewrite (fold_field v_summary ov_summary "" (λ _ _, True) summary_step os) by done. Qed.
(** So are the last tags. *)
Theorem C42_tags os r ts : last_set os (v_fn r) ov_tags [] ts → v_tags (apply_overrides os r) = ts.
Proof.
  intros H. destruct (after_set _ _ _ _ _ H) as (before & o & after & E & Hf & Hv & Hx & Hn). rewrite E.
  rewrite (fold_field v_tags ov_tags [] (λ _ _, True) tags_step after) by done. unfold apply_override. rewrite decide_True by done. cbn. destruct (ov_tags o); congruence.
Qed.
Theorem C42_tags_kept os r : never_set os (v_fn r) ov_tags [] → v_tags (apply_overrides os r) = v_tags r.
Proof. intros H. by rewrite (fold_field v_tags ov_tags [] (λ _ _, True) tags_step os) by done. Qed.
(** The last response type reaches the recorded body type of every response ... *)
Lemma body_type_recorded os r t : last_set os (v_fn r) ov_type "" t →
  ∀ k x, v_responses (apply_overrides os r) !! k = Some x → rp_body x = body_type t.
Proof.
  intros H. destruct (after_set _ _ _ _ _ H) as (before & o & after & E & Hf & Hv & Hx & Hn). rewrite E.
  assert (bodies (apply_overrides after (apply_override (apply_overrides before r) o)) = bodies (apply_override (apply_overrides before r) o)) as Hb
    by by apply (fold_field bodies ov_type "" (λ _ _, True) bodies_step after).
  intros k x Hk. assert (bodies (apply_override (apply_overrides before r) o) !! k = Some (rp_body x)) as Hk'.
  { rewrite <- Hb. unfold bodies. by rewrite lookup_fmap, Hk. }
  unfold bodies, apply_override in Hk'. rewrite decide_True in Hk' by done. cbn in Hk'. rewrite (decide_False (P := ov_type o = "")) in Hk' by congruence.
  rewrite !lookup_fmap in Hk'. clear Hk. revert Hk'. destruct (_ !! k) as [y|]; [|done]. cbn. intros H'. injection H' as <-. by rewrite Hv.
Qed.
(** [s'] is [s] without a mark in front, if something comes after the mark. *)
Definition mark_off (mark s s' : string) : Prop := (s' ≠ "" ∧ s = mark +:+ s') ∨ (s' = s ∧ ∀ r, r ≠ "" → s ≠ mark +:+ r).
Lemma cut_mark_spec mark s : mark_off mark s (cut_mark mark s).
Proof.
  unfold cut_mark, mark_off. destruct (has_prefix mark s) eqn:E.
  - apply has_prefix_spec in E as [t ->]. rewrite str_drop_app. destruct (decide (t = "")) as [->|Ht].
    + rewrite bool_decide_eq_true_2 by done. right. split; [done|]. intros r Hr H. apply sapp_inj_l in H. congruence.
    + rewrite bool_decide_eq_false_2 by done. by left.
  - right. split; [done|]. intros r _ ->. assert (has_prefix mark (mark +:+ r) = true); [|congruence]. apply has_prefix_spec. by exists r.
Qed.
Theorem C42_body_type_recorded_partial os r t : last_set os (v_fn r) ov_type "" t →
  ∀ k x, v_responses (apply_overrides os r) !! k = Some x → ∃ a b, mark_off "[]" t a ∧ mark_off "*" a b ∧ mark_off "&" b (rp_body x).
Proof.
  intros H k x Hx. rewrite (body_type_recorded os r t H k x Hx). exists (cut_mark "[]" t), (cut_mark "*" (cut_mark "[]" t)). split; [apply cut_mark_spec|]. split; apply cut_mark_spec.
Qed.
(** ... but the documented responses do not change, whatever response types and statuses the
    overrides give. *)
Theorem C42_responses_never_change plain txt iter os r : is_order iter → keyed (v_responses r) → (∀ k x, v_responses r !! k = Some x → known x) →
  build_responses plain txt iter (v_responses (apply_overrides os r)) = build_responses plain txt iter (v_responses r).
Proof. intros Hi Hk Hn. apply responses_visible; [done|done|done|]. by apply visible_all. Qed.
(** So the statement that every override field is reflected is false: for no route of the
    usual form does a response type or a status show. *)
Theorem C42_response_override_refuted plain txt iter : is_order iter → ∃ o r, ov_fn o = v_fn r ∧ ov_type o = "Account" ∧ ov_status o = 201%Z ∧
  build_responses plain txt iter (v_responses r) !! "201" = None ∧
  build_responses plain txt iter (v_responses (apply_overrides [o] r)) = build_responses plain txt iter (v_responses r).
Proof.
  intros Hi. exists (Override "create" "" "" 201 "Account" []).
  exists (VRoute "create" "" [] {[ "200" := Resp (Some (Sch "#/components/schemas/User" [] 0 0 false "")) "User" "application/json" 200 ]} (ORoute "" "/x" "POST" [] [] None false ∅ None "")).
  split; [done|]. split; [done|]. split; [done|]. cbn [v_responses]. split.
  - set (info := {[ "200" := _ ]}). assert (∀ r, info !! "default" = Some r → (rp_status r < 0)%Z) as Hd.
    { intros r. unfold info. by rewrite lookup_singleton_ne. }
    rewrite (out_other info Hd plain txt iter Hi); [|apply map_non_empty_singleton|done]. unfold known_at, info. by rewrite lookup_singleton_ne.
  - apply C42_responses_never_change; [done| |]; cbn [v_responses]; intros k x [<- <-]%lookup_singleton_Some; [by vm_compute|].
    unfold known. cbn. lia.
Qed.
(** A description is never used: overrides giving nothing else change nothing. *)
Theorem C42_description_never_used os r : (∀ o, o ∈ os → ov_summary o = "" ∧ ov_status o = 0%Z ∧ ov_type o = "" ∧ ov_tags o = []) → apply_overrides os r = r.
Proof.
  unfold apply_overrides. revert r. induction os as [|o os IH]; intros r H; [done|]. cbn. rewrite IH by (intros o' Ho'; apply H; by right).
  destruct (H o ltac:(left)) as (H1 & H2 & H3 & H4). unfold apply_override. destruct (decide _); [|done]. rewrite H1, H2, H3, H4. cbn. by destruct r.
Qed.
Print Assumptions C42_only_named.
Print Assumptions C42_has_override.
Print Assumptions C42_nothing_else.
Print Assumptions C42_summary.
Print Assumptions C42_summary_kept.
Print Assumptions C42_tags.
Print Assumptions C42_tags_kept.
Print Assumptions C42_body_type_recorded_partial.
Print Assumptions C42_responses_never_change.
Print Assumptions C42_response_override_refuted.
Print Assumptions C42_description_never_used.
Definition ov_example : list override :=
  [Override "create" "Make one" "" 0 "[]*Account" ["a"]; Override "other" "No" "" 0 "" ["z"]; Override "create" "Make a user" "" 0 "" []].
Definition ov_route : vroute :=
  VRoute "create" "" [] {[ "200" := Resp None "User" "application/json" 200 ]} (ORoute "" "/x" "POST" [] [] None false ∅ None "").
Example C42_example : shown_summary "doc" (apply_overrides ov_example ov_route) = "Make a user" ∧ v_tags (apply_overrides ov_example ov_route) = ["a"] ∧
  rp_body <$> v_responses (apply_overrides ov_example ov_route) !! "200" = Some "Account" ∧
  last_set ov_example "create" ov_summary "" "Make a user" ∧ last_set ov_example "create" ov_tags [] ["a"] ∧
  last_set ov_example "create" ov_type "" "[]*Account".
Proof.
  split; [vm_compute; done|]. split; [vm_compute; done|]. split; [vm_compute; done|]. unfold last_set, ov_example. split_and!; try done.
  - exists [Override "create" "Make one" "" 0 "[]*Account" ["a"]; Override "other" "No" "" 0 "" ["z"]], (Override "create" "Make a user" "" 0 "" []), [].
    split; [done|]. split; [done|]. split; [done|]. intros o' H. by apply elem_of_nil in H.
  - exists [], (Override "create" "Make one" "" 0 "[]*Account" ["a"]). eexists. split; [reflexivity|]. split; [done|]. split; [done|].
    intros o' H. repeat (apply elem_of_cons in H as [->|H]; [done|]). by apply elem_of_nil in H.
  - exists [], (Override "create" "Make one" "" 0 "[]*Account" ["a"]). eexists. split; [reflexivity|]. split; [done|]. split; [done|].
    intros o' H. repeat (apply elem_of_cons in H as [->|H]; [done|]). by apply elem_of_nil in H.
Qed.
