(** * External types: C50. *)
From Coq Require Import Ascii.
From stdpp Require Import base list strings gmap.
From Verif Require Import StrLib StrSplit ExtModel.

(** ** Specification *)

(** The name after the last slash. *)
Definition short_of (s x : string) : Prop := contains_byte "/" x = false ∧ (s = x ∨ ∃ p, s = p +:+ String "/" x).
(** Two type names that agree on package name and type name, neither of them wrapped. *)
Definition bare (s : string) : Prop := (∀ t, s ≠ "[" +:+ t) ∧ (∀ t, s ≠ "*" +:+ t) ∧ (∀ t, s ≠ "map[" +:+ t).
Definition same_short (a b : string) : Prop := bare a ∧ bare b ∧ ∃ x, short_of a x ∧ short_of b x.
(** The first entry with a property. *)
Definition first_with (P : tmap → Prop) (l : list tmap) (e : tmap) : Prop := ∃ l1 l2, l = l1 ++ e :: l2 ∧ P e ∧ ∀ e', e' ∈ l1 → ¬ P e'.
(** The last one. *)
Definition last_with (P : tmap → Prop) (l : list tmap) (e : tmap) : Prop := ∃ l1 l2, l = l1 ++ e :: l2 ∧ P e ∧ ∀ e', e' ∈ l2 → ¬ P e'.

(** ** Lemmas *)
Lemma str_join_snoc c l x : l ≠ [] → str_join (String c "") (l ++ [x]) = str_join (String c "") l +:+ String c x.
Proof.
  intros Hl. destruct l as [|y l]; [done|]. clear Hl. revert y. induction l as [|z l IH]; intros y; [done|].
  change ((y :: z :: l) ++ [x]) with (y :: z :: (l ++ [x])). rewrite !str_join_cons2. change (z :: l ++ [x]) with ((z :: l) ++ [x]). rewrite IH. by rewrite !sapp_assoc.
Qed.
Lemma short_of_name s : short_of s (short_type_name s).
Proof.
  unfold short_type_name. pose proof (str_join_split "/"%char s) as E.
  destruct (split_byte "/" s) as [|x l _] eqn:Es using rev_ind; [by destruct (split_byte_nonnil "/"%char s)|]. rewrite last_snoc. cbn [default]. change (id x) with x. split.
  - apply (split_byte_parts "/"%char s). rewrite Es. apply elem_of_app. right. left.
  - destruct l as [|y l]; [left; cbn in E; done|right]. exists (str_join "/" (y :: l)). rewrite <- E. by rewrite str_join_snoc.
Qed.
Lemma short_of_unique s x y : short_of s x → short_of s y → x = y.
Proof.
  assert (∀ p x, contains_byte "/" x = false → split_byte "/" (p +:+ String "/" x) = split_byte "/" p ++ [x]) as Hs.
  { intros p z Hz. by rewrite split_byte_app, (split_byte_none _ z Hz). }
  intros [Hx [->|[p Ep]]] [Hy [E|[q Eq]]].
  - done.
  - rewrite Eq in Hx. unfold contains_byte in Hx. rewrite str_any_app in Hx. cbn in Hx. by rewrite orb_true_r in Hx.
  - subst. unfold contains_byte in Hy. rewrite str_any_app in Hy. cbn in Hy. by rewrite orb_true_r in Hy.
  - pose proof (Hs p x Hx) as H1. pose proof (Hs q y Hy) as H2. rewrite <- Ep in H1. rewrite <- Eq in H2. rewrite H1 in H2. by apply app_inj_tail in H2 as [_ ->].
Qed.
Lemma is_bare_spec s : is_bare s = true ↔ bare s.
Proof.
  unfold is_bare, bare. rewrite !andb_true_iff, !negb_true_iff. rewrite <- !not_true_iff_false, !has_prefix_spec. split.
  - intros [[H1 H2] H3]. split; [|split]; intros t ->; [apply H1|apply H2|apply H3]; by eexists.
  - intros (H1 & H2 & H3). split; [split|]; intros [t ->]; [by apply (H1 t)|by apply (H2 t)|by apply (H3 t)].
Qed.
Lemma short_matches_spec a b : short_matches a b = true ↔ same_short a b.
Proof.
  unfold short_matches, same_short. rewrite !andb_true_iff, !is_bare_spec, bool_decide_eq_true. split.
  - intros [[H1 H2] H3]. split; [done|]. split; [done|]. exists (short_type_name a). split; [apply short_of_name|]. rewrite H3. apply short_of_name.
  - intros (H1 & H2 & x & Hx & Hy). split; [done|]. rewrite (short_of_unique a _ x (short_of_name a) Hx). by rewrite (short_of_unique b _ x (short_of_name b) Hy).
Qed.
Lemma first_with_find (P : tmap → Prop) `{∀ x, Decision (P x)} l e : first_with P l e → ∃ i, list_find P l = Some (i, e).
Proof.
  intros (l1 & l2 & -> & He & Hn). exists (length l1). apply list_find_Some. split; [by rewrite lookup_app_r, Nat.sub_diag|]. split; [done|].
  intros j y Hj Hlt. apply Hn. rewrite lookup_app_l in Hj by done. by eapply elem_of_list_lookup_2.
Qed.
Lemma no_find (P : tmap → Prop) `{∀ x, Decision (P x)} l : (∀ e, e ∈ l → ¬ P e) → list_find P l = None.
Proof. intros Hn. apply list_find_None, Forall_forall. done. Qed.
Lemma config_has_spec ext go : config_has ext go = true ↔ ∃ e, e ∈ ext ∧ (tm_name e = go ∨ same_short (tm_name e) go).
Proof.
  unfold config_has. rewrite orb_true_iff, !existsb_exists. split.
  - intros [(e & He & H)|(e & He & H)]; exists e; rewrite elem_of_list_In; (split; [done|]); [left; by apply bool_decide_eq_true in H|right; by apply short_matches_spec].
  - intros (e & He & [H|H]); rewrite elem_of_list_In in He; [left|right]; exists e; (split; [done|]); [by apply bool_decide_eq_true|by apply short_matches_spec].
Qed.
Lemma configured_last ext go e : last_with (λ x, tm_name x = go) ext e → ∀ acc,
  foldl (λ acc e, if decide (tm_name e = go) then Some (tm_schema e) else acc) acc ext = Some (tm_schema e).
Proof.
  intros (l1 & l2 & -> & He & Hn) acc. rewrite foldl_app. cbn. rewrite decide_True by done. revert Hn. generalize (tm_schema e). intros s Hn. clear He.
  induction l2 as [|x l2 IH]; [done|]. cbn. rewrite decide_False by (apply Hn; left). apply IH. intros e' He'. apply Hn. by right.
Qed.
Lemma configured_none ext go : (∀ e, e ∈ ext → tm_name e ≠ go) → ∀ acc : option (option esch),
  foldl (λ acc e, if decide (tm_name e = go) then Some (tm_schema e) else acc) acc ext = acc.
Proof.
  induction ext as [|x l IH]; intros Hn acc; [done|]. cbn. rewrite decide_False by (apply Hn; left). apply IH. intros e' He'. apply Hn. by right.
Qed.
Lemma resolve_config primitive prim ext facts go : (∃ e, e ∈ ext ∧ (tm_name e = go ∨ same_short (tm_name e) go)) → resolve_external primitive prim ext facts go = None.
Proof. intros H. unfold resolve_external. apply config_has_spec in H as ->. by destruct (_ || _ || _). Qed.

(** ** Type mappings *)

(** An entry of exactly that name decides, wherever it stands and whatever shares its short name. *)
Theorem C50_exact_mapping_wins tm go e : first_with (λ x, tm_name x = go) tm e → lookup_config tm go = tm_schema e.
Proof. intros H. unfold lookup_config. destruct (first_with_find _ _ _ H) as [i Hi]. by rewrite Hi. Qed.
(** Only without one does the first entry that agrees on the short name decide. *)
Theorem C50_short_mapping_next tm go e : (∀ x, x ∈ tm → tm_name x ≠ go) → first_with (λ x, same_short (tm_name x) go) tm e → lookup_config tm go = tm_schema e.
Proof.
  intros Hn (l1 & l2 & E & He & Hl). unfold lookup_config. rewrite no_find by done.
  assert (first_with (λ x, short_matches (tm_name x) go = true) tm e) as H.
  { exists l1, l2. split; [done|]. split; [by apply short_matches_spec|]. intros e' He'. rewrite short_matches_spec. by apply Hl. }
  destruct (first_with_find _ _ _ H) as [i Hi]. by rewrite Hi.
Qed.
Theorem C50_no_mapping tm go : (∀ x, x ∈ tm → tm_name x ≠ go ∧ ¬ same_short (tm_name x) go) → lookup_config tm go = None.
Proof.
  intros Hn. unfold lookup_config. rewrite no_find by (intros e He; by apply Hn). rewrite no_find; [done|]. intros e He. rewrite short_matches_spec. by apply Hn.
Qed.
(** A wrapped type never takes the schema of its element. *)
Theorem C50_wrapped_needs_exact tm go : ¬ bare go → (∀ x, x ∈ tm → tm_name x ≠ go) → lookup_config tm go = None.
Proof. intros Hb Hn. apply C50_no_mapping. intros x Hx. split; [by apply Hn|]. intros (_ & H & _). done. Qed.

(** ** External types *)

(** A type named by the configuration is never taken over by the registry or the facts. *)
Theorem C50_configured_type_is_the_users primitive prim ext facts go e : e ∈ ext → tm_name e = go ∨ same_short (tm_name e) go →
  resolve_external primitive prim ext facts go = None.
Proof. intros He H. apply resolve_config. by exists e. Qed.
(** Exactly named, its component is the configured schema - of the last such entry. *)
Theorem C50_configured_component primitive prim ext facts go e : last_with (λ x, tm_name x = go) ext e → component_of primitive prim ext facts go = Some (tm_schema e).
Proof.
  intros H. unfold component_of. rewrite (configured_last ext go e H). destruct H as (l1 & l2 & -> & He & _). rewrite resolve_config; [done|].
  exists e. split; [apply elem_of_app; right; left|]. by left.
Qed.
(** So with two entries of one name it is not the first that counts. *)
Theorem C50_first_component_refuted primitive prim facts : ∃ ext go e s, first_with (λ x, tm_name x = go) ext e ∧ tm_schema e = Some s ∧
  component_of primitive prim ext facts go ≠ Some (Some s).
Proof.
  exists [TMap "x/money.Amount" (Some decimal_schema); TMap "x/money.Amount" (Some uuid_schema)], "x/money.Amount", (TMap "x/money.Amount" (Some decimal_schema)), decimal_schema.
  split; [exists [], [TMap "x/money.Amount" (Some uuid_schema)]; split; [done|]; split; [done|]; intros e' H; by apply elem_of_nil in H|]. split; [done|].
  rewrite (C50_configured_component _ _ _ _ _ (TMap "x/money.Amount" (Some uuid_schema))); [done|].
  exists [TMap "x/money.Amount" (Some decimal_schema)], []. split; [done|]. split; [done|]. intros e' H. by apply elem_of_nil in H.
Qed.
(** Named by its short name only, neither the configured schema nor the known one is used: the
    component is the placeholder for unresolved types. *)
Theorem C50_short_external_type_refuted primitive prim facts : ∃ ext go e s, e ∈ ext ∧ tm_schema e = Some s ∧ same_short (tm_name e) go ∧
  is_Some (well_known !! go) ∧ component_of primitive prim ext facts go = Some (Some (unresolved go)).
Proof.
  exists [TMap "uuid.UUID" (Some (ESch "string" "" "our id" ""))], "github.com/google/uuid.UUID", (TMap "uuid.UUID" (Some (ESch "string" "" "our id" ""))), (ESch "string" "" "our id" "").
  split; [left|]. split; [done|]. assert (same_short "uuid.UUID" "github.com/google/uuid.UUID") as Hs by by apply short_matches_spec.
  split; [done|]. split; [exists uuid_schema; by vm_compute|]. unfold component_of. rewrite resolve_config; [done|]. eexists. split; [left|]. by right.
Qed.
(** What an unconfigured type gets: the registry first, by full name, then by short name, then
    the facts in the same order. *)
Theorem C50_registry_then_facts primitive prim ext facts go : bare go → (∀ e, e ∈ ext → tm_name e ≠ go ∧ ¬ same_short (tm_name e) go) →
  let short := short_type_name go in
  (∀ s, well_known !! go = Some s → resolve_external primitive prim ext facts go = Some s) ∧
  (∀ s, well_known !! go = None → well_known !! short = Some s → resolve_external primitive prim ext facts go = Some s) ∧
  (∀ f, well_known !! go = None → well_known !! short = None → (facts !! go = Some f ∨ facts !! go = None ∧ facts !! short = Some f) →
    (ef_marshaler f = MText → resolve_external primitive prim ext facts go = Some (ESch "string" "" "" "")) ∧
    (ef_marshaler f = MJSON → ∃ note, note ≠ "" ∧ resolve_external primitive prim ext facts go = Some (ESch "string" "" note "")) ∧
    (ef_marshaler f = MNone → ∀ s, resolve_external primitive prim ext facts go = Some s → primitive (ef_underlying f) = true ∧ s = prim (ef_underlying f)) ∧
    (ef_marshaler f = MNone → primitive (ef_underlying f) = true → ef_underlying f ≠ "" → ef_underlying f ≠ go → ef_underlying f ≠ short →
      resolve_external primitive prim ext facts go = Some (prim (ef_underlying f)))) ∧
  (well_known !! go = None → well_known !! short = None → facts !! go = None → facts !! short = None → resolve_external primitive prim ext facts go = None).
Proof.
  intros Hb Hn short. apply is_bare_spec in Hb. unfold is_bare in Hb. apply andb_true_iff in Hb as [[H1 H2]%andb_true_iff H3]. rewrite negb_true_iff in H1, H2, H3.
  assert (config_has ext go = false) as Hc.
  { apply not_true_iff_false. rewrite config_has_spec. intros (e & He & [H|H]); destruct (Hn e He); done. }
  unfold resolve_external. rewrite H1, H2, H3, Hc. cbn [orb]. fold short. split; [|split; [|split]].
  - intros s ->. done.
  - intros s -> ->. done.
  - intros f -> -> Hf. assert ((match facts !! go with Some f => Some f | None => facts !! short end) = Some f) as ->.
    { destruct Hf as [-> | [-> ->]]; done. }
    split; [by intros ->|]. split; [intros ->; exists low_confidence_note; split; [discriminate|done]|]. split.
    + intros ->. intros s. destruct (primitive (ef_underlying f)) eqn:Ep; [|by rewrite andb_false_r]. destruct (_ && _); [|done]. by intros [= <-].
    + intros -> Hp Hu1 Hu2 Hu3. rewrite !bool_decide_eq_false_2 by done. by rewrite Hp.
  - intros -> -> -> ->. done.
Qed.
(** What becomes a component: nothing for a type documented in place, and a placeholder that names the type when nothing is known. *)
Theorem C50_component primitive prim ext facts go : bare go → (∀ e, e ∈ ext → tm_name e ≠ go ∧ ¬ same_short (tm_name e) go) →
  let short := short_type_name go in
  (well_known !! go = None → well_known !! short = None → facts !! go = None → facts !! short = None →
    ∃ s, component_of primitive prim ext facts go = Some (Some s) ∧ es_type s = "object" ∧ es_desc s = "External or unresolved type: " +:+ go) ∧
  (∀ s, well_known !! go = Some s ∨ (well_known !! go = None ∧ well_known !! short = Some s) → component_of primitive prim ext facts go = None) ∧
  (∀ f, well_known !! go = None → well_known !! short = None → (facts !! go = Some f ∨ facts !! go = None ∧ facts !! short = Some f) → ef_marshaler f ≠ MNone → component_of primitive prim ext facts go = None).
Proof.
  intros Hb Hn short. destruct (C50_registry_then_facts primitive prim ext facts go Hb Hn) as (R1 & R2 & R3 & R4). fold short in R1, R2, R3, R4.
  assert (∀ acc : option (option esch), foldl (λ acc e, if decide (tm_name e = go) then Some (tm_schema e) else acc) acc ext = acc) as Hf.
  { clear -Hn. induction ext as [|e ext IH]; intros acc; [done|]. cbn [foldl]. rewrite decide_False by (apply (Hn e); by left). apply IH. intros e' He'. apply Hn. by right. }
  unfold component_of. rewrite Hf. split; [|split].
  - intros H1 H2 H3 H4. rewrite R4 by done. by eexists.
  - intros s Hs. assert (resolve_external primitive prim ext facts go = Some s) as -> by (destruct Hs as [?|[? ?]]; [by apply R1|by apply R2]). cbv zeta.
    assert (∃ k, well_known !! k = Some s) as [k Hk] by (destruct Hs as [?|[_ ?]]; eauto). assert (map_Forall (λ (_ : string) (s : esch), primitive_shaped s = true) well_known) as Hall by (apply (bool_decide_unpack _); vm_compute; exact I).
    by rewrite (Hall k s Hk).
  - intros f H1 H2 Hff Hm. destruct (R3 f H1 H2 Hff) as (F1 & F2 & _). destruct (ef_marshaler f); [done|rewrite F1 by done; done|]. destruct F2 as (note & _ & ->); done.
Qed.
Print Assumptions C50_component.
(** A type of the project itself is documented as a uuid when package and type are called like
    the library's. *)
Theorem C50_namesake_refuted primitive prim facts : ∃ go, well_known !! go = None ∧ go = "example.com/shop/internal/uuid.UUID" ∧
  resolve_external primitive prim [] facts go = Some uuid_schema.
Proof. exists "example.com/shop/internal/uuid.UUID". split; [by vm_compute|]. split; [done|]. by vm_compute. Qed.
Print Assumptions C50_exact_mapping_wins.
Print Assumptions C50_short_mapping_next.
Print Assumptions C50_no_mapping.
Print Assumptions C50_wrapped_needs_exact.
Print Assumptions C50_configured_type_is_the_users.
Print Assumptions C50_configured_component.
Print Assumptions C50_first_component_refuted.
Print Assumptions C50_short_external_type_refuted.
Print Assumptions C50_registry_then_facts.
Print Assumptions C50_namesake_refuted.
Example C50_example :
  let tm := [TMap "money.Amount" (Some decimal_schema); TMap "b/money.Amount" (Some uuid_schema); TMap "a/money.Amount" None] in
  lookup_config tm "b/money.Amount" = Some uuid_schema ∧ lookup_config tm "c/money.Amount" = Some decimal_schema ∧
  lookup_config tm "[]b/money.Amount" = None ∧
  resolve_external (λ u, bool_decide (u = "int")) (λ u, ESch "integer" "" "" "") [] {[ "ids.ID" := EFact MNone "int"; "t.Stamp" := EFact MText "struct{}" ]} "lib/ids.ID" = Some (ESch "integer" "" "" "").
Proof. vm_compute. done. Qed.
