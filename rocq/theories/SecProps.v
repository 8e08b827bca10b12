(** * C26, C27, C28, C31: security. *)
From Coq Require Import Ascii.
From stdpp Require Import sorting.
From stdpp Require Import base list strings gmap relations.
From Verif Require Import StrLib StrSplit StrOrder PairProofs SccSpec SecModel SecSpec SecProofs.

Ltac by_dec := match goal with |- ?P => apply (bool_decide_eq_true_1 P) end; vm_compute; reflexivity.
Lemma filter_ext_in {A} (P Q : A → Prop) `{∀ x, Decision (P x)} `{∀ x, Decision (Q x)} (l : list A) :
  (∀ x, x ∈ l → P x ↔ Q x) → filter P l = filter Q l.
Proof.
  induction l as [|x l IH]; intros Hl; [done|]. rewrite !filter_cons.
  destruct (decide (P x)) as [HP|HP], (decide (Q x)) as [HQ|HQ]; try (f_equal; apply IH; intros y Hy; apply Hl; by right).
  - exfalso. apply HQ. apply (Hl x ltac:(left)). done.
  - exfalso. apply HP. apply (Hl x ltac:(left)). done.
Qed.

Lemma elem_of_concat {A} (x : A) (ls : list (list A)) : x ∈ concat ls ↔ ∃ l, l ∈ ls ∧ x ∈ l.
Proof.
  rewrite elem_of_list_In, in_concat. split; intros (l & H1 & H2); exists l; by rewrite ?elem_of_list_In in *.
Qed.

(** ** C26: requirements *)
(** Without alternatives and with one opinion about each scheme's scopes, the
    documented requirement accepts exactly the credentials that satisfy every
    mapping that applies to the chain. *)
Theorem C26_accepted_iff_all_satisfied_partial re iter keys refs mappings c :
  is_order iter →
  let l := contributing (sm_matches re) refs mappings in
  (∀ m, m ∈ l → sm_anyof m = []) → compatible (all_schemes l) →
  accepts c (resolve_security re iter keys refs mappings).1.1 ↔ ∀ m, m ∈ l → mapping_satisfied c m.
Proof.
  intros Hit l Hany Hcomp. rewrite resolve_eq. fold l. cbn zeta. cbn [fst].
  assert ((m ← l; sm_anyof m) = []) as ->.
  { clear -Hany. induction l as [|m l IH]; [done|]. cbn [mbind list_bind]. rewrite (Hany m) by left. apply IH.
    intros m' H. apply Hany. by right. }
  cbn [fold_left]. rewrite app_nil_r.
  assert ((∀ m, m ∈ l → mapping_satisfied c m) ↔ ∀ r, r ∈ all_schemes l → satisfies c r) as ->.
  { unfold all_schemes. split.
    - intros H r (m & Hr & Hm)%elem_of_list_bind. destruct (H m Hm) as [H1 _]. by apply H1.
    - intros H m Hm. split; [|left; by apply Hany]. intros r Hr. apply H. apply elem_of_list_bind. eauto. }
  rewrite <- (satisfies_fold iter) by done. case_decide as He; cbn [dedup_reqs].
  - rewrite He. split; [intros _; apply satisfies_empty|by left].
  - split.
    + intros [?|(r & ->%elem_of_list_singleton & H)]; done.
    + intros H. right. eexists. split; [left|done].
Qed.
Print Assumptions C26_accepted_iff_all_satisfied_partial.

(** One mapping with alternatives only: whatever is accepted satisfies it. *)
Theorem C26_alternatives_suffice_partial re iter keys refs mappings m c :
  is_order iter →
  (∀ m', m' ∈ contributing (sm_matches re) refs mappings → m' = m) → sm_schemes m = [] →
  (∀ g, g ∈ sm_anyof m → compatible g) →
  accepts c (resolve_security re iter keys refs mappings).1.1 →
  ∀ m', m' ∈ contributing (sm_matches re) refs mappings → mapping_satisfied c m'.
Proof.
  intros Hit Hall Hs Hcomp Hacc m' Hm'. rewrite (Hall m' Hm'). split; [rewrite Hs; by intros r ?%elem_of_nil|].
  rewrite resolve_eq in Hacc. cbn zeta in Hacc. cbn [fst] in Hacc. revert Hall Hm' Hacc.
  generalize (contributing (sm_matches re) refs mappings). intros l Hall Hm' Hacc.
  assert (all_schemes l = []) as Hsch.
  { unfold all_schemes. clear Hm' Hacc. induction l as [|x l IH]; [done|]. cbn [mbind list_bind]. rewrite (Hall x) by left. rewrite Hs.
    apply IH. intros y Hy. apply Hall. by right. }
  rewrite Hsch in Hacc. cbn [fold_left] in Hacc. rewrite decide_True in Hacc by done. cbn [app] in Hacc.
  rewrite add_group_fold in Hacc. cbn [app] in Hacc. destruct Hacc as [Hnil|(r & Hr & Hsat)].
  - apply (proj1 (dedup_nil keys _)) in Hnil. destruct (sm_anyof m) as [|g gs] eqn:E; [by left|]. right. exists g. split; [left|].
    assert (fold_left (put_all iter) g ∅ = ∅) as Hg.
    { destruct (decide (fold_left (put_all iter) g ∅ = ∅)) as [|Hne]; [done|]. exfalso.
      assert (fold_left (put_all iter) g ∅ ∈ filter (λ a, a ≠ ∅) ((λ g, fold_left (put_all iter) g ∅) <$> (m ← l; sm_anyof m))) as Hin.
      { apply elem_of_list_filter. split; [done|]. apply elem_of_list_fmap. exists g. split; [done|].
        apply elem_of_list_bind. exists m. rewrite E. split; [left|]. by rewrite <- (Hall m' Hm'). }
      rewrite Hnil in Hin. by apply elem_of_nil in Hin. }
    intros r Hr. rewrite (fold_empty iter g r) by done. apply satisfies_empty.
  - apply dedup_sub, elem_of_list_filter in Hr as [_ Hr]. apply elem_of_list_fmap in Hr as (g & -> & Hg).
    apply elem_of_list_bind in Hg as (m2 & Hg & Hm2). rewrite (Hall m2 Hm2) in Hg. right. exists g. split; [done|].
    apply (satisfies_fold iter); [done|by apply Hcomp|done].
Qed.
Print Assumptions C26_alternatives_suffice_partial.

(** Middleware no mapping matches is reported, and nothing else. *)
Theorem C26_unmapped_is_reported re iter keys refs mappings r :
  r ∈ (resolve_security re iter keys refs mappings).2 ↔
  r ∈ refs ∧ ¬ ∃ m, m ∈ mappings ∧ sm_matches re m r = true.
Proof.
  rewrite resolve_eq. cbn zeta. cbn [snd]. rewrite elem_of_list_filter.
  assert (any_mapping_matches re r mappings = false ↔ ¬ ∃ m, m ∈ mappings ∧ sm_matches re m r = true) as ->; [|tauto].
  rewrite <- not_true_iff_false. unfold any_mapping_matches. rewrite existsb_exists. setoid_rewrite elem_of_list_In. done.
Qed.
Print Assumptions C26_unmapped_is_reported.
(** The scope is public exactly when a mapping that applies says so. *)
Theorem C26_public_iff re iter keys refs mappings :
  (resolve_security re iter keys refs mappings).1.2 = true ↔
  ∃ m r, m ∈ mappings ∧ r ∈ refs ∧ sm_matches re m r = true ∧ sm_skip m = false ∧ sm_public m = true.
Proof.
  rewrite resolve_eq. cbn zeta. cbn [fst snd]. rewrite existsb_exists. split.
  - intros (m & Hm & Hp). apply elem_of_list_In, elem_of_contributing in Hm as (H1 & H2 & r & H3 & H4). by exists m, r.
  - intros (m & r & H1 & H2 & H3 & H4 & H5). exists m. split; [|done]. apply elem_of_list_In, elem_of_contributing. eauto.
Qed.
Print Assumptions C26_public_iff.

Definition ex_re (expr value : string) : option bool := Some (bool_decide (expr = value)).
Definition ex_ref (fn : string) : mref := MRef fn "p" "" "".
Definition ex_map (fn : string) (r : gmap string (list string)) : smapping := SMapping fn "" "" [r] [] false false.
Definition ex_bearer : gmap string (list string) := {[ "bearer" := ["admin"] ]}.
Definition ex_key : gmap string (list string) := {[ "apiKey" := [] ]}.
Example C26_example :
  let l := contributing (sm_matches ex_re) [ex_ref "A"; ex_ref "B"; ex_ref "C"] [ex_map "A" ex_bearer; ex_map "B" ex_key] in
  length l = 2 ∧ (∀ m, m ∈ l → sm_anyof m = []) ∧ compatible (all_schemes l) ∧
  resolve_security ex_re id id [ex_ref "A"; ex_ref "B"; ex_ref "C"] [ex_map "A" ex_bearer; ex_map "B" ex_key] =
    ([<["apiKey" := []]> ex_bearer], false, [ex_ref "C"]).
Proof.
  cbn zeta. split; [done|]. split; [|split; [|by_dec]].
  - intros m Hm. vm_compute in Hm. repeat (apply elem_of_cons in Hm as [->|Hm]; [done|]). by apply elem_of_nil in Hm.
  - assert (all_schemes (contributing (sm_matches ex_re) [ex_ref "A"; ex_ref "B"; ex_ref "C"] [ex_map "A" ex_bearer; ex_map "B" ex_key])
      = [ex_bearer; ex_key]) as -> by done.
    intros r1 r2 k v1 v2 H1 H2.
    apply elem_of_cons in H1 as [->|H1%elem_of_list_singleton]; apply elem_of_cons in H2 as [->|H2%elem_of_list_singleton]; subst;
      unfold ex_bearer, ex_key; rewrite !lookup_singleton_Some; intros [? ?] [? ?]; subst; done.
Qed.
Definition ex_any : smapping := SMapping "A" "" "" [] [[ex_bearer]; [ex_key]] false false.
Example C26_alternatives_example :
  contributing (sm_matches ex_re) [ex_ref "A"] [ex_any] = [ex_any] ∧
  (resolve_security ex_re id id [ex_ref "A"] [ex_any]).1.1 = [ex_bearer; ex_key].
Proof. split; [reflexivity|by_dec]. Qed.

(** ** C26: what goes wrong *)
(** Alternatives of one middleware replace the demand of another. *)
Theorem C26_alternatives_weaken_refuted :
  ∃ re refs mappings c m, m ∈ contributing (sm_matches re) refs mappings ∧
    accepts c (resolve_security re id id refs mappings).1.1 ∧ ¬ mapping_satisfied c m.
Proof.
  exists ex_re, [ex_ref "A"; ex_ref "B"], [ex_any; ex_map "B" {[ "basic" := [] ]}],
    (λ n, if decide (n = "apiKey") then Some [] else None), (ex_map "B" {[ "basic" := [] ]}).
  split; [|split].
  - apply elem_of_contributing. split; [right; left|]. split; [done|]. exists (ex_ref "B"). split; [right; left|done].
  - right. exists ex_key. split; [by_dec|].
    intros k v H. unfold ex_key in H. apply lookup_singleton_Some in H as [<- <-]. by exists [].
  - intros [H _]. specialize (H {[ "basic" := [] ]} ltac:(left) "basic" [] (lookup_singleton _ _)).
    destruct H as (h & H & _). by rewrite decide_False in H.
Qed.
(** A built-in mapping for the same scheme, which comes later, wipes out the
    scopes the user's mapping asks for. *)
Theorem C26_later_mapping_wins_refuted :
  ∃ re refs user preset c, (user : smapping) ∈ contributing (sm_matches re) refs [user; preset] ∧ sm_anyof user = [] ∧ sm_anyof preset = [] ∧
    accepts c (resolve_security re id id refs [user; preset]).1.1 ∧ ¬ mapping_satisfied c user.
Proof.
  exists ex_re, [ex_ref "A"], (ex_map "A" ex_bearer), (ex_map "A" {[ "bearer" := [] ]}), (λ n, if decide (n = "bearer") then Some [] else None).
  split; [|split; [done|split; [done|split]]].
  - apply elem_of_contributing. split; [left|]. split; [done|]. exists (ex_ref "A"). split; [left|done].
  - right. exists {[ "bearer" := [] ]}. split; [by_dec|].
    intros k v H. apply lookup_singleton_Some in H as [<- <-]. by exists [].
  - intros [H _]. specialize (H ex_bearer ltac:(left) "bearer" ["admin"] (lookup_singleton _ _)).
    destruct H as (h & H & Hsub). rewrite decide_True in H by done. injection H as <-.
    specialize (Hsub "admin" ltac:(left)). by apply elem_of_nil in Hsub.
Qed.
(** A user's mapping that says a middleware is no security does not keep a built-in
    mapping from saying it is. *)
Theorem C26_user_skip_does_not_win_refuted :
  ∃ re refs user preset, sm_skip user = true ∧ (∀ r, r ∈ refs → sm_matches re user r = true) ∧
    (resolve_security re id id refs [user; preset]).1.1 ≠ [].
Proof.
  exists ex_re, [ex_ref "A"], (SMapping "A" "" "" [] [] false true), (ex_map "A" ex_bearer).
  split; [done|]. split; [by intros r ->%elem_of_list_singleton|]. by_dec.
Qed.
(** A route guarded both by inherited middleware and by a wrapper around its handler
    is documented as open to holders of either. *)
Theorem C26_wrapper_weakens_refuted :
  ∃ re mappings definite wrapper reqs c m r,
    (apply_route_security re id id (λ _, []) mappings definite wrapper).1 = Some reqs ∧
    (∀ m, m ∈ mappings → sm_anyof m = [] ∧ sm_public m = false) ∧
    r ∈ definite ∧ m ∈ mappings ∧ sm_matches re m r = true ∧ accepts c reqs ∧ ¬ mapping_satisfied c m.
Proof.
  exists ex_re, [ex_map "A" ex_bearer; ex_map "B" ex_key], [ex_ref "A"], [ex_ref "B"], [ex_bearer; ex_key],
    (λ n, if decide (n = "apiKey") then Some [] else None), (ex_map "A" ex_bearer), (ex_ref "A").
  split; [by_dec|]. split.
  { intros m [->| ->%elem_of_list_singleton]%elem_of_cons; done. }
  split; [left|]. split; [left|]. split; [done|]. split.
  - right. exists ex_key. split; [right; left|]. intros k v H. unfold ex_key in H. apply lookup_singleton_Some in H as [<- <-]. by exists [].
  - intros [H _]. specialize (H ex_bearer ltac:(left) "bearer" ["admin"] (lookup_singleton _ _)).
    destruct H as (h & H & _). by rewrite decide_False in H.
Qed.

(** ** C26: the route *)
Lemma snoc_dot_inj a f b g : contains_byte "." f = false → contains_byte "." g = false →
  a +:+ f = b +:+ g → (a = "" ∨ ∃ a', a = a' +:+ ".") → (b = "" ∨ ∃ b', b = b' +:+ ".") → a = b ∧ f = g.
Proof.
  intros Hf Hg H Ha Hb. destruct Ha as [->|[a' ->]], Hb as [->|[b' ->]].
  - done.
  - change ("" +:+ f) with f in H. exfalso. rewrite H in Hf. rewrite sapp_assoc, !contains_app in Hf. change (contains_byte "." ".") with true in Hf.
    rewrite orb_true_l, orb_true_r in Hf. done.
  - change ("" +:+ g) with g in H. exfalso. rewrite <- H in Hg. rewrite sapp_assoc, !contains_app in Hg. change (contains_byte "." ".") with true in Hg.
    rewrite orb_true_l, orb_true_r in Hg. done.
  - rewrite !sapp_assoc in H. change ("." +:+ f) with (String "." f) in H. change ("." +:+ g) with (String "." g) in H.
    pose proof (split_last_app "." a' f Hf) as H1. pose proof (split_last_app "." b' g Hg) as H2.
    rewrite H, H2 in H1. by injection H1 as -> ->.
Qed.
Lemma mref_string_inj r r' : plain_ref r → plain_ref r' → mref_string r = mref_string r' →
  mr_fn r = mr_fn r' ∧ mr_pkg r = mr_pkg r' ∧ mr_recv r = mr_recv r'.
Proof.
  assert (∀ s c, ¬ (∃ a b, s = a +:+ String c "" +:+ b) → contains_byte c s = false) as Hno.
  { intros s c H. destruct (contains_byte c s) eqn:E; [|done]. exfalso. apply H. clear H. revert E.
    induction s as [|x s IH]; [done|]. rewrite contains_cons. intros [->%bool_decide_eq_true|H]%orb_true_iff.
    - by exists "", s.
    - destruct (IH H) as (a & b & ->). by exists (String x a), b. }
  intros (F1 & A1 & P1) (F2 & A2 & P2). apply Hno in F1, F2, P1, P2. unfold mref_string. intros H.
  set (f1 := if decide (mr_fn r = "") then "<anonymous>" else mr_fn r) in H.
  set (f2 := if decide (mr_fn r' = "") then "<anonymous>" else mr_fn r') in H.
  assert (contains_byte "." f1 = false) as Hf1 by (unfold f1; by destruct (decide (mr_fn r = ""))).
  assert (contains_byte "." f2 = false) as Hf2 by (unfold f2; by destruct (decide (mr_fn r' = ""))).
  set (pre := λ p t : string, (if decide (p = "") then "" else p +:+ ".") +:+ (if decide (t = "") then "" else "(" +:+ t +:+ ").")).
  assert (∀ p t f, (if decide (p = "") then "" else p +:+ ".") +:+ (if decide (t = "") then "" else "(" +:+ t +:+ ").") +:+ f = pre p t +:+ f) as Hpre.
  { intros p t f. unfold pre. by rewrite sapp_assoc. }
  assert (∀ p t, pre p t = "" ∨ ∃ a, pre p t = a +:+ ".") as Hdot.
  { intros p t. unfold pre. destruct (decide (t = "")); [destruct (decide (p = "")); [by left|right]|right].
    - exists p. by rewrite sapp_nil.
    - exists ((if decide (p = "") then "" else p +:+ ".") +:+ "(" +:+ t +:+ ")"). by rewrite !sapp_assoc. }
  rewrite !Hpre in H. apply snoc_dot_inj in H as [Hp Hf]; [|done|done|apply Hdot|apply Hdot].
  split; [unfold f1, f2 in Hf; repeat case_decide; congruence|].
  unfold pre in Hp. clear Hpre Hdot pre Hf Hf1 Hf2 f1 f2.
  assert (∀ p, contains_byte "(" p = false → contains_byte "(" (if decide (p = "") then "" else p +:+ ".") = false) as Hpp.
  { intros p Hpp. destruct (decide (p = "")); [done|]. by rewrite contains_app, Hpp. }
  assert (∀ p q, (if decide (p = "") then "" else p +:+ ".") = (if decide (q = "") then "" else q +:+ ".") → p = q) as Hpi.
  { clear. intros p q Hpq. repeat case_decide; subst; [done|by destruct q|by destruct p|].
    assert (String.length p = String.length q) as Hl.
    { apply (f_equal String.length) in Hpq. rewrite !sapp_length in Hpq. simpl in Hpq. lia. }
    by apply (sapp_inj_len _ _ _ _ Hl Hpq). }
  pose proof (Hpp _ P1) as Q1. pose proof (Hpp _ P2) as Q2.
  destruct (decide (mr_recv r = "")) as [E1|E1], (decide (mr_recv r' = "")) as [E2|E2].
  - rewrite !sapp_nil in Hp. split; [by apply Hpi|congruence].
  - exfalso. rewrite sapp_nil in Hp. rewrite Hp, contains_app in Q1. cbn in Q1. by rewrite orb_true_r in Q1.
  - exfalso. rewrite sapp_nil in Hp. rewrite <- Hp, contains_app in Q2. cbn in Q2. by rewrite orb_true_r in Q2.
  - change ("(" +:+ mr_recv r +:+ ").") with (String "(" (mr_recv r +:+ ").")) in Hp.
    change ("(" +:+ mr_recv r' +:+ ").") with (String "(" (mr_recv r' +:+ ").")) in Hp.
    destruct (first_split_inj "(" _ _ _ _ Q1 Q2 Hp) as [H1 H2]. split; [by apply Hpi|].
    assert (String.length (mr_recv r) = String.length (mr_recv r')) as Hl.
    { apply (f_equal String.length) in H2. rewrite !sapp_length in H2. simpl in H2. lia. }
    by apply (sapp_inj_len _ _ _ _ Hl H2).
Qed.
Lemma matches_same re m r r' : mr_fn r = mr_fn r' → mr_pkg r = mr_pkg r' → mr_recv r = mr_recv r' →
  sm_matches re m r = sm_matches re m r'.
Proof. intros H1 H2 H3. unfold sm_matches. by rewrite H1, H2, H3. Qed.

Lemma expand_keeps re through mappings refs r m : m ∈ mappings → sm_matches re m r = true → r ∈ refs →
  r ∈ expand_loop re through mappings refs.
Proof.
  intros Hm Ht. induction refs as [|x refs IH]; [by intros ?%elem_of_nil|]. intros [->|Hr]%elem_of_cons; cbn [expand_loop].
  - assert (any_mapping_matches re x mappings = true) as ->.
    { apply existsb_exists. exists m. split; [by apply elem_of_list_In|done]. }
    apply elem_of_app. left. left.
  - apply elem_of_app. right. by apply IH.
Qed.
Lemma expand_from re through mappings refs r : r ∈ expand_loop re through mappings refs →
  r ∈ refs ∨ ∃ x, x ∈ refs ∧ r ∈ through (middleware_base_id x).
Proof.
  induction refs as [|x refs IH]; [by intros ?%elem_of_nil|]. cbn [expand_loop]. intros [H|H]%elem_of_app.
  - destruct (any_mapping_matches re x mappings); [left; apply elem_of_list_singleton in H as ->; left|].
    case_decide; [left; apply elem_of_list_singleton in H as ->; left|].
    destruct (through (middleware_base_id x)) as [|y l] eqn:E; [left; apply elem_of_list_singleton in H as ->; left|].
    right. exists x. split; [left|]. by rewrite E.
  - destruct (IH H) as [?|(y & Hy & ?)]; [left; by right|right]. exists y. split; [by right|done].
Qed.

(** With inherited and route-level middleware only, no public mapping, no
    alternatives and one opinion on scopes: whoever the operation's documented
    security lets in satisfies the mapping of every middleware on the route. *)
Theorem C26_route_never_demands_less_partial re iter keys through mappings definite c :
  is_order iter →
  (∀ m, m ∈ mappings → sm_anyof m = [] ∧ sm_public m = false) → compatible (all_schemes mappings) →
  (∀ r, r ∈ definite → plain_ref r) → (∀ k r, r ∈ through k → plain_ref r) →
  accepts c (default [] (apply_route_security re iter keys through mappings definite []).1) →
  ∀ r m, r ∈ definite → m ∈ mappings → sm_skip m = false → sm_matches re m r = true → mapping_satisfied c m.
Proof.
  intros Hit Hmap Hcomp Hpl Hplt Hacc r m Hr Hm Hsk Hmt. unfold apply_route_security in Hacc.
  change (dedup_refs []) with (@nil mref) in Hacc. cbn beta iota zeta in Hacc.
  destruct (dedup_refs_listed definite r Hr) as (r1 & Hr1 & Hs1).
  assert (sm_matches re m r1 = true) as Hmt1.
  { apply mref_string_inj in Hs1 as (?&?&?); [|by apply Hpl, dedup_refs_sub|by apply Hpl].
    rewrite <- Hmt. by apply matches_same. }
  destruct (dedup_refs definite) as [|x d] eqn:Ed; [by apply elem_of_nil in Hr1|]. rewrite <- Ed in *.
  assert (∃ r2, r2 ∈ expand_refs re through mappings (dedup_refs definite) ∧ sm_matches re m r2 = true) as (r2 & Hr2 & Hmt2).
  { unfold expand_refs. destruct mappings as [|m0 ms] eqn:Em; [by apply elem_of_nil in Hm|]. rewrite <- Em in *.
    pose proof (expand_keeps re through mappings _ r1 m Hm Hmt1 Hr1) as Hin.
    destruct (dedup_refs_listed _ _ Hin) as (r2 & Hr2 & Hs2). exists r2. split; [done|].
    apply mref_string_inj in Hs2 as (?&?&?).
    - rewrite <- Hmt1. by apply matches_same.
    - apply dedup_refs_sub, expand_from in Hr2 as [H|(y & _ & H)]; [by apply Hpl, dedup_refs_sub|by eapply Hplt].
    - by apply Hpl, dedup_refs_sub. }
  set (refs := expand_refs re through mappings (dedup_refs definite)) in *.
  destruct (resolve_security re iter keys refs mappings) as [[reqs1 public1] un] eqn:Er.
  assert (m ∈ contributing (sm_matches re) refs mappings) as Hc.
  { apply elem_of_contributing. eauto. }
  assert (public1 = false) as ->.
  { destruct public1; [|done]. pose proof (C26_public_iff re iter keys refs mappings) as Hp. rewrite Er in Hp. cbn [fst snd] in Hp.
    destruct (proj1 Hp eq_refl) as (m' & _ & H1 & _ & _ & _ & H2). destruct (Hmap m' H1). congruence. }
  assert (accepts c reqs1) as Hacc1.
  { cbn [orb fst] in Hacc. rewrite app_nil_r in Hacc.
    destruct (dedup_reqs keys reqs1) as [|q qs] eqn:Eq.
    - left. by apply (proj1 (dedup_nil keys reqs1)).
    - cbn [default] in Hacc. destruct Hacc as [?|(q' & Hq & Hsat)]; [done|]. right. exists q'. split; [|done].
      apply (dedup_sub keys). by rewrite Eq. }
  pose proof (C26_accepted_iff_all_satisfied_partial re iter keys refs mappings c Hit) as HT. cbn zeta in HT.
  rewrite Er in HT. cbn [fst] in HT. apply HT; [..|done].
  - intros m' Hm'. apply elem_of_contributing in Hm' as (Hx2 & _). by apply Hmap.
  - intros q1 q2 k v1 v2 H1 H2. apply Hcomp.
    + unfold all_schemes in *. apply elem_of_list_bind in H1 as (m2 & Hs2 & Hm2). apply elem_of_contributing in Hm2 as (Hx2 & _).
      apply elem_of_list_bind. eauto.
    + unfold all_schemes in *. apply elem_of_list_bind in H2 as (m2 & Hs2 & Hm2). apply elem_of_contributing in Hm2 as (Hx2 & _).
      apply elem_of_list_bind. eauto.
  - done.
Qed.
Print Assumptions C26_route_never_demands_less_partial.
Example C26_route_example :
  apply_route_security ex_re id id (λ k, if decide (k = "p.wrap") then [ex_ref "A"] else []) [ex_map "A" ex_bearer; ex_map "B" ex_key]
    [ex_ref "wrap"; ex_ref "B"; ex_ref "C"] [] = (Some [<["apiKey" := []]> ex_bearer], [ex_ref "C"]).
Proof. by_dec. Qed.

(** ** C27: the catalogue *)
Section catalogue.
Context {S : Type}.
Lemma referenced_spec doc routes n : n ∈ referenced_names doc routes ↔ refers doc routes n.
Proof.
  unfold referenced_names, refers, names_scheme. rewrite elem_of_list_to_set.
  assert (∀ r : gmap string (list string), n ∈ (map_to_list r).*1 ↔ is_Some (r !! n)) as Hk.
  { intros r. rewrite elem_of_list_fmap. split.
    - intros ([k v] & -> & H%elem_of_map_to_list). by eexists.
    - intros [v H]. exists (n, v). split; [done|]. by apply elem_of_map_to_list. }
  rewrite elem_of_concat. split.
  - intros (l & Hl & Hn). apply elem_of_list_fmap in Hl as (r & -> & Hr). apply Hk in Hn.
    apply elem_of_app in Hr as [Hr|Hr]; [left; eauto|right]. apply elem_of_concat in Hr as (rt & Hrt & Hr). eauto.
  - intros [(r & Hr & Hn)|(rt & r & Hrt & Hr & Hn)]; exists ((map_to_list r).*1); (split; [|by apply Hk]);
      apply elem_of_list_fmap; exists r; (split; [done|]); apply elem_of_app; [by left|right].
    apply elem_of_concat. eauto.
Qed.
Lemma reconcile_fold (preset : gmap string S) names : NoDup names → ∀ (out : gmap string S) dangling,
  (∀ n s, (fold_left (reconcile_step preset) names (out, dangling)).1 !! n = Some s ↔
     out !! n = Some s ∨ (out !! n = None ∧ n ∈ names ∧ preset !! n = Some s)) ∧
  (fold_left (reconcile_step preset) names (out, dangling)).2 =
     dangling ++ filter (λ n, out !! n = None ∧ preset !! n = None) names.
Proof.
  induction names as [|x names IH]; intros Hnd out dangling.
  - cbn. rewrite app_nil_r. split; [|done]. intros n s. split; [by left|]. intros [?|(_ & H%elem_of_nil & _)]; done.
  - apply NoDup_cons in Hnd as [Hx Hnd]. cbn [fold_left]. unfold reconcile_step at 2 4. rewrite filter_cons.
    destruct (out !! x) as [sx|] eqn:E1.
    + destruct (IH Hnd out dangling) as [H1 H2]. rewrite H2, decide_False by (by intros [? _]). split; [|done].
      intros n s. rewrite H1, elem_of_cons. split; [tauto|]. intros [?|(Hn & [->|?] & ?)]; [by left|congruence|right; done].
    + destruct (preset !! x) as [d|] eqn:E2.
      * destruct (IH Hnd (<[x:=d]> out) dangling) as [H1 H2]. rewrite H2, decide_False by (by intros [_ ?]). split.
        -- intros n s. rewrite H1, elem_of_cons. destruct (decide (n = x)) as [->|Hne].
           ++ rewrite lookup_insert. split.
              ** intros [[= ->]|(? & _)]; [right|done]. split; [done|]. split; [by left|done].
              ** intros [?|(_ & _ & ?)]; [congruence|]. left. congruence.
           ++ rewrite lookup_insert_ne by done. split; [tauto|]. intros [?|(? & [?|?] & ?)]; [by left|done|by right].
        -- f_equal. apply filter_ext_in. intros n Hn. destruct (decide (n = x)) as [->|Hne]; [done|].
           by rewrite lookup_insert_ne.
      * destruct (IH Hnd out (dangling ++ [x])) as [H1 H2]. rewrite H2, decide_True by done. rewrite <- app_assoc. split; [|done].
        intros n s. rewrite H1, elem_of_cons. split; [tauto|]. intros [?|(Hn & [->|?] & ?)]; [by left|congruence|right; done].
Qed.
End catalogue.

Section reconcile.
Context {S : Type}.
Implicit Types c : @scfg S.
Lemma reconcile_lookup iter c routes n s : is_order iter →
  (reconcile iter c routes).1 !! n = Some s ↔
  sc_schemes c !! n = Some s ∨ (sc_schemes c !! n = None ∧ refers (sc_security c) routes n ∧ sc_preset c !! n = Some s).
Proof.
  intros Hit. unfold reconcile.
  destruct (reconcile_fold (sc_preset c) (iter (elements (referenced_names (sc_security c) routes)))) with
    (out := sc_schemes c) (dangling := @nil string) as [H1 _].
  { rewrite (Hit _). apply NoDup_elements. }
  destruct (fold_left _ _ _) as [out d]. cbn [fst] in *. rewrite H1, (Hit _), elem_of_elements, referenced_spec. done.
Qed.
Lemma reconcile_dangling iter c routes n : is_order iter →
  n ∈ (reconcile iter c routes).2 ↔
  refers (sc_security c) routes n ∧ sc_schemes c !! n = None ∧ sc_preset c !! n = None.
Proof.
  intros Hit. unfold reconcile.
  destruct (reconcile_fold (sc_preset c) (iter (elements (referenced_names (sc_security c) routes)))) with
    (out := sc_schemes c) (dangling := @nil string) as [_ H2].
  { rewrite (Hit _). apply NoDup_elements. }
  destruct (fold_left _ _ _) as [out d]. cbn [snd] in *. subst d. rewrite merge_sort_Permutation. cbn [app].
  rewrite elem_of_list_filter, (Hit _), elem_of_elements, referenced_spec. tauto.
Qed.

(** Every scheme the document refers to is declared, provided the user or a preset
    defines it at all. *)
Theorem C27_every_defined_reference_is_declared iter c routes n : is_order iter →
  refers (sc_security c) routes n → is_Some (sc_schemes c !! n) ∨ is_Some (sc_preset c !! n) →
  is_Some ((reconcile iter c routes).1 !! n).
Proof.
  intros Hit Hr Hd. destruct (sc_schemes c !! n) as [s|] eqn:E.
  - exists s. apply reconcile_lookup; [done|by left].
  - destruct Hd as [[? ?]|[s Hs]]; [done|]. exists s. apply reconcile_lookup; [done|by right].
Qed.
(** The user's schemes come out unaltered, and whatever else is declared is a preset
    scheme the document refers to. *)
Theorem C27_nothing_altered_nothing_else iter c routes : is_order iter →
  (∀ n s, sc_schemes c !! n = Some s → (reconcile iter c routes).1 !! n = Some s) ∧
  (∀ n s, (reconcile iter c routes).1 !! n = Some s → sc_schemes c !! n = None →
     refers (sc_security c) routes n ∧ sc_preset c !! n = Some s).
Proof.
  intros Hit. split.
  - intros n s H. apply reconcile_lookup; [done|by left].
  - intros n s H Hn. apply reconcile_lookup in H as [H|(_ & H1 & H2)]; [congruence|done|done].
Qed.
(** A name that stays undeclared is reported. *)
Theorem C27_undeclared_is_reported iter c routes n : is_order iter →
  refers (sc_security c) routes n →
  (n ∈ (reconcile iter c routes).2 ↔ (reconcile iter c routes).1 !! n = None).
Proof.
  intros Hit Hr. rewrite reconcile_dangling by done. split.
  - intros (_ & H1 & H2). destruct ((reconcile iter c routes).1 !! n) as [s|] eqn:E; [|done]. apply reconcile_lookup in E as [E|(_ & _ & E)]; [congruence..|done].
  - intros H. split; [done|]. destruct (sc_schemes c !! n) as [s|] eqn:E1.
    { assert ((reconcile iter c routes).1 !! n = Some s) by (apply reconcile_lookup; [done|by left]). congruence. }
    split; [done|]. destruct (sc_preset c !! n) as [s|] eqn:E2; [|done].
    assert ((reconcile iter c routes).1 !! n = Some s) by (apply reconcile_lookup; [done|by right]). congruence.
Qed.
(** Neither the catalogue nor the report depends on map order. *)
Theorem C27_order_independent iter iter' c routes : is_order iter → is_order iter' →
  reconcile iter c routes = reconcile iter' c routes.
Proof.
  intros Hi Hi'. apply injective_projections.
  - apply map_eq. intros n. apply option_eq. intros s. by rewrite !reconcile_lookup.
  - unfold reconcile.
    destruct (reconcile_fold (sc_preset c) (iter (elements (referenced_names (sc_security c) routes)))) with
      (out := sc_schemes c) (dangling := @nil string) as [_ H2]; [rewrite (Hi _); apply NoDup_elements|].
    destruct (reconcile_fold (sc_preset c) (iter' (elements (referenced_names (sc_security c) routes)))) with
      (out := sc_schemes c) (dangling := @nil string) as [_ H2']; [rewrite (Hi' _); apply NoDup_elements|].
    destruct (fold_left _ _ _) as [o1 d1]. destruct (fold_left _ (iter' _) _) as [o2 d2]. cbn [snd] in *. subst.
    apply (Sorted_unique string_le).
    + apply Sorted_merge_sort. apply _.
    + apply Sorted_merge_sort. apply _.
    + rewrite !merge_sort_Permutation. cbn [app]. by rewrite (Hi _), (Hi' _).
Qed.
End reconcile.
Print Assumptions C27_every_defined_reference_is_declared.
Print Assumptions C27_nothing_altered_nothing_else.
Print Assumptions C27_undeclared_is_reported.
Print Assumptions C27_order_independent.

(** A mapping may name a scheme nobody defines; the document then refers to an
    undeclared scheme. *)
Theorem C27_undefined_scheme_refuted :
  ∃ (c : @scfg unit) routes n, refers (sc_security c) routes n ∧ (reconcile id c routes).1 !! n = None.
Proof.
  exists (SCfg [] ∅ ∅ true []), [[ex_key]], "apiKey". split.
  - right. exists [ex_key], ex_key. split; [left|]. split; [left|]. by exists [].
  - by vm_compute.
Qed.

(** ** C28: presets *)
Section presets.
Context {S : Type} (re : string → string → option bool) (bundles : list (@bundle S)).
Implicit Types c : @scfg S.
Lemma elem_of_collect paths p : p ∈ collect_imports paths ↔ p ∈ paths ∧ p ≠ "".
Proof.
  unfold collect_imports. rewrite merge_sort_Permutation, elem_of_remove_dups, elem_of_list_filter. tauto.
Qed.
Lemma any_import_spec paths (b : @bundle S) :
  any_import_matches re (collect_imports paths) (bd_imports b) = true ↔ imported re paths b.
Proof.
  unfold any_import_matches, imported. rewrite existsb_exists. split.
  - intros (expr & H1 & (imp & H2 & H3)%existsb_exists). apply elem_of_list_In, elem_of_collect in H2 as [H2 H2'].
    apply elem_of_list_In in H1. exists expr, imp. destruct (re expr imp) as [[]|]; done.
  - intros (expr & imp & H1 & H2 & H3 & H4). exists expr. split; [by apply elem_of_list_In|].
    apply existsb_exists. exists imp. rewrite H4. split; [|done]. by apply elem_of_list_In, elem_of_collect.
Qed.
Lemma apply_bundles imports bs c :
  let sel := filter (λ b, any_import_matches re imports (bd_imports b) = true) bs in
  fold_left (apply_bundle re imports) bs c =
  SCfg (sc_mappings c ++ concat (bd_mappings <$> sel)) (sc_schemes c)
       (fold_left (λ acc b, acc ∪ bd_schemes b) sel (sc_preset c)) (sc_applied c) (sc_security c).
Proof.
  revert c. induction bs as [|b bs IH]; intros c sel.
  - subst sel. cbn. rewrite app_nil_r. by destruct c.
  - subst sel. cbn [fold_left]. rewrite IH. unfold apply_bundle at 1 2 3 4 5. rewrite filter_cons.
    destruct (any_import_matches re imports (bd_imports b)) eqn:E.
    + rewrite decide_True by done. cbn [sc_mappings sc_schemes sc_preset sc_applied sc_security fold_left].
      rewrite fmap_cons. cbn [concat]. by rewrite <- app_assoc.
    + by rewrite decide_False by done.
Qed.
(** The presets of the libraries the project imports, in the order of the table,
    are appended after the user's mappings; the user's schemes and the document's
    own security stay. *)
Theorem C28_appended_after_user c paths : sc_applied c = false →
  (∃ p, p ∈ paths ∧ p ≠ "") →
  ∃ keep : @bundle S → bool, (∀ b, keep b = true ↔ imported re paths b) ∧
    let c' := apply_presets re bundles c paths in
    sc_mappings c' = sc_mappings c ++ concat (bd_mappings <$> filter (λ b, keep b = true) bundles) ∧
    sc_schemes c' = sc_schemes c ∧ sc_security c' = sc_security c ∧ sc_applied c' = true.
Proof.
  intros Ha (p & Hp & Hne). exists (λ b, any_import_matches re (collect_imports paths) (bd_imports b)).
  split; [intros b; apply any_import_spec|]. unfold apply_presets. rewrite Ha.
  assert (p ∈ collect_imports paths) as Hin by by apply elem_of_collect.
  destruct (collect_imports paths) as [|i is]; [by apply elem_of_nil in Hin|].
  rewrite apply_bundles. done.
Qed.
(** Before any imports are known nothing changes, and nothing is latched. *)
Theorem C28_no_imports_no_change c paths : (∀ p, p ∈ paths → p = "") → apply_presets re bundles c paths = c.
Proof.
  intros H. unfold apply_presets. destruct (sc_applied c); [done|].
  destruct (collect_imports paths) as [|i is] eqn:E; [done|].
  assert (i ∈ collect_imports paths) as [H1 H2]%elem_of_collect by (rewrite E; left). exfalso. by apply H2, H.
Qed.
(** Applying presets again, with any metadata, changes nothing. *)
Theorem C28_applied_once c paths paths' : (∃ p, p ∈ paths ∧ p ≠ "") →
  apply_presets re bundles (apply_presets re bundles c paths) paths' = apply_presets re bundles c paths.
Proof.
  intros Hp. destruct (sc_applied c) eqn:Ha.
  - assert (apply_presets re bundles c paths = c) as -> by (unfold apply_presets; by rewrite Ha).
    unfold apply_presets; by rewrite Ha.
  - destruct (C28_appended_after_user c paths Ha Hp) as (_ & _ & _ & _ & _ & H).
    unfold apply_presets at 1. by rewrite H.
Qed.
(** A whole sequence of runs over one configuration equals its first run that knows
    imports. *)
Theorem C28_sequence c pss : 
  fold_left (apply_presets re bundles) pss c =
  match list_find (Exists (λ p, p ≠ "")) pss with
  | Some (_, ps) => apply_presets re bundles c ps
  | None => c
  end.
Proof.
  induction pss as [|ps pss IH]; [done|]. cbn [fold_left list_find].
  destruct (decide (Exists (λ p, p ≠ "") ps)) as [Hp|Hp].
  - clear IH. apply Exists_exists in Hp. assert (∀ c, (∀ qs, apply_presets re bundles c qs = c) → fold_left (apply_presets re bundles) pss c = c) as Hf.
    { clear. intros c H. induction pss as [|qs pss IH]; [done|]. cbn. by rewrite H. }
    apply Hf. intros qs. by apply C28_applied_once.
  - assert (apply_presets re bundles c ps = c) as ->.
    { apply C28_no_imports_no_change. intros p Hin. destruct (decide (p = "")) as [|Hne]; [done|]. destruct Hp. apply Exists_exists. by exists p. }
    rewrite IH. by destruct (list_find _ pss) as [[? ?]|].
Qed.
(** The order in which the metadata's maps deliver the imports does not matter. *)
Theorem C28_import_order c paths paths' : paths ≡ₚ paths' →
  apply_presets re bundles c paths = apply_presets re bundles c paths'.
Proof.
  intros HP. assert (collect_imports paths = collect_imports paths') as Hc.
  { unfold collect_imports. apply (Sorted_unique string_le).
    - apply Sorted_merge_sort. apply _.
    - apply Sorted_merge_sort. apply _.
    - rewrite !merge_sort_Permutation. apply NoDup_Permutation; [apply NoDup_remove_dups..|].
      intros p. rewrite !elem_of_remove_dups, !elem_of_list_filter. by rewrite HP. }
  unfold apply_presets. by rewrite Hc.
Qed.
Lemma preset_fold_mono sel acc n : is_Some (acc !! n) →
  is_Some (fold_left (λ acc (b : @bundle S), acc ∪ bd_schemes b) sel acc !! n).
Proof.
  revert acc. induction sel as [|b sel IH]; intros acc H; [done|]. cbn. apply IH.
  destruct H as [s Hs]. exists s. by apply lookup_union_Some_l.
Qed.
Lemma preset_fold_has sel acc b n : b ∈ sel → is_Some (bd_schemes b !! n) →
  is_Some (fold_left (λ acc (b : @bundle S), acc ∪ bd_schemes b) sel acc !! n).
Proof.
  revert acc. induction sel as [|x sel IH]; intros acc Hb Hn; [by apply elem_of_nil in Hb|].
  apply elem_of_cons in Hb as [->|Hb]; [|by apply IH]. cbn. apply preset_fold_mono.
  apply lookup_union_is_Some. by right.
Qed.
(** If presets declare what they ask for, so does the configuration they extend. *)
Lemma presets_self_contained c paths : (∀ b, b ∈ bundles → self_contained b) →
  (∀ m n, m ∈ sc_mappings c → mapping_names m n → is_Some (sc_schemes c !! n) ∨ is_Some (sc_preset c !! n)) →
  let c' := apply_presets re bundles c paths in
  ∀ m n, m ∈ sc_mappings c' → mapping_names m n → is_Some (sc_schemes c' !! n) ∨ is_Some (sc_preset c' !! n).
Proof.
  intros Hb Hc. unfold apply_presets. destruct (sc_applied c); [done|].
  destruct (collect_imports paths) as [|i is]; [done|].
  rewrite apply_bundles. cbn. intros m n [Hm|Hm]%elem_of_app Hn.
  - destruct (Hc m n Hm Hn) as [?|H]; [by left|right]. by apply preset_fold_mono.
  - apply elem_of_concat in Hm as (ms & [b [-> Hb']]%elem_of_list_fmap & Hm).
    right. apply (preset_fold_has _ _ b); [done|]. apply elem_of_list_filter in Hb' as [_ Hb']. by apply (Hb b Hb' m).
Qed.
End presets.
Print Assumptions C28_appended_after_user.
Print Assumptions C28_sequence.
Print Assumptions C28_import_order.

(** ** C27 end to end *)
Lemma resolve_names re iter keys refs mappings r n : is_order iter →
  r ∈ (resolve_security re iter keys refs mappings).1.1 → names_scheme r n → ∃ m, m ∈ mappings ∧ mapping_names m n.
Proof.
  intros Hit Hr [v Hv]. rewrite resolve_eq in Hr. cbn [fst] in Hr. apply dedup_sub in Hr.
  apply elem_of_app in Hr as [Hr|Hr].
  - case_decide; [by apply elem_of_nil in Hr|]. apply elem_of_list_singleton in Hr as ->.
    apply (put_fold_inv iter _ Hit) in Hv as [(q & Hq & Hqv)|Hv]; [|by rewrite lookup_empty in Hv].
    apply elem_of_list_bind in Hq as (m & Hqm & Hm). apply elem_of_contributing in Hm as (Hm & _).
    exists m. split; [done|]. left. exists q. split; [done|]. by exists v.
  - rewrite add_group_fold in Hr. cbn [app] in Hr. apply elem_of_list_filter in Hr as [_ Hr].
    apply elem_of_list_fmap in Hr as (g & -> & Hg). apply elem_of_list_bind in Hg as (m & Hgm & Hm).
    apply elem_of_contributing in Hm as (Hm & _).
    apply (put_fold_inv iter _ Hit) in Hv as [(q & Hq & Hqv)|Hv]; [|by rewrite lookup_empty in Hv].
    exists m. split; [done|]. right. exists g, q. repeat split; [done..|by exists v].
Qed.
Lemma route_names re iter keys through mappings definite speculative r n : is_order iter →
  r ∈ default [] (apply_route_security re iter keys through mappings definite speculative).1 → names_scheme r n →
  ∃ m, m ∈ mappings ∧ mapping_names m n.
Proof.
  intros Hit Hr Hn. unfold apply_route_security in Hr.
  assert (∀ l : list mref, ∃ refs, 
    (match l with [] => ([], false, []) | _ => resolve_security re iter keys (expand_refs re through mappings l) mappings end).1.1
    = (if decide (l = []) then [] else (resolve_security re iter keys refs mappings).1.1)) as Hl.
  { intros [|x l]; [by exists []|]. exists (expand_refs re through mappings (x :: l)). by rewrite decide_False. }
  destruct (Hl (dedup_refs definite)) as [refs1 H1]. destruct (Hl (dedup_refs speculative)) as [refs2 H2].
  destruct (match dedup_refs definite with [] => _ | _ => _ end) as [[reqs1 public1] un1].
  destruct (match dedup_refs speculative with [] => _ | _ => _ end) as [[reqs2 public2] un2]. cbn [fst] in *.
  destruct (public1 || public2); [by apply elem_of_nil in Hr|].
  assert (r ∈ reqs1 ++ reqs2) as Hr'.
  { apply (dedup_sub keys). by destruct (dedup_reqs keys (reqs1 ++ reqs2)) as [|a b]. }
  apply elem_of_app in Hr' as [Hr'|Hr'].
  - rewrite H1 in Hr'. case_decide; [by apply elem_of_nil in Hr'|]. by eapply resolve_names.
  - rewrite H2 in Hr'. case_decide; [by apply elem_of_nil in Hr'|]. by eapply resolve_names.
Qed.
(** If what the user writes names only schemes the user declares, and every preset
    declares what it asks for, then the finished document declares every scheme it
    refers to, whatever the middleware of its routes. *)
Theorem C27_documents_are_self_contained {S} re (bundles : list (@bundle S)) iter iter' keys through c paths routes :
  is_order iter → is_order iter' → (∀ b, b ∈ bundles → self_contained b) →
  (∀ m n, m ∈ sc_mappings c → mapping_names m n → is_Some (sc_schemes c !! n)) →
  (∀ r n, r ∈ sc_security c → names_scheme r n → is_Some (sc_schemes c !! n)) →
  let c' := apply_presets re bundles c paths in
  let secs := (λ rt : list mref * list mref,
    default [] (apply_route_security re iter keys through (sc_mappings c') rt.1 rt.2).1) <$> routes in
  (∀ n, refers (sc_security c') secs n → is_Some ((reconcile iter' c' secs).1 !! n)) ∧ (reconcile iter' c' secs).2 = [].
Proof.
  intros Hit Hit' Hb Hm Hs c' secs.
  assert (∀ n, refers (sc_security c') secs n → is_Some (sc_schemes c' !! n) ∨ is_Some (sc_preset c' !! n)) as Hdef.
  { intros n [(r & Hr & Hn)|(rt & r & Hrt & Hr & Hn)].
    - left. subst c'. unfold apply_presets in *. destruct (sc_applied c); [by eapply Hs|].
      destruct (collect_imports paths); [by eapply Hs|]. rewrite apply_bundles in *. cbn in *. by eapply Hs.
    - unfold secs in Hrt. apply elem_of_list_fmap in Hrt as (x & -> & Hx).
      destruct (route_names _ _ _ _ _ _ _ r n Hit Hr Hn) as (m & Hm' & Hn').
      apply (presets_self_contained re bundles c paths Hb) with (m := m); [|done|done].
      intros m0 n0 ? ?. left. by eapply Hm. }
  assert (∀ n, refers (sc_security c') secs n → is_Some ((reconcile iter' c' secs).1 !! n)) as Hall.
  { intros n Hn. apply C27_every_defined_reference_is_declared; [done..|by apply Hdef]. }
  split; [done|].
  destruct ((reconcile iter' c' secs).2) as [|n l] eqn:E; [done|].
  assert (n ∈ (reconcile iter' c' secs).2) as Hn by (rewrite E; left).
  pose proof (proj1 (reconcile_dangling iter' c' secs n Hit') Hn) as (Hr & Hn1 & Hn2).
  destruct (Hdef n Hr) as [[? ?]|[? ?]]; congruence.
Qed.
Print Assumptions C27_documents_are_self_contained.

Lemma mapping_names_preset scheme fn pkg n : mapping_names (preset_mapping scheme fn pkg) n → n = scheme.
Proof.
  intros [(r & Hr & [v Hv])|(g & r & Hg & _)]; [|by apply elem_of_nil in Hg].
  apply elem_of_list_singleton in Hr as ->. by apply lookup_singleton_Some in Hv as [-> _].
Qed.
(** The shipped presets do declare what they ask for. *)
Theorem C27_library_is_self_contained b : b ∈ library_bundles → self_contained b.
Proof.
  intros Hb m n Hm Hn. unfold library_bundles in Hb.
  repeat (apply elem_of_cons in Hb as [->|Hb];
    [cbn [bd_mappings] in Hm; repeat (apply elem_of_cons in Hm as [->|Hm];
      [apply mapping_names_preset in Hn as ->; cbn [bd_schemes]; eexists; vm_compute; reflexivity|]);
     by apply elem_of_nil in Hm|]).
  by apply elem_of_nil in Hb.
Qed.
Print Assumptions C27_library_is_self_contained.
Example C27_example :
  let re := λ e v : string, Some (bool_decide (e = v ∨ e = "^github\.com/gin-gonic/gin$" ∧ v = "github.com/gin-gonic/gin"
                                        ∨ e = "^BasicAuth(ForRealm)?$" ∧ v = "BasicAuth")) in
  let c := SCfg [ex_map "A" ex_bearer] {[ "bearer" := BearerJWT ]} ∅ false [] in
  let c' := apply_presets re library_bundles c ["fmt"; "github.com/gin-gonic/gin"] in
  let secs := [default [] (apply_route_security re id id (λ _, []) (sc_mappings c')
                 [MRef "BasicAuth" "github.com/gin-gonic/gin" "" ""; ex_ref "A"] []).1] in
  map_to_list <$> secs !!! 0 = [[("basicAuth", []); ("bearer", ["admin"])]] ∧
  length (sc_mappings c') = 2 ∧ (reconcile id c' secs).2 = [] ∧
  (reconcile id c' secs).1 = <[ "basicAuth" := BasicScheme ]> {[ "bearer" := BearerJWT ]}.
Proof. split; [by vm_compute|]. split; [by vm_compute|]. split; by vm_compute. Qed.

(** ** C31: looking through wrappers *)
Section c31.
Context (re : string → string → option bool) (mappings : list smapping) (callers parents : gmap string (list mref)).
Notation mt := (λ r, any_mapping_matches re r mappings).
Notation edges := (mw_edges callers parents).
Notation run := (matches_through re mappings callers parents).
Notation queries := (query_all re mappings callers parents).
Notation bound := (S (size (dom callers ∪ dom parents))).

(** The walk ends on every call graph, recursive ones included, after any earlier
    walks. *)
Theorem C31_terminates keys key mm : ∃ mm' found mm'', queries bound keys mm = Some mm' ∧ run bound ∅ key mm' = Some (found, mm'').
Proof.
  assert (∀ k mm, is_Some (run bound ∅ k mm)) as Hr.
  { intros k m. apply (run_total re mappings callers parents (size (dom callers ∪ dom parents))); [|lia].
    apply subseteq_size. set_solver. }
  revert mm. induction keys as [|k ks IH]; intros mm.
  - exists mm. destruct (Hr key mm) as [[found mm''] H]. eauto.
  - destruct (Hr k mm) as [[l m1] H1]. destruct (IH m1) as (mm' & found & mm'' & H2 & H3).
    exists mm', found, mm''. split; [|done]. cbn [query_all]. by rewrite H1.
Qed.
(** Whatever was looked up before, only middleware the function really leads to is
    attributed to it. *)
Theorem C31_nothing_invented fuel keys mm key found mm' : queries fuel keys ∅ = Some mm →
  run fuel ∅ key mm = Some (found, mm') → ∀ r, r ∈ found → leads mt edges key r.
Proof.
  intros Hq Hr. eapply run_sound; [|done]. eapply queries_sound; [|done]. intros k l r H. by rewrite lookup_empty in H.
Qed.
(** The first lookup finds everything, recursion or not. *)
Theorem C31_first_lookup_exact fuel key found mm' : run fuel ∅ key ∅ = Some (found, mm') →
  (∀ r, r ∈ found → leads mt edges key r) ∧ (∀ r, leads mt edges key r → listed r found).
Proof.
  intros Hr. split; [|intros r; by eapply run_fresh].
  eapply run_sound; [|done]. intros k l r H. by rewrite lookup_empty in H.
Qed.
(** Without recursion among wrappers, so does every later lookup. *)
Theorem C31_exact_without_recursion_partial fuel keys mm key found mm' : acyclic mt edges → queries fuel keys ∅ = Some mm →
  run fuel ∅ key mm = Some (found, mm') →
  (∀ r, r ∈ found → leads mt edges key r) ∧ (∀ r, leads mt edges key r → listed r found).
Proof.
  intros Hac Hq Hr. split; [by eapply C31_nothing_invented|].
  eapply (run_complete re mappings callers parents fuel Hac ∅ key mm); [|..|exact Hr].
  - intros s H. by apply elem_of_empty in H.
  - eapply queries_complete; [done| |done]. intros k l r H. by rewrite lookup_empty in H.
Qed.
End c31.
Print Assumptions C31_terminates.
Print Assumptions C31_nothing_invented.
Print Assumptions C31_first_lookup_exact.
Print Assumptions C31_exact_without_recursion_partial.

(** Two wrappers that call each other: asking about the first one poisons the
    answer for the second. *)
Definition ex_cycle : gmap string (list mref) :=
  <["p.A" := [ex_ref "B"; ex_ref "auth"]]> {[ "p.B" := [ex_ref "A"] ]}.
Theorem C31_recursion_loses_middleware_refuted : ∃ re mappings callers parents fuel keys key mm found mm' r,
  query_all re mappings callers parents fuel keys ∅ = Some mm ∧
  matches_through re mappings callers parents fuel ∅ key mm = Some (found, mm') ∧
  leads (λ r, any_mapping_matches re r mappings) (mw_edges callers parents) key r ∧ ¬ listed r found.
Proof.
  exists ex_re, [ex_map "auth" ex_bearer], ex_cycle, ∅, 3, ["p.A"], "p.B",
    (<["p.A" := [ex_ref "auth"]]> {[ "p.B" := [] ]}), [], (<["p.A" := [ex_ref "auth"]]> {[ "p.B" := [] ]}), (ex_ref "auth").
  split; [by vm_compute|]. split; [by vm_compute|]. split.
  - exists "p.A". split.
    + apply rtc_once. exists (ex_ref "A"). split; [by left|]. done.
    + split; [by right; left|]. done.
  - intros (r' & Hr & _). by apply elem_of_nil in Hr.
Qed.
Print Assumptions C31_recursion_loses_middleware_refuted.
(** The same lookup made first does find it. *)
Example C31_example :
  fst <$> matches_through ex_re [ex_map "auth" ex_bearer] ex_cycle ∅ 3 ∅ "p.B" ∅ = Some [ex_ref "auth"] ∧
  (∃ mm, query_all ex_re [ex_map "auth" ex_bearer] {[ "p.W" := [ex_ref "V"] ]} {[ "p.V" := [ex_ref "auth"] ]} 3 ["p.V"; "p.W"] ∅ = Some mm ∧
     mm !! "p.W" = Some [ex_ref "auth"]).
Proof. split; [by vm_compute|]. eexists. split; [by vm_compute|]. by vm_compute. Qed.
Example C31_example_acyclic :
  acyclic (λ r, any_mapping_matches ex_re r [ex_map "auth" ex_bearer])
    (mw_edges {[ "p.W" := [ex_ref "V"] ]} {[ "p.V" := [ex_ref "auth"] ]}).
Proof.
  assert (∀ k k', passes (λ r, any_mapping_matches ex_re r [ex_map "auth" ex_bearer])
    (mw_edges {[ "p.W" := [ex_ref "V"] ]} {[ "p.V" := [ex_ref "auth"] ]}) k k' → k = "p.W" ∧ k' = "p.V") as Hp.
  { intros k k' (r & Hr & _ & Hm & Hid & _). unfold mw_edges in Hr.
    destruct (decide (k = "p.W")) as [->|H1]; [|destruct (decide (k = "p.V")) as [->|H2]].
    - apply elem_of_list_singleton in Hr as ->. split; [done|]. by rewrite <- Hid.
    - apply elem_of_list_singleton in Hr as ->. done.
    - rewrite !lookup_singleton_ne in Hr by congruence. by apply elem_of_nil in Hr. }
  intros k H. inversion H as [? ? H1|? ? ? H1 H2]; subst.
  - destruct (Hp _ _ H1) as [-> ?]. done.
  - destruct (Hp _ _ H1) as [-> ->]. inversion H2 as [? ? H3|? ? ? H3 H4]; subst; destruct (Hp _ _ H3); done.
Qed.
Example C28_example :
  let re := λ e v : string, Some (bool_decide (e = v)) in
  let bs := [Bundle ["lib"] [ex_map "X" ex_bearer] {[ "bearer" := tt ]}; Bundle ["other"] [ex_map "Y" ex_key] {[ "apiKey" := tt ]}] in
  let c := SCfg [ex_map "A" ex_key] ∅ ∅ false [] in
  let c' := fold_left (apply_presets re bs) [[""]; ["fmt"; "lib"]; ["other"]] c in
  sc_mappings c' = [ex_map "A" ex_key; ex_map "X" ex_bearer] ∧ sc_schemes c' = ∅ ∧
  sc_preset c' = {[ "bearer" := tt ]} ∧ sc_applied c' = true.
Proof. split; [reflexivity|]. split; [reflexivity|]. split; [by_dec|reflexivity]. Qed.

(** ** C26: which mapping applies, and which requirements are listed *)
(** A mapping applies when each of its expressions is absent or matches; an expression that does not compile never
    matches. *)
Theorem C26_mapping_applies_iff re m r : sm_matches re m r = true ↔
  ∀ expr value, (expr, value) ∈ [(sm_fnre m, mr_fn r); (sm_pkgre m, mr_pkg r); (sm_recvre m, mr_recv r)] → expr = "" ∨ re expr value = Some true.
Proof.
  assert (Hf : ∀ e v, re_field re e v = true ↔ e = "" ∨ re e v = Some true).
  { intros e v. unfold re_field. destruct (decide (e = "")); [tauto|]. destruct (re e v) as [[]|]; split; try tauto; intros; naive_solver. }
  unfold sm_matches. rewrite !andb_true_iff, !Hf. split.
  - intros [[H1 H2] H3] e v. rewrite !elem_of_cons, elem_of_nil. intros [[= -> ->]|[[= -> ->]|[[= -> ->]|[]]]]; done.
  - intros H. split; [split|]; apply H; set_solver.
Qed.
Print Assumptions C26_mapping_applies_iff.
Example C26_mapping_applies_example : sm_matches (λ e v, if decide (e = "(") then None else Some (bool_decide (e = v)))
  (SMapping "" "(" "" [] [] false false) (MRef "f" "(" "" "") = false.
Proof. by vm_compute. Qed.

(** Scheme names and scopes without the characters of the comparison key. *)
Definition clean_req (r : requirement) : Prop := ∀ n scopes, r !! n = Some scopes →
  contains_byte "=" n = false ∧ contains_byte ";" n = false ∧
  ∀ x, x ∈ scopes → x ≠ "" ∧ contains_byte "," x = false ∧ contains_byte ";" x = false.
Lemma join_no_byte c l : c ≠ ","%char → Forall (λ x, contains_byte c x = false) l → contains_byte c (str_join "," l) = false.
Proof.
  intros Hc. induction l as [|x [|y l] IH]; intros Hf; [done|by apply Forall_cons in Hf as [H _]|].
  rewrite str_join_cons2, !contains_app. apply Forall_cons in Hf as [Hx Hf]. rewrite Hx, IH by done. cbn. rewrite bool_decide_eq_false_2 by congruence. done.
Qed.
Lemma join_inj l l' : Forall (λ x, x ≠ "" ∧ contains_byte "," x = false) l → Forall (λ x, x ≠ "" ∧ contains_byte "," x = false) l' →
  str_join "," l = str_join "," l' → l = l'.
Proof.
  assert (Hne : ∀ l, Forall (λ x, x ≠ "" ∧ contains_byte "," x = false) l → l ≠ [] → str_join "," l ≠ "").
  { intros [|x [|y k]] Hf Hn; [done| |]; apply Forall_cons in Hf as [[Hx _] _]; [done|]. rewrite str_join_cons2. intros [H _]%sapp_eq_nil. done. }
  intros Hl Hl' E. destruct (decide (l = [])) as [->|H1], (decide (l' = [])) as [->|H2].
  - done.
  - cbn in E. symmetry in E. by destruct (Hne l' Hl' H2).
  - cbn in E. by destruct (Hne l Hl H1).
  - rewrite <-(split_join "," l), <-(split_join "," l'); [by f_equal|..|done|]; try done; (eapply Forall_impl; [done|]; cbn; tauto).
Qed.
Definition key_text (r : requirement) (l : list string) : string :=
  foldr (λ n acc, n +:+ "=" +:+ str_join "," (default [] (r !! n)) +:+ ";" +:+ acc) "" l.
Lemma key_text_inj (r r' : requirement) : clean_req r → clean_req r' → ∀ l l', Forall (λ n, is_Some (r !! n)) l → Forall (λ n, is_Some (r' !! n)) l' →
  key_text r l = key_text r' l' → l = l' ∧ Forall (λ n, r !! n = r' !! n) l.
Proof.
  intros Hr Hr'. induction l as [|n l IH]; intros [|n' l'] Hl Hl' E.
  - done.
  - exfalso. unfold key_text in E. cbn [foldr] in E. destruct n'; done.
  - exfalso. unfold key_text in E. cbn [foldr] in E. destruct n; done.
  - apply Forall_cons in Hl as [[s Hs] Hl]. apply Forall_cons in Hl' as [[s' Hs'] Hl'].
    destruct (Hr _ _ Hs) as (A1 & A2 & A3). destruct (Hr' _ _ Hs') as (B1 & B2 & B3).
    unfold key_text in E. cbn [foldr] in E. fold (key_text r l) (key_text r' l') in E. rewrite Hs, Hs' in E. cbn [default from_option id] in E.
    change (default [] (Some s)) with s in E. change (default [] (Some s')) with s' in E.
    change ("=" +:+ ?x) with (String "=" x) in E. change (";" +:+ ?x) with (String ";" x) in E.
    apply first_split_inj in E as [-> E]; [|done..].
    apply first_split_inj in E as [E1 E2].
    2: { apply join_no_byte; [done|]. apply Forall_forall. intros x Hx. by destruct (A3 x Hx) as (_ & _ & ?). }
    2: { apply join_no_byte; [done|]. apply Forall_forall. intros x Hx. by destruct (B3 x Hx) as (_ & _ & ?). }
    apply join_inj in E1 as ->.
    2: { apply Forall_forall. intros x Hx. destruct (A3 x Hx) as (? & ? & _). done. }
    2: { apply Forall_forall. intros x Hx. destruct (B3 x Hx) as (? & ? & _). done. }
    destruct (IH l' Hl Hl' E2) as [-> Hf]. split; [done|]. constructor; [congruence|done].
Qed.
Lemma key_names (keys : list string → list string) (r : requirement) (n : string) : is_order keys → n ∈ merge_sort string_le (keys (map_to_list r).*1) ↔ is_Some (r !! n).
Proof.
  intros Hk. rewrite merge_sort_Permutation, (Hk _). rewrite elem_of_list_fmap. split.
  - intros ([x v] & -> & Hin). apply elem_of_map_to_list in Hin. eauto.
  - intros [v Hv]. exists (n, v). split; [done|]. by apply elem_of_map_to_list.
Qed.
Lemma requirement_key_inj keys (r r' : requirement) : is_order keys → clean_req r → clean_req r' → requirement_key keys r = requirement_key keys r' → r = r'.
Proof.
  intros Hk Hr Hr' E. unfold requirement_key in E. fold (key_text r) in E.
  destruct (key_text_inj r r' Hr Hr' _ _ ltac:(apply Forall_forall; intros n; by apply key_names) ltac:(apply Forall_forall; intros n; by apply key_names) E) as [El Hf].
  rewrite Forall_forall in Hf. apply map_eq. intros n. destruct (r !! n) as [v|] eqn:Ev.
  - rewrite <-Ev. apply Hf, key_names; [done|]. eauto.
  - symmetry. apply eq_None_not_Some. intros Hs. apply (key_names keys r' n Hk) in Hs. rewrite <-El in Hs. apply (key_names keys r n Hk) in Hs. rewrite Ev in Hs. by destruct Hs.
Qed.
(** Listing requirements drops exact repetitions and nothing else. *)
Theorem C26_requirements_listed_once_partial keys reqs : is_order keys → Forall clean_req reqs →
  NoDup (dedup_reqs keys reqs) ∧ ∀ r, r ∈ dedup_reqs keys reqs ↔ r ∈ reqs.
Proof.
  intros Hk Hc.
  assert (Hgo : ∀ l seen, Forall clean_req l →
    NoDup (dedup_reqs_go keys seen l) ∧ ∀ r, r ∈ dedup_reqs_go keys seen l ↔ r ∈ l ∧ requirement_key keys r ∉ seen).
  { induction l as [|x l IH]; intros seen Hl; cbn [dedup_reqs_go]; [split; [constructor|]; intros r; rewrite elem_of_nil; tauto|].
    apply Forall_cons in Hl as [Hx Hl]. destruct (decide (requirement_key keys x ∈ seen)) as [Hs|Hs].
    - destruct (IH seen Hl) as [H1 H2]. split; [done|]. intros r. rewrite H2, elem_of_cons. split; [tauto|]. intros [[->|?] ?]; tauto.
    - destruct (IH (requirement_key keys x :: seen) Hl) as [H1 H2]. split.
      + constructor; [|done]. rewrite H2, elem_of_cons. tauto.
      + intros r. rewrite !elem_of_cons, H2, elem_of_cons. split.
        * intros [->|[? ?]]; [tauto|]. tauto.
        * intros [[->|Hr] Hn]; [by left|]. destruct (decide (r = x)) as [->|Hne]; [by left|]. right. split; [done|]. intros [E|?]; [|tauto].
          apply Hne. rewrite Forall_forall in Hl. apply (requirement_key_inj keys); [done|by apply Hl|done|done]. }
  destruct (Hgo reqs [] Hc) as [H1 H2].
  assert (E : dedup_reqs keys reqs = dedup_reqs_go keys [] reqs).
  { destruct reqs as [|x [|y l]]; [done| |done]. cbn. by rewrite decide_False by apply not_elem_of_nil. }
  rewrite E. split; [done|]. intros r. rewrite H2, elem_of_nil. tauto.
Qed.
Print Assumptions C26_requirements_listed_once_partial.
Example C26_listed_once_example :
  dedup_reqs id [{[ "oauth" := ["read"] ]}; {[ "oauth" := ["read"; "write"] ]}; {[ "oauth" := ["read"] ]}; {[ "key" := [] ]}]
  = [{[ "oauth" := ["read"] ]}; {[ "oauth" := ["read"; "write"] ]}; {[ "key" := [] ]}] ∧ clean_req {[ "oauth" := ["read"; "write"] ]}.
Proof.
  split; [by by_dec|]. intros n v [<- <-]%lookup_singleton_Some. split; [done|]. split; [done|]. intros x Hx.
  apply elem_of_cons in Hx as [->|[->|Hx]%elem_of_cons]; [done|done|by apply elem_of_nil in Hx].
Qed.
(** A scope with a comma: two different requirements are taken for one, and credentials the second alternative accepts are no longer accepted. *)
Theorem C26_requirements_listed_once_refuted : ∃ reqs c, accepts c reqs ∧ ¬ accepts c (dedup_reqs id reqs).
Proof.
  exists [{[ "oauth" := ["a,b"] ]}; {[ "oauth" := ["a"; "b"] ]}], (λ n, if decide (n = "oauth") then Some ["a"; "b"] else None). split.
  - right. exists {[ "oauth" := ["a"; "b"] ]}. split; [right; left|]. intros n v [<- <-]%lookup_singleton_Some. exists ["a"; "b"]. split; [done|]. done.
  - assert (E : dedup_reqs id [{[ "oauth" := ["a,b"] ]}; {[ "oauth" := ["a"; "b"] ]}] = [{[ "oauth" := ["a,b"] ]}]) by by_dec.
    rewrite E. intros [H|(r & Hr & Hs)]; [done|]. apply elem_of_list_singleton in Hr as ->.
    destruct (Hs "oauth" ["a,b"] ltac:(by apply lookup_singleton)) as (have & Hh & Hsub). rewrite decide_True in Hh by done. injection Hh as <-.
    specialize (Hsub "a,b" ltac:(left)). by apply elem_of_cons in Hsub as [?|[?|?%elem_of_nil]%elem_of_cons].
Qed.
Print Assumptions C26_requirements_listed_once_refuted.

(** ** C31: a method with a pointer receiver is looked through under the name its calls are recorded under. *)
Theorem C31_methods_looked_through re through mappings fn pkg recv star pos l :
  mappings ≠ [] → fn ≠ "" → pkg ≠ "" → recv ≠ "" → has_prefix "*" recv = false → star = "" ∨ star = "*" →
  any_mapping_matches re (MRef fn pkg (star +:+ recv) pos) mappings = false →
  through (pkg +:+ "." +:+ recv +:+ "." +:+ fn) = l → l ≠ [] →
  expand_refs re through mappings [MRef fn pkg (star +:+ recv) pos] = dedup_refs l.
Proof.
  intros Hm Hf Hp Hr Hs Hstar Hn Hl Hln. unfold expand_refs. destruct mappings as [|m ms]; [done|]. f_equal. cbn [expand_loop]. rewrite Hn, app_nil_r.
  assert (E : middleware_base_id (MRef fn pkg (star +:+ recv) pos) = pkg +:+ "." +:+ recv +:+ "." +:+ fn).
  { unfold middleware_base_id. cbn [mr_pkg mr_fn mr_recv]. rewrite decide_False by tauto.
    rewrite decide_False by (intros [_ H]%sapp_eq_nil; done). do 2 f_equal. f_equal. unfold trim_prefix. destruct Hstar as [-> | ->].
    - change ("" +:+ recv) with recv. by rewrite Hs.
    - change ("*" +:+ recv) with (String "*" recv). cbn. done. }
  rewrite E, Hl. rewrite decide_False by (intros [? _]%sapp_eq_nil; done). by destruct l.
Qed.
Print Assumptions C31_methods_looked_through.
Example C31_methods_example :
  expand_refs ex_re (λ k, if decide (k = "p.Mw.Wrap") then [ex_ref "auth"] else []) [ex_map "auth" ex_bearer] [MRef "Wrap" "p" "*Mw" ""] = [ex_ref "auth"].
Proof. by vm_compute. Qed.
