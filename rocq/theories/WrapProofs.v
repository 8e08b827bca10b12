(** * Proofs about router wrappers. *)
From Coq Require Import Ascii.
From stdpp Require Import sorting.
From stdpp Require Import base list strings gmap relations.
From Coq Require Import ZArith.
From Verif Require Import StrLib StrOrder StrSplit PathModel SecProps StatModel WrapModel WrapSpec.

Lemma elem_of_idents d : ∀ a n, n ∈ idents_in d a ↔ mentions d a n.
Proof.
  induction d as [|d IH]; intros a n.
  - split; [by intros ?%elem_of_nil|]. intros H. inversion H.
  - cbn [idents_in]. rewrite elem_of_app.
    assert (n ∈ concat (omap (λ c : option sarg, idents_in d <$> c) ([s_x a; s_sel a; s_fn a] ++ s_args a))
            ↔ ∃ b, part_of a b ∧ mentions d b n) as ->.
    { rewrite elem_of_concat. split.
      - intros (l & Hl & Hn). apply elem_of_list_omap in Hl as (c & Hc & Hl). destruct c as [b|]; [|done]. cbn in Hl. injection Hl as <-.
        exists b. split; [|by apply IH]. apply elem_of_app in Hc as [Hc|Hc]; [|by right; right; right].
        apply elem_of_cons in Hc as [Hc|Hc]; [by left|]. apply elem_of_cons in Hc as [Hc|Hc]; [by right; left|].
        apply elem_of_list_singleton in Hc. by right; right; left.
      - intros (b & Hp & Hm). exists (idents_in d b). split; [|by apply IH]. apply elem_of_list_omap. exists (Some b).
        split; [|done]. apply elem_of_app. destruct Hp as [Hp|[Hp|[Hp|Hp]]]; [..|by right]; left; rewrite Hp.
        + left.
        + right. left.
        + right. right. left. }
    destruct (decide (s_name a = "")) as [E|E].
    + rewrite bool_decide_eq_false_2 by tauto. split.
      * intros [?%elem_of_nil|(b & Hp & Hm)]; [done|]. by econstructor.
      * intros H. inversion H; subst; [done|]. right. eauto.
    + rewrite bool_decide_eq_true_2 by done. rewrite elem_of_list_singleton. split.
      * intros [->|(b & Hp & Hm)]; [by constructor|by econstructor].
      * intros H. inversion H; subst; [by left|]. right. eauto.
Qed.
Lemma mentions_nonempty d a n : mentions d a n → n ≠ "".
Proof. by induction 1. Qed.

(** ** The parameter an argument comes from *)
Lemma match_param_some params names i : match_param params names = Some i →
  ∃ n, n ∈ names ∧ n ≠ "" ∧ params !! i = Some n ∧ ∀ j, j < i → params !! j ≠ Some n.
Proof.
  unfold match_param. induction names as [|n names IH]; [done|]. cbn [omap list_omap].
  destruct (decide (n = "")) as [E|E].
  - rewrite bool_decide_eq_true_2 by done. intros H. destruct (IH H) as (m & Hm & ?). exists m. split; [by right|done].
  - rewrite bool_decide_eq_false_2 by done. destruct (list_find (λ p, p = n) params) as [[j p]|] eqn:El; cbn [fmap option_fmap option_map fst].
    + cbn [head]. intros [= <-]. apply list_find_Some in El as (Hj & -> & Hmin). exists n. split; [left|]. split; [done|]. split; [done|].
      intros k Hk Hp. by eapply Hmin.
    + intros H. destruct (IH H) as (m & Hm & ?). exists m. split; [by right|done].
Qed.
Lemma match_param_none params names n : match_param params names = None → n ∈ names → n ≠ "" → n ∉ params.
Proof.
  unfold match_param. induction names as [|m names IH]; [by intros _ ?%elem_of_nil|]. cbn [omap list_omap].
  destruct (decide (m = "")) as [E|E].
  - rewrite bool_decide_eq_true_2 by done. intros H Hn Hne. apply elem_of_cons in Hn as [->|Hn]; [done|by apply IH].
  - rewrite bool_decide_eq_false_2 by done. destruct (list_find (λ p, p = m) params) as [[j p]|] eqn:El; cbn [fmap option_fmap option_map fst]; [done|].
    intros H Hn Hne. apply elem_of_cons in Hn as [->|Hn]; [|by apply IH].
    apply list_find_None in El. rewrite Forall_forall in El. intros Hp. by apply (El m Hp).
Qed.

Section params.
Context (method_of : wmethod → option (list string * (string → list sarg))) (function_of : wmethod → option (string → list sarg)).
Notation index_of := (index_of method_of function_of).
Notation index_hops := (index_hops method_of function_of).
Notation hop_back := (hop_back method_of function_of).
Notation uses := (uses method_of function_of).
Notation params_of := (params_of method_of).

Lemma elem_of_assignments w n v : v ∈ assignments_of method_of function_of w n ↔ n ≠ "" ∧ assigned_value method_of function_of w n v.
Proof.
  unfold assignments_of, assigned_value. destruct (decide (n = "")) as [E|E].
  { rewrite bool_decide_eq_true_2 by done. split; [by intros ?%elem_of_nil|tauto]. }
  rewrite bool_decide_eq_false_2 by done.
  destruct (method_of w) as [[ps asg]|].
  - destruct (asg n) as [|v0 vs] eqn:Ea.
    + assert (v ∈ match function_of w with Some asg => asg n | None => [] end ↔ ∃ asg, function_of w = Some asg ∧ v ∈ asg n) as ->.
      { destruct (function_of w) as [f|]; [|split; [by intros ?%elem_of_nil|by intros (? & [=] & _)]]. split; [eauto|by intros (? & [= <-] & ?)]. }
      split.
      * intros H. split; [done|]. right. split; [|done]. by intros ? ? [= <- <-].
      * intros [_ [(? & ? & [= <- <-] & Hv)|[_ ?]]]; [|done]. rewrite Ea in Hv. by apply elem_of_nil in Hv.
    + split.
      * intros H. split; [done|]. left. exists ps, asg. by rewrite Ea.
      * intros [_ [(? & ? & [= <- <-] & Hv)|[H _]]]; [by rewrite Ea in Hv|]. by rewrite (H ps asg eq_refl) in Ea.
  - assert (v ∈ match function_of w with Some asg => asg n | None => [] end ↔ ∃ asg, function_of w = Some asg ∧ v ∈ asg n) as ->.
    { destruct (function_of w) as [f|]; [|split; [by intros ?%elem_of_nil|by intros (? & [=] & _)]]. split; [eauto|by intros (? & [= <-] & ?)]. }
    split.
    + intros H. split; [done|]. right. split; [|done]. by intros ? ? [=].
    + intros [_ [(? & ? & [=] & Hv)|[_ ?]]]. done.
Qed.
Lemma elem_of_hop w n m : m ∈ concat (idents_in expr_depth <$> assignments_of method_of function_of w n) ↔ uses w n m.
Proof.
  rewrite elem_of_concat. unfold WrapSpec.uses. split.
  - intros (l & Hl & Hm). apply elem_of_list_fmap in Hl as (v & -> & Hv). apply elem_of_assignments in Hv as [Hn Hv].
    split; [done|]. exists v. split; [done|]. by apply elem_of_idents in Hm.
  - intros (Hn & v & Hv & Hm). exists (idents_in expr_depth v). split; [|by apply elem_of_idents].
    apply elem_of_list_fmap. exists v. split; [done|]. by apply elem_of_assignments.
Qed.

Lemma hop_spec w names : ∀ seen next seen', hop_back w names seen = (next, seen') →
  (∀ n, n ∈ seen' ↔ n ∈ seen ∨ (n ≠ "" ∧ n ∈ names)) ∧
  (∀ m, m ∈ next ↔ ∃ n, n ∈ names ∧ n ∉ seen ∧ uses w n m).
Proof.
  induction names as [|n names IH]; intros seen next seen' E; cbn [WrapModel.hop_back] in E.
  - injection E as <- <-. split.
    + intros n. rewrite elem_of_nil. tauto.
    + intros m. rewrite elem_of_nil. split; [done|]. by intros (n & ?%elem_of_nil & _).
  - destruct (decide (n = "" ∨ n ∈ seen)) as [Hs|Hs].
    + rewrite bool_decide_eq_true_2 in E by done. destruct (IH _ _ _ E) as [I1 I2]. split.
      * intros m. rewrite I1, elem_of_cons. split; [tauto|]. intros [?|[? [->|?]]]; [tauto| |tauto]. destruct Hs; [done|tauto].
      * intros m. rewrite I2. split.
        -- intros (x & Hx & ?). exists x. split; [by right|done].
        -- intros (x & Hx & Hns & Hu). apply elem_of_cons in Hx as [->|Hx]; [|eauto]. exfalso.
           destruct Hs as [->|Hs]; [by destruct Hu|done].
    + rewrite bool_decide_eq_false_2 in E by done.
      destruct (hop_back w names ({[n]} ∪ seen)) as [next0 seen0] eqn:E0. apply pair_equal_spec in E as [<- <-].
      destruct (IH _ _ _ E0) as [I1 I2]. split.
      * intros m. rewrite I1, elem_of_cons, elem_of_union, elem_of_singleton. split.
        -- intros [[->|?]|?]; [right; split; [tauto|by left]|by left|tauto].
        -- tauto.
      * intros m. rewrite elem_of_app, elem_of_hop, I2. split.
        -- intros [Hu|(x & Hx & Hns & Hu)]; [exists n; split; [left|]; tauto|]. exists x. split; [by right|]. set_solver.
        -- intros (x & Hx & Hns & Hu). destruct (decide (x = n)) as [->|Hne]; [by left|].
           apply elem_of_cons in Hx as [->|Hx]; [done|]. right. exists x. split; [done|]. set_solver.
Qed.

Lemma index_hops_sound w h : ∀ names seen i, index_hops h w names seen = Some i →
  ∃ j n p, j < h ∧ n ∈ names ∧ nsteps (uses w) j n p ∧ params_of w !! i = Some p ∧ (∀ k, k < i → params_of w !! k ≠ Some p) ∧
    index_hops j w names seen = None.
Proof.
  induction h as [|h IH]; intros names seen i E; [done|]. cbn [WrapModel.index_hops] in E.
  destruct names as [|n0 names0]; [done|]. set (names := n0 :: names0) in *.
  destruct (match_param (params_of w) names) as [i'|] eqn:Em.
  - injection E as ->. apply match_param_some in Em as (n & Hn & _ & Hi & Hmin). exists 0, n, n. split; [lia|]. split; [done|].
    split; [constructor|]. done.
  - destruct (hop_back w names seen) as [next seen'] eqn:Eh. destruct (IH _ _ _ E) as (j & n & p & Hj & Hn & Hst & Hi & Hmin & Hnone).
    apply hop_spec in Eh as Hhop. destruct Hhop as [_ H2]. apply H2 in Hn as (x & Hx & _ & Hu).
    exists (S j), x, p. split; [lia|]. split; [done|]. split; [by eapply nsteps_l|]. split; [done|]. split; [done|].
    cbn [WrapModel.index_hops]. subst names. cbv zeta. rewrite Em, Eh. done.
Qed.

Lemma index_hops_complete w h : ∀ names seen,
  (∀ s, s ∈ seen → s ∉ params_of w) → (∀ s t, s ∈ seen → uses w s t → t ∈ seen ∨ t ∈ names) →
  (∀ n, n ∈ names → n ≠ "") →
  ∀ k x p, k < h → x ∈ names ∨ x ∈ seen → nsteps (uses w) k x p → p ∈ params_of w → is_Some (index_hops h w names seen).
Proof.
  induction h as [|h IH]; intros names seen Hpar Hcl Hne k x p Hk Hx Hst Hp; [lia|]. cbn [WrapModel.index_hops].
  destruct names as [|n0 names0].
  { exfalso. destruct Hx as [?%elem_of_nil|Hx]; [done|].
    assert (p ∈ seen) as Hps; [|by apply (Hpar p)]. clear Hp Hk. induction Hst as [y|k' y z p Hyz Hst IHst]; [done|].
    apply IHst. destruct (Hcl _ _ Hx Hyz) as [?|?%elem_of_nil]; done. }
  set (names := n0 :: names0) in *. destruct (match_param (params_of w) names) as [i|] eqn:Em; [by eexists|].
  assert (∀ n, n ∈ names → n ∉ params_of w) as Hnp.
  { intros n Hn. eapply match_param_none; [done|done|by apply Hne]. }
  destruct (hop_back w names seen) as [next seen'] eqn:Eh. apply hop_spec in Eh as [H1 H2].
  inversion Hst as [y|k' y z p' Hyz Hst']; subst.
  { exfalso. destruct Hx as [Hx|Hx]; [by apply (Hnp p)|by apply (Hpar p)]. }
  assert (∀ s, s ∈ seen' ↔ s ∈ seen ∨ s ∈ names) as Hs'.
  { intros s. rewrite H1. split; [tauto|]. intros [?|Hs]; [by left|]. right. split; [by apply Hne|done]. }
  assert (∀ s t, s ∈ seen' → uses w s t → t ∈ seen' ∨ t ∈ next) as Hcl'.
  { intros s t Hs Hu. destruct (decide (s ∈ seen)) as [Hin|Hin].
    - left. apply Hs'. by apply (Hcl s t).
    - right. apply H2. exists s. apply Hs' in Hs as [?|?]; [done|]. done. }
  apply (IH next seen') with (k := k') (x := z) (p := p).
  - intros s Hs. apply Hs' in Hs as [Hs|Hs]; [by apply Hpar|by apply Hnp].
  - exact Hcl'.
  - intros n Hn. apply H2 in Hn as (? & _ & _ & Hu). destruct Hu as (_ & v & _ & Hm). by eapply mentions_nonempty.
  - lia.
  - apply or_comm. apply (Hcl' x z); [|done]. apply Hs'. tauto.
  - done.
  - done.
Qed.

Lemma index_of_some w a i : index_of w (Some a) = Some i →
  ∃ k p, k ≤ 3 ∧ leads method_of function_of w a k p ∧ params_of w !! i = Some p ∧ (∀ j, j < i → params_of w !! j ≠ Some p) ∧
    ∀ k' p', k' < k → leads method_of function_of w a k' p' → p' ∉ params_of w.
Proof.
  unfold WrapModel.index_of. destruct (decide (params_of w = [])) as [E|E]; [rewrite bool_decide_eq_true_2 by done; done|].
  rewrite bool_decide_eq_false_2 by done. intros H.
  apply index_hops_sound in H as (j & n & p & Hj & Hn & Hst & Hi & Hmin & Hnone).
  exists j, p. unfold assign_hops in Hj. split; [lia|]. split; [exists n; split; [by apply elem_of_idents|done]|].
  split; [done|]. split; [done|]. intros k' p' Hk' (n' & Hn' & Hst') Hp'.
  assert (is_Some (index_hops j w (idents_in expr_depth a) ∅)) as [x Hx]; [|congruence].
  apply (index_hops_complete w j) with (k := k') (x := n') (p := p'); [intros s Hs; by apply elem_of_empty in Hs|intros s t Hs; by apply elem_of_empty in Hs| |exact Hk'| |exact Hst'|exact Hp'].
  - intros m Hm. apply elem_of_idents in Hm. by eapply mentions_nonempty.
  - left. by apply elem_of_idents.
Qed.
Lemma index_of_complete w a k p : k ≤ 3 → leads method_of function_of w a k p → p ∈ params_of w → is_Some (index_of w (Some a)).
Proof.
  intros Hk (n & Hn & Hst) Hp. unfold WrapModel.index_of. rewrite bool_decide_eq_false_2.
  2: { intros E. rewrite E in Hp. by apply elem_of_nil in Hp. }
  apply (index_hops_complete w assign_hops) with (k := k) (x := n) (p := p); [intros s Hs; by apply elem_of_empty in Hs|intros s t Hs; by apply elem_of_empty in Hs| | | |exact Hst|exact Hp].
  - intros m Hm. apply elem_of_idents in Hm. by eapply mentions_nonempty.
  - unfold assign_hops. lia.
  - left. by apply elem_of_idents.
Qed.
Lemma elem_of_params w i p : params_of w !! i = Some p ↔ parameter method_of w i p.
Proof.
  unfold WrapModel.params_of, parameter. destruct (method_of w) as [[ps asg]|].
  - split; [eauto|]. by intros (? & ? & [= <- <-] & ?).
  - split; [done|]. by intros (? & ? & [=] & _).
Qed.

(** ** Rounds *)
Context (matches : rpat → wedge → bool) (modpath : string).
Notation derive := (derive_wrapper method_of function_of).
Notation round := (derivation_round method_of function_of matches modpath).
Notation rounds := (derivation_rounds method_of function_of matches modpath).
Notation written_in := (written_in modpath).

Lemma written_spec e w : wrapper_method_of modpath e = Some w ↔ written_in e w.
Proof.
  unfold wrapper_method_of, WrapSpec.written_in. destruct (decide (we_recv e = "")) as [E|E].
  { rewrite bool_decide_eq_true_2 by done. split; [done|tauto]. }
  rewrite (bool_decide_eq_false_2 (we_recv e = "")) by done. destruct (decide (we_pkg e = "")) as [E1|E1].
  { rewrite (bool_decide_eq_true_2 (we_pkg e = "")) by done. cbn. split; [done|tauto]. }
  rewrite (bool_decide_eq_false_2 (we_pkg e = "")) by done. destruct (decide (modpath = "")) as [E2|E2].
  { rewrite (bool_decide_eq_true_2 (modpath = "")) by done. cbn. split; [done|tauto]. }
  rewrite (bool_decide_eq_false_2 (modpath = "")) by done. cbn [orb]. rewrite <- has_prefix_spec.
  destruct (has_prefix modpath (we_pkg e)); cbn [negb].
  - split; [by intros [= <-]|]. intros (_ & _ & _ & _ & ->). done.
  - split; [done|]. intros (_ & _ & _ & ? & _). done.
Qed.

(** The pattern an edge is matched by. *)
Lemma first_match_spec w e seeds found : found !! method_key w = None →
  match first_match method_of function_of matches w e seeds found with
  | None => ∀ q, q ∈ seeds → matches q e = false
  | Some d => ∃ j q, seeds !! j = Some q ∧ matches q e = true ∧ (∀ j' q', j' < j → seeds !! j' = Some q' → matches q' e = false) ∧ d = derive w q e
  end.
Proof.
  intros Hf. induction seeds as [|q seeds IH]; cbn [first_match]; [by intros q ?%elem_of_nil|].
  destruct (matches q e) eqn:Em.
  - rewrite Hf. exists 0, q. split; [done|]. split; [done|]. split; [lia|done].
  - destruct (first_match method_of function_of matches w e seeds found) as [d|].
    + destruct IH as (j & q' & Hj & Hq & Hmin & ->). exists (S j), q'. split; [done|]. split; [done|]. split; [|done].
      intros [|j'] q'' Hj' Hq''; [cbn in Hq''; by injection Hq'' as <-|]. by apply (Hmin j'); [lia|].
    + intros q' Hq'. apply elem_of_cons in Hq' as [->|Hq']; [done|by apply IH].
Qed.
Lemma first_match_found w e seeds found : is_Some (found !! method_key w) → first_match method_of function_of matches w e seeds found = None.
Proof.
  intros [d Hd]. induction seeds as [|q seeds IH]; cbn [first_match]; [done|]. rewrite Hd. by destruct (matches q e).
Qed.

(** What one round records for a method. *)
Definition recorded (seeds : list rpat) (es : list wedge) (k : string) (d : dwrap) : Prop :=
  ∃ i e w j q, es !! i = Some e ∧ written_in e w ∧ method_key w = k ∧ seeds !! j = Some q ∧ matches q e = true ∧
    (∀ j' q', j' < j → seeds !! j' = Some q' → matches q' e = false) ∧ d = derive w q e ∧
    ∀ i' e' w' q', i' < i → es !! i' = Some e' → written_in e' w' → method_key w' = k → q' ∈ seeds → matches q' e' = false.
Lemma round_spec seeds es : ∀ found derived found', round seeds es found = (derived, found') →
  (∀ k d, found !! k = Some d → found' !! k = Some d) ∧
  (∀ k d, found !! k = None → found' !! k = Some d ↔ recorded seeds es k d) ∧
  (∀ e w q, e ∈ es → written_in e w → q ∈ seeds → matches q e = true → is_Some (found' !! method_key w)) ∧
  (∀ p, p ∈ derived ↔ ∃ k d, found !! k = None ∧ found' !! k = Some d ∧ dw_complete d = true ∧ dw_pat d = p).
Proof.
  induction es as [|e es IH]; intros found derived found' E; cbn [derivation_round] in E.
  { injection E as <- <-. split; [done|]. split.
    { intros k d Hk. rewrite Hk. split; [done|]. by intros (i & e & w & j & q & Hi & _). }
    split; [by intros e w q ?%elem_of_nil|]. intros p. rewrite elem_of_nil. split; [done|]. intros (k & d & H1 & H2 & _). congruence. }
  assert (∀ found derived found', round seeds es found = (derived, found') →
    (∀ w q, written_in e w → q ∈ seeds → matches q e = true → is_Some (found !! method_key w)) →
    (∀ k d, found !! k = Some d → found' !! k = Some d) ∧
    (∀ k d, found !! k = None → found' !! k = Some d ↔ recorded seeds (e :: es) k d) ∧
    (∀ e0 w q, e0 ∈ e :: es → written_in e0 w → q ∈ seeds → matches q e0 = true → is_Some (found' !! method_key w)) ∧
    (∀ p, p ∈ derived ↔ ∃ k d, found !! k = None ∧ found' !! k = Some d ∧ dw_complete d = true ∧ dw_pat d = p)) as Hskip.
  { clear E found derived found'. intros found derived found' E Hsk. destruct (IH _ _ _ E) as (I1 & I2 & I3 & I4).
    split; [done|]. split; [|split; [|done]].
    - intros k d Hk. rewrite (I2 k d Hk). split.
      + intros (i & e0 & w & j & q & Hi & Hw & Hkw & Hj & Hm & Hq & Hd & Hmin).
        exists (S i), e0, w, j, q. split; [done|]. split; [done|]. split; [done|]. split; [done|]. split; [done|]. split; [done|]. split; [done|].
        intros [|i'] e' w' q' Hi' He' Hw' Hk' Hq'.
        * cbn in He'. injection He' as ->. destruct (matches q' e') eqn:Em; [|done].
          destruct (Hsk w' q' Hw' Hq' Em) as [x Hx]. congruence.
        * apply (Hmin i' e' w' q'); [lia|done..].
      + intros (i & e0 & w & j & q & Hi & Hw & Hkw & Hj & Hm & Hq & Hd & Hmin). destruct i as [|i].
        { cbn in Hi. injection Hi as ->. destruct (Hsk w q Hw ltac:(by eapply elem_of_list_lookup_2) Hm) as [x Hx]. congruence. }
        exists i, e0, w, j, q. split; [done|]. split; [done|]. split; [done|]. split; [done|]. split; [done|]. split; [done|]. split; [done|].
        intros i' e' w' q' Hi' He'. apply (Hmin (S i')); [lia|done].
    - intros e0 w q He Hw Hq Hm. apply elem_of_cons in He as [->|He]; [|by eapply I3].
      destruct (Hsk w q Hw Hq Hm) as [x Hx]. exists x. by apply I1. }
  destruct (wrapper_method_of modpath e) as [w|] eqn:Ew.
  2: { apply Hskip; [done|]. intros w q Hw. apply written_spec in Hw. congruence. }
  assert (∀ w', written_in e w' → w' = w) as Hww.
  { intros w' Hw'. apply written_spec in Hw'. congruence. }
  destruct (found !! method_key w) as [d0|] eqn:Ef.
  { rewrite first_match_found in E by (by rewrite Ef). apply Hskip; [done|]. intros w' q ->%Hww _ _. by rewrite Ef. }
  pose proof (first_match_spec w e seeds found Ef) as Hfm.
  destruct (first_match method_of function_of matches w e seeds found) as [d|].
  2: { apply Hskip; [done|]. intros w' q ->%Hww Hq Hm. rewrite (Hfm q Hq) in Hm. done. }
  destruct (round seeds es (<[method_key w:=d]> found)) as [derived0 found0] eqn:E0. injection E as <- <-.
  destruct Hfm as (j & q & Hj & Hm & Hmin & ->). set (d := derive w q e) in *.
  destruct (IH _ _ _ E0) as (I1 & I2 & I3 & I4).
  apply written_spec in Ew as Hw.
  assert (found0 !! method_key w = Some d) as Hd0 by (apply I1, lookup_insert).
  split; [|split; [|split]].
  - intros k d' Hk. apply I1. rewrite lookup_insert_ne; [done|]. intros <-. congruence.
  - intros k d' Hk. destruct (decide (k = method_key w)) as [->|Hne].
    + rewrite Hd0. split.
      * intros [= <-]. exists 0, e, w, j, q. split; [done|]. split; [done|]. split; [done|]. split; [done|]. split; [done|]. split; [done|].
        split; [done|]. lia.
      * intros (i & e0 & w0 & j0 & q0 & Hi & Hw0 & Hkw & Hj0 & Hm0 & Hq0 & Hd & Hmin0). destruct i as [|i].
        -- cbn in Hi. injection Hi as <-. apply Hww in Hw0 as ->. assert (j0 = j) as ->.
           { destruct (Nat.lt_trichotomy j0 j) as [Hl|[He|Hl]]; [|done|].
             - rewrite (Hmin _ _ Hl Hj0) in Hm0. done.
             - rewrite (Hq0 _ _ Hl Hj) in Hm. done. }
           rewrite Hj in Hj0. injection Hj0 as <-. by rewrite Hd.
        -- exfalso. specialize (Hmin0 0 e w q ltac:(lia) eq_refl Hw eq_refl). rewrite Hmin0 in Hm; [done|]. by eapply elem_of_list_lookup_2.
    + rewrite (I2 k d' ltac:(by rewrite lookup_insert_ne)). split.
      * intros (i & e0 & w0 & j0 & q0 & Hi & Hw0 & Hkw & Hj0 & Hm0 & Hq0 & Hd & Hmin0).
        exists (S i), e0, w0, j0, q0. split; [done|]. split; [done|]. split; [done|]. split; [done|]. split; [done|]. split; [done|]. split; [done|].
        intros [|i'] e' w' q' Hi' He' Hw' Hk' Hq'; [|by apply (Hmin0 i' e' w' q'); [lia|..]].
        cbn in He'. injection He' as <-. apply Hww in Hw' as ->. by subst k.
      * intros (i & e0 & w0 & j0 & q0 & Hi & Hw0 & Hkw & Hj0 & Hm0 & Hq0 & Hd & Hmin0). destruct i as [|i].
        { cbn in Hi. injection Hi as <-. apply Hww in Hw0 as ->. by subst k. }
        exists i, e0, w0, j0, q0. split; [done|]. split; [done|]. split; [done|]. split; [done|]. split; [done|]. split; [done|]. split; [done|].
        intros i' e' w' q' Hi' He'. apply (Hmin0 (S i')); [lia|done].
  - intros e0 w0 q0 He0 Hw0 Hq0 Hm0. apply elem_of_cons in He0 as [->|He0]; [|by eapply I3]. apply Hww in Hw0 as ->. by rewrite Hd0.
  - intros p. rewrite elem_of_app, I4. split.
    + intros [Hp|(k & d' & Hk & Hk' & Hc & Hp)].
      * destruct (dw_complete d) eqn:Ec; [|by apply elem_of_nil in Hp]. apply elem_of_list_singleton in Hp as ->. exists (method_key w), d. done.
      * exists k, d'. split; [|done]. apply lookup_insert_None in Hk as [? _]. done.
    + intros (k & d' & Hk & Hk' & Hc & Hp). destruct (decide (k = method_key w)) as [->|Hne].
      * left. assert (d' = d) as -> by congruence. rewrite Hc. apply elem_of_list_singleton. done.
      * right. exists k, d'. split; [by rewrite lookup_insert_ne|done].
Qed.

(** The rounds as they go: the seeds and what is found after [n] of them. *)
Fixpoint run_rounds (n : nat) (seeds : list rpat) (es : list wedge) (found : gmap string dwrap) : list rpat * gmap string dwrap :=
  match n with
  | 0 => (seeds, found)
  | S n => let '(s, f) := run_rounds n seeds es found in round s es f
  end.
Lemma round_nil es found : round [] es found = ([], found).
Proof.
  revert found. induction es as [|e es IH]; intros found; cbn [derivation_round]; [done|].
  destruct (wrapper_method_of modpath e) as [w|]; [|apply IH]. cbn [first_match]. apply IH.
Qed.
Lemma run_rounds_front n : ∀ seeds es found,
  run_rounds (S n) seeds es found = let '(s, f) := round seeds es found in run_rounds n s es f.
Proof.
  induction n as [|n IH]; intros seeds es found.
  - cbn [run_rounds]. by destruct (round seeds es found).
  - change (run_rounds (S (S n)) seeds es found) with (let '(s, f) := run_rounds (S n) seeds es found in round s es f).
    rewrite IH. by destruct (round seeds es found).
Qed.
Lemma run_rounds_nil n es found : run_rounds n [] es found = ([], found).
Proof. induction n as [|n IH]; [done|]. cbn [run_rounds]. rewrite IH. apply round_nil. Qed.
Lemma rounds_run n : ∀ seeds es found, rounds n seeds es found = (run_rounds n seeds es found).2.
Proof.
  induction n as [|n IH]; intros seeds es found; [done|]. rewrite run_rounds_front. cbn [derivation_rounds].
  destruct (round seeds es found) as [s f]. destruct s as [|p s].
  - by rewrite run_rounds_nil.
  - apply IH.
Qed.
Lemma run_mono n m seeds es k d : n ≤ m → (run_rounds n seeds es ∅).2 !! k = Some d → (run_rounds m seeds es ∅).2 !! k = Some d.
Proof.
  induction 1 as [|m Hle IH]; [done|]. intros H. specialize (IH H). cbn [run_rounds].
  destruct (run_rounds m seeds es ∅) as [s f]. destruct (round s es f) as [s' f'] eqn:E.
  apply round_spec in E as (I1 & _). cbn [snd] in *. by apply I1.
Qed.
(** A complete wrapper found in the rounds up to [n] seeds some round up to [n]+1. *)
Lemma run_seeds n : ∀ seeds es k d, (run_rounds n seeds es ∅).2 !! k = Some d → dw_complete d = true →
  ∃ m, 1 ≤ m ≤ n ∧ dw_pat d ∈ (run_rounds m seeds es ∅).1.
Proof.
  induction n as [|n IH]; intros seeds es k d Hk Hc; [cbn in Hk; by rewrite lookup_empty in Hk|].
  destruct ((run_rounds n seeds es ∅).2 !! k) as [d'|] eqn:En.
  - assert (d' = d) as ->. { apply (run_mono n (S n)) in En; [|lia]. congruence. }
    destruct (IH _ _ _ _ En Hc) as (m & Hm & Hp). exists m. split; [lia|done].
  - exists (S n). split; [lia|]. cbn [run_rounds] in *. destruct (run_rounds n seeds es ∅) as [s f] eqn:Er.
    destruct (round s es f) as [s' f'] eqn:E. apply round_spec in E as (_ & _ & _ & I4). cbn [fst snd] in *. apply I4. exists k, d. done.
Qed.
(** The seeds of a round after the first belong to complete wrappers found. *)
Lemma seeds_found n seeds es p : p ∈ (run_rounds (S n) seeds es ∅).1 →
  ∃ k d, (run_rounds n seeds es ∅).2 !! k = None ∧ (run_rounds (S n) seeds es ∅).2 !! k = Some d ∧ dw_complete d = true ∧ dw_pat d = p.
Proof.
  cbn [run_rounds]. destruct (run_rounds n seeds es ∅) as [s f] eqn:Er. destruct (round s es f) as [s' f'] eqn:E.
  apply round_spec in E as (_ & _ & _ & I4). cbn [fst snd]. by intros ?%I4.
Qed.
Lemma found_rests n seeds es k d : (run_rounds n seeds es ∅).2 !! k = Some d →
  ∀ N, n ≤ N → ∃ m, m ≤ n ∧ rests_on matches modpath seeds es (run_rounds N seeds es ∅).2 m k.
Proof.
  revert k d. induction n as [|n IH]; intros k d Hk N HN; [cbn in Hk; by rewrite lookup_empty in Hk|].
  destruct ((run_rounds n seeds es ∅).2 !! k) as [d'|] eqn:En.
  { destruct (IH k d' En N ltac:(lia)) as (m & Hm & Hr). exists m. split; [lia|done]. }
  cbn [run_rounds] in Hk. destruct (run_rounds n seeds es ∅) as [s f] eqn:Er.
  destruct (round s es f) as [s' f'] eqn:E. apply round_spec in E as (_ & I2 & _). cbn [fst snd] in *.
  apply I2 in Hk as (i & e & w & j & q & Hi & Hw & Hkw & Hj & Hm & _ & Hd & _); [|done].
  assert (q ∈ s) as Hq by (by eapply elem_of_list_lookup_2). assert (e ∈ es) as He by (by eapply elem_of_list_lookup_2).
  destruct n as [|n].
  - cbn in Er. injection Er as <- <-. exists 1. split; [done|]. rewrite <- Hkw. by econstructor.
  - pose proof (seeds_found n seeds es q) as Hs. rewrite Er in Hs. cbn [fst snd] in Hs.
    destruct (Hs Hq) as (k' & d' & _ & Hk' & Hc & Hp).
    destruct (IH k' d' Hk' N ltac:(lia)) as (m & Hmn & Hr). exists (S m). split; [lia|]. rewrite <- Hkw.
    eapply rests_step; [exact Hr| |exact Hc|exact He|exact Hw|by rewrite Hp].
    apply (run_mono (S n)); [lia|]. by rewrite Er.
Qed.
Lemma rests_found N seeds es m k : m ≤ N → rests_on matches modpath seeds es (run_rounds N seeds es ∅).2 m k →
  ∃ d, (run_rounds m seeds es ∅).2 !! k = Some d.
Proof.
  intros HmN H. induction H as [e w q He Hw Hq Hm|m k d e w Hr IH Hk Hc He Hw Hm].
  - cbn [run_rounds]. destruct (round seeds es ∅) as [s f] eqn:E. apply round_spec in E as (_ & _ & I3 & _). cbn [snd].
    destruct (I3 e w q He Hw Hq Hm) as [d Hd]. by exists d.
  - destruct (IH ltac:(lia)) as (d' & Hd'). assert (d' = d) as ->.
    { apply (run_mono m N) in Hd'; [|lia]. congruence. }
    destruct (run_seeds m seeds es k d Hd' Hc) as (r & Hrm & Hp).
    assert (∃ d2, (run_rounds (S r) seeds es ∅).2 !! method_key w = Some d2) as (d2 & Hd2).
    { cbn [run_rounds]. destruct (run_rounds r seeds es ∅) as [s f]. destruct (round s es f) as [s' f'] eqn:E.
      apply round_spec in E as (_ & _ & I3 & _). cbn [fst snd] in *. destruct (I3 e w _ He Hw Hp Hm) as [x Hx]. by exists x. }
    exists d2. apply (run_mono (S r)); [lia|done].
Qed.
Lemma found_derived n seeds es k d : (run_rounds n seeds es ∅).2 !! k = Some d →
  ∃ e w q, e ∈ es ∧ written_in e w ∧ method_key w = k ∧ matches q e = true ∧ d = derive w q e ∧
    (q ∈ seeds ∨ ∃ k' d', (run_rounds n seeds es ∅).2 !! k' = Some d' ∧ dw_complete d' = true ∧ q = dw_pat d').
Proof.
  revert k d. induction n as [|n IH]; intros k d Hk; [cbn in Hk; by rewrite lookup_empty in Hk|].
  destruct ((run_rounds n seeds es ∅).2 !! k) as [d'|] eqn:En.
  { assert (d' = d) as ->. { apply (run_mono n (S n)) in En; [|lia]. congruence. }
    destruct (IH k d En) as (e & w & q & He & Hw & Hkw & Hm & Hd & Hq). exists e, w, q. split; [done|]. split; [done|]. split; [done|]. split; [done|].
    split; [done|]. destruct Hq as [Hq|(k' & d' & Hk' & ?)]; [by left|]. right. exists k', d'. split; [|done]. by apply (run_mono n); [lia|]. }
  pose proof Hk as Hk0. cbn [run_rounds] in Hk. destruct (run_rounds n seeds es ∅) as [s f] eqn:Er.
  destruct (round s es f) as [s' f'] eqn:E. apply round_spec in E as (_ & I2 & _). cbn [fst snd] in *.
  apply I2 in Hk as (i & e & w & j & q & Hi & Hw & Hkw & Hj & Hm & _ & Hd & _); [|done].
  exists e, w, q. split; [by eapply elem_of_list_lookup_2|]. split; [done|]. split; [done|]. split; [done|]. split; [done|].
  assert (q ∈ s) as Hq by (by eapply elem_of_list_lookup_2). destruct n as [|n].
  - cbn in Er. injection Er as <- <-. by left.
  - right. pose proof (seeds_found n seeds es q) as Hs. rewrite Er in Hs. cbn [fst snd] in Hs.
    destruct (Hs Hq) as (k' & d' & _ & Hk' & Hc & Hp). exists k', d'. split; [|done]. apply (run_mono (S n)); [lia|]. by rewrite Er.
Qed.
End params.
