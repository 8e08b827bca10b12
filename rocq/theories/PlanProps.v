(** * C92: what the tree lists below a node. *)
From Coq Require Import Ascii.
From stdpp Require Import base list strings gmap relations.
From Verif Require Import StrLib IdModel PlanModel.

(** ** Specification *)
Section spec.
  Context (c : pctx).
  (** The call that gave the variable [v] of function [f] its value last. *)
  Definition producer (v p f : string) (k : string) : Prop :=
    ∃ l1 r l2, px_rels c = l1 ++ r :: l2 ∧ pr_var r = v ∧ pr_pkg r = p ∧ pr_fn r = f ∧ pkey (pr_edge r) = k ∧ (∀ r', r' ∈ l2 → ¬ (pr_var r' = v ∧ pr_pkg r' = p ∧ pr_fn r' = f)).
  (** The call [e] belongs below the call with key [k]: it is a method of a variable that call gave its value in the same function, or of a parameter
      that is bound to a variable that call gave its value. *)
  Inductive belongs (k : string) (e : pedge) : Prop :=
    | by_variable r : r ∈ px_rels c → pkey (pr_edge r) = k → pr_fn r = pe_fn (pr_edge r) → e ∈ px_es c → pe_var e ≠ "" → pe_var e = pr_var r → pe_base e = pe_base (pr_edge r) → belongs k e
    | by_parameter e' p a v pkg f : e' ∈ px_es c → (p, a) ∈ pe_params e' → pa_ident a = true → px_trace c (pa_name a) (pe_fn e') (pe_pkg e') = (v, pkg, f) → producer v pkg f k →
        e ∈ px_es c → pe_var e ≠ "" → pe_var e = p → pe_base e = pe_callee_base e' → belongs k e.
  (** An argument of some call has the ID of this one. *)
  Definition is_argument (e : pedge) : Prop := ∃ e' a, e' ∈ px_es c ∧ a ∈ pe_args e' ∧ pa_id a ≠ "" ∧ unstar (pa_id a) = pkey e.
  (** [e] is a call written in the function [f] that does not belong elsewhere. *)
  Definition own_call (f : string) (e : pedge) : Prop := e ∈ px_es c ∧ pe_base e = f ∧ (∀ k, ¬ belongs k e) ∧ pe_callee e ≠ pe_caller e ∧ pe_name e ≠ "nil" ∧ ¬ is_argument e.
  (** The functions the node stands for. *)
  Definition functions (n : pnode) : list string := strip_to_base (pn_key n) :: px_bodies c n ++ (strip_to_base <$> px_prods c n).
  (** The calls that are to be below the node; the flag says whether their type arguments matter. *)
  Inductive below (n : pnode) (e : pedge) : bool → Prop :=
    | own f : f ∈ functions n → own_call f e → below n e true
    | closure f : f ∈ functions n → (∀ e', ¬ own_call f e') → e ∈ px_parents c f → below n e false
    | received k : k = pn_key n ∨ k ∈ px_prods c n → belongs k e → below n e true
    | chained k : e ∈ px_es c → pe_chain e = Some k → unstar k = pn_key n → below n e true.
End spec.
Definition is_callee (s : pspec) : bool := match s with PSCallee _ _ _ => true | _ => false end.
Definition callees (l : list pspec) : list pspec := filter (λ s, is_callee s = true) l.

(** ** Proofs *)
Section proofs.
  Context (c : pctx).
  Lemma elem_recv e v b : e ∈ recv_edges c v b ↔ e ∈ px_es c ∧ pe_var e ≠ "" ∧ pe_var e = v ∧ pe_base e = b.
  Proof. unfold recv_edges. rewrite elem_of_list_filter. tauto. Qed.
  Lemma producer_spec v p f k : producer_of c v p f = Some k ↔ producer c v p f k.
  Proof.
    unfold producer_of, producer. split.
    - intros H. apply fmap_Some in H as (r & Hl & ->). revert Hl. induction (px_rels c) as [|r' l IH] using rev_ind; [done|]. rewrite filter_app, filter_cons, filter_nil. destruct (decide (pr_var r' = v ∧ pr_pkg r' = p ∧ pr_fn r' = f)) as [Hd|Hd].
      + rewrite last_snoc. intros [= ->]. exists l, r, []. destruct Hd as (? & ? & ?). split; [done|]. do 4 (split; [done|]). by intros ? ?%elem_of_nil.
      + rewrite app_nil_r. intros Hl. destruct (IH Hl) as (l1 & r0 & l2 & -> & H1 & H2 & H3 & H4 & H5). exists l1, r0, (l2 ++ [r']). split; [by rewrite <- app_assoc|]. do 4 (split; [done|]). intros x [Hx|Hx]%elem_of_app; [by apply H5|]. by apply elem_of_list_singleton in Hx as ->.
    - intros (l1 & r & l2 & -> & H1 & H2 & H3 & H4 & H5). rewrite filter_app, filter_cons, decide_True by done. assert (filter (λ r, pr_var r = v ∧ pr_pkg r = p ∧ pr_fn r = f) l2 = []) as ->.
      { clear -H5. induction l2 as [|x l IH]; [done|]. rewrite filter_cons, decide_False by (apply H5, elem_of_cons; by left). apply IH. intros y Hy. apply H5, elem_of_cons. by right. }
      by rewrite last_app, <- H4.
  Qed.
  Lemma claims_spec k e : (k, e) ∈ claims c ↔ belongs c k e.
  Proof.
    unfold claims. rewrite elem_of_app. split.
    - intros [H|H].
      + unfold assign_claims in H. apply elem_of_list_bind in H as (r & H & Hr). destruct (decide (pr_fn r = pe_fn (pr_edge r))) as [Hf|]; [|by apply elem_of_nil in H]. apply elem_of_list_fmap in H as (e' & [= -> ->] & He). apply elem_recv in He as (? & ? & ? & ?). by eapply by_variable.
      + unfold param_claims in H. apply elem_of_list_bind in H as (e' & H & He'). apply elem_of_list_bind in H as ([p a] & H & Hpa). destruct (pa_ident a) eqn:Ea; [|by apply elem_of_nil in H]. destruct (px_trace c (pa_name a) (pe_fn e') (pe_pkg e')) as [[v pkg] f] eqn:Et.
        destruct (producer_of c v pkg f) as [k'|] eqn:Ep; [|by apply elem_of_nil in H]. apply elem_of_list_fmap in H as (e'' & [= -> ->] & He). apply elem_recv in He as (? & ? & ? & ?). eapply by_parameter; try done. by apply producer_spec.
    - intros [r H1 H2 H3 H4 H5 H6 H7|e' p a v pkg f H1 H2 H3 H4 H5 H6 H7 H8 H9].
      + left. unfold assign_claims. apply elem_of_list_bind. exists r. split; [|done]. rewrite decide_True by done. apply elem_of_list_fmap. exists e. split; [by rewrite H2|]. by apply elem_recv.
      + right. unfold param_claims. apply elem_of_list_bind. exists e'. split; [|done]. apply elem_of_list_bind. exists (p, a). split; [|done]. rewrite H3, H4. apply producer_spec in H5. rewrite H5. apply elem_of_list_fmap. exists e. split; [done|]. by apply elem_recv.
  Qed.
  Lemma elem_receiver k e : e ∈ receiver_children c k ↔ belongs c k e.
  Proof.
    unfold receiver_children. rewrite <- claims_spec, elem_of_list_fmap. split.
    - intros ([k' e'] & -> & H). apply elem_of_list_filter in H as [H1 H2]. cbn in *. by subst k'.
    - intros H. exists (k, e). split; [done|]. by apply elem_of_list_filter.
  Qed.
  Lemma claimed_spec e : claimed c e = false ↔ ∀ k, ¬ belongs c k e.
  Proof.
    unfold claimed. rewrite bool_decide_eq_false. split.
    - intros H k Hk%claims_spec. apply H. apply elem_of_list_fmap. by exists (k, e).
    - intros H Hin. apply elem_of_list_fmap in Hin as ([k e'] & -> & Hk%claims_spec). by apply (H k).
  Qed.
  Lemma elem_arg_ids e : pkey e ∈ arg_ids c ↔ is_argument c e.
  Proof.
    unfold arg_ids, is_argument. rewrite elem_of_list_bind. split.
    - intros (e' & H & He'). apply elem_of_list_fmap in H as (s & Hs & H). apply elem_of_list_filter in H as [H1 H2]. apply elem_of_list_fmap in H2 as (a & -> & Ha). by exists e', a.
    - intros (e' & a & H1 & H2 & H3 & H4). exists e'. split; [|done]. apply elem_of_list_fmap. exists (pa_id a). split; [done|]. apply elem_of_list_filter. split; [done|]. by apply elem_of_list_fmap_1.
  Qed.
  Lemma elem_edges_for f e : e ∈ edges_for c f ↔ own_call c f e.
  Proof. unfold edges_for, own_call. rewrite elem_of_list_filter, claimed_spec, elem_arg_ids. tauto. Qed.
  Lemma elem_expand f e ch g : (e, ch, g) ∈ expand_key c f ↔ ch = false ∧ ((g = true ∧ own_call c f e) ∨ (g = false ∧ (∀ e', ¬ own_call c f e') ∧ e ∈ px_parents c f)).
  Proof.
    unfold expand_key. destruct (edges_for c f) as [|x l] eqn:E.
    - assert (∀ e', ¬ own_call c f e') as Hn. { intros e' H%elem_edges_for. rewrite E in H. by apply elem_of_nil in H. }
      rewrite elem_of_list_fmap. split.
      + intros (e' & [= -> -> ->] & H). auto.
      + intros (-> & [[-> H]|(-> & _ & H)]); [by destruct (Hn e)|]. by exists e.
    - assert (∀ e, e ∈ x :: l ↔ own_call c f e) as Hl by (intros e'; by rewrite <- E, elem_edges_for). rewrite elem_of_list_fmap. split.
      + intros (e' & [= -> -> ->] & H). split; [done|]. left. split; [done|]. by apply Hl.
      + intros (-> & [[-> H]|(-> & Hn & H)]); [exists e; split; [done|]; by apply Hl|]. destruct (Hn x). apply Hl, elem_of_cons. by left.
  Qed.
  Lemma elem_offered n e g : (∃ ch, (e, ch, g) ∈ offered c n) ↔ below c n e g.
  Proof.
    unfold offered. split.
    - intros (ch & H). rewrite !elem_of_app in H.
      assert (∀ f, f ∈ functions c n → (e, ch, g) ∈ expand_key c f → below c n e g) as Hex. { intros f Hf (-> & [[-> Ho]|(-> & Hn & Hp)])%elem_expand; [by eapply own|by eapply closure]. }
      destruct H as [H|[H|[H|[H|H]]]].
      + apply (Hex _ ltac:(apply elem_of_cons; by left) H).
      + apply elem_of_list_bind in H as (f & H & Hf). apply (Hex f); [|done]. apply elem_of_cons. right. apply elem_of_app. by left.
      + apply elem_of_list_bind in H as (p & H & Hp). apply elem_of_app in H as [H|H].
        * apply elem_of_list_fmap in H as (e' & [= -> -> ->] & He%elem_receiver). eapply received; [by right|done].
        * apply (Hex (strip_to_base p)); [|done]. apply elem_of_cons. right. apply elem_of_app. right. by apply elem_of_list_fmap_1.
      + apply elem_of_list_fmap in H as (e' & [= -> -> ->] & He). unfold chain_children in He. apply elem_of_list_filter in He as [H1 H2]. apply fmap_Some in H1 as (k & Hk & Hu). by eapply chained.
      + apply elem_of_list_fmap in H as (e' & [= -> -> ->] & He%elem_receiver). eapply received; [by left|done].
    - intros H.
      assert (∀ f x, f ∈ functions c n → x ∈ expand_key c f → x ∈ offered c n) as Hex.
      { intros f x Hf Hx. unfold offered. rewrite !elem_of_app. apply elem_of_cons in Hf as [->|Hf]; [by left|]. apply elem_of_app in Hf as [Hf|Hf]; [right; left; apply elem_of_list_bind; by exists f|]. right. right. left. apply elem_of_list_fmap in Hf as (p & -> & Hp). apply elem_of_list_bind. exists p. split; [|done]. apply elem_of_app. by right. }
      destruct H as [f Hf Ho|f Hf Hn Hp|k Hk Hb|k He Hc Hu].
      + exists false. apply (Hex f); [done|]. apply elem_expand. auto.
      + exists false. apply (Hex f); [done|]. apply elem_expand. auto.
      + exists false. rewrite !elem_of_app. apply elem_receiver in Hb. destruct Hk as [->|Hk].
        * right. right. right. right. apply elem_of_list_fmap. by exists e.
        * right. right. left. apply elem_of_list_bind. exists k. split; [|done]. apply elem_of_app. left. apply elem_of_list_fmap. by exists e.
      + exists true. rewrite !elem_of_app. right. right. right. left. apply elem_of_list_fmap. exists e. split; [done|]. unfold chain_children. apply elem_of_list_filter. split; [|done]. rewrite Hc. cbn. by rewrite Hu.
  Qed.
  Lemma take_spec n : ∀ l added, NoDup (spec_key <$> take_callees c n added l) ∧ (∀ s, s ∈ take_callees c n added l → ∃ e ch g, s = PSCallee (pkey e) e ch ∧ (e, ch, g) ∈ l ∧ (g = true → gen_ok c n e = true) ∧ pkey e ∉ added) ∧
    (∀ e ch g, (e, ch, g) ∈ l → (g = true → gen_ok c n e = true) → pkey e ∈ added ∨ pkey e ∈ spec_key <$> take_callees c n added l).
  Proof.
    induction l as [|[[e ch] g] l IH]; intros added; [split; [constructor|split; [by intros s ?%elem_of_nil|by intros e ch g ?%elem_of_nil]]|]. cbn [take_callees].
    destruct (bool_decide (pkey e ∈ added) || (g && negb (gen_ok c n e))) eqn:Eb.
    - destruct (IH added) as (H1 & H2 & H3). split; [done|]. split.
      + intros s Hs. destruct (H2 s Hs) as (e' & ch' & g' & H4 & H5 & H6). exists e', ch', g'. split; [done|]. split; [apply elem_of_cons; by right|done].
      + intros e' ch' g' He Hg. apply elem_of_cons in He as [He|He]; [|by eapply H3]. injection He as -> -> ->. apply orb_true_iff in Eb as [Eb%bool_decide_eq_true|Eb]; [by left|]. destruct g; [|done]. rewrite (Hg eq_refl) in Eb. done.
    - apply orb_false_iff in Eb as [Ea%bool_decide_eq_false Eg]. destruct (IH (pkey e :: added)) as (H1 & H2 & H3). split; [|split].
      + cbn [fmap list_fmap spec_key]. apply NoDup_cons. split; [|done]. intros Hin. apply elem_of_list_fmap in Hin as (s & Hk & Hs). destruct (H2 s Hs) as (e' & ch' & g' & -> & _ & _ & Hn). cbn in Hk. apply Hn. rewrite <- Hk. apply elem_of_cons. by left.
      + intros s Hs. apply elem_of_cons in Hs as [->|Hs].
        * exists e, ch, g. split; [done|]. split; [apply elem_of_cons; by left|]. split; [|done]. intros ->. by destruct (gen_ok c n e).
        * destruct (H2 s Hs) as (e' & ch' & g' & H4 & H5 & H6 & H7). exists e', ch', g'. split; [done|]. split; [apply elem_of_cons; by right|]. split; [done|]. intros Hx. apply H7, elem_of_cons. by right.
      + intros e' ch' g' He Hg. cbn [fmap list_fmap spec_key]. apply elem_of_cons in He as [He|He]; [injection He as -> -> ->; right; apply elem_of_cons; by left|]. destruct (H3 e' ch' g' He Hg) as [Hx|Hx]; [|right; apply elem_of_cons; by right]. apply elem_of_cons in Hx as [->|Hx]; [right; apply elem_of_cons; by left|by left].
  Qed.
  Lemma toward_perm l : toward_routes c l ≡ₚ l.
  Proof.
    unfold toward_routes. destruct (px_leads c) as [leads|]; [|done].
    assert (filter (λ s, leads (spec_key s) = true) l ++ filter (λ s, leads (spec_key s) = false) l ≡ₚ l) as Hp.
    { induction l as [|s l IH]; [done|]. rewrite !filter_cons. destruct (leads (spec_key s)) eqn:E.
      - rewrite decide_True, decide_False by done. cbn. by rewrite IH.
      - rewrite decide_False, decide_True by done. rewrite <- Permutation_middle. by rewrite IH. }
    destruct (filter (λ s, leads (spec_key s) = true) l) as [|x l1]; [done|]. destruct (filter (λ s, leads (spec_key s) = false) l) as [|y l2]; [done|]. exact Hp.
  Qed.
  Lemma callees_plan n : callees (build_plan c n) = toward_routes c (take_callees c n [] (offered c n)).
  Proof.
    unfold callees, build_plan. rewrite filter_app. assert (filter (λ s, is_callee s = true) (arg_specs c n) = []) as ->.
    { unfold arg_specs. destruct (owner c n) as [o|]; [|done]. induction (filter (λ a, ¬ arg_skip o a) (take (px_max c) (pe_args o))) as [|a l IH]; [done|]. cbn [fmap list_fmap]. by rewrite filter_cons, decide_False. }
    cbn [app]. assert (∀ l : list pspec, (∀ s, s ∈ l → is_callee s = true) → filter (λ s, is_callee s = true) l = l) as Hall.
    { induction l as [|s l IH]; intros H; [done|]. rewrite filter_cons, decide_True by (apply H, elem_of_cons; by left). f_equal. apply IH. intros x Hx. apply H, elem_of_cons. by right. }
    apply Hall. intros s Hs. rewrite toward_perm in Hs. destruct (take_spec n (offered c n) []) as (_ & H & _). by destruct (H s Hs) as (e & ch & g & -> & _).
  Qed.
End proofs.

(** ** The property *)
(** The calls listed below a node are exactly those to be below it whose type arguments fit, one for each ID. *)
Theorem C92_callees c n :
  NoDup (spec_key <$> callees (build_plan c n)) ∧
  (∀ s, s ∈ callees (build_plan c n) → ∃ e ch g, s = PSCallee (pkey e) e ch ∧ below c n e g ∧ (g = true → gen_ok c n e = true)) ∧
  (∀ e g, below c n e g → (g = true → gen_ok c n e = true) → pkey e ∈ spec_key <$> callees (build_plan c n)).
Proof.
  rewrite callees_plan. destruct (take_spec c n (offered c n) []) as (H1 & H2 & H3). split; [by rewrite (toward_perm c)|]. split.
  - intros s Hs. rewrite (toward_perm c) in Hs. destruct (H2 s Hs) as (e & ch & g & -> & He & Hg & _). exists e, ch, g. split; [done|]. split; [|done]. apply elem_offered. by exists ch.
  - intros e g Hb Hg. apply elem_offered in Hb as (ch & Hb). rewrite (toward_perm c). by destruct (H3 e ch g Hb Hg) as [?%elem_of_nil|?].
Qed.
(** The arguments come first: those of the call the node stands for, or of its nested call, in order and up to the limit. *)
Theorem C92_arguments c n (o : pedge) : owner c n = Some o → ∃ rest, build_plan c n = arg_specs c n ++ rest ∧ (∀ s, s ∈ rest → ∃ k e ch, s = PSCallee k e ch) ∧
  (λ s, match s with PSArg _ a _ => Some a | _ => None end) <$> arg_specs c n = Some <$> filter (λ a, pa_id a ≠ "" ∧ pa_name a ≠ "nil" ∧ strip_to_base (pa_id a) ≠ pe_caller o ∧ pa_id a ≠ pe_callee o) (take (px_max c) (pe_args o)).
Proof.
  intros Ho. eexists. split; [reflexivity|]. split.
  - intros s Hs. rewrite (toward_perm c) in Hs. destruct (take_spec c n (offered c n) []) as (_ & H & _). destruct (H s Hs) as (e & ch & g & -> & _). by eexists _, _, _.
  - unfold arg_specs. rewrite Ho, <- list_fmap_compose. induction (take (px_max c) (pe_args o)) as [|a l IH]; [done|]. rewrite !filter_cons. destruct (decide (arg_skip o a)) as [Hs|Hs].
    + rewrite decide_False by tauto. rewrite decide_False; [done|]. unfold arg_skip in Hs. intros (? & ? & ? & ?). destruct Hs as [?|[?|[?|?]]]; congruence.
    + rewrite decide_True by done. rewrite decide_True; [cbn; by rewrite <- IH|]. unfold arg_skip in Hs. repeat split; intros Hx; apply Hs; auto.
Qed.
(** With a route matcher the calls that lead to a route come first; nothing is lost, and the order of the others and of these is kept. *)
Theorem C92_toward_routes c n (leads : string → bool) : px_leads c = Some leads → let before := take_callees c n [] (offered c n) in let after := callees (build_plan c n) in
  after ≡ₚ before ∧ (∀ b : bool, filter (λ s, leads (spec_key s) = b) after = filter (λ s, leads (spec_key s) = b) before) ∧
  (∀ i j s s', after !! i = Some s → after !! j = Some s' → leads (spec_key s) = false → leads (spec_key s') = true → j < i).
Proof.
  intros Hl before after. unfold after. rewrite callees_plan. fold before. split; [apply toward_perm|].
  assert (toward_routes c before = filter (λ s, leads (spec_key s) = true) before ++ filter (λ s, leads (spec_key s) = false) before) as ->.
  { unfold toward_routes. rewrite Hl. generalize before. intros l. destruct (filter (λ s, leads (spec_key s) = true) l) as [|x l1] eqn:E1.
    - assert (filter (λ s, leads (spec_key s) = false) l = l) as ->; [|done]. clear -E1. induction l as [|y l IH]; [done|]. rewrite filter_cons in E1. destruct (decide (leads (spec_key y) = true)) as [|Hy]; [done|]. rewrite filter_cons, decide_True by (by destruct (leads (spec_key y))). by rewrite IH.
    - destruct (filter (λ s, leads (spec_key s) = false) l) as [|y l2] eqn:E2; [|done]. rewrite app_nil_r, <- E1. clear -E2. induction l as [|y l IH]; [done|]. rewrite filter_cons in E2. destruct (decide (leads (spec_key y) = false)) as [|Hy]; [done|]. rewrite filter_cons, decide_True by (by destruct (leads (spec_key y))). f_equal. by apply IH. }
  assert (∀ (b b' : bool) (l : list pspec), filter (λ s, leads (spec_key s) = b) (filter (λ s, leads (spec_key s) = b') l) = if decide (b = b') then filter (λ s, leads (spec_key s) = b) l else []) as Hff.
  { intros b b' l. induction l as [|s l IH]; [by destruct (decide (b = b'))|]. rewrite filter_cons. destruct (decide (leads (spec_key s) = b')) as [Hs|Hs].
    - rewrite !filter_cons, IH. destruct (decide (b = b')) as [->|Hb]; [by rewrite decide_True by done|]. by rewrite decide_False by congruence.
    - rewrite IH. destruct (decide (b = b')) as [->|Hb]; [|done]. by rewrite filter_cons, decide_False by done. }
  split.
  - intros b. rewrite filter_app, !Hff. destruct b; repeat first [rewrite decide_True by done | rewrite decide_False by done]; by rewrite ?app_nil_r.
  - intros i j s s' Hi Hj Hs Hs'. apply lookup_app_Some in Hi as [Hi|[Hi Hi']].
    + apply elem_of_list_lookup_2, elem_of_list_filter in Hi as [Hi _]. congruence.
    + apply lookup_app_Some in Hj as [Hj|[Hj Hj']]; [apply lookup_lt_Some in Hj; lia|]. apply elem_of_list_lookup_2, elem_of_list_filter in Hj' as [Hj' _]. congruence.
Qed.
(** No call of a function is dropped from the tables: each either is listed below every node of its function, or there is a key such that it is listed below every
    node with that key. *)
Theorem C92_somewhere c e : e ∈ px_es c → pe_callee e ≠ pe_caller e → pe_name e ≠ "nil" → ¬ is_argument c e →
  (∀ n, strip_to_base (pn_key n) = pe_base e → gen_ok c n e = true → pkey e ∈ spec_key <$> callees (build_plan c n)) ∨
  (∃ k, belongs c k e ∧ ∀ n, pn_key n = k → gen_ok c n e = true → pkey e ∈ spec_key <$> callees (build_plan c n)).
Proof.
  intros He Hs Hn Ha. destruct (claimed c e) eqn:Ec.
  - right. unfold claimed in Ec. apply bool_decide_eq_true, elem_of_list_fmap in Ec as ([k e'] & -> & Hk%claims_spec). exists k. split; [done|]. intros n Hk' Hg. destruct (C92_callees c n) as (_ & _ & H). apply (H e' true); [|done]. apply (received _ _ _ k); [by left|done].
  - left. intros n Hb Hg. destruct (C92_callees c n) as (_ & _ & H). apply (H e true); [|done]. eapply own; [apply elem_of_cons; by left|]. split; [done|]. split; [done|]. split; [by apply claimed_spec|]. done.
Qed.

(** The nodes of the tree below a node, all limits of the walk aside. *)
Definition child_of (s : pspec) : pnode := match s with PSArg k a e => PNode k (Some e) (Some a) | PSCallee k e _ => PNode k (Some e) None end.
Definition child (c : pctx) (n n' : pnode) : Prop := ∃ s, s ∈ build_plan c n ∧ n' = child_of s.
Definition reaches (c : pctx) (n : pnode) (k : string) : Prop := ∃ n', rtc (child c) n n' ∧ pn_key n' = k.
(** If the calls can be ordered so that each one either is an own call of the root's function or of the function of a call before it,
    or belongs below or is chained on a call before it, then all of them are in the tree. Calls without type arguments. *)
Theorem C92_reached c root (rank : pedge → nat) (calls : list pedge) :
  (∀ e, e ∈ calls → px_gen c (pkey e) = []) →
  (∀ e, e ∈ calls → own_call c (strip_to_base (pn_key root)) e ∨
     ∃ e', e' ∈ calls ∧ rank e' < rank e ∧ (own_call c (strip_to_base (pkey e')) e ∨ belongs c (pkey e') e ∨ ∃ k, e ∈ px_es c ∧ pe_chain e = Some k ∧ unstar k = pkey e')) →
  ∀ e, e ∈ calls → reaches c root (pkey e).
Proof.
  intros Hgen Hw e. remember (rank e) as m eqn:Em. revert e Em. induction m as [m IH] using lt_wf_ind. intros e -> He.
  assert (∀ n, rtc (child c) root n → below c n e true → reaches c root (pkey e)) as Hstep.
  { intros n Hr Hb. destruct (C92_callees c n) as (_ & H2 & H3). assert (pkey e ∈ spec_key <$> callees (build_plan c n)) as Hin. { apply (H3 e true Hb). intros _. apply bool_decide_eq_true. left. by apply Hgen. }
    apply elem_of_list_fmap in Hin as (s & Hk & Hs). exists (child_of s). split.
    - eapply rtc_r; [exact Hr|]. exists s. split; [|done]. unfold callees in Hs. by apply elem_of_list_filter in Hs as [_ Hs].
    - destruct (H2 s Hs) as (e' & ch & g & -> & _). by rewrite Hk. }
  destruct (Hw e He) as [Ho|(e' & He' & Hlt & Hcase)].
  - apply (Hstep root); [done|]. eapply own; [apply elem_of_cons; by left|done].
  - destruct (IH (rank e') Hlt e' eq_refl He') as (n & Hr & Hk). apply (Hstep n Hr). destruct Hcase as [Ho|[Hb|(k & H1 & H2 & H3)]].
    + eapply own; [|exact Ho]. rewrite <- Hk. apply elem_of_cons. by left.
    + apply (received _ _ _ (pkey e')); [by left|done].
    + eapply chained; [done|done|]. by rewrite Hk.
Qed.
(** What is not so: see PlanProps2. *)
Print Assumptions C92_callees.
Print Assumptions C92_arguments.
Print Assumptions C92_toward_routes.
Print Assumptions C92_somewhere.
Print Assumptions C92_reached.
