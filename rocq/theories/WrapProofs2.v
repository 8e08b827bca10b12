(** * Proofs about the grouping of router wrappers. *)
From Coq Require Import Ascii.
From stdpp Require Import sorting.
From stdpp Require Import base list strings gmap relations.
From Coq Require Import ZArith.
From Verif Require Import StrLib StrOrder StrSplit PathModel SccSpec SecProps StatModel WrapModel WrapSpec WrapProofs.

Lemma quote_plain s : plain s → quote_meta s = s.
Proof.
  induction s as [|c s IH]; intros Hp; [done|]. cbn [quote_meta].
  assert (plain s) as Hps.
  { intros x Hx. specialize (Hp x Hx). unfold contains_byte in *. cbn [str_any] in Hp. by apply orb_false_iff in Hp as [_ ?]. }
  rewrite bool_decide_eq_false_2; [by rewrite IH|]. intros Hc. specialize (Hp c Hc). unfold contains_byte in Hp. cbn [str_any] in Hp.
  apply orb_false_iff in Hp as [Hp _]. by rewrite bool_decide_eq_true_2 in Hp.
Qed.
Lemma plain_dotless s : plain s → dotless s.
Proof. intros H. apply H. unfold special. apply (bool_decide_unpack _). by vm_compute. Qed.
Lemma plain_barless s : plain s → contains_byte "|" s = false.
Proof. intros H. apply H. unfold special. apply (bool_decide_unpack _). by vm_compute. Qed.

Lemma last_dot_inj p p' t t' : dotless t → dotless t' → p +:+ "." +:+ t = p' +:+ "." +:+ t' → p = p' ∧ t = t'.
Proof.
  intros Ht Ht' E. change ("." +:+ t) with (String "." t) in E. change ("." +:+ t') with (String "." t') in E.
  apply (f_equal (split_byte ".")) in E. rewrite !split_byte_app in E.
  rewrite (split_byte_none _ t), (split_byte_none _ t') in E by done. apply app_inj_tail in E as [E ->]. split; [|done].
  by rewrite <- (str_join_split "." p), <- (str_join_split "." p'), E.
Qed.

Lemma join_bar_inj l l' : l ≠ [] → l' ≠ [] → Forall plain l → Forall plain l' →
  "^(" +:+ str_join "|" (quote_meta <$> l) +:+ ")$" = "^(" +:+ str_join "|" (quote_meta <$> l') +:+ ")$" → l = l'.
Proof.
  intros Hn Hn' Hp Hp' E. apply sapp_inj_l in E. apply sapp_inj_r in E.
  assert (∀ l, Forall plain l → quote_meta <$> l = l) as Hq.
  { clear. intros l H. induction H as [|x l Hx H IH]; [done|]. rewrite fmap_cons, IH. by rewrite quote_plain. }
  rewrite !Hq in E by done.
  rewrite <- (split_join "|" l), <- (split_join "|" l'); [by f_equal|done| |done|].
  all: eapply Forall_impl; [eassumption|]; apply plain_barless.
Qed.

(** Sorted permutations are equal when the order tells the elements apart. *)
Lemma sorted_perm_eq {A} (R : A → A → Prop) l1 : ∀ l2, (∀ a b, a ∈ l1 → b ∈ l1 → R a b → R b a → a = b) →
  StronglySorted R l1 → StronglySorted R l2 → l1 ≡ₚ l2 → l1 = l2.
Proof.
  induction l1 as [|a l1 IH]; intros l2 Hanti S1 S2 P; [by apply Permutation_nil_l in P|].
  destruct l2 as [|b l2]; [by apply symmetry, Permutation_nil_l in P|].
  apply StronglySorted_inv in S1 as [S1 H1]. apply StronglySorted_inv in S2 as [S2 H2]. rewrite Forall_forall in H1. rewrite Forall_forall in H2.
  assert (a = b) as ->.
  { assert (b ∈ a :: l1) as Hb by (rewrite P; left). assert (a ∈ b :: l2) as Ha by (rewrite <- P; left).
    apply elem_of_cons in Hb as [Hb|Hb]; [done|]. apply elem_of_cons in Ha as [Ha|Ha]; [done|].
    apply Hanti; [left|by right|by apply H1|by apply H2]. }
  f_equal. apply IH; [|done|done|by eapply Permutation_cons_inv]. intros x y Hx Hy. apply Hanti; by right.
Qed.

(** ** The first loop *)
Lemma groups_lookup l : ∀ gk, foldl add_to_group ∅ l !! gk =
  match filter (λ d, group_key d = gk) l with
  | [] => None
  | d :: rest => Some (DWrap (dw_recv d) (concat (dw_methods <$> d :: rest)) (dw_via d) (dw_pat d) (dw_complete d))
  end.
Proof.
  induction l as [|x l IH] using rev_ind; intros gk; [cbn; apply lookup_empty|].
  rewrite foldl_snoc, filter_app. unfold add_to_group at 1.
  destruct (decide (group_key x = gk)) as [<-|Hne].
  - rewrite (filter_cons_True _ x []) by done. rewrite IH. change (filter (λ d, group_key d = group_key x) []) with (@nil dwrap).
    destruct (filter (λ d, group_key d = group_key x) l) as [|d rest]; rewrite lookup_insert.
    + cbn [app fmap list_fmap concat]. rewrite app_nil_r. by destruct x.
    + cbn [app fmap list_fmap concat dw_recv dw_methods dw_via dw_pat dw_complete]. do 2 f_equal.
      change (list_fmap dwrap (list string) dw_methods (rest ++ [x])) with (dw_methods <$> (rest ++ [x])).
      rewrite fmap_app, concat_app. cbn [fmap list_fmap concat]. rewrite app_nil_r, app_assoc. done.
  - rewrite (filter_cons_False _ x []) by done. change (filter (λ d, group_key d = gk) []) with (@nil dwrap). rewrite app_nil_r, <- IH.
    destruct (foldl add_to_group ∅ l !! group_key x); by rewrite lookup_insert_ne.
Qed.

Section groups.
Context (method_of : wmethod → option (list string * (string → list sarg))) (function_of : wmethod → option (string → list sarg)).
Notation derive := (derive_wrapper method_of function_of).
(** What is recorded comes from derivations, under the keys of plainly named methods. *)
Definition from_methods (found : gmap string dwrap) : Prop :=
  ∀ k d, found !! k = Some d → ∃ w q e, d = derive w q e ∧ k = method_key w ∧ dotless (wm_recv w) ∧ plain (wm_name w).

Lemma derive_roles w q e w' q' e' : dotless (wm_recv w) → dotless (wm_recv w') →
  group_key (derive w q e) = group_key (derive w' q' e') ↔ same_roles (derive w q e) (derive w' q' e').
Proof.
  intros Hd Hd'. unfold group_key, same_roles. split.
  - intros E.
    assert (dw_recv (derive w q e) = dw_recv (derive w' q' e')) as Hr by congruence.
    assert (rp_recv (dw_pat (derive w q e)) = rp_recv (dw_pat (derive w' q' e'))) as Hrr.
    { cbn [dw_recv derive_wrapper] in Hr. apply last_dot_inj in Hr as [Hp Ht]; [|done|done].
      cbn [dw_pat derive_wrapper rp_recv]. unfold recv_regex. by rewrite Hp, Ht. }
    cbv zeta. split; [done|]. split; [congruence|]. split; [done|].
    assert (∀ A B (a a' : A) (b b' : B), (a, b) = (a', b') → a = a' ∧ b = b') as Hpair by (intros; by apply pair_equal_spec).
    apply Hpair in E as [E _]. apply Hpair in E as [_ E].
    apply Hpair in E as [E E7]. apply Hpair in E as [E E6]. apply Hpair in E as [E E5]. apply Hpair in E as [E E4].
    apply Hpair in E as [E E3]. apply Hpair in E as [E1 E2]. done.
  - cbv zeta. intros (-> & -> & _ & -> & -> & -> & -> & -> & -> & -> & _). done.
Qed.

Context (found : gmap string dwrap) (Hwf : from_methods found).
Definition entries (it : list (string * dwrap)) : list dwrap := it.*2.
Lemma entry_of it d : it ≡ₚ map_to_list found → d ∈ it.*2 ↔ ∃ k, found !! k = Some d.
Proof.
  intros Hp. rewrite elem_of_list_fmap. split.
  - intros ([k d'] & -> & Hin). rewrite Hp in Hin. apply elem_of_map_to_list in Hin. by exists k.
  - intros (k & Hk). exists (k, d). split; [done|]. rewrite Hp. by apply elem_of_map_to_list.
Qed.
Lemma entry_key k d : found !! k = Some d → ∃ m, dw_methods d = [m] ∧ k = dw_recv d +:+ "." +:+ m ∧ plain m.
Proof. intros H. destruct (Hwf _ _ H) as (w & q & e & -> & -> & _ & Hp). exists (wm_name w). done. Qed.
Lemma entry_unique k k' d d' m : found !! k = Some d → found !! k' = Some d' → dw_methods d = [m] → dw_methods d' = [m] →
  dw_recv d = dw_recv d' → d = d'.
Proof.
  intros H H' Hm Hm' Hr. destruct (entry_key _ _ H) as (x & Hx & Hk & _). destruct (entry_key _ _ H') as (x' & Hx' & Hk' & _).
  assert (x = m) as -> by congruence. assert (x' = m) as -> by congruence. rewrite Hr, <- Hk' in Hk. congruence.
Qed.
Lemma entry_roles k k' d d' : found !! k = Some d → found !! k' = Some d' → group_key d = group_key d' ↔ same_roles d d'.
Proof.
  intros H H'. destruct (Hwf _ _ H) as (w & q & e & -> & _ & Hd & _). destruct (Hwf _ _ H') as (w' & q' & e' & -> & _ & Hd' & _).
  by apply derive_roles.
Qed.

(** A group: what the second loop makes of the entries with one key. *)
Definition group_of (it : list (string * dwrap)) (gk : string * (bool * Z * bool * Z * bool * Z * bool) * bool) : option dwrap :=
  finish_group <$> foldl add_to_group ∅ it.*2 !! gk.
Lemma group_of_spec it gk g : it ≡ₚ map_to_list found → group_of it gk = Some g →
  ∃ k d, found !! k = Some d ∧ group_key d = gk ∧ same_roles g d ∧
    dw_methods g = ssort (concat (dw_methods <$> filter (λ d, group_key d = gk) it.*2)) ∧
    rp_call (dw_pat g) = "^(" +:+ str_join "|" (quote_meta <$> dw_methods g) +:+ ")$" ∧
    dw_via g = dw_via d.
Proof.
  intros Hp E. unfold group_of in E. rewrite groups_lookup in E.
  destruct (filter (λ d, group_key d = gk) it.*2) as [|d rest] eqn:Ef; [done|].
  cbn [fmap option_fmap option_map] in E. injection E as <-.
  assert (d ∈ filter (λ d, group_key d = gk) it.*2) as Hd by (rewrite Ef; left).
  apply elem_of_list_filter in Hd as [Hk Hd]. apply (entry_of it d Hp) in Hd as (k & Hd).
  exists k, d. split; [done|]. split; [done|]. split; [by repeat split|]. split; [done|]. done.
Qed.
Lemma group_of_some it k d : it ≡ₚ map_to_list found → found !! k = Some d → is_Some (group_of it (group_key d)).
Proof.
  intros Hp Hk. unfold group_of. rewrite groups_lookup.
  destruct (filter (λ d0, group_key d0 = group_key d) it.*2) as [|d' rest] eqn:Ef; [|by eexists].
  assert (d ∈ filter (λ d0, group_key d0 = group_key d) it.*2) as Hd.
  { apply elem_of_list_filter. split; [done|]. apply (entry_of it d Hp). by exists k. }
  rewrite Ef in Hd. by apply elem_of_nil in Hd.
Qed.
Lemma group_methods it gk g m : it ≡ₚ map_to_list found → group_of it gk = Some g →
  m ∈ dw_methods g ↔ ∃ k d, found !! k = Some d ∧ dw_methods d = [m] ∧ group_key d = gk.
Proof.
  intros Hp E. destruct (group_of_spec _ _ _ Hp E) as (_ & _ & _ & _ & _ & -> & _). rewrite elem_of_ssort, elem_of_concat. split.
  - intros (ms & Hms & Hm). apply elem_of_list_fmap in Hms as (d & -> & Hd). apply elem_of_list_filter in Hd as [Hk Hd].
    apply (entry_of it d Hp) in Hd as (k & Hd). exists k, d. split; [done|]. split; [|done].
    destruct (entry_key _ _ Hd) as (m' & Hm' & _). rewrite Hm' in Hm. apply elem_of_list_singleton in Hm as ->. done.
  - intros (k & d & Hk & Hm & Hg). exists [m]. split; [|left]. rewrite <- Hm. apply elem_of_list_fmap. exists d. split; [done|].
    apply elem_of_list_filter. split; [done|]. apply (entry_of it d Hp). by exists k.
Qed.
Lemma group_same it it' gk : it ≡ₚ map_to_list found → it' ≡ₚ map_to_list found →
  but_via <$> group_of it gk = but_via <$> group_of it' gk.
Proof.
  intros Hp Hp'. destruct (group_of it gk) as [g|] eqn:E, (group_of it' gk) as [g'|] eqn:E'.
  - cbn [fmap option_fmap option_map]. f_equal.
    destruct (group_of_spec _ _ _ Hp E) as (k & d & Hk & Hg & Hr & Hm & Hc & _).
    destruct (group_of_spec _ _ _ Hp' E') as (k' & d' & Hk' & Hg' & Hr' & Hm' & Hc' & _).
    assert (same_roles d d') as Hdd by (apply (entry_roles k k'); [done|done|congruence]).
    assert (dw_methods g = dw_methods g') as Hmm.
    { rewrite Hm, Hm'. apply ssort_unique. assert (it ≡ₚ it') as P by (by rewrite Hp, Hp'). by rewrite P. }
    destruct g as [r ms v [p0 p1 p2 p3 p4 p5 p6 p7 p8 p9 p10] c], g' as [r' ms' v' [q0 q1 q2 q3 q4 q5 q6 q7 q8 q9 q10] c']. unfold same_roles in *. unfold but_via.
    cbn [dw_recv dw_methods dw_via dw_pat dw_complete rp_call rp_recv rp_path rp_path_idx rp_handler rp_handler_idx rp_verb rp_verb_idx rp_verb_call rp_verb_handler rp_verb_path] in *.
    rewrite <- Hmm in Hc'.
    destruct Hr as (? & ? & ? & ? & ? & ? & ? & ? & ? & ? & ? & ?), Hr' as (? & ? & ? & ? & ? & ? & ? & ? & ? & ? & ? & ?),
      Hdd as (? & ? & ? & ? & ? & ? & ? & ? & ? & ? & ? & ?). f_equal; [congruence..| |congruence]. f_equal; congruence.
  - destruct (group_of_spec _ _ _ Hp E) as (k & d & Hk & <- & _). destruct (group_of_some it' k d Hp' Hk) as [x Hx]. congruence.
  - destruct (group_of_spec _ _ _ Hp' E') as (k & d & Hk & <- & _). destruct (group_of_some it k d Hp Hk) as [x Hx]. congruence.
  - done.
Qed.

(** ** The result *)
Lemma elem_of_groups iter iter' g : is_order iter → is_order iter' →
  g ∈ group_wrappers iter iter' found ↔ ∃ gk, group_of (iter (map_to_list found)) gk = Some g.
Proof.
  intros Hi Hi'. unfold group_wrappers. rewrite merge_sort_Permutation, elem_of_list_fmap. split.
  - intros (x & -> & Hx). apply elem_of_list_fmap in Hx as ([gk x'] & -> & Hx). rewrite (Hi' _) in Hx. apply elem_of_map_to_list in Hx.
    exists gk. unfold group_of. by rewrite Hx.
  - intros (gk & E). unfold group_of in E. destruct (foldl add_to_group ∅ (iter (map_to_list found)).*2 !! gk) as [x|] eqn:Ex; [|done].
    cbn in E. injection E as <-. exists x. split; [done|]. apply elem_of_list_fmap. exists (gk, x). split; [done|]. rewrite (Hi' _).
    by apply elem_of_map_to_list.
Qed.
Lemma wrap_le_trans : Transitive wrap_le.
Proof.
  intros a b c. unfold wrap_le. destruct (decide (dw_recv a = dw_recv b)) as [E|E].
  - rewrite E. destruct (decide (dw_recv b = dw_recv c)); [apply transitivity|done].
  - destruct (decide (dw_recv b = dw_recv c)) as [E'|E'].
    + rewrite <- E'. by rewrite decide_False.
    + intros H1 H2. destruct (decide (dw_recv a = dw_recv c)) as [E''|E''].
      * exfalso. apply E. apply (anti_symm string_le); [done|by rewrite E''].
      * by etrans.
Qed.
Lemma wrap_le_total : Total wrap_le.
Proof.
  intros a b. unfold wrap_le. destruct (decide (dw_recv a = dw_recv b)) as [E|E].
  - rewrite decide_True by done. apply (total string_le).
  - rewrite decide_False by congruence. apply (total string_le).
Qed.
Lemma groups_sorted iter iter' : StronglySorted wrap_le (group_wrappers iter iter' found).
Proof.
  unfold group_wrappers. apply Sorted_StronglySorted; [apply wrap_le_trans|]. apply Sorted_merge_sort, wrap_le_total.
Qed.
Lemma group_apart it gk gk' g g' : it ≡ₚ map_to_list found → group_of it gk = Some g → group_of it gk' = Some g' →
  dw_recv g = dw_recv g' → rp_call (dw_pat g) = rp_call (dw_pat g') → gk = gk'.
Proof.
  intros Hp E E' Hr Hc. pose proof (λ m, group_methods it gk g m Hp E) as Hm. pose proof (λ m, group_methods it gk' g' m Hp E') as Hm'.
  destruct (group_of_spec _ _ _ Hp E) as (k & d & Hk & Hg & Hsr & _ & Hcall & _).
  destruct (group_of_spec _ _ _ Hp E') as (k' & d' & Hk' & Hg' & Hsr' & _ & Hcall' & _).
  destruct (entry_key _ _ Hk) as (m & Hdm & _). destruct (entry_key _ _ Hk') as (m' & Hdm' & _).
  assert (m ∈ dw_methods g) as Hmg by (apply Hm; eauto). assert (m' ∈ dw_methods g') as Hmg' by (apply Hm'; eauto).
  assert (dw_methods g = dw_methods g') as Hms.
  { apply join_bar_inj; [by intros E0; rewrite E0 in Hmg; apply elem_of_nil in Hmg|by intros E0; rewrite E0 in Hmg'; apply elem_of_nil in Hmg'|..|congruence].
    - apply Forall_forall. intros x Hx. apply Hm in Hx as (k0 & d0 & Hk0 & Hx & _). destruct (entry_key _ _ Hk0) as (y & Hy & _ & Hpl). by replace x with y by congruence.
    - apply Forall_forall. intros x Hx. apply Hm' in Hx as (k0 & d0 & Hk0 & Hx & _). destruct (entry_key _ _ Hk0) as (y & Hy & _ & Hpl). by replace x with y by congruence. }
  rewrite Hms in Hmg. apply Hm' in Hmg as (k1 & d1 & Hk1 & Hd1 & Hg1).
  assert (d1 = d) as ->; [|congruence]. apply (entry_unique k1 k d1 d m); [done|done|done|done|].
  assert (dw_recv d1 = dw_recv d') as ->. { by destruct (proj1 (entry_roles _ _ _ _ Hk1 Hk') ltac:(congruence)) as (? & _). }
  destruct Hsr as (? & _), Hsr' as (? & _). congruence.
Qed.

Lemma group_determined iter iter' iter2 iter2' : is_order iter → is_order iter' → is_order iter2 → is_order iter2' →
  but_via <$> group_wrappers iter iter' found = but_via <$> group_wrappers iter2 iter2' found.
Proof.
  intros Hi Hi' Hj Hj'.
  assert (∀ l, StronglySorted wrap_le l → StronglySorted wrap_le (but_via <$> l)) as Hss.
  { intros l H. induction H as [|a l H IH Ha]; [constructor|]. rewrite fmap_cons. constructor; [done|].
    rewrite Forall_fmap. exact Ha. }
  apply (sorted_perm_eq wrap_le); [|apply Hss, groups_sorted|apply Hss, groups_sorted|].
  - intros a b Ha Hb Hab Hba. apply elem_of_list_fmap in Ha as (g & -> & Hg). apply elem_of_list_fmap in Hb as (g' & -> & Hg').
    apply elem_of_groups in Hg as (gk & Hg); [|done|done]. apply elem_of_groups in Hg' as (gk' & Hg'); [|done|done].
    assert (dw_recv g = dw_recv g' ∧ rp_call (dw_pat g) = rp_call (dw_pat g')) as [Hr Hc].
    { unfold wrap_le in Hab, Hba. cbn [but_via dw_recv dw_pat] in Hab, Hba. destruct (decide (dw_recv g = dw_recv g')) as [Hr|Hr].
      - split; [done|]. rewrite decide_True in Hba by done. by apply (anti_symm string_le).
      - exfalso. rewrite decide_False in Hba by congruence. apply Hr. by apply (anti_symm string_le). }
    assert (gk = gk') as <- by (by eapply (group_apart (iter (map_to_list found)))). congruence.
  - unfold group_wrappers. rewrite !merge_sort_Permutation. rewrite (Hi' _), (Hj' _).
    set (M := foldl add_to_group ∅ (iter (map_to_list found)).*2). set (M2 := foldl add_to_group ∅ (iter2 (map_to_list found)).*2).
    assert (∀ (m : gmap (string * (bool * Z * bool * Z * bool * Z * bool) * bool) dwrap) (f : dwrap → dwrap), f <$> (map_to_list m).*2 ≡ₚ (map_to_list (f <$> m)).*2) as Hml.
    { intros m f. rewrite map_to_list_fmap. rewrite <- !list_fmap_compose. apply Permutation_refl'. apply list_fmap_ext. by intros ? [? ?]. }
    rewrite <- !list_fmap_compose.
    transitivity ((map_to_list ((but_via ∘ finish_group) <$> M)).*2); [|transitivity ((map_to_list ((but_via ∘ finish_group) <$> M2)).*2)].
    + rewrite <- Hml. by rewrite <- list_fmap_compose.
    + apply Permutation_refl'. do 2 f_equal. apply map_eq. intros gk. rewrite !lookup_fmap.
      pose proof (group_same (iter (map_to_list found)) (iter2 (map_to_list found)) gk (Hi _) (Hj _)) as H.
      unfold group_of in H. fold M M2 in H. rewrite <- !option_fmap_compose in H. exact H.
    + rewrite <- Hml. by rewrite <- list_fmap_compose.
Qed.
End groups.
