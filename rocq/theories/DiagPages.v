(** * Proofs about diagram pages: filters, slices, keys, depth-first orders. *)
From Coq Require Import Ascii ZArith.
From stdpp Require Import sorting.
From stdpp Require Import base numbers list strings gmap relations.
From Verif Require Import StrLib StrSub DecLib ScanModel DetModel PairProofs SccSpec ReachProofs BfsLib DiagModel DiagSpec DiagProofs.

(** ** Filters *)
Lemma existsb_elem {A} (f : A → bool) (l : list A) : existsb f l = true ↔ ∃ x, x ∈ l ∧ f x = true.
Proof. rewrite existsb_exists. split; intros (x & Hx & Hf); exists x; (split; [by apply elem_of_list_In|done]). Qed.
Lemma matches_spec text term : matches text term = true ↔ occurs term text.
Proof. apply str_contains_spec. Qed.
Lemma one_of_spec (terms : list string) (f : string → bool) (P : string → Prop) : (∀ t, f t = true ↔ P t) → bool_decide (terms = []) || existsb f terms = true ↔ one_of terms P.
Proof.
  intros H. unfold one_of. rewrite orb_true_iff, bool_decide_eq_true, existsb_elem. split; (intros [?|(t & Ht & Hp)]; [by left|right; exists t; split; [done|by apply H]]).
Qed.
Lemma node_stays_spec f n : node_stays f n = true ↔ wanted f n.
Proof.
  unfold node_stays, node_matches, wanted. rewrite !andb_true_iff.
  rewrite (one_of_spec (f_packages f) _ (λ t, ∃ a b, n_pkg n = a +:+ trim_space t +:+ b)) by (intros t; apply str_contains_spec).
  rewrite (one_of_spec (f_functions f) _ (λ t, t ≠ "" ∧ occurs t (n_label n))).
  2: { intros t. unfold matches_function. destruct (decide (t = "")) as [-> | Ht]; [split; [done|by intros [? _]]|]. rewrite matches_spec. split; [done|by intros [_ ?]]. }
  assert (bool_decide (f_files f = []) || (bool_decide (n_position n ≠ "") && existsb (matches (n_position n)) (f_files f)) || existsb (λ file, existsb (λ p, matches p file) (n_paths n)) (f_files f) = true
    ↔ one_of (f_files f) (λ t, (n_position n ≠ "" ∧ occurs t (n_position n)) ∨ ∃ p, p ∈ n_paths n ∧ occurs t p)) as ->.
  { unfold one_of. rewrite !orb_true_iff, andb_true_iff, !bool_decide_eq_true, !existsb_elem. split.
    - intros [[?|[Hp (t & Ht & Hm)]]|(t & Ht & Hm)]; [by left|right; exists t; split; [done|]; left; split; [done|by apply matches_spec]|].
      apply existsb_elem in Hm as (p & Hp & Hm). right. exists t. split; [done|]. right. exists p. split; [done|by apply matches_spec].
    - intros [?|(t & Ht & [[Hp Hm]|(p & Hp & Hm)])]; [left; by left|left; right; split; [done|]; exists t; split; [done|by apply matches_spec]|].
      right. exists t. split; [done|]. apply existsb_elem. exists p. split; [done|by apply matches_spec]. }
  assert (bool_decide (f_receivers f = []) || bool_decide (n_receiver n = "") || existsb (matches (n_receiver n)) (f_receivers f) = true ↔ n_receiver n = "" ∨ one_of (f_receivers f) (λ t, occurs t (n_receiver n))) as ->.
  { rewrite <- (one_of_spec _ (matches (n_receiver n))) by (intros; apply matches_spec). rewrite !orb_true_iff, !bool_decide_eq_true. clear. tauto. }
  assert (bool_decide (f_signatures f = []) || bool_decide (n_signature n = "") || existsb (matches (n_signature n)) (f_signatures f) = true ↔ n_signature n = "" ∨ one_of (f_signatures f) (λ t, occurs t (n_signature n))) as ->.
  { rewrite <- (one_of_spec _ (matches (n_signature n))) by (intros; apply matches_spec). rewrite !orb_true_iff, !bool_decide_eq_true. clear. tauto. }
  assert (bool_decide (f_generics f = []) || match n_generics n with None => true | Some gs => existsb (λ t, existsb (λ g, matches g t) gs) (f_generics f) end = true
    ↔ ∀ gs, n_generics n = Some gs → one_of (f_generics f) (λ t, ∃ g, g ∈ gs ∧ occurs t g)) as ->.
  { destruct (n_generics n) as [gs|]; [|rewrite orb_true_r; split; [intros _ gs [=]|done]].
    rewrite (one_of_spec _ _ (λ t, ∃ g, g ∈ gs ∧ occurs t g)); [split; [intros H ? [= <-]; done|intros H; by apply H]|].
    intros t. rewrite existsb_elem. split; intros (g & Hg & Hm); exists g; (split; [done|by apply matches_spec]). }
  cbn zeta.
  assert ((bool_decide (f_scope f = "" ∨ f_scope f = "all") || (if decide (str_lower (trim_space (f_scope f)) = "exported") then bool_decide (str_lower (trim_space (n_scope n)) = "exported") else if decide (str_lower (trim_space (f_scope f)) = "unexported") then bool_decide (str_lower (trim_space (n_scope n)) = "unexported") else true)) = true
    ↔ (f_scope f = "" ∨ f_scope f = "all" ∨ (∀ s, s = "exported" ∨ s = "unexported" → str_lower (trim_space (f_scope f)) = s → str_lower (trim_space (n_scope n)) = s))) as ->.
  { rewrite orb_true_iff, bool_decide_eq_true. set (Q := ∀ s, _).
    assert ((if decide (str_lower (trim_space (f_scope f)) = "exported") then bool_decide (str_lower (trim_space (n_scope n)) = "exported") else if decide (str_lower (trim_space (f_scope f)) = "unexported") then bool_decide (str_lower (trim_space (n_scope n)) = "unexported") else true) = true ↔ Q) as ->; [|clear; tauto].
    unfold Q. destruct (decide (str_lower (trim_space (f_scope f)) = "exported")) as [E|E]; [|destruct (decide (str_lower (trim_space (f_scope f)) = "unexported")) as [E'|E']].
    - rewrite bool_decide_eq_true, E. split; [intros H s _ <-; done|intros H; apply (H "exported"); [by left|done]].
    - rewrite bool_decide_eq_true, E'. split; [intros H s _ <-; done|intros H; apply (H "unexported"); [by right|done]].
    - split; [|done]. intros _ s [-> | ->] H; congruence. }
  clear. tauto.
Qed.

(** ** Nodes and edges left *)
Lemma elem_of_node_ids ns x : x ∈ node_ids ns ↔ ∃ n, n ∈ ns ∧ n_id n = x.
Proof. unfold node_ids. rewrite elem_of_list_to_set, elem_of_list_fmap. split; intros (n & H1 & H2); exists n; done. Qed.
Lemma filtered_nodes iter cg depth f data : is_order iter → unique_ids data →
  sublist (d_nodes (filtered iter cg depth f data)) (d_nodes data)
  ∧ ∀ n, n ∈ d_nodes (filtered iter cg depth f data) ↔ n ∈ d_nodes data ∧ wanted f n ∧ (cg = true → (0 ≤ depth)%Z → ∃ d, calls_away data (n_id n) d ∧ (Z.of_nat d ≤ depth)%Z).
Proof.
  intros Hi Hu. unfold filtered, depth_filter. cbn [d_nodes]. destruct (cg && bool_decide (0 ≤ depth)%Z) eqn:E; cbn [d_nodes].
  - apply andb_true_iff in E as [-> E]. apply bool_decide_eq_true in E. split; [by etransitivity; apply filter_sublist|]. intros n. rewrite !elem_of_list_filter, node_stays_spec. split.
    + intros (Hw & Hd & Hn). split; [done|]. split; [done|]. intros _ _. destruct (graph_depths iter data !! n_id n) as [d|] eqn:Ed; [|done]. apply bool_decide_eq_true in Hd. exists d. split; [|done]. by apply (graph_depths_spec iter).
    + intros (Hn & Hw & Hd). split; [done|]. split; [|done]. destruct (Hd eq_refl E) as (d & Hd' & Hle). apply (graph_depths_spec iter data _ _ Hi Hu) in Hd'. rewrite Hd'. by apply bool_decide_eq_true.
  - split; [apply filter_sublist|]. intros n. rewrite elem_of_list_filter, node_stays_spec. split; [|by intros (? & ? & _)]. intros [? ?]. split; [done|]. split; [done|]. intros -> Hd. rewrite bool_decide_eq_true_2 in E by done. done.
Qed.
Lemma filtered_edges iter cg depth f data : sublist (d_edges (filtered iter cg depth f data)) (d_edges data)
  ∧ ∀ e, e ∈ d_edges (filtered iter cg depth f data) ↔ e ∈ d_edges data ∧ e_src e ∈ node_ids (d_nodes (filtered iter cg depth f data)) ∧ e_dst e ∈ node_ids (d_nodes (filtered iter cg depth f data)).
Proof.
  unfold filtered, depth_filter, edges_among. cbn [d_nodes d_edges]. destruct (cg && bool_decide (0 ≤ depth)%Z); cbn [d_nodes d_edges].
  - split; [by etransitivity; apply filter_sublist|]. set (k := filter _ (d_nodes data)). intros e. rewrite !elem_of_list_filter. split.
    + intros (H1 & _ & H3). done.
    + intros (H1 & H2 & H3). split; [done|]. split; [|done]. split; [revert H2|revert H3]; rewrite !elem_of_node_ids; intros (n & Hn & Hx); exists n; (split; [|done]); by apply elem_of_list_filter in Hn as [_ ?].
  - split; [apply filter_sublist|]. intros e. rewrite elem_of_list_filter. clear. tauto.
Qed.

(** ** Slices *)
Lemma wrap64_id z : (- 2 ^ 63 ≤ z < 2 ^ 63)%Z → wrap64 z = z.
Proof. intros H. unfold wrap64. rewrite Z.mod_small; lia. Qed.
Lemma page_slice_spec {A} (k size : nat) (l : list A) : 1 ≤ size → (Z.of_nat (S k) * Z.of_nat size < 2 ^ 63)%Z → page_slice (Z.of_nat (S k)) (Z.of_nat size) l = Some (take size (drop (k * size) l)).
Proof.
  intros Hs Hk. unfold page_slice. assert (Z.of_nat (S k) ≤ Z.of_nat (S k) * Z.of_nat size)%Z by nia.
  rewrite (wrap64_id (Z.of_nat (S k) - 1)) by lia. assert ((Z.of_nat (S k) - 1) * Z.of_nat size = Z.of_nat (k * size))%Z as -> by lia.
  rewrite (wrap64_id (Z.of_nat (k * size))) by lia. rewrite (wrap64_id (Z.of_nat (k * size) + Z.of_nat size)) by lia.
  destruct (decide (k * size < length l)) as [Hl|Hl].
  - rewrite bool_decide_eq_true_2 by lia. unfold go_slice. destruct (decide (length l < k * size + size)) as [Hc|Hc].
    + rewrite (bool_decide_eq_true_2 (Z.of_nat (length l) < _)%Z) by lia. rewrite bool_decide_eq_true_2 by lia. f_equal.
      replace (Z.to_nat (Z.of_nat (k * size))) with (k * size) by lia. rewrite !take_ge; [done|rewrite drop_length; lia|rewrite drop_length; lia].
    + rewrite (bool_decide_eq_false_2 (Z.of_nat (length l) < _)%Z) by lia. rewrite bool_decide_eq_true_2 by lia. f_equal.
      replace (Z.to_nat (Z.of_nat (k * size))) with (k * size) by lia. f_equal. lia.
  - rewrite bool_decide_eq_false_2 by lia. rewrite drop_ge by lia. by rewrite take_nil.
Qed.
Lemma pages_cover {A} (size n : nat) (l : list A) : length l ≤ n * size → mjoin ((λ k, take size (drop (k * size) l)) <$> seq 0 n) = l.
Proof.
  intros H. assert (∀ n a, mjoin ((λ k, take size (drop (k * size) l)) <$> seq a n) = take (n * size) (drop (a * size) l)) as Hgo.
  { clear. induction n as [|n IH]; intros a; [done|]. cbn [seq fmap list_fmap mjoin list_join]. rewrite IH.
    replace (S a * size) with (a * size + size) by lia. rewrite <- drop_drop. replace (S n * size) with (size + n * size) by lia. apply take_take_drop. }
  rewrite Hgo. cbn. by rewrite drop_0, take_ge.
Qed.

(** ** Enclosing functions *)
Lemma node_at_spec ns x n : node_at ns x = Some n → n ∈ ns ∧ n_id n = x.
Proof. unfold node_at. intros H. assert (n ∈ filter (λ n, n_id n = x) ns) as Hn. { rewrite last_lookup in H. by apply elem_of_list_lookup_2 in H. } by apply elem_of_list_filter in Hn as [? ?]. Qed.
Lemma node_at_none ns x : node_at ns x = None ↔ ∀ n, n ∈ ns → n_id n ≠ x.
Proof.
  unfold node_at. rewrite last_None. split.
  - intros H n Hn E. apply (not_elem_of_nil n). rewrite <- H. by apply elem_of_list_filter.
  - intros H. apply elem_of_nil_inv. intros n Hn. apply elem_of_list_filter in Hn as [E Hn]. by apply (H n).
Qed.
Lemma node_at_unique ns n : NoDup (n_id <$> ns) → n ∈ ns → node_at ns (n_id n) = Some n.
Proof.
  intros Hu Hn. destruct (node_at ns (n_id n)) as [m|] eqn:E; [|by eapply node_at_none in E]. apply node_at_spec in E as [Hm Hid]. f_equal.
  apply elem_of_list_lookup in Hn as [i Hi]. apply elem_of_list_lookup in Hm as [j Hj]. assert (i = j) as <-; [|congruence].
  eapply NoDup_lookup; [exact Hu| |]; rewrite list_lookup_fmap; [by rewrite Hi|rewrite Hj; cbn; by rewrite Hid].
Qed.
Lemma parents_spec all shown ns : ∀ (ids : gset string) acc, (∀ x, x ∈ ids ↔ x ∈ node_ids (shown ++ acc)) → NoDup (n_id <$> acc) →
  (∀ p, p ∈ acc → ∃ n, n ∈ shown ∧ enclosing all shown n p) → (∀ n, n ∈ ns → n ∈ shown) →
  let r := foldl (add_parent all) (ids, acc) ns in
  (∀ p, p ∈ r.2 → ∃ n, n ∈ shown ∧ enclosing all shown n p) ∧ NoDup (n_id <$> r.2) ∧ (∀ p, p ∈ acc → p ∈ r.2) ∧ (∀ n, n ∈ ns → n_parent n ≠ "" → (∃ q, q ∈ all ∧ n_id q = n_parent n) → n_parent n ∈ node_ids (shown ++ r.2)).
Proof.
  induction ns as [|n ns IH]; intros ids acc Hids Hnd Hacc Hsub; cbn [foldl].
  { cbn [snd]. split; [done|]. split; [done|]. split; [done|]. by intros n ?%elem_of_nil. }
  assert (add_parent all (ids, acc) n = if decide (n_parent n ≠ "" ∧ n_parent n ∉ ids) then match node_at all (n_parent n) with Some p => ({[n_parent n]} ∪ ids, acc ++ [set_parent p]) | None => (ids, acc) end else (ids, acc)) as ->.
  { unfold add_parent. cbn [fst snd]. destruct (decide _) as [H|H]; [by rewrite bool_decide_eq_true_2|by rewrite bool_decide_eq_false_2]. }
  destruct (decide (n_parent n ≠ "" ∧ n_parent n ∉ ids)) as [[Hp Hni]|Hno]; [destruct (node_at all (n_parent n)) as [q|] eqn:Eq|].
  - apply node_at_spec in Eq as [Hq Hqid]. destruct (IH ({[n_parent n]} ∪ ids) (acc ++ [set_parent q])) as (R1 & R2 & R3 & R4).
    + intros x. rewrite elem_of_union, elem_of_singleton, Hids, !elem_of_node_ids. split.
      * intros [-> | (m & Hm & Hx)]; [exists (set_parent q); split; [rewrite !elem_of_app; right; right; by left|done]|]. exists m. split; [|done]. apply elem_of_app in Hm as [?|?]; rewrite !elem_of_app; auto.
      * intros (m & Hm & Hx). rewrite app_assoc in Hm. apply elem_of_app in Hm as [Hm|Hm]; [right; by exists m|]. apply elem_of_list_singleton in Hm as ->. left. by rewrite <- Hx.
    + rewrite fmap_app. apply NoDup_app. split; [done|]. split; [|apply NoDup_singleton]. intros x Hx Hx'. apply elem_of_list_singleton in Hx' as ->. apply Hni, Hids. apply elem_of_list_fmap in Hx as (m & Hm & Hin). apply elem_of_node_ids. exists m. split; [rewrite elem_of_app; by right|]. rewrite <- Hm. cbn. done.
    + intros p Hp'. apply elem_of_app in Hp' as [Hp'|Hp']; [by apply Hacc|]. apply elem_of_list_singleton in Hp' as ->. exists n. split; [apply Hsub; by left|]. split; [done|]. split; [|by exists q]. intros m Hm E. apply Hni, Hids. apply elem_of_node_ids. exists m. split; [rewrite elem_of_app; by left|done].
    + intros m Hm. apply Hsub. by right.
    + split; [done|]. split; [done|]. split; [intros p Hp'; apply R3; rewrite elem_of_app; by left|]. intros m Hm. apply elem_of_cons in Hm as [-> | Hm]; [|by apply R4]. intros _ _. apply elem_of_node_ids. exists (set_parent q). split; [|done]. rewrite elem_of_app. right. apply R3. rewrite elem_of_app. right. by left.
  - destruct (IH ids acc) as (R1 & R2 & R3 & R4); [done|done|done|intros m Hm; apply Hsub; by right|]. split; [done|]. split; [done|]. split; [done|]. intros m Hm. apply elem_of_cons in Hm as [-> | Hm]; [|by apply R4].
    intros _ (q & Hq & Hid). exfalso. by apply (proj1 (node_at_none all _) Eq q).
  - destruct (IH ids acc) as (R1 & R2 & R3 & R4); [done|done|done|intros m Hm; apply Hsub; by right|]. split; [done|]. split; [done|]. split; [done|]. intros m Hm. apply elem_of_cons in Hm as [-> | Hm]; [|by apply R4].
    intros Hne _. destruct (decide (n_parent n ∈ ids)) as [Hin|Hin]; [|by exfalso; apply Hno]. apply Hids, elem_of_node_ids in Hin as (x & Hx & Hid). apply elem_of_node_ids. exists x. split; [|done]. apply elem_of_app in Hx as [?|?]; rewrite elem_of_app; auto.
Qed.

(** ** Keys *)
Lemma spaced_cons x y l : spaced (x :: y :: l) = x +:+ String " " (spaced (y :: l)).
Proof. done. Qed.
Lemma spaced_inj l k : Forall plain_term l → Forall plain_term k → spaced l = spaced k → l = k.
Proof.
  revert k. induction l as [|x l IH]; intros [|y k] Hl Hk H.
  - done.
  - exfalso. apply Forall_inv in Hk as [Hy _]. destruct k as [|z k]; [by cbn in H; subst|]. rewrite spaced_cons in H. destruct y; [done|]. done.
  - exfalso. apply Forall_inv in Hl as [Hx _]. destruct l as [|z l]; [by cbn in H; subst|]. rewrite spaced_cons in H. destruct x; [done|]. done.
  - apply Forall_cons in Hl as [(Hx & Hx' & _) Hl]. apply Forall_cons in Hk as [(Hy & Hy' & _) Hk]. destruct l as [|x' l], k as [|y' k].
    + cbn in H. by subst.
    + exfalso. rewrite spaced_cons in H. cbn [spaced] in H. subst x. rewrite contains_app, contains_cons, bool_decide_eq_true_2 in Hx' by done. by rewrite orb_true_r in Hx'.
    + exfalso. rewrite spaced_cons in H. cbn [spaced] in H. subst y. rewrite contains_app, contains_cons, bool_decide_eq_true_2 in Hy' by done. by rewrite orb_true_r in Hy'.
    + rewrite !spaced_cons in H. apply first_split_inj in H as [-> H]; [|done|done]. f_equal. by apply IH.
Qed.
Lemma spaced_no_close l : Forall plain_term l → contains_byte "]" (spaced l) = false.
Proof.
  induction l as [|x l IH]; intros H; [done|]. apply Forall_cons in H as [(_ & _ & _ & Hx) H]. destruct l as [|y l]; [done|]. rewrite spaced_cons, contains_app, contains_cons, Hx, IH by done. done.
Qed.
Lemma show_list_inj l k s t : Forall plain_term l → Forall plain_term k → show_list l +:+ s = show_list k +:+ t → l = k ∧ s = t.
Proof.
  intros Hl Hk H. unfold show_list in H. change ("[" +:+ ?a) with (String "[" a) in H. rewrite !sapp_cons in H. injection H as H. rewrite !sapp_assoc in H. change ("]" +:+ ?a) with (String "]" a) in H.
  apply first_split_inj in H as [H1 H2]; [|by apply spaced_no_close|by apply spaced_no_close]. split; [by apply spaced_inj|]. done.
Qed.
Lemma itoa_no_minus z : (0 ≤ z)%Z → contains_byte "-" (itoa z) = false.
Proof. intros H. rewrite itoa_nonneg by done. apply all_digits_contains; [apply all_digits_pretty|done]. Qed.
Lemma dash s : "-" +:+ s = String "-" s.
Proof. done. Qed.
Lemma string_tail_inj c s t : String c s = String c t → s = t.
Proof. by intros [= ?]. Qed.
Lemma cache_key_inj diagram r r' : plain_request r → plain_request r' → cache_key diagram r = cache_key diagram r' → r = r'.
Proof.
  destruct r as [p s d [f1 f2 f3 f4 f5 f6 f7]], r' as [p' s' d' [g1 g2 g3 g4 g5 g6 g7]]. intros [[H1 H2] (P1 & P2 & P3 & P4 & P5 & P6)] [[H1' H2'] (Q1 & Q2 & Q3 & Q4 & Q5 & Q6)].
  cbn [r_page r_size r_depth r_filters f_packages f_functions f_files f_receivers f_signatures f_generics f_scope] in *. unfold cache_key. cbn [r_page r_size r_depth r_filters f_packages f_functions f_files f_receivers f_signatures f_generics f_scope].
  intros H. apply sapp_inj_l in H. rewrite !dash in H. injection H as H.
  apply first_split_inj in H as [E1 H]; [|apply itoa_no_minus; lia|apply itoa_no_minus; lia]. apply itoa_inj in E1 as <-.
  apply first_split_inj in H as [E1 H]; [|apply itoa_no_minus; lia|apply itoa_no_minus; lia]. apply itoa_inj in E1 as <-.
  assert (∀ z (l : list string) t, itoa z +:+ String "-" (show_list l +:+ t) = (itoa z +:+ "-") +:+ String "[" (spaced l +:+ "]" +:+ t)) as Hs.
  { intros z l t. unfold show_list. rewrite !sapp_assoc. f_equal. }
  rewrite !Hs in H. apply first_split_inj in H as [E1 H].
  2-3: rewrite contains_app, contains_itoa by done; done.
  apply sapp_inj_r, itoa_inj in E1 as <-.
  assert (show_list f1 +:+ String "-" (show_list f2 +:+ String "-" (show_list f3 +:+ String "-" (show_list f4 +:+ String "-" (show_list f5 +:+ String "-" (show_list f6 +:+ String "-" f7))))) =
          show_list g1 +:+ String "-" (show_list g2 +:+ String "-" (show_list g3 +:+ String "-" (show_list g4 +:+ String "-" (show_list g5 +:+ String "-" (show_list g6 +:+ String "-" g7)))))) as H'.
  { unfold show_list at 1 7. rewrite !sapp_assoc. change ("[" +:+ ?a) with (String "[" a). f_equal. exact H. }
  clear H. do 5 (apply show_list_inj in H' as [<- H'%string_tail_inj]; [|done|done]). apply show_list_inj in H' as [<- H'%string_tail_inj]; [|done|done]. by subst.
Qed.

(** ** Depth-first orders *)
Section dfs.
  Context (kids : string → list string) (U : gset string) (HU : ∀ x y, x ∈ U → y ∈ kids x → y ∈ U).
  Definition dfs_ok (V : gset string) (O : list string) (xs : list string) (st : gset string * list string) : Prop :=
    ∃ new, st.2 = O ++ new ∧ NoDup new ∧ (∀ y, y ∈ st.1 ↔ y ∈ V ∨ y ∈ new) ∧ (∀ y, y ∈ new → y ∉ V) ∧ (∀ x, x ∈ xs → x ∈ st.1)
      ∧ (∀ y, y ∈ new → ∀ z, z ∈ kids y → z ∈ st.1) ∧ (∀ y, y ∈ new → ∃ x, x ∈ xs ∧ rtc (λ a b, b ∈ kids a) x y) ∧ (∀ y, y ∈ new → y ∈ U).
  Lemma dfs_list_ok n (go : string → gset string * list string → gset string * list string) : 
    (∀ x V O, x ∈ U → size (U ∖ V) < n → dfs_ok V O [x] (go x (V, O))) →
    ∀ xs V O, (∀ x, x ∈ xs → x ∈ U) → size (U ∖ V) < n → dfs_ok V O xs (foldl (λ st y, go y st) (V, O) xs).
  Proof.
    intros Hgo. induction xs as [|x xs IH]; intros V O Hxs Hn; cbn [foldl].
    { exists []. cbn [fst snd]. rewrite app_nil_r. split; [done|]. split; [apply NoDup_nil_2|]. split; [intros y; split; [by left|by intros [?|?%elem_of_nil]]|]. repeat split; by intros ? ?%elem_of_nil. }
    destruct (Hgo x V O) as (new & N1 & N2 & N3 & N4 & N5 & N6 & N7 & N8); [apply Hxs; by left|done|]. destruct (go x (V, O)) as [V1 O1]. cbn [fst snd] in *. subst O1.
    destruct (IH V1 (O ++ new)) as (new2 & M1 & M2 & M3 & M4 & M5 & M6 & M7 & M8); [intros y Hy; apply Hxs; by right| |].
    { eapply Nat.le_lt_trans; [|exact Hn]. apply subseteq_size. intros y. rewrite !elem_of_difference. intros [? Hy]. split; [done|]. intros ?. apply Hy, N3. by left. }
    destruct (foldl (λ st y, go y st) (V1, O ++ new) xs) as [V2 O2]. cbn [fst snd] in *. exists (new ++ new2). rewrite app_assoc. split; [done|]. split.
    { apply NoDup_app. split; [done|]. split; [|done]. intros y Hy Hy'. apply (M4 y Hy'), N3. by right. }
    split; [intros y; rewrite M3, N3, elem_of_app; clear; tauto|]. split; [intros y Hy Hv; apply elem_of_app in Hy as [Hy|Hy]; [by apply (N4 y)|apply (M4 y Hy), N3; by left]|].
    split; [intros y Hy; apply elem_of_cons in Hy as [-> | Hy]; [apply M3; left; apply N5; by left|by apply M5]|].
    split; [intros y Hy z Hz; apply elem_of_app in Hy as [Hy|Hy]; [apply M3; left; by apply (N6 y)|by apply (M6 y)]|].
    split; [|intros y Hy; apply elem_of_app in Hy as [Hy|Hy]; auto].
    intros y Hy. apply elem_of_app in Hy as [Hy|Hy]; [destruct (N7 y Hy) as (x' & Hx' & Hr); apply elem_of_list_singleton in Hx' as ->; exists x; split; [by left|done]|destruct (M7 y Hy) as (x' & Hx' & Hr); exists x'; split; [by right|done]].
  Qed.
  Lemma dfs_spec n : ∀ x V O, x ∈ U → size (U ∖ V) < n → dfs_ok V O [x] (dfs n kids x (V, O)) ∧ (x ∉ V → ∃ rest, (dfs n kids x (V, O)).2 = O ++ x :: rest).
  Proof.
    induction n as [|n IH]; intros x V O Hx Hn; [lia|]. cbn [dfs fst snd]. destruct (decide (x ∈ V)) as [Hv|Hv].
    { rewrite bool_decide_eq_true_2 by done. split; [|done]. exists []. cbn [fst snd]. rewrite app_nil_r. split; [done|]. split; [apply NoDup_nil_2|]. split; [intros y; split; [by left|by intros [?|?%elem_of_nil]]|].
      split; [by intros ? ?%elem_of_nil|]. split; [by intros ? ->%elem_of_list_singleton|]. repeat split; by intros ? ?%elem_of_nil. }
    rewrite bool_decide_eq_false_2 by done.
    destruct (dfs_list_ok n (λ y st, dfs n kids y st)) with (xs := kids x) (V := {[x]} ∪ V) (O := O ++ [x]) as (new & N1 & N2 & N3 & N4 & N5 & N6 & N7 & N8).
    { intros y V' O' Hy Hn'. by apply IH. }
    { intros y Hy. by apply (HU x). }
    { assert (size (U ∖ ({[x]} ∪ V)) < size (U ∖ V)); [|lia]. apply subset_size. split.
      - intros y. rewrite !elem_of_difference, elem_of_union. clear. tauto.
      - intros Hs. assert (x ∈ U ∖ ({[x]} ∪ V)) as Hin by (apply Hs, elem_of_difference; done). apply elem_of_difference in Hin as [_ Hin]. apply Hin. rewrite elem_of_union, elem_of_singleton. by left. }
    destruct (foldl (λ st y, dfs n kids y st) ({[x]} ∪ V, O ++ [x]) (kids x)) as [V2 O2]. cbn [fst snd] in *. split.
    - exists (x :: new). cbn [fst snd]. split; [by rewrite N1, <- app_assoc|]. split; [apply NoDup_cons; split; [intros Hin; apply (N4 x Hin); rewrite elem_of_union, elem_of_singleton; by left|done]|].
      split; [intros y; rewrite N3, elem_of_union, elem_of_singleton, elem_of_cons; clear; tauto|].
      split; [intros y Hy Hy'; apply elem_of_cons in Hy as [-> | Hy]; [done|apply (N4 y Hy); rewrite elem_of_union; by right]|].
      split; [intros y Hy; apply elem_of_list_singleton in Hy as ->; apply N3; left; rewrite elem_of_union, elem_of_singleton; by left|].
      split; [intros y Hy z Hz; apply elem_of_cons in Hy as [-> | Hy]; [by apply N5|by apply (N6 y)]|]. split; [|intros y Hy; apply elem_of_cons in Hy as [-> | Hy]; auto].
      intros y Hy. exists x. split; [by left|]. apply elem_of_cons in Hy as [-> | Hy]; [done|]. destruct (N7 y Hy) as (z & Hz & Hr). by eapply rtc_l.
    - intros _. exists new. by rewrite N1, <- app_assoc.
  Qed.
  (** From several roots in turn: what each adds. *)
  Lemma dfs_roots n rs : (∀ r, r ∈ rs → r ∈ U) → size U < n → ∀ V O, (∀ x, x ∈ V → ∀ y, y ∈ kids x → y ∈ V) →
    ∃ segs, length segs = length rs ∧ (foldl (λ st r, dfs n kids r st) (V, O) rs).2 = O ++ mjoin segs ∧ NoDup (mjoin segs)
      ∧ (∀ y, y ∈ (foldl (λ st r, dfs n kids r st) (V, O) rs).1 ↔ y ∈ V ∨ y ∈ mjoin segs)
      ∧ ∀ i r seg, rs !! i = Some r → segs !! i = Some seg →
          (∀ y, y ∈ seg ↔ rtc (λ a b, b ∈ kids a) r y ∧ y ∉ V ∧ ∀ j r', j < i → rs !! j = Some r' → ¬ rtc (λ a b, b ∈ kids a) r' y) ∧ (seg = [] ∨ ∃ rest, seg = r :: rest).
  Proof.
    intros Hrs Hn. induction rs as [|r rs IH]; intros V O Hclosed; cbn [foldl].
    { exists []. cbn. rewrite app_nil_r. split; [done|]. split; [done|]. split; [apply NoDup_nil_2|]. split; [intros y; split; [by left|by intros [?|?%elem_of_nil]]|]. by intros i r seg Hr. }
    assert (size (U ∖ V) < n) as HnV by (eapply Nat.le_lt_trans; [|exact Hn]; apply subseteq_size; intros y; rewrite elem_of_difference; by intros [? _]).
    destruct (dfs_spec n r V O) as [(new & N1 & N2 & N3 & N4 & N5 & N6 & N7 & N8) Hhead]; [apply Hrs; by left|done|]. destruct (dfs n kids r (V, O)) as [V1 O1]. cbn [fst snd] in *. subst O1.
    assert (∀ x, x ∈ V1 → ∀ y, y ∈ kids x → y ∈ V1) as Hclosed1.
    { intros x Hx y Hy. apply N3 in Hx as [Hx|Hx]; [apply N3; left; by apply (Hclosed x)|by apply (N6 x)]. }
    assert (∀ y, rtc (λ a b, b ∈ kids a) r y → y ∈ V1) as Hreach.
    { intros y Hy. assert (r ∈ V1) as Hr by (apply N5; by left). clear -Hy Hr Hclosed1. induction Hy as [|x y z Hxy _ IHy]; [done|]. apply IHy. by apply (Hclosed1 x). }
    assert (∀ y, y ∈ new ↔ rtc (λ a b, b ∈ kids a) r y ∧ y ∉ V) as Hnew.
    { intros y. split.
      - intros Hy. destruct (N7 y Hy) as (x & Hx & Hr). apply elem_of_list_singleton in Hx as ->. split; [done|by apply N4].
      - intros [Hr Hv]. apply Hreach, N3 in Hr as [?|?]; done. }
    destruct (IH) with (V := V1) (O := O ++ new) as (segs & S1 & S2 & S3 & S4 & S5); [intros r' Hr'; apply Hrs; by right|done|]. exists (new :: segs).
    split; [cbn; by rewrite S1|]. split; [rewrite S2; cbn; by rewrite app_assoc|].
    assert (∀ y, y ∈ mjoin segs → y ∉ V1) as Hdisj.
    { intros y Hy. apply elem_of_list_join in Hy as (seg & Hy & Hseg). apply elem_of_list_lookup in Hseg as [i Hi]. assert (is_Some (rs !! i)) as [r' Hr']. { apply lookup_lt_is_Some. rewrite <- S1. by eapply lookup_lt_Some. }
      destruct (S5 i r' seg Hr' Hi) as [H _]. by destruct (proj1 (H y) Hy) as (_ & Hv1 & _). }
    split; [cbn; apply NoDup_app; split; [done|]; split; [|done]; intros y Hy Hy'; apply (Hdisj y Hy'), N3; by right|].
    split; [intros y; rewrite S4, N3; cbn; rewrite elem_of_app; clear; tauto|].
    intros [|i] r' seg Hr' Hseg; cbn in Hr', Hseg.
    - injection Hr' as <-. injection Hseg as <-. split; [|].
      + intros y. rewrite Hnew. split; [intros [? ?]; split; [done|]; split; [done|]; intros; lia|by intros (? & ? & _)].
      + destruct (decide (r ∈ V)) as [Hv|Hv].
        * left. apply elem_of_nil_inv. intros y Hy. apply Hnew in Hy as [Hy Hy']. apply Hy'. clear -Hy Hv Hclosed. induction Hy as [|x y z Hxy _ IHy]; [done|]. apply IHy. by apply (Hclosed x).
        * right. destruct (Hhead Hv) as (rest & Hrest). apply app_inv_head in Hrest. by exists rest.
    - destruct (S5 i r' seg Hr' Hseg) as [H1 H2]. split; [|done]. intros y. rewrite H1. split.
      + intros (Hr & Hv & Hj). split; [done|]. split; [intros ?; apply Hv, N3; by left|]. intros [|j] r'' Hji Hr''; cbn in Hr''; [injection Hr'' as <-; intros Hrr; apply Hv; by apply Hreach|]. apply (Hj j); [lia|done].
      + intros (Hr & Hv & Hj). split; [done|]. split; [|intros j r'' Hji Hr''; apply (Hj (S j)); [lia|done]]. intros Hv1. apply N3 in Hv1 as [?|Hn1]; [done|]. apply Hnew in Hn1 as [Hn1 _]. by apply (Hj 0 r); [lia|..].
  Qed.
End dfs.
