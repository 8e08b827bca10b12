From stdpp Require Import sorting.
From Coq Require Import Ascii.
From stdpp Require Import base list strings gmap relations.
From Verif Require Import StrOrder StrLib StrSplit StrSub StableSort SccSpec DetModel DetSpec DetProofs.

(** ** Classification order *)
Definition known_in (pats : gmap string (list string)) : list string := filter (λ k, is_Some (pats !! k)) known.

Lemma by_rank_keys : fw_key <$> by_rank registry = known ++ ["http"].
Proof. vm_compute. reflexivity. Qed.

Lemma order_fold (pats : gmap string (list string)) (ks : list string) : ∀ order (seen : gset string),
  NoDup ks →
  foldl (λ '(order, seen) k,
           if decide (k ∈ seen) then (order, seen)
           else match pats !! k with
                | Some _ => (order ++ [k], {[k]} ∪ seen)
                | None => (order, seen)
                end) (order, seen) ks
  = (order ++ filter (λ k, is_Some (pats !! k) ∧ k ∉ seen) ks,
     list_to_set (filter (λ k, is_Some (pats !! k) ∧ k ∉ seen) ks) ∪ seen).
Proof.
  induction ks as [|k ks IH]; intros order seen Hn; simpl.
  { f_equal; [by rewrite app_nil_r|set_solver]. }
  apply NoDup_cons in Hn as [Hk Hn]. rewrite filter_cons.
  destruct (decide (k ∈ seen)) as [Hs|Hs].
  - rewrite IH by done. rewrite decide_False by (intros [_ ?]; done). done.
  - destruct (pats !! k) as [v|] eqn:E.
    + rewrite IH by done. rewrite decide_True by (split; [by eexists|done]).
      assert (filter (λ k0, is_Some (pats !! k0) ∧ k0 ∉ ({[k]} ∪ seen : gset string)) ks =
              filter (λ k0, is_Some (pats !! k0) ∧ k0 ∉ seen) ks) as ->.
      { clear -Hk. induction ks as [|y ks IH]; [done|]. rewrite !filter_cons.
        apply not_elem_of_cons in Hk as [Hky Hk]. specialize (IH Hk).
        destruct (decide (is_Some (pats !! y) ∧ y ∉ ({[k]} ∪ seen : gset string))) as [H1|H1];
        destruct (decide (is_Some (pats !! y) ∧ y ∉ seen)) as [H2|H2].
        - by rewrite IH.
        - exfalso. apply H2. destruct H1 as [? H1]. split; [done|]. intros Hy. apply H1. apply elem_of_union. by right.
        - exfalso. apply H1. destruct H2 as [? H2]. split; [done|]. rewrite elem_of_union, elem_of_singleton.
          intros [->|Hy]; done.
        - done. }
      f_equal; [by rewrite <-app_assoc|]. rewrite list_to_set_cons. set_solver.
    + rewrite IH by done. rewrite decide_False by (intros [[? ?] _]; congruence). done.
Qed.

Lemma foldl_fmap_r {A B C} (f : C → B → C) (g : A → B) l : ∀ c, foldl f c (g <$> l) = foldl (λ c x, f c (g x)) c l.
Proof. induction l as [|x l IH]; intros c; simpl; [done|apply IH]. Qed.

Lemma foldl_ext_pt {A B} (f g : A → B → A) l : (∀ a b, f a b = g a b) → ∀ a, foldl f a l = foldl g a l.
Proof. intros H. induction l as [|x l IH]; intros a; simpl; [done|]. by rewrite H. Qed.

Lemma detection_order_eq iter pats : detection_order registry iter pats =
  known_in pats ++ ssort (filter (λ k, k ∉ known_in pats ∧ k ≠ "http") (iter (elements (dom pats)))) ++
  match pats !! "http" with Some _ => ["http"] | None => [] end.
Proof.
  unfold detection_order.
  assert (foldl (λ '(order, seen) f,
             if decide (fw_key f ∈ seen) then (order, seen)
             else match pats !! fw_key f with
                  | Some _ => (order ++ [fw_key f], {[fw_key f]} ∪ seen)
                  | None => (order, seen)
                  end) ([], {[stdlib_key]} : gset string) (by_rank registry)
    = (known_in pats, list_to_set (known_in pats) ∪ {[stdlib_key]})) as Hf.
  { transitivity (foldl (λ '(order, seen) k,
           if decide (k ∈ seen) then (order, seen)
           else match pats !! k with
                | Some _ => (order ++ [k], {[k]} ∪ seen)
                | None => (order, seen)
                end) ([], {[stdlib_key]} : gset string) (fw_key <$> by_rank registry)).
    { rewrite foldl_fmap_r. apply foldl_ext_pt. by intros [? ?] ?. }
    rewrite by_rank_keys, order_fold by (apply (bool_decide_eq_true_1 (NoDup _)); vm_compute; reflexivity).
    assert (filter (λ k, is_Some (pats !! k) ∧ k ∉ ({[stdlib_key]} : gset string)) (known ++ ["http"]) = known_in pats) as ->.
    { rewrite filter_app.
      assert (filter (λ k, is_Some (pats !! k) ∧ k ∉ ({[stdlib_key]} : gset string)) ["http"] = []) as ->.
      { rewrite filter_cons, decide_False; [done|]. intros [_ H]. apply H. by apply elem_of_singleton. }
      rewrite app_nil_r. unfold known_in.
      assert (∀ k, k ∈ known → k ∉ ({[stdlib_key]} : gset string)) as Hk.
      { intros k Hk Hs. apply elem_of_singleton in Hs as ->. revert Hk.
        apply (bool_decide_eq_true_1 (¬ _)). vm_compute. reflexivity. }
      revert Hk. generalize known as l. induction l as [|k l IH]; intros Hk; [done|]. rewrite !filter_cons, IH.
      2: { intros x Hx. apply Hk. by right. }
      destruct (decide (is_Some (pats !! k))) as [H1|H1].
      - rewrite decide_True; [done|]. split; [done|]. apply Hk. left.
      - rewrite decide_False; [done|]. intros [? _]. done. }
    done. }
  rewrite Hf. do 3 f_equal. apply list_filter_iff. intros k.
  rewrite not_elem_of_union, elem_of_list_to_set, elem_of_singleton. done.
Qed.

Lemma filter_perm {A} (P : A → Prop) `{∀ x, Decision (P x)} l1 l2 : l1 ≡ₚ l2 → filter P l1 ≡ₚ filter P l2.
Proof. intros H1. by rewrite H1. Qed.

Lemma detection_order_iter iter1 iter2 pats : is_order iter1 → is_order iter2 →
  detection_order registry iter1 pats = detection_order registry iter2 pats.
Proof.
  intros H1 H2. rewrite !detection_order_eq. do 2 f_equal. apply ssort_unique, filter_perm.
  by rewrite (H1 _), (H2 _).
Qed.

Lemma detection_order_elem iter pats k : is_order iter → k ∈ detection_order registry iter pats ↔ is_Some (pats !! k).
Proof.
  intros Ho. rewrite detection_order_eq, !elem_of_app, elem_of_ssort, elem_of_list_filter, (Ho _), elem_of_elements, elem_of_dom.
  unfold known_in at 1. rewrite elem_of_list_filter. split.
  - intros [[? _]|[[_ ?]|Hk]]; [done|done|]. destruct (pats !! "http") as [v|] eqn:E; [|by apply elem_of_nil in Hk].
    apply elem_of_list_singleton in Hk as ->. by rewrite E.
  - intros Hk. destruct (decide (k ∈ known_in pats)) as [Hi|Hi].
    { left. unfold known_in in Hi. by apply elem_of_list_filter in Hi. }
    destruct (decide (k = "http")) as [->|Hne]; [|by right; left].
    right; right. destruct Hk as [v ->]. apply elem_of_list_singleton. done.
Qed.

Lemma ssorted_app {A} (R : A → A → Prop) l1 l2 : StronglySorted R l1 → StronglySorted R l2 →
  (∀ x y, x ∈ l1 → y ∈ l2 → R x y) → StronglySorted R (l1 ++ l2).
Proof.
  intros H1 H2 Hx. induction H1 as [|x l1 H1 IH Hf]; simpl; [done|]. constructor.
  - apply IH. intros a b Ha. apply Hx. by right.
  - apply Forall_app. split; [done|]. apply Forall_forall. intros b Hb. apply Hx; [left|done].
Qed.
Lemma ssorted_filter {A} (R : A → A → Prop) (P : A → Prop) `{∀ x, Decision (P x)} l :
  StronglySorted R l → StronglySorted R (filter P l).
Proof.
  induction 1 as [|x l H1 IH Hf]; [constructor|]. rewrite filter_cons. destruct (decide (P x)); [|done].
  constructor; [done|]. rewrite Forall_forall in Hf |- *. intros y Hy. apply elem_of_list_filter in Hy as [_ Hy]. by apply Hf.
Qed.
Lemma ssorted_split {A} (R : A → A → Prop) a x b y c : StronglySorted R (a ++ x :: b ++ y :: c) → R x y.
Proof.
  induction a as [|z a IH]; simpl; intros H; inversion H as [|? ? H1 H2]; subst.
  - rewrite Forall_forall in H2. apply H2. apply elem_of_app. right. left.
  - by apply IH.
Qed.
Lemma ssorted_impl {A} (R S : A → A → Prop) l : (∀ x y, x ∈ l → y ∈ l → x ≠ y → R x y → S x y) → NoDup l →
  StronglySorted R l → StronglySorted S l.
Proof.
  intros Hi Hn H. induction H as [|x l H1 IH Hf]; [constructor|]. apply NoDup_cons in Hn as [Hx Hn]. constructor.
  - apply IH; [|done]. intros a b Ha Hb. apply Hi; by right.
  - rewrite Forall_forall in Hf |- *. intros y Hy. apply Hi; [left|by right| |by apply Hf]. intros ->. done.
Qed.

Lemma before_sorted {A} (l : list A) : ∀ pre,
  StronglySorted (λ x y, ∃ a b c, pre ++ l = a ++ x :: b ++ y :: c) l.
Proof.
  induction l as [|z l IH]; intros pre; constructor.
  - specialize (IH (pre ++ [z])). by rewrite <-app_assoc in IH.
  - apply Forall_forall. intros y Hy. apply elem_of_list_split in Hy as (b & c & ->). by exists pre, b, c.
Qed.

Lemma known_sorted : StronglySorted (λ k1 k2, ∃ a b c, known = a ++ k1 :: b ++ k2 :: c) known.
Proof. apply (before_sorted known []). Qed.

Lemma detection_order_sorted iter pats : is_order iter → StronglySorted outranks (detection_order registry iter pats).
Proof.
  intros Ho. rewrite detection_order_eq. set (K := known_in pats).
  set (X := filter (λ k, k ∉ K ∧ k ≠ "http") (iter (elements (dom pats)))).
  set (H := match pats !! "http" with Some _ => ["http"] | None => [] end).
  assert (∀ k, k ∈ K → k ∈ known) as HK by (intros k Hk; unfold K, known_in in Hk; by apply elem_of_list_filter in Hk as [_ ?]).
  assert (∀ k, k ∈ H → k = "http") as HH.
  { intros k Hk. unfold H in Hk. destruct (pats !! "http"); [by apply elem_of_list_singleton in Hk|by apply elem_of_nil in Hk]. }
  assert (∀ k, k ∈ ssort X → k ∉ known ∧ k ≠ "http") as HX.
  { intros k Hk. rewrite elem_of_ssort in Hk. unfold X in Hk. apply elem_of_list_filter in Hk as [[H1 H2] H3].
    split; [|done]. intros Hkn. apply H1. unfold K, known_in. apply elem_of_list_filter. split; [|done].
    rewrite (Ho _), elem_of_elements, elem_of_dom in H3. done. }
  assert ("http" ∉ known) as Hh by (apply (bool_decide_eq_true_1 (¬ _)); vm_compute; reflexivity).
  assert (NoDup X) as HnX by (unfold X; apply NoDup_filter; rewrite (Ho _); apply NoDup_elements).
  apply ssorted_app; [|apply ssorted_app|].
  - unfold K, known_in. apply ssorted_filter.
    apply (ssorted_impl (λ k1 k2, ∃ a b c, known = a ++ k1 :: b ++ k2 :: c)).
    + intros x y _ _ _ Hxy. by left.
    + apply (bool_decide_eq_true_1 (NoDup _)). vm_compute. reflexivity.
    + apply known_sorted.
  - apply (ssorted_impl string_le); [|by apply NoDup_ssort|apply ssort_sorted].
    intros x y Hx Hy Hne Hle. destruct (HX x Hx), (HX y Hy). right; right; left.
    repeat (split; [done|]). destruct (string_lt x y) eqn:E; [done|]. exfalso. apply Hne.
    apply string_lt_not_le in E. by apply (anti_symm string_le).
  - unfold H. destruct (pats !! "http"); repeat constructor.
  - intros x y Hx Hy. apply HH in Hy as ->. right; right; right. split; [|done]. by apply (HX x).
  - intros x y Hx Hy. right; left. split; [by apply HK|]. apply elem_of_app in Hy as [Hy|Hy]; [by apply (HX y)|].
    by apply HH in Hy as ->.
Qed.

(** ** detectFrameworkType *)
Lemma imports_pattern_spec pats p : imports_pattern pats p = true ↔
  ∃ pat i, pat ∈ pats ∧ i ∈ pk_imports p ∧ ∃ t, i = pat +:+ t.
Proof.
  unfold imports_pattern. rewrite existsb_exists. split.
  - intros (pat & Hp & He). apply existsb_exists in He as (i & Hi & Hh). exists pat, i.
    rewrite !elem_of_list_In. split; [done|]. split; [done|]. by apply has_prefix_spec.
  - intros (pat & i & Hp & Hi & Hh). exists pat. split; [by apply elem_of_list_In|].
    apply existsb_exists. exists i. split; [by apply elem_of_list_In|]. by apply has_prefix_spec.
Qed.

Lemma uses_spec cfg p k : uses cfg (pk_imports p) k ↔
  is_Some (dc_patterns cfg !! k) ∧ k ∉ dc_disabled cfg ∧ imports_pattern (default [] (dc_patterns cfg !! k)) p = true.
Proof.
  unfold uses. rewrite imports_pattern_spec. split.
  - intros (Hd & pats & pat & i & Hk & Hp & Hi & Ht). rewrite Hk. split; [by eexists|]. split; [done|]. by exists pat, i.
  - intros ([pats Hk] & Hd & pat & i & Hp & Hi & Ht). rewrite Hk in Hp. split; [done|]. by exists pats, pat, i.
Qed.

Lemma detect_type_sound iter cfg p : is_order iter → detect_type registry iter cfg p ≠ "" →
  uses cfg (pk_imports p) (detect_type registry iter cfg p).
Proof.
  intros Ho. unfold detect_type. destruct (filter _ _) as [|k r] eqn:E; [done|]. intros _.
  apply filter_hd in E as (pre & post & Heq & [Hd Hi] & _). apply uses_spec. split; [|done].
  apply (detection_order_elem iter _ k Ho). rewrite Heq. apply elem_of_app. right. left.
Qed.

Lemma detect_type_wins iter cfg p k : is_order iter → dc_patterns cfg !! "" = None → uses cfg (pk_imports p) k →
  detect_type registry iter cfg p ≠ "" ∧
  (k ≠ detect_type registry iter cfg p → outranks (detect_type registry iter cfg p) k).
Proof.
  intros Ho Hemp Hu. apply uses_spec in Hu as (Hs & Hd & Hi). unfold detect_type.
  apply (detection_order_elem iter _ k Ho) in Hs.
  destruct (filter _ _) as [|k' r] eqn:E.
  { exfalso. assert (k ∈ filter (λ k, k ∉ dc_disabled cfg ∧ imports_pattern (default [] (dc_patterns cfg !! k)) p = true)
          (detection_order registry iter (dc_patterns cfg))) as Hin by (by apply elem_of_list_filter).
    rewrite E in Hin. by apply elem_of_nil in Hin. }
  apply filter_hd in E as (pre & post & Heq & _ & Hpre). split.
  - intros ->. assert (is_Some (dc_patterns cfg !! "")) as [? ?]; [|congruence].
    apply (detection_order_elem iter _ _ Ho). rewrite Heq. apply elem_of_app. right. left.
  - intros Hne. pose proof (detection_order_sorted iter (dc_patterns cfg) Ho) as Hsort. rewrite Heq in Hs, Hsort.
    apply elem_of_app in Hs as [Hs|Hs].
    { exfalso. by apply (Hpre k Hs). }
    apply elem_of_cons in Hs as [?|Hs]; [done|]. apply elem_of_list_split in Hs as (b & c & ->).
    by apply ssorted_split in Hsort.
Qed.

Lemma detect_type_iter iter1 iter2 cfg p : is_order iter1 → is_order iter2 →
  detect_type registry iter1 cfg p = detect_type registry iter2 cfg p.
Proof. intros H1 H2. unfold detect_type. by rewrite (detection_order_iter iter1 iter2). Qed.

(** ** Project root *)
Lemma common_segs_prefix a : ∀ b r, r `prefix_of` common_segs a b ↔ r `prefix_of` a ∧ r `prefix_of` b.
Proof.
  induction a as [|x a IH]; intros [|y b] r; simpl.
  - tauto.
  - split; [|by intros [? ?]]. intros H. split; [done|]. apply prefix_nil_inv in H as ->. apply prefix_nil.
  - split; [|by intros [? ?]]. intros H. split; [|done]. apply prefix_nil_inv in H as ->. apply prefix_nil.
  - destruct r as [|z r].
    { split; [intros _; split|intros _]; apply prefix_nil. }
    destruct (decide (x = y)) as [->|Hne].
    + split.
      * intros H. pose proof (prefix_cons_inv_1 _ _ _ _ H) as ->. apply prefix_cons_inv_2, IH in H as [H1 H2].
        split; by apply prefix_cons.
      * intros [H1 H2]. pose proof (prefix_cons_inv_1 _ _ _ _ H1) as ->. apply prefix_cons, IH.
        split; [by apply prefix_cons_inv_2 in H1|by apply prefix_cons_inv_2 in H2].
    + split.
      * intros H. by apply prefix_nil_inv in H.
      * intros [H1 H2]. exfalso. apply Hne. apply prefix_cons_inv_1 in H1. apply prefix_cons_inv_1 in H2. congruence.
Qed.

Definition segs (s : string) : list string := split_byte "/" s.
Definition lcp (x : list string) (l : list (list string)) : list string := foldl common_segs x l.

Lemma lcp_prefix l : ∀ x r, r `prefix_of` lcp x l ↔ ∀ y, y ∈ x :: l → r `prefix_of` y.
Proof.
  induction l as [|z l IH]; intros x r; simpl.
  - split; [intros H y ->%elem_of_list_singleton; done|]. intros H. apply H. left.
  - rewrite IH. split.
    + intros H y Hy. assert (r `prefix_of` common_segs x z) as Hc by (apply H; left).
      apply common_segs_prefix in Hc as [H1 H2]. apply elem_of_cons in Hy as [->|Hy]; [done|].
      apply elem_of_cons in Hy as [->|Hy]; [done|]. apply H. by right.
    + intros H y Hy. apply elem_of_cons in Hy as [->|Hy].
      * apply common_segs_prefix. split; apply H; [left|right; left].
      * apply H. right; by right.
Qed.

Lemma lcp_perm x l y l' : x :: l ≡ₚ y :: l' → lcp x l = lcp y l'.
Proof.
  intros Hp. apply (anti_symm prefix); apply lcp_prefix; intros z Hz.
  - rewrite <-Hp in Hz. revert z Hz. by apply lcp_prefix.
  - rewrite Hp in Hz. revert z Hz. by apply lcp_prefix.
Qed.

Lemma segs_ok s : Forall (λ x, contains_byte "/" x = false) (segs s).
Proof. apply Forall_forall. intros x Hx. by apply (split_byte_parts "/" s). Qed.

Lemma prefix_ok (r l : list string) : r `prefix_of` l → Forall (λ x, contains_byte "/" x = false) l →
  Forall (λ x, contains_byte "/" x = false) r.
Proof. intros [k ->] H. by apply Forall_app in H as [? _]. Qed.

Lemma common_segs_is_prefix a b : common_segs a b `prefix_of` a.
Proof. by apply (common_segs_prefix a b). Qed.
Lemma lcp_is_prefix x l : lcp x l `prefix_of` x.
Proof. apply (proj1 (lcp_prefix l x (lcp x l))); [done|left]. Qed.

Lemma join_empty r : str_join "/" r = "" → r = [] ∨ r = [""].
Proof.
  destruct r as [|x [|y r]]; [by left| |].
  - simpl. intros ->. by right.
  - rewrite str_join_cons2. intros H. apply sapp_eq_nil in H as [_ H]. discriminate.
Qed.

Lemma prefix_join_empty r s : r `prefix_of` s → str_join "/" s = "" → str_join "/" r = "".
Proof.
  intros [k ->] H. apply join_empty in H as [H|H].
  - by apply app_eq_nil in H as [-> _].
  - destruct r as [|x r]; [done|]. injection H as -> H. by apply app_eq_nil in H as [-> _].
Qed.

Lemma root_loop_lcp paths : ∀ l0, l0 ≠ [] → Forall (λ x, contains_byte "/" x = false) l0 →
  root_loop (str_join "/" l0) paths = str_join "/" (lcp l0 (segs <$> paths)).
Proof.
  induction paths as [|p paths IH]; intros l0 Hne Hok; simpl; [done|].
  unfold common_prefix. rewrite split_join by done. fold (segs p).
  set (r := common_segs l0 (segs p)).
  assert (r `prefix_of` l0) as Hr by apply common_segs_is_prefix.
  destruct (decide (str_join "/" r = "")) as [E|E].
  - symmetry. eapply prefix_join_empty; [apply lcp_is_prefix|done].
  - apply IH; [|by eapply prefix_ok]. intros H0. by rewrite H0 in E.
Qed.

Lemma root_loop_segs p paths : root_loop p paths = str_join "/" (lcp (segs p) (segs <$> paths)).
Proof.
  rewrite <-(str_join_split "/" p) at 1. apply root_loop_lcp; [apply split_byte_nonnil|apply segs_ok].
Qed.

Lemma project_root_perm l1 l2 : l1 ≡ₚ l2 → project_root l1 = project_root l2.
Proof.
  intros Hp. destruct l1 as [|p l1]; [by apply Permutation_nil_l in Hp as ->|].
  destruct l2 as [|q l2]; [by apply Permutation_nil_r in Hp|].
  unfold project_root.
  assert (root_loop p l1 = root_loop q l2) as ->; [|done].
  rewrite !root_loop_segs. f_equal. apply lcp_perm.
  change (segs p :: (segs <$> l1)) with (segs <$> (p :: l1)). change (segs q :: (segs <$> l2)) with (segs <$> (q :: l2)).
  by rewrite Hp.
Qed.

Lemma join_prefix_app (a b : list string) : a ≠ [] → b ≠ [] → str_join "/" (a ++ b) = str_join "/" a +:+ "/" +:+ str_join "/" b.
Proof.
  intros Ha Hb. induction a as [|x a IH]; [done|]. destruct a as [|y a].
  - simpl. destruct b as [|z b]; [done|]. done.
  - change ((x :: y :: a) ++ b) with (x :: y :: (a ++ b)). rewrite str_join_cons2.
    change (y :: a ++ b) with ((y :: a) ++ b). rewrite IH by done. rewrite str_join_cons2.
    by rewrite !sapp_assoc.
Qed.

Lemma under_segs r p : under r p ↔ segs r `prefix_of` segs p.
Proof.
  unfold under, segs. split.
  - intros [->|[t ->]]; [done|]. change ("/" +:+ t) with (String "/" t). rewrite split_byte_app. by eexists.
  - intros [k Hk]. destruct k as [|x k].
    + left. rewrite app_nil_r in Hk. by rewrite <-(str_join_split "/" p), Hk, str_join_split.
    + right. exists (str_join "/" (x :: k)).
      rewrite <-(str_join_split "/" p), Hk, join_prefix_app; [|apply split_byte_nonnil|done].
      by rewrite str_join_split.
Qed.

Lemma project_root_under paths p : project_root paths ≠ "" → p ∈ paths → under (project_root paths) p.
Proof.
  destruct paths as [|q paths]; [done|]. unfold project_root. case_match; [done|]. intros Hne Hp.
  apply under_segs. unfold segs at 1. rewrite root_loop_segs in *. set (L := lcp _ _) in *.
  rewrite split_join.
  - apply (proj1 (lcp_prefix (segs <$> paths) (segs q) L)); [done|].
    change (segs q :: (segs <$> paths)) with (segs <$> (q :: paths)). by apply elem_of_list_fmap_1.
  - intros HL. by rewrite HL in Hne.
  - eapply prefix_ok; [apply lcp_is_prefix|apply segs_ok].
Qed.

Lemma project_root_longest paths s : paths ≠ [] → (∀ p, p ∈ paths → under s p) → s ≠ "" → ¬ bare_host s →
  project_root paths ≠ "" ∧ under s (project_root paths).
Proof.
  destruct paths as [|q paths]; [done|]. intros _ Hall Hs Hb.
  assert (segs s `prefix_of` lcp (segs q) (segs <$> paths)) as Hpre.
  { apply lcp_prefix. intros y Hy. change (segs q :: (segs <$> paths)) with (segs <$> (q :: paths)) in Hy.
    apply elem_of_list_fmap in Hy as (p & -> & Hp). apply under_segs. by apply Hall. }
  set (L := lcp (segs q) (segs <$> paths)) in *.
  assert (L ≠ []) as HL.
  { intros H0. rewrite H0 in Hpre. apply prefix_nil_inv in Hpre. by apply split_byte_nonnil in Hpre. }
  assert (split_byte "/" (str_join "/" L) = L) as HsL.
  { apply split_join; [done|]. eapply prefix_ok; [apply lcp_is_prefix|apply segs_ok]. }
  assert (str_join "/" L ≠ "") as Hne.
  { intros H0. pose proof (prefix_join_empty _ _ Hpre H0) as H1. unfold segs in H1. by rewrite str_join_split in H1. }
  unfold project_root. rewrite root_loop_segs. fold L. rewrite HsL.
  assert (under s (str_join "/" L)) as Hu by (apply under_segs; unfold segs at 2; by rewrite HsL).
  case_match eqn:E; [|done]. exfalso. clear E. rename o into Hor.
  destruct Hor as [?|[Hl Hdot]]; [done|].
  destruct L as [|x [|y L']]; try discriminate. simpl in Hdot.
  apply Hb. unfold bare_host.
  assert (segs s = [x]) as Hss.
  { destruct Hpre as [k Hk]. destruct (segs s) as [|z r] eqn:Es; [by apply split_byte_nonnil in Es|].
    injection Hk as -> Hk. symmetry in Hk. by apply app_eq_nil in Hk as [-> _]. }
  assert (s = x) as ->.
  { rewrite <-(str_join_split "/" s). unfold segs in Hss. by rewrite Hss. }
  split; [|done]. apply (split_byte_parts "/" x). unfold segs in Hss. rewrite Hss. left.
Qed.
