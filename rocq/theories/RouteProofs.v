(** * Proofs about routes. *)
From Coq Require Import Ascii.
From stdpp Require Import base list strings gmap.
From Verif Require Import StrOrder StrLib StrSplit RouteModel RouteSpec.

(** ** Paths *)
Lemma join_paths_eq a b : join_paths a b = trim_right slash a +:+ "/" +:+ trim_left slash b.
Proof. unfold join_paths. destruct (decide _) as [->|]; done. Qed.
Lemma join_paths_assoc a b c : join_paths (join_paths a b) c = join_paths a (join_paths b c).
Proof.
  rewrite !join_paths_eq.
  change ("/" +:+ ?x) with (String slash x).
  set (A := trim_right slash a). set (C := trim_left slash c).
  assert (trim_right slash A = A) as HA by apply trim_right_idemp.
  assert (trim_left slash C = C) as HC by apply trim_left_idemp.
  rewrite trim_right_app, trim_left_app.
  destruct (decide (trim_right slash b = "")) as [Hb|Hb].
  - pose proof (proj1 (trim_right_nil_left _ _) Hb) as Hb'. rewrite Hb, Hb'.
    simpl. by rewrite HA, HC.
  - assert (trim_left slash b ≠ "") as Hb' by by rewrite <- trim_right_nil_left.
    assert (trim_left slash (trim_right slash b) ≠ "") as Hb2.
    { rewrite <- trim_right_nil_left. by rewrite trim_right_idemp. }
    assert (trim_right slash (trim_left slash b) ≠ "") as Hb3 by by rewrite <- trim_comm.
    rewrite (decide_False (P := trim_left slash (trim_right slash b) = "")) by done.
    assert (trim_right slash (String slash (trim_left slash b)) = String slash (trim_right slash (trim_left slash b))) as ->.
    { simpl. destruct (trim_right slash (trim_left slash b)); done. }
    rewrite decide_False by done. rewrite trim_comm.
    by rewrite !sapp_assoc, !sapp_cons.
Qed.

Lemma trim_join a b : trim slash (join_paths a b) =
  if decide (trim slash a = "") then trim slash b
  else if decide (trim slash b = "") then trim slash a else trim slash a +:+ "/" +:+ trim slash b.
Proof.
  rewrite join_paths_eq. unfold trim. rewrite trim_left_app.
  change ("/" +:+ ?x) with (String slash x).
  assert (∀ x, trim_left slash (String slash x) = trim_left slash x) as Hl by (by intros x).
  assert (∀ x, trim_right slash (trim_left slash x) = "" ↔ trim_left slash x = "") as He.
  { intros x. by rewrite trim_right_nil_left, trim_left_idemp. }
  rewrite Hl, trim_left_idemp.
  destruct (decide (trim_left slash (trim_right slash a) = "")) as [Ha|Ha].
  - rewrite trim_comm in Ha. by rewrite (decide_True (P := trim_right slash (trim_left slash a) = "")).
  - rewrite trim_comm in Ha |- *. rewrite (decide_False (P := trim_right slash (trim_left slash a) = "")) by done.
    rewrite trim_right_app, trim_right_idemp.
    destruct (decide (trim_right slash (trim_left slash b) = "")) as [Hb|Hb].
    + assert (trim_right slash (String slash (trim_left slash b)) = "") as ->.
      { simpl. by rewrite Hb. }
      by rewrite decide_True.
    + assert (trim_right slash (String slash (trim_left slash b)) = String slash (trim_right slash (trim_left slash b))) as ->.
      { simpl. destruct (trim_right slash (trim_left slash b)); done. }
      by rewrite decide_False.
Qed.
Lemma segments_join a b : mount_segments (join_paths a b) = mount_segments a ++ mount_segments b.
Proof.
  unfold mount_segments. rewrite trim_join.
  destruct (decide (trim slash a = "")) as [Ha|Ha]; [done|].
  destruct (decide (trim slash b = "")) as [Hb|Hb].
  - rewrite decide_False by done. by rewrite app_nil_r.
  - rewrite decide_False.
    + change ("/" +:+ ?x) with (String slash x). by rewrite split_byte_app.
    + intros [? ?]%sapp_eq_nil. done.
Qed.
Lemma join_nonempty a b : join_paths a b ≠ "".
Proof. rewrite join_paths_eq. intros [_ [? _]%sapp_eq_nil]%sapp_eq_nil. done. Qed.

Lemma rep_app n c : rep_byte n c +:+ String c "" = String c (rep_byte n c).
Proof. induction n as [|n IH]; [done|]. simpl. by rewrite sapp_cons, IH. Qed.
Lemma trim_left_rep n c s : trim_left c (rep_byte n c +:+ s) = trim_left c s.
Proof. induction n as [|n IH]; [done|]. simpl rep_byte. rewrite sapp_cons. simpl. by rewrite decide_True. Qed.
Lemma ends_with_contains c s : ends_with c s → contains_byte c s = true.
Proof.
  intros [t ->]. unfold contains_byte. rewrite str_any_app. simpl. rewrite bool_decide_true by done. by rewrite orb_true_r.
Qed.
Lemma ends_with_app_r c s t : t ≠ "" → ends_with c (s +:+ t) → ends_with c t.
Proof.
  intros Ht [u Hu]. assert (∃ t' b, t = t' +:+ String b "") as (t' & b & ->).
  { clear -Ht. induction t as [|a t IH]; [done|]. destruct t as [|b t]; [by exists "", a|].
    destruct IH as (t' & x & ->); [done|]. by exists (String a t'), x. }
  rewrite <- sapp_assoc in Hu.
  assert (String.length (s +:+ t') = String.length u) as Hlen.
  { apply (f_equal String.length) in Hu. rewrite !sapp_length in *. change (String.length (String ?x "")) with 1 in Hu. lia. }
  apply sapp_inj_len in Hu as [_ [= ->]]; [|done]. by exists t'.
Qed.
Lemma segments_spec l i j : l ≠ [] → Forall (λ x, contains_byte slash x = false) l →
  head l ≠ Some "" → last l ≠ Some "" →
  mount_segments (rep_byte i slash +:+ str_join "/" l +:+ rep_byte j slash) = l.
Proof.
  intros Hl HF Hh Ht. unfold mount_segments, trim. rewrite trim_left_rep.
  destruct l as [|x l]; [done|]. clear Hl.
  assert (¬ starts_with slash (str_join "/" (x :: l)) ∧ str_join "/" (x :: l) ≠ "") as [Hs Hne].
  { apply Forall_cons in HF as [Hx _]. destruct x as [|a x]; [done|].
    unfold contains_byte in Hx. simpl in Hx. apply orb_false_iff in Hx as [Hx _]. apply bool_decide_eq_false in Hx.
    split; destruct l as [|y l]; try done; intros [t Hst].
    - injection Hst as -> _. done.
    - rewrite str_join_cons2, sapp_cons in Hst. injection Hst as -> _. done. }
  assert (¬ ends_with slash (str_join "/" (x :: l))) as He.
  { clear -HF Ht. revert x HF Ht. induction l as [|y l IH]; intros x HF Ht.
    - apply Forall_cons in HF as [Hx _]. simpl. intros He%ends_with_contains. congruence.
    - apply Forall_cons in HF as [Hx HF]. specialize (IH y HF Ht). rewrite str_join_cons2, <- sapp_assoc.
      intros He%ends_with_app_r; [done|].
      intros Hy. destruct l as [|z l]; [simpl in Hy; by subst|].
      rewrite str_join_cons2 in Hy. by apply sapp_eq_nil in Hy as [_ [? _]%sapp_eq_nil]. }
  rewrite trim_left_app, trim_left_id by done. rewrite (decide_False (P := str_join _ _ = "")) by done.
  rewrite trim_right_app, trim_right_rep. rewrite (decide_True (P := "" = "")) by done.
  rewrite trim_right_id by done. rewrite decide_False by done.
  by apply split_join.
Qed.

(** ** Subsequences *)
Lemma subseq_loop_spec a b : a ≠ [] → subseq_loop a b = true ↔ sublist a b.
Proof.
  revert a. induction b as [|x b IH]; intros a Ha; simpl.
  - split; [done|]. intros H%sublist_nil_r. done.
  - destruct a as [|y a]; [done|]. destruct (decide (x = y)) as [->|Hne].
    + destruct a as [|z a].
      * split; [intros _|done]. apply sublist_skip, sublist_nil_l.
      * rewrite IH by done. split; [by intros; apply sublist_skip|].
        intros Hs. inversion Hs as [|? ? ? Hs'|? ? ? Hs']; subst; [done|].
        etrans; [|exact Hs']. by apply sublist_cons.
    + rewrite IH by done. split; [by apply sublist_cons|].
      intros Hs. inversion Hs; subst; [done|]. done.
Qed.
Lemma is_subsequence_spec a b : is_subsequence a b = true ↔ sublist a b.
Proof.
  unfold is_subsequence. destruct a; [split; [intros _; apply sublist_nil_l|done]|]. by apply subseq_loop_spec.
Qed.

(** ** Dropping *)
Lemma same_group_spec a b : same_group a b = true ↔ same_endpoint a b.
Proof. unfold same_group, same_endpoint. rewrite !andb_true_iff, !bool_decide_eq_true. tauto. Qed.
Lemma dropped_in_spec routes r : dropped_in routes r = true ↔ ∃ r', r' ∈ routes ∧ subsumed_by r r'.
Proof.
  unfold dropped_in. rewrite existsb_exists. unfold subsumed_by.
  split; intros (r' & Hin & H); exists r'; (split; [by apply elem_of_list_In|]).
  - rewrite !andb_true_iff, same_group_spec, Nat.ltb_lt, is_subsequence_spec in H. tauto.
  - rewrite !andb_true_iff, same_group_spec, Nat.ltb_lt, is_subsequence_spec. tauto.
Qed.
Lemma merge_ident e n : ident (merge_route e n) = ident e.
Proof. done. Qed.
Lemma merges_ident ds e : ident (fold_left merge_route ds e) = ident e.
Proof. revert e. induction ds as [|d ds IH]; intros e; [done|]. simpl. by rewrite IH. Qed.
Lemma ident_subsumed a a' b b' : ident a = ident a' → ident b = ident b' → subsumed_by a b → subsumed_by a' b'.
Proof.
  unfold ident, subsumed_by, same_endpoint. intros Ha Hb. injection Ha as Ha1 Ha2 Ha3 Ha4. injection Hb as Hb1 Hb2 Hb3 Hb4.
  rewrite <- Ha1, <- Ha2, <- Ha3, <- Ha4, <- Hb1, <- Hb2, <- Hb3, <- Hb4. done.
Qed.

Lemma subsumed_trans a b c : subsumed_by a b → subsumed_by b c → subsumed_by a c.
Proof.
  intros ((H1 & H2 & H3) & Hs & Hl) ((H1' & H2' & H3') & Hs' & Hl').
  split; [split; [congruence|split; congruence]|]. split; [by etrans|lia].
Qed.

Lemma elem_drop routes k : k ∈ drop_subsumed routes ↔
  ∃ r, r ∈ routes ∧ (∀ r', r' ∈ routes → ¬ subsumed_by r r') ∧
    k = fold_left merge_route
         (filter (λ d, same_group r d = true) (filter (λ r, dropped_in routes r = true) routes)) r.
Proof.
  unfold drop_subsumed. rewrite elem_of_list_fmap. split.
  - intros (r & -> & Hr). apply elem_of_list_filter in Hr as [Hd Hr]. exists r. split; [done|]. split; [|done].
    intros r' Hr' Hs. assert (dropped_in routes r = true) by (apply dropped_in_spec; eauto). congruence.
  - intros (r & Hr & Hn & ->). exists r. split; [done|]. apply elem_of_list_filter. split; [|done].
    destruct (dropped_in routes r) eqn:E; [|done]. apply dropped_in_spec in E as (r' & Hr' & Hs). by destruct (Hn r').
Qed.

Lemma drop_kept_idents routes : ident <$> drop_subsumed routes =
  ident <$> filter (λ r, dropped_in routes r = false) routes.
Proof.
  unfold drop_subsumed. rewrite <- list_fmap_compose. apply list_fmap_ext. intros i r _. apply merges_ident.
Qed.

(** Every route is covered by a maximal one. *)
Lemma covered (routes : list route) r : r ∈ routes → ∃ m, m ∈ routes ∧ (m = r ∨ subsumed_by r m) ∧
  ∀ r', r' ∈ routes → ¬ subsumed_by m r'.
Proof.
  intros Hr.
  set (bound := foldr (λ r n, length (mount_segments (rt_mount r)) `max` n) 0 routes).
  assert (∀ x, x ∈ routes → length (mount_segments (rt_mount x)) ≤ bound) as Hb.
  { unfold bound. clear. induction routes as [|y l IH]; intros x Hx; [by apply not_elem_of_nil in Hx|].
    simpl. apply elem_of_cons in Hx as [->|Hx]; [lia|]. specialize (IH x Hx). lia. }
  remember (bound - length (mount_segments (rt_mount r))) as k eqn:Hk.
  revert r Hr Hk. induction (lt_wf k) as [k _ IH]. intros r Hr ->.
  destruct (dropped_in routes r) eqn:E.
  - apply dropped_in_spec in E as (r' & Hr' & Hs).
    destruct (IH (bound - length (mount_segments (rt_mount r')))) with (r := r') as (m & Hm & Hc & Hmax); [|done|done|].
    { destruct Hs as (_ & _ & Hl). specialize (Hb r' Hr'). lia. }
    exists m. split; [done|]. split; [|done]. right. destruct Hc as [->|Hc]; [done|by eapply subsumed_trans].
  - exists r. split; [done|]. split; [by left|]. intros r' Hr' Hs.
    assert (dropped_in routes r = true) by (apply dropped_in_spec; eauto). congruence.
Qed.

Lemma drop_none (routes : list route) : (∀ r r', r ∈ routes → r' ∈ routes → ¬ subsumed_by r r') → drop_subsumed routes = routes.
Proof.
  intros H. unfold drop_subsumed.
  assert (∀ r, r ∈ routes → dropped_in routes r = false) as Hd.
  { intros r Hr. destruct (dropped_in routes r) eqn:E; [|done].
    apply dropped_in_spec in E as (r' & Hr' & Hs). by destruct (H r r'). }
  assert (∀ l : list route, (∀ r, r ∈ l → dropped_in routes r = false) →
    filter (λ r, dropped_in routes r = true) l = [] ∧ filter (λ r, dropped_in routes r = false) l = l) as Hf.
  { induction l as [|x l IH]; intros Hl; [done|].
    destruct IH as [I1 I2]; [intros r Hr; apply Hl; by right|].
    rewrite filter_cons_False by (rewrite (Hl x) by (by left); done).
    rewrite filter_cons_True by (rewrite (Hl x) by (by left); done). by rewrite I1, I2. }
  destruct (Hf routes Hd) as [-> ->]. simpl. apply list_fmap_id.
Qed.

(** ** Preferring responses *)
Lemma schema_concrete_spec s : schema_concrete s = true ↔ informative s.
Proof.
  unfold informative. destruct s as [s|]; simpl.
  - rewrite !orb_true_iff, negb_true_iff, bool_decide_eq_false, !Nat.ltb_lt. split.
    + intros H. exists s. split; [done|]. destruct H as [[[H|H]|H]|H].
      * by left.
      * right; left. by destruct (sc_props s); [simpl in H; lia|].
      * right; right; left. lia.
      * by right; right; right.
    + intros (x & [= <-] & [H|[H|[H|H]]]); [by left; left; left|left; left; right|left; right; lia|by right].
      destruct (sc_props s); [done|simpl; lia].
  - split; [done|]. by intros (? & ? & _).
Qed.
Lemma prefer_response_assoc a b c :
  prefer_response (prefer_response a b) c = prefer_response a (prefer_response b c).
Proof.
  destruct a as [a|], b as [b|], c as [c|]; try done.
  - simpl.
    destruct (response_concrete a) eqn:Ea, (response_concrete b) eqn:Eb, (response_concrete c) eqn:Ec; simpl;
    rewrite ?Ea, ?Eb, ?Ec; simpl;
    repeat (match goal with |- context [string_lt ?x ?y] => destruct (string_lt x y) eqn:? end; simpl;
      rewrite ?Ea, ?Eb, ?Ec; simpl); try done.
    all: repeat match goal with H : string_lt _ _ = false |- _ => apply string_lt_not_le in H end.
    all: exfalso; match goal with
      | H1 : string_lt ?x ?y = true, H2 : string_lt ?y ?z = true, H3 : string_le ?z ?x |- _ =>
        pose proof (string_lt_trans _ _ _ H1 H2); apply string_lt_not_le in H3; congruence
      | H1 : string_lt ?x ?y = true, H2 : string_le ?y ?z, H3 : string_le ?z ?x |- _ =>
        pose proof (string_lt_le_trans _ _ _ H1 H2); apply string_lt_not_le in H3; congruence
      end.
  - simpl. destruct (eqb _ _); [by destruct (string_lt _ _)|by destruct (response_concrete b)].
Qed.

(** [r] is at least as good as [x]: concrete first, then the smaller body type. *)
Definition at_least (r x : resp) : Prop :=
  (response_concrete x = true → response_concrete r = true) ∧
  (response_concrete x = response_concrete r → string_le (rp_body r) (rp_body x)).
Lemma at_least_refl r : at_least r r.
Proof. split; [done|]. intros _. reflexivity. Qed.
Lemma at_least_trans a b c : at_least a b → at_least b c → at_least a c.
Proof.
  intros [H1 H2] [H3 H4]. split; [by auto|]. intros Hc.
  destruct (response_concrete a) eqn:Ea, (response_concrete b) eqn:Eb, (response_concrete c) eqn:Ec; try done.
  - transitivity (rp_body b); auto.
  - by specialize (H3 eq_refl).
  - by specialize (H1 eq_refl).
  - transitivity (rp_body b); auto.
Qed.
Lemma prefer_pair c n : ∃ r, prefer_response (Some c) (Some n) = Some r ∧ (r = c ∨ r = n) ∧ at_least r c ∧ at_least r n.
Proof.
  simpl. destruct (eqb (response_concrete n) (response_concrete c)) eqn:E.
  - apply eqb_prop in E. destruct (string_lt (rp_body n) (rp_body c)) eqn:Hl.
    + exists n. split; [done|]. split; [by right|]. split; [|apply at_least_refl].
      split; [congruence|]. intros _. by apply string_lt_le.
    + exists c. split; [done|]. split; [by left|]. split; [apply at_least_refl|].
      split; [congruence|]. intros _. by apply string_lt_not_le.
  - apply eqb_false_iff in E. destruct (response_concrete n) eqn:En.
    + exists n. split; [done|]. split; [by right|]. split; [|apply at_least_refl]. split; [done|]. congruence.
    + exists c. split; [done|]. split; [by left|]. split; [apply at_least_refl|]. split; [congruence|]. congruence.
Qed.
Lemma best_ok (l : list (option resp)) : ∀ cur, match fold_left prefer_response l cur with
  | None => cur = None ∧ Forall (λ x, x = None) l
  | Some r => (cur = Some r ∨ Some r ∈ l) ∧ (∀ x, cur = Some x ∨ Some x ∈ l → at_least r x)
  end.
Proof.
  induction l as [|o l IH]; intros cur; simpl.
  - destruct cur as [r|]; [|done]. split; [by left|]. intros x [[= ->]|Hx]; [apply at_least_refl|by apply not_elem_of_nil in Hx].
  - specialize (IH (prefer_response cur o)).
    destruct (fold_left prefer_response l (prefer_response cur o)) as [r|].
    + destruct IH as [H1 H2]. destruct cur as [c|], o as [n|].
      * destruct (prefer_pair c n) as (b & Hb & Hor & Hc & Hn). rewrite Hb in H1, H2.
        pose proof (H2 b (or_introl eq_refl)) as Hrb. split.
        -- destruct H1 as [[= ->]|H1]; [|by right; right]. destruct Hor as [->| ->]; [by left|right; by left].
        -- intros x [[= <-]|Hx]; [by eapply at_least_trans|]. apply elem_of_cons in Hx as [[= <-]|Hx]; [by eapply at_least_trans|].
           apply H2. by right.
      * simpl in H1, H2. split; [destruct H1 as [H1|H1]; [by left|by right; right]|].
        intros x [Hx|Hx]; [apply H2; by left|]. apply elem_of_cons in Hx as [?|Hx]; [done|]. apply H2. by right.
      * simpl in H1, H2. split; [destruct H1 as [[= ->]|H1]; [by right; left|by right; right]|].
        intros x [?|Hx]; [done|]. apply elem_of_cons in Hx as [Hx|Hx]; apply H2; [by left|by right].
      * simpl in H1, H2. split; [destruct H1 as [?|H1]; [done|by right; right]|].
        intros x [?|Hx]; [done|]. apply elem_of_cons in Hx as [?|Hx]; [done|]. apply H2. by right.
    + destruct IH as [Hp HF]. destruct cur as [c|], o as [n|]; simpl in Hp; try done.
      * destruct (prefer_pair c n) as (b & Hb & _). simpl in Hb. congruence.
      * split; [done|]. by constructor.
Qed.

(** ** Matchers *)
Lemma execute_mount_ok {A} (ms : list (Z * A)) : match execute_mount ms with
  | None => ms = []
  | Some x => ∃ p pre post, ms = pre ++ (p, x) :: post ∧
      (∀ q y, (q, y) ∈ pre → (q < p)%Z) ∧ (∀ q y, (q, y) ∈ post → (q ≤ p)%Z)
  end.
Proof.
  unfold execute_mount.
  assert (match fold_left mount_step ms (0%Z, None) with
    | (_, None) => ms = []
    | (b, Some x) => ∃ pre post, ms = pre ++ (b, x) :: post ∧
      (∀ q y, (q, y) ∈ pre → (q < b)%Z) ∧ (∀ q y, (q, y) ∈ post → (q ≤ b)%Z)
    end) as H.
  { induction ms as [|[p x] ms IH] using rev_ind; [done|]. rewrite fold_left_app. simpl.
    destruct (fold_left mount_step ms (0%Z, None)) as [b [y|]].
    - destruct IH as (pre & post & -> & Hpre & Hpost). unfold mount_step. simpl.
      destruct (Z.ltb_spec b p) as [Hlt|Hge].
      + exists (pre ++ (b, y) :: post), []. split; [done|]. split; [|intros q z Hq; by apply not_elem_of_nil in Hq].
        intros q z Hq. apply elem_of_app in Hq as [Hq|Hq]; [specialize (Hpre _ _ Hq); lia|].
        apply elem_of_cons in Hq as [[= -> ->]|Hq]; [lia|]. specialize (Hpost _ _ Hq). lia.
      + exists pre, (post ++ [(p, x)]). split; [by rewrite <- app_assoc|]. split; [done|].
        intros q z Hq. apply elem_of_app in Hq as [Hq|Hq]; [by eapply Hpost|].
        apply elem_of_list_singleton in Hq as [= -> ->]. lia.
    - subst ms. unfold mount_step. simpl. exists [], []. split; [done|].
      split; intros q z Hq; by apply not_elem_of_nil in Hq. }
  destruct (fold_left mount_step ms (0%Z, None)) as [b [x|]]; simpl; [|done].
  destruct H as (pre & post & H). by exists b, pre, post.
Qed.

Lemma execute_route_ok {A} (ms : list (rmatcher A)) : (∀ m, m ∈ ms → is_Some (rm_extract m)) →
  match ms with
  | [] => execute_route ms = (false, None)
  | _ => ∃ m x pre post, execute_route ms = (true, Some x) ∧ rm_extract m = Some x ∧ ms = pre ++ m :: post ∧
      (∀ q, q ∈ pre → (rm_priority q < rm_priority m)%Z) ∧ (∀ q, q ∈ post → (rm_priority q ≤ rm_priority m)%Z)
  end.
Proof.
  intros Hall. unfold execute_route.
  assert (match fold_left route_step ms (0%Z, false, None) with
    | (_, false, i) => ms = [] ∧ i = None
    | (b, true, i) => ∃ m pre post, i = rm_extract m ∧ is_Some i ∧ b = rm_priority m ∧ ms = pre ++ m :: post ∧
      (∀ q, q ∈ pre → (rm_priority q < b)%Z) ∧ (∀ q, q ∈ post → (rm_priority q ≤ b)%Z)
    end) as H.
  { induction ms as [|m ms IH] using rev_ind; [done|]. rewrite fold_left_app. simpl.
    assert (∀ m, m ∈ ms → is_Some (rm_extract m)) as Hall'.
    { intros m' Hm'. apply Hall. apply elem_of_app. by left. }
    specialize (IH Hall'). destruct (Hall m) as [x Hx]; [apply elem_of_app; right; by left|].
    destruct (fold_left route_step ms (0%Z, false, None)) as [[b []] i].
    - destruct IH as (m0 & pre & post & Hi & Hsome & Hb & -> & Hpre & Hpost). unfold route_step.
      cbn [negb orb]. destruct (Z.ltb_spec b (rm_priority m)) as [Hlt|Hge].
      + rewrite Hx. exists m, (pre ++ m0 :: post), []. rewrite Hx. split; [done|]. split; [eauto|]. split; [done|].
        split; [done|]. split; [|intros q Hq; by apply not_elem_of_nil in Hq].
        intros q Hq. apply elem_of_app in Hq as [Hq|Hq]; [specialize (Hpre _ Hq); lia|].
        apply elem_of_cons in Hq as [->|Hq]; [lia|]. specialize (Hpost _ Hq). lia.
      + exists m0, pre, (post ++ [m]). split; [done|]. split; [done|]. split; [done|]. split; [by rewrite <- app_assoc|].
        split; [done|]. intros q Hq. apply elem_of_app in Hq as [Hq|Hq]; [by apply Hpost|].
        apply elem_of_list_singleton in Hq as ->. lia.
    - destruct IH as [-> ->]. unfold route_step. cbn [negb orb]. rewrite Hx. exists m, [], [].
      rewrite Hx. split; [done|]. split; [eauto|]. split; [done|]. split; [done|].
      split; intros q Hq; by apply not_elem_of_nil in Hq. }
  destruct (fold_left route_step ms (0%Z, false, None)) as [[b []] i].
  - destruct H as (m & pre & post & -> & [x Hx] & -> & -> & Hpre & Hpost).
    assert (∃ r, pre ++ m :: post = r ∧ r ≠ []) as (r & Hr & Hne) by (eexists; split; [reflexivity|by destruct pre]).
    rewrite Hr. destruct r; [done|]. exists m, x, pre, post. rewrite Hx. done.
  - by destruct H as [-> ->].
Qed.

Lemma execute_route_sound {A} (ms : list (rmatcher A)) x : execute_route ms = (true, Some x) →
  ∃ m, m ∈ ms ∧ rm_extract m = Some x.
Proof.
  unfold execute_route.
  assert (∀ b f i, fold_left route_step ms (0%Z, false, None) = (b, f, i) → ∀ x, i = Some x →
    ∃ m, m ∈ ms ∧ rm_extract m = Some x) as H.
  { induction ms as [|m ms IH] using rev_ind; intros b f i; [by intros [= <- <- <-] y ?|].
    rewrite fold_left_app. simpl. destruct (fold_left route_step ms (0%Z, false, None)) as [[b0 f0] i0].
    unfold route_step. intros Heq y Hy. destruct (negb f0 || Z.ltb b0 (rm_priority m)).
    - destruct (rm_extract m) as [z|] eqn:Hz.
      + injection Heq as <- <- <-. injection Hy as <-. exists m. split; [apply elem_of_app; right; by left|done].
      + injection Heq as <- <- <-. destruct (IH _ _ _ eq_refl y Hy) as (m' & Hm' & ?). exists m'. split; [|done].
        apply elem_of_app. by left.
    - injection Heq as <- <- <-. destruct (IH _ _ _ eq_refl y Hy) as (m' & Hm' & ?). exists m'. split; [|done].
      apply elem_of_app. by left. }
  destruct (fold_left route_step ms (0%Z, false, None)) as [[b f] i]. intros [= -> ->]. by eapply H.
Qed.

(** ** Nested mounts *)
Lemma mount_down_segments mp info : (info = "" ∨ mp = "" ∨ has_suffix info mp = false) →
  mount_segments (mount_down mp info) = mount_segments mp ++ mount_segments info.
Proof.
  intros H. unfold mount_down. destruct (decide (info = "")) as [->|Hne].
  - by rewrite app_nil_r.
  - destruct (bool_decide (mp = "") || negb (has_suffix info mp)) eqn:E; [apply segments_join|].
    apply orb_false_iff in E as [E1 E2]. apply bool_decide_eq_false in E1. apply negb_false_iff in E2.
    destruct H as [?|[?|?]]; congruence.
Qed.
Lemma segments_nil : mount_segments "" = [].
Proof. done. Qed.
