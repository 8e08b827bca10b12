(** * Lemmas about response pairing, keys, positions and call depths. *)
From Coq Require Import Ascii.
From stdpp Require Import sorting.
From stdpp Require Import base numbers list strings gmap relations.
From Verif Require Import StrOrder StrLib StrSplit DecLib StableSort IdModel RouteModel PairModel.

(** ** Splitting at the first / last occurrence of a byte *)
Lemma contains_cons c x s : contains_byte c (String x s) = bool_decide (x = c) || contains_byte c s.
Proof. done. Qed.
Lemma contains_app c s t : contains_byte c (s +:+ t) = contains_byte c s || contains_byte c t.
Proof. apply str_any_app. Qed.
Lemma first_split_inj c a b x y :
  contains_byte c a = false → contains_byte c b = false →
  a +:+ String c x = b +:+ String c y → a = b ∧ x = y.
Proof.
  revert b. induction a as [|z a IH]; intros [|w b] Ha Hb; cbn [append].
  - intros [= ->]. done.
  - rewrite contains_cons in Hb. apply orb_false_iff in Hb as [Hw _]. apply bool_decide_eq_false in Hw.
    intros [= -> _]. done.
  - rewrite contains_cons in Ha. apply orb_false_iff in Ha as [Hw _]. apply bool_decide_eq_false in Hw.
    intros [= -> _]. done.
  - rewrite contains_cons in Ha, Hb. apply orb_false_iff in Ha as [_ Ha]. apply orb_false_iff in Hb as [_ Hb].
    intros [= -> H]. destruct (IH _ Ha Hb H) as [-> ->]. done.
Qed.
Lemma split_last_none c s : contains_byte c s = false → split_last c s = None.
Proof.
  induction s as [|x s IH]; [done|]. rewrite contains_cons. intros [Hx Hs]%orb_false_iff.
  apply bool_decide_eq_false in Hx. cbn [split_last]. rewrite IH by done. by rewrite decide_False.
Qed.
Lemma split_last_app c a b : contains_byte c b = false → split_last c (a +:+ String c b) = Some (a, b).
Proof.
  intros Hb. induction a as [|x a IH].
  - change ("" +:+ String c b) with (String c b). cbn [split_last]. rewrite (split_last_none c b Hb). by rewrite decide_True.
  - rewrite sapp_cons. cbn [split_last]. by rewrite IH.
Qed.

(** ** Keys *)
Lemma key_part_inj a b x y : key_part a +:+ x = key_part b +:+ y → a = b ∧ x = y.
Proof.
  unfold key_part. rewrite !sapp_assoc. cbn [append]. intros H.
  apply first_split_inj in H as [Hl H]; [|by apply contains_itoa_nat..].
  apply itoa_nat_inj in Hl. by apply sapp_inj_len in H.
Qed.
Lemma key_part_nonempty a x : key_part a +:+ x ≠ "".
Proof.
  unfold key_part. intros H%sapp_eq_nil. destruct H as [H _]. apply sapp_eq_nil in H as [_ H]. done.
Qed.
Lemma write_parts_app a b : write_parts (a ++ b) = write_parts a +:+ write_parts b.
Proof. induction a as [|x a IH]; [done|]. cbn [app write_parts]. by rewrite IH, sapp_assoc. Qed.
Lemma write_parts_inj a : ∀ b, write_parts a = write_parts b → a = b.
Proof.
  induction a as [|x a IH]; intros [|y b]; cbn [write_parts]; [done| | |].
  - intros H. symmetry in H. by apply key_part_nonempty in H.
  - intros H. by apply key_part_nonempty in H.
  - intros H. apply key_part_inj in H as [-> H]. by rewrite (IH _ H).
Qed.
Lemma candidate_key_parts chain callee : candidate_key chain callee = write_parts (chain ++ [callee]).
Proof. unfold candidate_key. rewrite write_parts_app. cbn [write_parts]. by rewrite sapp_nil. Qed.

(** ** Positions *)
Lemma position_round_trip base file line col :
  contains_byte "@" file = false → file ≠ "" → (0 < line)%Z → col ≠ 0%Z →
  callee_position (base +:+ "@" +:+ format_position file line col) = (file, line, col).
Proof.
  intros Hf Hne Hl Hc. unfold format_position. rewrite bool_decide_eq_true_2 by done.
  rewrite !decide_False by done. rewrite !sapp_assoc.
  change (":" +:+ itoa col) with (String ":" (itoa col)).
  change (":" +:+ itoa line +:+ String ":" (itoa col)) with (String ":" (itoa line +:+ String ":" (itoa col))).
  set (p := file +:+ _).
  change ("@" +:+ p) with (String "@" p). unfold callee_position.
  rewrite split_last_app.
  2:{ unfold p. rewrite contains_app, Hf, contains_cons. simpl. rewrite contains_app, contains_cons.
      rewrite !contains_itoa by done. done. }
  unfold p. clear p.
  assert (file +:+ String ":" (itoa line +:+ String ":" (itoa col)) =
          (file +:+ String ":" (itoa line)) +:+ String ":" (itoa col)) as -> by (by rewrite sapp_assoc).
  rewrite !split_last_app by (by apply contains_itoa). by rewrite !atoi_itoa.
Qed.

(** ** The order on positions *)
Lemma pos_lt_irrefl p : pos_lt p p = false.
Proof. unfold pos_lt. rewrite !decide_True by done. apply bool_decide_eq_false. lia. Qed.
Lemma pos_lt_trans p q r : pos_lt p q = true → pos_lt q r = true → pos_lt p r = true.
Proof.
  unfold pos_lt. destruct p as [[f1 l1] c1], q as [[f2 l2] c2], r as [[f3 l3] c3]; simpl.
  destruct (decide (f1 = f2)) as [->|H12].
  - destruct (decide (f2 = f3)) as [->|H23]; [|done].
    repeat case_decide; rewrite ?bool_decide_eq_true; try lia.
  - destruct (decide (f2 = f3)) as [->|H23].
    + by rewrite (decide_False (P := f1 = f3)).
    + intros H1 H2. rewrite decide_False; [by eapply string_lt_trans|].
      intros ->. pose proof (string_lt_trans _ _ _ H1 H2) as H. by rewrite string_lt_irrefl in H.
Qed.
Lemma pos_lt_total p q : pos_lt p q = false → pos_lt q p = false → p = q.
Proof.
  unfold pos_lt. destruct p as [[f1 l1] c1], q as [[f2 l2] c2]; simpl.
  destruct (decide (f1 = f2)) as [->|H12].
  - rewrite (decide_True (P := f2 = f2)) by done. repeat case_decide; try congruence;
      rewrite ?bool_decide_eq_false; intros; repeat f_equal; try congruence; lia.
  - rewrite decide_False by congruence. rewrite !string_lt_not_le. intros H1 H2.
    exfalso. apply H12. by apply (anti_symm string_le).
Qed.

(** ** Collecting fragments *)
Section collect.
(** The fragments of one candidate, on its own. *)
Definition cand_frags (c : cand) : list frag := (fold_left (add_resp c) (cd_resps c) (∅, [])).2.
Definition cand_keys (c : cand) : gset string := (fold_left (add_resp c) (cd_resps c) (∅, [])).1.

Definition sep_free (c : cand) : Prop :=
  contains_byte chain_sep (cd_site c) = false ∧
  ∀ r i u, Some (r, i, u) ∈ cd_resps c → contains_byte chain_sep (rp_body r) = false.

Lemma dedupe_key_inj c c' z z' b b' :
  contains_byte chain_sep (cd_site c) = false → contains_byte chain_sep (cd_site c') = false →
  contains_byte chain_sep b = false → contains_byte chain_sep b' = false →
  dedupe_key c z b = dedupe_key c' z' b' → cd_site c = cd_site c'.
Proof.
  intros H1 H2 H3 H4 H. unfold dedupe_key in H.
  apply (f_equal (split_last chain_sep)) in H.
  assert (∀ (c : cand) z b, cd_chain c +:+ String chain_sep (cd_site c +:+ String chain_sep (itoa z +:+ String chain_sep b)) =
    ((cd_chain c +:+ String chain_sep (cd_site c)) +:+ String chain_sep (itoa z)) +:+ String chain_sep b) as E.
  { intros. by rewrite !sapp_assoc. }
  rewrite !E, !split_last_app in H by done. injection H as H ->.
  apply (f_equal (split_last chain_sep)) in H.
  rewrite !split_last_app in H by (by apply contains_itoa). injection H as H _.
  apply (f_equal (split_last chain_sep)) in H. rewrite !split_last_app in H by done. by injection H.
Qed.

(** Adding a candidate to a state whose keys are all from other sites. *)
Lemma add_cand_fresh c seen fs rs :
  (∀ r i u, Some (r, i, u) ∈ rs → dedupe_key c (normal_status (rp_status r)) (rp_body r) ∉ seen) →
  ∀ own acc, 
  fold_left (add_resp c) rs (own ∪ seen, fs ++ acc) =
  let st := fold_left (add_resp c) rs (own, acc) in (st.1 ∪ seen, fs ++ st.2).
Proof.
  induction rs as [|o rs IH]; intros Hs own acc; [done|]. simpl.
  assert (∀ r i u, Some (r, i, u) ∈ rs → dedupe_key c (normal_status (rp_status r)) (rp_body r) ∉ seen) as Hs'.
  { intros r i u Hin. apply (Hs r i u). by right. }
  destruct o as [[[r i] u]|]; [|by apply IH]. simpl. destruct (resp_ignored r u); [by apply IH|].
  specialize (Hs r i u ltac:(left)).
  destruct (decide (dedupe_key c (normal_status (rp_status r)) (rp_body r) ∈ own)) as [Hin|Hin].
  - rewrite decide_True by set_solver. rewrite ?decide_True by set_solver. by apply IH.
  - rewrite decide_False by set_solver. rewrite <- app_assoc, union_assoc_L. by apply IH.
Qed.
Lemma add_resp_keys c rs : ∀ st k, k ∈ (fold_left (add_resp c) rs st).1 ↔
  k ∈ st.1 ∨ ∃ r i u, Some (r, i, u) ∈ rs ∧ resp_ignored r u = false ∧ k = dedupe_key c (normal_status (rp_status r)) (rp_body r).
Proof.
  induction rs as [|o rs IH]; intros st k; simpl.
  - split; [by left|]. intros [?|(r & i & u & Hin & _)]; [done|]. by apply not_elem_of_nil in Hin.
  - rewrite IH. clear IH. unfold add_resp. destruct o as [[[r i] u]|].
    2:{ split; (intros [?|(r & i & u & Hin & Hr)]; [by left|]; right; exists r, i, u; split; [|done]).
        - by right.
        - apply elem_of_cons in Hin as [?|?]; done. }
    destruct (resp_ignored r u) eqn:Hig.
    { split; (intros [?|(r' & i' & u' & Hin & Hr)]; [by left|]; right; exists r', i', u'; split; [|done]).
      - by right.
      - apply elem_of_cons in Hin as [[= -> -> ->]|?]; [|done]. destruct Hr. congruence. }
    case_decide as Hk.
    + split.
      * intros [?|(r' & i' & u' & Hin & Hr)]; [by left|]. right. exists r', i', u'. split; [by right|done].
      * intros [?|(r' & i' & u' & Hin & Hr & ->)]; [by left|].
        apply elem_of_cons in Hin as [[= -> -> ->]|?]; [by left|]. right. by exists r', i', u'.
    + simpl. rewrite elem_of_union, elem_of_singleton. split.
      * intros [[->|?]|(r' & i' & u' & Hin & Hr)]; [|by left|].
        -- right. exists r, i, u. split; [left|done].
        -- right. exists r', i', u'. split; [by right|done].
      * intros [?|(r' & i' & u' & Hin & Hr & ->)]; [by left; right|].
        apply elem_of_cons in Hin as [[= -> -> ->]|?]; [by left; left|]. right. by exists r', i', u'.
Qed.

Lemma collect_blocks cands :
  NoDup (cd_site <$> cands) → Forall sep_free cands →
  ∀ seen fs, (∀ k, k ∈ seen → ∃ c' z b, k = dedupe_key c' z b ∧ contains_byte chain_sep b = false ∧
                contains_byte chain_sep (cd_site c') = false ∧ cd_site c' ∉ cd_site <$> cands) →
  (fold_left add_cand cands (seen, fs)).2 = fs ++ concat (cand_frags <$> cands).
Proof.
  induction cands as [|c cands IH]; intros Hnd Hsf seen fs Hseen; simpl; [by rewrite app_nil_r|].
  apply NoDup_cons in Hnd as [Hc Hnd]. apply Forall_cons in Hsf as [Hcsf Hsf].
  assert (add_cand (seen, fs) c = (cand_keys c ∪ seen, fs ++ cand_frags c)) as ->.
  { unfold add_cand.
    assert (∀ r i u, Some (r, i, u) ∈ cd_resps c → dedupe_key c (normal_status (rp_status r)) (rp_body r) ∉ seen) as Hk.
    { intros r i u Hin Hk. destruct (Hseen _ Hk) as (c' & z & b & Heq & Hb & Hs & Hn).
      apply Hn. destruct Hcsf as [Hs1 Hb1]. rewrite <- (dedupe_key_inj _ _ _ _ _ _ Hs1 Hs (Hb1 _ _ _ Hin) Hb Heq). by left. }
    pose proof (add_cand_fresh c seen fs (cd_resps c) Hk ∅ []) as H'.
    rewrite union_empty_l_L, app_nil_r in H'. rewrite H'. done. }
  rewrite IH; [by rewrite <- app_assoc|done|done|].
  intros k [Hk|Hk]%elem_of_union.
  - unfold cand_keys in Hk. apply add_resp_keys in Hk as [Hk|(r & i & u & Hin & _ & ->)]; [set_solver|].
    destruct Hcsf as [Hs1 Hb1]. exists c, (normal_status (rp_status r)), (rp_body r). eauto.
  - destruct (Hseen _ Hk) as (c' & z & b & ? & ? & ? & Hn). exists c', z, b. repeat split; try done.
    intros Hin. apply Hn. by right.
Qed.
Lemma cand_frags_pos c f : f ∈ cand_frags c → fr_pos f = callee_position (cd_site c).
Proof.
  unfold cand_frags. assert (∀ rs st, (∀ f, f ∈ st.2 → fr_pos f = callee_position (cd_site c)) →
    ∀ f, f ∈ (fold_left (add_resp c) rs st).2 → fr_pos f = callee_position (cd_site c)) as H.
  { induction rs as [|o rs IH]; intros st Hst; [done|]. simpl. apply IH. unfold add_resp.
    destruct o as [[[r i] u]|]; [|done]. destruct (resp_ignored r u); [done|]. case_decide; [done|]. simpl.
    intros g [Hg| ->%elem_of_list_singleton]%elem_of_app; [by apply Hst|done]. }
  apply H. simpl. intros g Hg. by apply not_elem_of_nil in Hg.
Qed.
Lemma filter_blocks (cands : list cand) k :
  filter (λ f, fr_pos f = k) (concat (cand_frags <$> cands)) =
  concat (cand_frags <$> filter (λ c, callee_position (cd_site c) = k) cands).
Proof.
  induction cands as [|c cands IH]; [done|]. rewrite fmap_cons. cbn [concat]. rewrite filter_app, IH, filter_cons.
  case_decide as Hc.
  - rewrite fmap_cons. cbn [concat]. f_equal. assert (∀ f, f ∈ cand_frags c → fr_pos f = k) as Hall by (intros f Hf; by rewrite (cand_frags_pos c f)).
    clear -Hall. induction (cand_frags c) as [|g l IHl]; [done|]. rewrite filter_cons, decide_True by (apply Hall; left).
    f_equal. apply IHl. intros f Hf. apply Hall. by right.
  - assert (filter (λ f, fr_pos f = k) (cand_frags c) = []) as ->; [|done].
    apply elem_of_nil_inv. intros f [Hk Hf]%elem_of_list_filter. apply Hc. by rewrite <- (cand_frags_pos c f).
Qed.
End collect.

Lemma filter_nodup_perm {A B} `{EqDecision B} (f : A → B) (l l' : list A) k :
  l ≡ₚ l' → NoDup (f <$> l) → filter (λ x, f x = k) l = filter (λ x, f x = k) l'.
Proof.
  intros Hp Hnd.
  assert (∀ l : list A, NoDup (f <$> l) → length (filter (λ x, f x = k) l) ≤ 1) as Hlen.
  { clear. induction l as [|x l IH]; [simpl; lia|]. simpl. intros [Hx Hnd]%NoDup_cons. rewrite filter_cons.
    case_decide as Hk; [|by apply IH]. simpl.
    assert (filter (λ x, f x = k) l = []) as ->; [|simpl; lia].
    apply elem_of_nil_inv. intros y [Hy Hin]%elem_of_list_filter. apply Hx. rewrite Hk, <- Hy. by apply elem_of_list_fmap_1. }
  assert (filter (λ x, f x = k) l ≡ₚ filter (λ x, f x = k) l') as Hf by (by rewrite Hp).
  specialize (Hlen l Hnd). destruct (filter (λ x, f x = k) l) as [|x [|? ?]]; simpl in *; [| |lia].
  - by apply Permutation_nil in Hf.
  - by apply Permutation_singleton_l in Hf.
Qed.

Lemma pair_order depths saved cands cands' :
  cands ≡ₚ cands' → NoDup ((λ c, callee_position (cd_site c)) <$> cands) → Forall sep_free cands →
  pair_and_fill depths saved cands = pair_and_fill depths saved cands'.
Proof.
  intros Hp Hnd Hsf. unfold pair_and_fill.
  assert (sort_frags (collect_frags cands) = sort_frags (collect_frags cands')) as ->; [|done].
  unfold sort_frags. apply stable_sort_filters; [apply pos_lt_irrefl|apply pos_lt_trans|apply pos_lt_total|].
  intros k. unfold collect_frags.
  assert (∀ l : list cand, NoDup ((λ c, callee_position (cd_site c)) <$> l) → NoDup (cd_site <$> l)) as Hs.
  { clear. induction l as [|c l IH]; [constructor|]. simpl. intros [Hc Hnd]%NoDup_cons. constructor; [|by apply IH].
    intros (c' & Heq & Hin)%elem_of_list_fmap. apply Hc. apply elem_of_list_fmap. exists c'. by rewrite Heq. }
  assert (NoDup ((λ c, callee_position (cd_site c)) <$> cands')) as Hnd' by (by rewrite <- Hp).
  assert (Forall sep_free cands') as Hsf' by (by rewrite <- Hp).
  rewrite !collect_blocks by (try done; try (by apply Hs); set_solver).
  cbn [app]. rewrite !filter_blocks. f_equal. f_equal. by apply filter_nodup_perm.
Qed.
