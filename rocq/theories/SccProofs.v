From stdpp Require Import sorting.
From stdpp Require Import base list strings gmap relations.
From Verif Require Import StrOrder SccModel SccSpec SccTarjan.

(** ** The set-building pass *)

Lemma scc_sets_app e1 e2 : scc_sets (e1 ++ e2) = fold_left scc_add_edge e2 (scc_sets e1).
Proof. apply fold_left_app. Qed.

Lemma calls_snoc es e u v :
  calls (es ++ [e]) u v ↔ calls es u v ∨ (e = (u, v) ∧ u ≠ "" ∧ v ≠ "").
Proof.
  unfold calls. rewrite elem_of_app, elem_of_list_singleton. split.
  - intros [[?|Heq] ?]; [by left|right]. split; [by symmetry|done].
  - intros [[? ?]|[<- ?]]; [split; [by left|done]|split; [by right|done]].
Qed.

Lemma calls_snoc_bad es a b u v : a = "" ∨ b = "" →
  calls (es ++ [(a, b)]) u v ↔ calls es u v.
Proof.
  intros Hd. rewrite calls_snoc. split; [|by left].
  intros [?|([= -> ->] & ? & ?)]; tauto.
Qed.

Lemma calls_snoc_other es a b u v : u ≠ a →
  calls (es ++ [(a, b)]) u v ↔ calls es u v.
Proof.
  intros Hd. rewrite calls_snoc. split; [|by left].
  intros [?|([= -> ->] & ? & ?)]; tauto.
Qed.

Lemma scc_sets_nodes es x : x ∈ (scc_sets es).1 ↔ appears es x.
Proof.
  induction es as [|e es IH] using rev_ind.
  - unfold scc_sets. simpl. split; [set_solver|].
    intros (g & [[H _]|[H _]]); by apply not_elem_of_nil in H.
  - rewrite scc_sets_app. simpl. destruct e as [u v]. simpl. unfold appears.
    setoid_rewrite calls_snoc. case_decide as Hd.
    + rewrite IH. unfold appears. split.
      * intros (g & [?|?]); exists g; tauto.
      * intros (g & [[?|([= -> ->] & ? & ?)]|[?|([= -> ->] & ? & ?)]]);
          [exists g; tauto|tauto|exists g; tauto|tauto].
    + simpl. rewrite !elem_of_union, !elem_of_singleton, IH. unfold appears. split.
      * intros [->|[->|(g & [?|?])]].
        { exists u. right. right. tauto. }
        { exists v. left. right. tauto. }
        { exists g. tauto. }
        { exists g. tauto. }
      * intros (g & [[?|([= -> ->] & ? & ?)]|[?|([= -> ->] & ? & ?)]]);
          [do 2 right; exists g; tauto|tauto|do 2 right; exists g; tauto|tauto].
Qed.

Lemma scc_sets_adj es u :
  match (scc_sets es).2 !! u with
  | None => ∀ v, ¬ calls es u v
  | Some X => (∃ v, v ∈ X) ∧ ∀ v, v ∈ X ↔ calls es u v
  end.
Proof.
  induction es as [|e es IH] using rev_ind.
  - unfold scc_sets. simpl. rewrite lookup_empty. intros v [H _]. by apply not_elem_of_nil in H.
  - rewrite scc_sets_app. simpl. destruct e as [a b]. simpl.
    case_decide as Hd.
    + destruct ((scc_sets es).2 !! u) as [X|].
      * destruct IH as [H1 H2]. split; [done|]. intros v. by rewrite H2, calls_snoc_bad.
      * intros v. rewrite calls_snoc_bad by done. apply IH.
    + simpl. destruct (decide (u = a)) as [->|Hne].
      * rewrite lookup_insert. split; [exists b; set_solver|].
        intros v. rewrite elem_of_union, elem_of_singleton, calls_snoc.
        assert (v ∈ default ∅ ((scc_sets es).2 !! a) ↔ calls es a v) as ->.
        { destruct ((scc_sets es).2 !! a) as [X|]; simpl.
          - by destruct IH as [_ H2].
          - rewrite elem_of_empty. split; [done|]. apply IH. }
        split.
        { intros [->|?]; [right|by left]. split; [done|]. tauto. }
        { intros [?|([= ->] & _)]; [by right|by left]. }
      * rewrite lookup_insert_ne by done. destruct ((scc_sets es).2 !! u) as [X|].
        { destruct IH as [H1 H2]. split; [done|]. intros v. by rewrite H2, calls_snoc_other. }
        intros v. rewrite calls_snoc_other by done. apply IH.
Qed.

Lemma scc_sets_ext e1 e2 : (∀ p, p ∈ e1 ↔ p ∈ e2) → scc_sets e1 = scc_sets e2.
Proof.
  intros He. assert (∀ u v, calls e1 u v ↔ calls e2 u v) as Hc.
  { intros u v. unfold calls. by rewrite He. }
  rewrite (surjective_pairing (scc_sets e1)), (surjective_pairing (scc_sets e2)). f_equal.
  - apply set_eq. intros x. rewrite !scc_sets_nodes. unfold appears. by setoid_rewrite Hc.
  - apply map_eq. intros u. pose proof (scc_sets_adj e1 u) as H1. pose proof (scc_sets_adj e2 u) as H2.
    destruct ((scc_sets e1).2 !! u) as [X|], ((scc_sets e2).2 !! u) as [Y|].
    + f_equal. apply set_eq. intros v. destruct H1 as [_ H1], H2 as [_ H2]. by rewrite H1, H2.
    + destruct H1 as [[v Hv] H1]. apply H1, Hc in Hv. by apply H2 in Hv.
    + destruct H2 as [[v Hv] H2]. apply H2, Hc in Hv. by apply H1 in Hv.
    + done.
Qed.

Section order.
Context (iter : list string → list string) (itern : list nat → list nat).
Context (Hit : is_order iter) (Hitn : is_order itern).

Lemma elem_of_scc_nodes es x : x ∈ scc_nodes iter es ↔ appears es x.
Proof.
  unfold scc_nodes. rewrite elem_of_ssort, (Hit _), elem_of_elements. apply scc_sets_nodes.
Qed.

Lemma NoDup_scc_nodes es : NoDup (scc_nodes iter es).
Proof. unfold scc_nodes. rewrite NoDup_ssort, (Hit _). apply NoDup_elements. Qed.

Lemma elem_of_scc_adj es u v : v ∈ adj_of (scc_adj iter es) u ↔ calls es u v.
Proof.
  unfold adj_of, scc_adj. rewrite lookup_fmap. pose proof (scc_sets_adj es u) as H.
  destruct ((scc_sets es).2 !! u) as [X|]; simpl.
  - rewrite elem_of_ssort, (Hit _), elem_of_elements. apply H.
  - split; [intros Hx; by apply not_elem_of_nil in Hx|]. intros Hc. by apply H in Hc.
Qed.

Lemma E_calls es u v : E (scc_adj iter es) u v ↔ calls es u v.
Proof. apply elem_of_scc_adj. Qed.

Lemma R_can_call es u v : R (scc_adj iter es) u v ↔ can_call es u v.
Proof.
  unfold R, can_call. split; apply rtc_subrel; intros ? ?; by rewrite E_calls.
Qed.

(** ** The pass over the edges that builds the group graph *)

Definition dag_step (compof : gmap string nat) acc (p : string * string) :=
  dag_edge compof p.1 acc p.2.
Definition pairs_of (adj : gmap string (list string)) (nodes : list string) : list (string * string) :=
  nodes ≫= (λ u, (λ v, (u, v)) <$> adj_of adj u).

Lemma dag_pass_pairs adj compof nodes : ∀ acc,
  dag_pass adj compof nodes acc = fold_left (dag_step compof) (pairs_of adj nodes) acc.
Proof.
  unfold dag_pass. induction nodes as [|u nodes IH]; intros acc; simpl; [done|].
  rewrite IH. unfold pairs_of. simpl. rewrite fold_left_app. f_equal.
  clear. generalize (adj_of adj u) as l. intros l. revert acc.
  induction l as [|v l IH]; intros acc; simpl; [done|]. apply IH.
Qed.

Lemma dag_fold_spec compof l : ∀ sets recs,
  let r := fold_left (dag_step compof) l (sets, recs) in
  length r.1 = length sets ∧ length r.2 = length recs ∧
  (∀ c X', r.1 !! c = Some X' → ∃ X, sets !! c = Some X ∧
     ∀ j, j ∈ X' ↔ j ∈ X ∨ ∃ u v, (u, v) ∈ l ∧ get0 compof u = c ∧ get0 compof v = j ∧ j ≠ c) ∧
  (∀ c b', r.2 !! c = Some b' → ∃ b, recs !! c = Some b ∧
     (b' = true ↔ b = true ∨ ∃ u, (u, u) ∈ l ∧ get0 compof u = c)).
Proof.
  induction l as [|[u v] l IH]; intros sets recs; simpl.
  - split; [done|]. split; [done|]. split.
    + intros c X' H. exists X'. split; [done|]. intros j. split; [tauto|].
      intros [?|(u & v & H' & _)]; [done|by apply not_elem_of_nil in H'].
    + intros c b' H. exists b'. split; [done|]. split; [tauto|].
      intros [?|(u & H' & _)]; [done|by apply not_elem_of_nil in H'].
  - unfold dag_step at 2 4 6 8. unfold dag_edge. simpl.
    case_decide as Hcv.
    + case_decide as Huv.
      * subst v. destruct (IH sets (<[get0 compof u:=true]> recs)) as (H1 & H2 & H3 & H4).
        split; [done|]. split; [by rewrite H2, insert_length|]. split.
        { intros c X' HX. destruct (H3 c X' HX) as (X & HX0 & Hj). exists X. split; [done|].
          intros j. rewrite Hj. split.
          - intros [?|(a & b & ? & ?)]; [by left|right]. exists a, b. split; [by right|done].
          - intros [?|(a & b & Hin & Ha & Hb & Hne)]; [by left|right].
            apply elem_of_cons in Hin as [[= -> ->]|Hin]; [congruence|eauto 8]. }
        intros c b' Hb'. destruct (H4 c b' Hb') as (b & Hb & Hiff).
        destruct (decide (c = get0 compof u)) as [->|Hne].
        { assert (get0 compof u < length recs) as Hlt.
          { apply lookup_lt_Some in Hb. by rewrite insert_length in Hb. }
          rewrite list_lookup_insert in Hb by done. injection Hb as <-.
          destruct (lookup_lt_is_Some_2 recs _ Hlt) as [b0 Hb0].
          exists b0. split; [done|]. rewrite Hiff. split; [|by left]. intros _. right.
          exists u. split; [left|done]. }
        rewrite list_lookup_insert_ne in Hb by done. exists b. split; [done|]. rewrite Hiff.
        split.
        { intros [?|(a & Ha & Hc)]; [by left|right]. exists a. split; [by right|done]. }
        intros [?|(a & Ha & Hc)]; [by left|right].
        apply elem_of_cons in Ha as [[= ->]|Ha]; [congruence|eauto].
      * destruct (IH sets recs) as (H1 & H2 & H3 & H4).
        split; [done|]. split; [done|]. split.
        { intros c X' HX. destruct (H3 c X' HX) as (X & HX0 & Hj). exists X. split; [done|].
          intros j. rewrite Hj. split.
          - intros [?|(a & b & ? & ?)]; [by left|right]. exists a, b. split; [by right|done].
          - intros [?|(a & b & Hin & Ha & Hb & Hne)]; [by left|right].
            apply elem_of_cons in Hin as [[= -> ->]|Hin]; [congruence|eauto 8]. }
        intros c b' Hb'. destruct (H4 c b' Hb') as (b & Hb & Hiff). exists b. split; [done|].
        rewrite Hiff. split.
        { intros [?|(a & Ha & Hc)]; [by left|right]. exists a. split; [by right|done]. }
        intros [?|(a & Ha & Hc)]; [by left|right].
        apply elem_of_cons in Ha as [[= -> ->]|Ha]; [congruence|eauto].
    + destruct (IH (alter (λ X : gset nat, {[get0 compof v]} ∪ X) (get0 compof u) sets) recs)
        as (H1 & H2 & H3 & H4).
      split; [by rewrite H1, alter_length|]. split; [done|]. split.
      { intros c X' HX. destruct (H3 c X' HX) as (X1 & HX1 & Hj).
        destruct (decide (c = get0 compof u)) as [->|Hne].
        - rewrite list_lookup_alter in HX1. apply fmap_Some in HX1 as (X & HX0 & ->).
          exists X. split; [done|]. intros j. rewrite Hj, elem_of_union, elem_of_singleton. split.
          + intros [[->|?]|(a & b & ? & ?)]; [|by left|].
            * right. exists u, v. split; [left|done].
            * right. exists a, b. split; [by right|done].
          + intros [?|(a & b & Hin & Ha & Hb & Hne)]; [by left; right|].
            apply elem_of_cons in Hin as [[= -> ->]|Hin]; [by left; left|right; eauto 8].
        - rewrite list_lookup_alter_ne in HX1 by done. exists X1. split; [done|].
          intros j. rewrite Hj. split.
          + intros [?|(a & b & ? & ?)]; [by left|right]. exists a, b. split; [by right|done].
          + intros [?|(a & b & Hin & Ha & Hb & Hn)]; [by left|right].
            apply elem_of_cons in Hin as [[= -> ->]|Hin]; [congruence|eauto 8]. }
      intros c b' Hb'. destruct (H4 c b' Hb') as (b & Hb & Hiff). exists b. split; [done|].
      rewrite Hiff. split.
      { intros [?|(a & Ha & Hc)]; [by left|right]. exists a. split; [by right|done]. }
      intros [?|(a & Ha & Hc)]; [by left|right].
      apply elem_of_cons in Ha as [[= -> ->]|Ha]; [congruence|eauto].
Qed.

Lemma elem_of_pairs_of adj nodes u v :
  (u, v) ∈ pairs_of adj nodes ↔ u ∈ nodes ∧ v ∈ adj_of adj u.
Proof.
  unfold pairs_of. rewrite elem_of_list_bind. split.
  - intros (x & Hin & Hx). apply elem_of_list_fmap in Hin as (y & [= -> ->] & Hy). done.
  - intros [Hu Hv]. exists u. split; [|done]. apply elem_of_list_fmap. eauto.
Qed.

(** ** The whole result *)

Record result_ok (es : list (string * string)) (r : scc) : Prop := {
  ro_comps : comps_ok (scc_adj iter es) (scc_components r) (scc_component_of r);
  ro_members : ∀ x, x ∈ concat (scc_components r) ↔ appears es x;
  ro_dag_len : length (scc_dag r) = length (scc_components r);
  ro_rec_len : length (scc_recursive r) = length (scc_components r);
  ro_dag : ∀ i row, scc_dag r !! i = Some row →
    StronglySorted (<) row ∧
    ∀ j, j ∈ row ↔ i ≠ j ∧ ∃ u v, scc_component_of r !! u = Some i ∧
      scc_component_of r !! v = Some j ∧ calls es u v;
  ro_rec : ∀ i b, scc_recursive r !! i = Some b →
    (b = true ↔ (∃ c, scc_components r !! i = Some c ∧ 1 < length c) ∨
                ∃ u, scc_component_of r !! u = Some i ∧ calls es u u)
}.

Lemma build_ok es : ∃ r, build_scc iter itern es = Some r ∧ result_ok es r.
Proof.
  unfold build_scc, condense.
  destruct (tarjan_ok (scc_adj iter es) (scc_nodes iter es)) as (s & Hs & Hc & Hm).
  { apply NoDup_scc_nodes. }
  { intros u v _ HE. apply E_calls in HE. apply elem_of_scc_nodes. exists u. by right. }
  rewrite Hs. simpl.
  set (sets0 := replicate (length (tj_comps s)) (∅ : gset nat)).
  set (recs0 := (λ comp : list string, bool_decide (1 < length comp)) <$> tj_comps s).
  pose proof (dag_fold_spec (tj_compof s) (pairs_of (scc_adj iter es) (scc_nodes iter es)) sets0 recs0)
    as Hsp. rewrite <- dag_pass_pairs in Hsp.
  destruct (dag_pass _ _ _ _) as [sets recs]. simpl in Hsp.
  destruct Hsp as (Hl1 & Hl2 & Hd & Hr).
  eexists; split; [reflexivity|].
  assert (∀ x, appears es x → ∃ i, tj_compof s !! x = Some i) as Hof.
  { intros x Hx. apply elem_of_scc_nodes in Hx. apply Hm in Hx.
    apply concat_elem in Hx as (i & c & Hi & Hx). exists i. apply (co_of _ _ _ Hc). eauto. }
  assert (∀ u v, (u, v) ∈ pairs_of (scc_adj iter es) (scc_nodes iter es) ↔ calls es u v) as Hp.
  { intros u v. rewrite elem_of_pairs_of, elem_of_scc_adj, elem_of_scc_nodes.
    split; [tauto|]. intros H. split; [exists v; by left|done]. }
  assert (∀ u i, appears es u → get0 (tj_compof s) u = i ↔ tj_compof s !! u = Some i) as Hg.
  { intros u i Hu. destruct (Hof u Hu) as [k Hk]. unfold get0. rewrite Hk. simpl. split; [by intros ->|by intros [= ->]]. }
  split; simpl.
  - done.
  - intros x. rewrite Hm. apply elem_of_scc_nodes.
  - rewrite fmap_length, Hl1. apply replicate_length.
  - rewrite Hl2. apply fmap_length.
  - intros i row Hrow. apply list_lookup_fmap_Some in Hrow as (X & HX & ->).
    destruct (Hd i X HX) as (X0 & HX0 & Hj).
    apply lookup_replicate in HX0 as [-> _].
    assert (nsort (itern (elements X)) ≡ₚ elements X) as Hperm by by rewrite nsort_perm, (Hitn _).
    split.
    + apply StronglySorted_le_lt; [|apply nsort_sorted]. rewrite Hperm. apply NoDup_elements.
    + intros j. rewrite Hperm, elem_of_elements, Hj. split.
      * intros [H|(u & v & Huv & Hu & Hv & Hne)]; [set_solver|].
        apply Hp in Huv. split; [done|]. exists u, v.
        split; [apply Hg; [exists v; by left|done]|].
        split; [apply Hg; [exists u; by right|done]|done].
      * intros (Hne & u & v & Hu & Hv & Huv). right. exists u, v.
        split; [by apply Hp|]. split; [apply Hg; [exists v; by left|done]|].
        split; [apply Hg; [exists u; by right|done]|done].
  - intros i b Hb. destruct (Hr i b Hb) as (b0 & Hb0 & Hiff).
    apply list_lookup_fmap_Some in Hb0 as (c & Hc0 & ->). rewrite Hiff. rewrite bool_decide_eq_true.
    split.
    + intros [?|(u & Hu & Hi)]; [left; eauto|right].
      apply Hp in Hu. exists u. split; [|done]. apply Hg; [|done]. exists u. by left.
    + intros [(c' & Hc' & ?)|(u & Hu & Huu)]; [left; congruence|right].
      exists u. split; [by apply Hp|]. apply Hg; [|done]. exists u. by left.
Qed.

(** ** Consequences in the vocabulary of the specification *)

Lemma comp_unique es r x i j ci cj : result_ok es r →
  scc_components r !! i = Some ci → scc_components r !! j = Some cj →
  x ∈ ci → x ∈ cj → i = j.
Proof.
  intros [Hc _ _ _ _ _] Hi Hj Hxi Hxj.
  assert (scc_component_of r !! x = Some i) as H1 by (apply (co_of _ _ _ Hc); eauto).
  assert (scc_component_of r !! x = Some j) as H2 by (apply (co_of _ _ _ Hc); eauto).
  congruence.
Qed.

Lemma reach_down es r x y i : result_ok es r → can_call es x y →
  scc_component_of r !! x = Some i → ∃ j, j ≤ i ∧ scc_component_of r !! y = Some j.
Proof.
  intros Hr Hxy. revert i. induction Hxy as [x|x z y Hxz Hzy IH]; intros i Hi; [eauto|].
  pose proof (ro_comps _ _ Hr) as Hc.
  apply (co_of _ _ _ Hc) in Hi as (c & Hci & Hx).
  destruct (co_closed _ _ _ Hc i c x z Hci Hx) as (j & c' & Hle & Hcj & Hz).
  { by apply E_calls. }
  destruct (IH j) as (k & Hk & Hy); [apply (co_of _ _ _ Hc); eauto|].
  exists k. split; [lia|done].
Qed.

Lemma same_comp_iff es r a b : result_ok es r →
  same_component r a b = true ↔
  appears es a ∧ appears es b ∧ can_call es a b ∧ can_call es b a.
Proof.
  intros Hr. pose proof (ro_comps _ _ Hr) as Hc. unfold same_component. split.
  - destruct (scc_component_of r !! a) as [i|] eqn:Ha; [|done].
    destruct (scc_component_of r !! b) as [j|] eqn:Hb; [|done].
    intros H. apply bool_decide_eq_true in H as <-.
    apply (co_of _ _ _ Hc) in Ha as (c & Hci & Ha).
    apply (co_of _ _ _ Hc) in Hb as (c' & Hcj & Hb). assert (c' = c) as -> by congruence.
    split; [apply (ro_members _ _ Hr), concat_elem; eauto|].
    split; [apply (ro_members _ _ Hr), concat_elem; eauto|].
    split; apply R_can_call; eapply (co_mutual _ _ _ Hc); eauto.
  - intros (Ha & Hb & Hab & Hba).
    apply (ro_members _ _ Hr) in Ha. apply concat_elem in Ha as (i & c & Hi & Ha).
    assert (scc_component_of r !! a = Some i) as Hai by (apply (co_of _ _ _ Hc); eauto).
    destruct (reach_down _ _ _ _ _ Hr Hab Hai) as (j & Hj & Hbj).
    destruct (reach_down _ _ _ _ _ Hr Hba Hbj) as (k & Hk & Hak).
    rewrite Hai, Hbj. apply bool_decide_eq_true. assert (k = i) by congruence. lia.
Qed.

Lemma dag_iff es r i j : result_ok es r →
  (∃ row, scc_dag r !! i = Some row ∧ j ∈ row) ↔
  i ≠ j ∧ ∃ ci cj u v, scc_components r !! i = Some ci ∧ scc_components r !! j = Some cj ∧
    u ∈ ci ∧ v ∈ cj ∧ calls es u v.
Proof.
  intros Hr. pose proof (ro_comps _ _ Hr) as Hc. split.
  - intros (row & Hrow & Hj). apply (ro_dag _ _ Hr i row Hrow) in Hj as (Hne & u & v & Hu & Hv & Huv).
    apply (co_of _ _ _ Hc) in Hu as (ci & ? & ?). apply (co_of _ _ _ Hc) in Hv as (cj & ? & ?).
    split; [done|]. eauto 10.
  - intros (Hne & ci & cj & u & v & Hi & Hj & Hu & Hv & Huv).
    destruct (lookup_lt_is_Some_2 (scc_dag r) i) as [row Hrow].
    { rewrite (ro_dag_len _ _ Hr). by eapply lookup_lt_Some. }
    exists row. split; [done|]. apply (ro_dag _ _ Hr i row Hrow). split; [done|].
    exists u, v. split; [apply (co_of _ _ _ Hc); eauto|]. split; [apply (co_of _ _ _ Hc); eauto|done].
Qed.

Lemma dag_below es r i j row : result_ok es r →
  scc_dag r !! i = Some row → j ∈ row → j < i.
Proof.
  intros Hr Hrow Hj. pose proof (ro_comps _ _ Hr) as Hc.
  apply (ro_dag _ _ Hr i row Hrow) in Hj as (Hne & u & v & Hu & Hv & Huv).
  destruct (reach_down es r u v i Hr) as (k & Hk & Hvk); [by apply rtc_once|done|].
  assert (k = j) by congruence. lia.
Qed.

Lemma dag_increasing es r i row : result_ok es r →
  scc_dag r !! i = Some row → StronglySorted (<) row.
Proof. intros Hr Hrow. by apply (ro_dag _ _ Hr i row Hrow). Qed.

Lemma rec_true_iff es r x i : result_ok es r → scc_component_of r !! x = Some i →
  scc_recursive r !! i = Some true ↔ tc (calls es) x x.
Proof.
  intros Hr Hxi. pose proof (ro_comps _ _ Hr) as Hc.
  pose proof Hxi as Hxi'. apply (co_of _ _ _ Hc) in Hxi' as (c & Hci & Hx).
  assert (∀ y, y ∈ c → can_call es x y ∧ can_call es y x) as Hmut.
  { intros y Hy. split; apply R_can_call; eapply (co_mutual _ _ _ Hc); eauto. }
  split.
  - intros Hrec. destruct (ro_rec _ _ Hr i true Hrec) as [H _]. destruct (H eq_refl) as [Hb|Hb].
    + destruct Hb as (c' & Hc' & Hlen). assert (c' = c) as -> by congruence.
      (* two distinct members *)
      assert (NoDup c) as Hnd.
      { pose proof (co_nodup _ _ _ Hc) as Hnd.
        rewrite <- (take_drop_middle _ _ _ Hci), concat_app in Hnd. simpl in Hnd.
        apply NoDup_app in Hnd as (_ & _ & Hnd). by apply NoDup_app in Hnd as (? & _). }
      assert (∃ y, y ∈ c ∧ y ≠ x) as (y & Hy & Hyx).
      { destruct c as [|a [|b c]]; simpl in Hlen; [lia|lia|].
        apply NoDup_cons in Hnd as [Hn _]. apply not_elem_of_cons in Hn as [Hab _].
        destruct (decide (a = x)) as [->|]; [exists b|exists a]; split; try done; set_solver. }
      destruct (Hmut y Hy) as [H1 H2].
      apply rtc_tc in H1 as [->|H1]; [done|]. eapply tc_rtc_r; [exact H1|done].
    + destruct Hb as (u & Hu & Huu). apply (co_of _ _ _ Hc) in Hu as (c' & Hc' & Hu).
      assert (c' = c) as -> by congruence. destruct (Hmut u Hu) as [H1 H2].
      eapply tc_rtc_l; [exact H1|]. eapply tc_rtc_r; [apply tc_once; exact Huu|done].
  - intros Htc.
    destruct (lookup_lt_is_Some_2 (scc_recursive r) i) as [b Hb].
    { rewrite (ro_rec_len _ _ Hr). by eapply lookup_lt_Some. }
    rewrite Hb. f_equal. apply (ro_rec _ _ Hr i b Hb).
    (* first step of the cycle *)
    assert (∃ z, calls es x z ∧ can_call es z x) as (z & Hxz & Hzx).
    { inversion Htc as [|? z ? Hxz Hzx]; subst; [exists x|exists z].
      - split; [done|apply rtc_refl].
      - split; [done|by apply tc_rtc]. }
    destruct (decide (z = x)) as [->|Hne]; [by right; eauto|left].
    exists c. split; [done|].
    destruct (reach_down es r x z i Hr) as (j & Hj & Hzj); [by apply rtc_once|done|].
    destruct (reach_down es r z x j Hr) as (k & Hk & Hxk); [done|done|].
    assert (j = i) as -> by (assert (k = i) by congruence; lia).
    apply (co_of _ _ _ Hc) in Hzj as (c' & Hc' & Hz). assert (c' = c) as -> by congruence.
    destruct c as [|a [|b' c]]; [by apply not_elem_of_nil in Hx| |simpl; lia].
    apply elem_of_list_singleton in Hx, Hz. congruence.
Qed.
End order.

Lemma build_determined iter1 itern1 iter2 itern2 e1 e2 :
  is_order iter1 → is_order itern1 → is_order iter2 → is_order itern2 →
  (∀ p, p ∈ e1 ↔ p ∈ e2) →
  build_scc iter1 itern1 e1 = build_scc iter2 itern2 e2.
Proof.
  intros Hi1 Hn1 Hi2 Hn2 He. unfold build_scc, scc_nodes, scc_adj.
  rewrite (scc_sets_ext _ _ He).
  assert (∀ l, ssort (iter1 l) = ssort (iter2 l)) as Hs.
  { intros l. apply ssort_unique. by rewrite (Hi1 l), (Hi2 l). }
  assert (∀ l, nsort (itern1 l) = nsort (itern2 l)) as Hn.
  { intros l. apply nsort_unique. by rewrite (Hn1 l), (Hn2 l). }
  rewrite Hs.
  assert (((λ vs : gset string, ssort (iter1 (elements vs))) <$> (scc_sets e2).2) =
          ((λ vs : gset string, ssort (iter2 (elements vs))) <$> (scc_sets e2).2)) as ->.
  { apply map_fmap_ext. intros i X _. apply Hs. }
  unfold condense. destruct (tj_roots _ _ _ _) as [s|]; [|done]. simpl.
  destruct (dag_pass _ _ _ _) as [sets recs]. do 2 f_equal.
  apply list_fmap_ext. intros i X _. apply Hn.
Qed.

(** ** Packaged statements *)

Lemma scc_groups_correct iter itern es : is_order iter → is_order itern →
  ∃ r, build_scc iter itern es = Some r ∧
    (∀ f, appears es f ↔ ∃ i c, scc_components r !! i = Some c ∧ f ∈ c) ∧
    (∀ f i j ci cj, scc_components r !! i = Some ci → scc_components r !! j = Some cj →
       f ∈ ci → f ∈ cj → i = j) ∧
    (∀ f i, scc_component_of r !! f = Some i ↔ ∃ c, scc_components r !! i = Some c ∧ f ∈ c) ∧
    (∀ i c, scc_components r !! i = Some c → c ≠ [] ∧ NoDup c ∧ StronglySorted string_le c) ∧
    (∀ f g, same_component r f g = true ↔
       appears es f ∧ appears es g ∧ can_call es f g ∧ can_call es g f).
Proof.
  intros Hi Hn. destruct (build_ok iter itern Hi Hn es) as (r & Hr & Hok).
  pose proof (ro_comps _ _ _ Hok) as Hc.
  exists r. split; [done|]. repeat split.
  - intros Hf. apply (ro_members _ _ _ Hok), concat_elem in Hf as (i & c & ? & ?). eauto.
  - intros (i & c & ? & ?). apply (ro_members _ _ _ Hok), concat_elem. eauto.
  - intros. eapply comp_unique; eauto.
  - apply (co_of _ _ _ Hc).
  - apply (co_of _ _ _ Hc).
  - by eapply (co_ne _ _ _ Hc).
  - pose proof (co_nodup _ _ _ Hc) as Hnd.
    rewrite <- (take_drop_middle _ _ _ H), concat_app in Hnd. simpl in Hnd.
    apply NoDup_app in Hnd as (_ & _ & Hnd). by apply NoDup_app in Hnd as (? & _).
  - by eapply (co_sorted _ _ _ Hc).
  - by eapply same_comp_iff in H as (? & _).
  - by eapply same_comp_iff in H as (_ & ? & _).
  - by eapply same_comp_iff in H as (_ & _ & ? & _).
  - by eapply same_comp_iff in H as (_ & _ & _ & ?).
  - intros H. by eapply same_comp_iff.
Qed.

Lemma scc_quotient_correct iter itern es : is_order iter → is_order itern →
  ∃ r, build_scc iter itern es = Some r ∧
    length (scc_dag r) = length (scc_components r) ∧
    length (scc_recursive r) = length (scc_components r) ∧
    (∀ i j, (∃ row, scc_dag r !! i = Some row ∧ j ∈ row) ↔
       i ≠ j ∧ ∃ ci cj u v, scc_components r !! i = Some ci ∧ scc_components r !! j = Some cj ∧
         u ∈ ci ∧ v ∈ cj ∧ calls es u v) ∧
    (∀ i row, scc_dag r !! i = Some row → StronglySorted (<) row ∧ ∀ j, j ∈ row → j < i) ∧
    (∀ f, ∃ b, in_cycle r f = Some b ∧ (b = true ↔ tc (calls es) f f)) ∧
    (∀ i c, scc_components r !! i = Some c →
       ∃ b, scc_recursive r !! i = Some b ∧ (b = true ↔ ∃ f, f ∈ c ∧ tc (calls es) f f)).
Proof.
  intros Hi Hn. destruct (build_ok iter itern Hi Hn es) as (r & Hr & Hok).
  pose proof (ro_comps _ _ _ Hok) as Hc.
  exists r. split; [done|]. split; [apply (ro_dag_len _ _ _ Hok)|].
  split; [apply (ro_rec_len _ _ _ Hok)|]. split; [intros i j; by eapply dag_iff|].
  split; [intros i row Hrow; split; [by eapply dag_increasing|intros j Hj; by eapply dag_below]|].
  assert (∀ f i, scc_component_of r !! f = Some i →
    ∃ b, scc_recursive r !! i = Some b ∧ (b = true ↔ tc (calls es) f f)) as Hrec.
  { intros f i Hf. pose proof (rec_true_iff iter itern Hi Hn es r f i Hok Hf) as Hiff.
    apply (co_of _ _ _ Hc) in Hf as (c & Hci & _).
    destruct (lookup_lt_is_Some_2 (scc_recursive r) i) as [b Hb].
    { rewrite (ro_rec_len _ _ _ Hok). by eapply lookup_lt_Some. }
    exists b. split; [done|]. rewrite <- Hiff, Hb. split; [by intros ->|by intros [= ->]]. }
  split.
  - intros f. unfold in_cycle. destruct (scc_component_of r !! f) as [i|] eqn:Hf; [by apply Hrec|].
    exists false. split; [done|]. split; [done|]. intros Htc. exfalso.
    assert (appears es f) as Ha.
    { inversion Htc as [? ? H|? y ? H]; subst; eexists; left; exact H. }
    apply (ro_members _ _ _ Hok), concat_elem in Ha as (i & c & ? & ?).
    assert (scc_component_of r !! f = Some i) by (apply (co_of _ _ _ Hc); eauto). congruence.
  - intros i c Hci. pose proof (co_ne _ _ _ Hc i c Hci) as Hne.
    destruct c as [|f c]; [done|].
    destruct (Hrec f i) as (b & Hb & Hiff); [apply (co_of _ _ _ Hc); exists (f :: c); split; [done|left]|].
    exists b. split; [done|]. split.
    + intros ->. exists f. split; [left|by apply Hiff].
    + intros (g & Hg & Htc).
      destruct (Hrec g i) as (b' & Hb' & Hiff'); [apply (co_of _ _ _ Hc); eauto|].
      assert (b = b') as -> by congruence. by apply Hiff'.
Qed.
