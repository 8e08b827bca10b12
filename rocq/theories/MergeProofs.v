(** * Proofs about merging configurations. *)
From Coq Require Import Ascii.
From stdpp Require Import base list strings gmap.
From Verif Require Import StrLib StrSplit RouteModel MergeModel.

Section merge_list.
Context {A : Type} (key : A → string).

(** What has been done after processing the patterns [done]. *)
Record merged (primary done : list A) (st : gset string * list A) : Prop := Merged {
  mg_seen : ∀ k, k ∈ st.1 ↔ k ∈ key <$> st.2;
  mg_shape : ∃ added, st.2 = primary ++ added ∧ sublist added done ∧
    NoDup (key <$> added) ∧ (∀ x, x ∈ added → key x ∉ key <$> primary);
  mg_all : ∀ x, x ∈ done → ∃ y, y ∈ st.2 ∧ key y = key x;
  mg_first : ∀ pre x post, done = pre ++ x :: post → key x ∉ key <$> primary → key x ∉ key <$> pre → x ∈ st.2
}.

Lemma merged_init primary : merged primary [] (list_to_set (key <$> primary), primary).
Proof.
  split; simpl.
  - intros k. by rewrite elem_of_list_to_set.
  - exists []. rewrite app_nil_r. split; [done|]. split; [constructor|]. split; [constructor|].
    intros x Hx. by apply not_elem_of_nil in Hx.
  - intros x Hx. by apply not_elem_of_nil in Hx.
  - intros pre x post H. by destruct pre.
Qed.

Lemma sublist_snoc (a d : list A) x : sublist a d → sublist (a ++ [x]) (d ++ [x]).
Proof. intros H. by apply sublist_app. Qed.

Lemma merged_step primary done st p : merged primary done st → merged primary (done ++ [p]) (append_new key st p).
Proof.
  intros [Hseen (added & Hsh & Hsub & Hnd & Hdis) Hall Hfirst]. destruct st as [seen l]. simpl in *.
  unfold append_new. simpl. destruct (decide (key p ∈ seen)) as [Hin|Hin].
  - split; simpl.
    + done.
    + exists added. split; [done|]. split; [by apply sublist_inserts_r|done].
    + intros x Hx. apply elem_of_app in Hx as [Hx| ->%elem_of_list_singleton]; [by apply Hall|].
      apply Hseen in Hin. apply elem_of_list_fmap in Hin as (y & ? & ?). by exists y.
    + intros pre x post Heq Hp Hpre. destruct (decide (post = [])) as [->|Hne].
      * apply app_inj_tail in Heq as [-> ->]. exfalso. apply Hseen in Hin. subst l.
        rewrite fmap_app, elem_of_app in Hin. destruct Hin as [?|Hin]; [done|].
        apply elem_of_list_fmap in Hin as (y & Hk & Hy). apply Hpre. rewrite Hk. apply elem_of_list_fmap_1.
        by eapply elem_of_submseteq, sublist_submseteq.
      * destruct (exists_last Hne) as (post' & z & ->).
        rewrite app_comm_cons, app_assoc in Heq. apply app_inj_tail in Heq as [-> _]. by eapply Hfirst.
  - assert (key p ∉ key <$> l) as Hnin by (by rewrite <- Hseen). split; simpl.
    + intros k. rewrite fmap_app, elem_of_union, elem_of_singleton, Hseen, elem_of_app. simpl. rewrite elem_of_list_singleton. tauto.
    + exists (added ++ [p]). split; [by rewrite Hsh, app_assoc|]. split; [by apply sublist_snoc|]. split.
      * rewrite fmap_app. apply NoDup_app. split; [done|]. split; [|simpl; apply NoDup_singleton].
        intros k Hk ->%elem_of_list_singleton. apply Hnin. rewrite Hsh, fmap_app, elem_of_app. by right.
      * intros x Hx. apply elem_of_app in Hx as [Hx| ->%elem_of_list_singleton]; [by apply Hdis|].
        intros Hk. apply Hnin. rewrite Hsh, fmap_app, elem_of_app. by left.
    + intros x Hx. apply elem_of_app in Hx as [Hx| ->%elem_of_list_singleton].
      * destruct (Hall x Hx) as (y & ? & ?). exists y. split; [apply elem_of_app; by left|done].
      * exists p. split; [apply elem_of_app; right; by left|done].
    + intros pre x post Heq Hp Hpre. destruct (decide (post = [])) as [->|Hne].
      * apply app_inj_tail in Heq as [_ ->]. apply elem_of_app. right. by left.
      * destruct (exists_last Hne) as (post' & z & ->).
        rewrite app_comm_cons, app_assoc in Heq. apply app_inj_tail in Heq as [-> _].
        apply elem_of_app. left. by eapply Hfirst.
Qed.
Lemma merged_fold primary l : ∀ done st, merged primary done st → merged primary (done ++ l) (fold_left (append_new key) l st).
Proof.
  induction l as [|p l IH]; intros done st H; simpl; [by rewrite app_nil_r|].
  replace (done ++ p :: l) with ((done ++ [p]) ++ l) by by rewrite <- app_assoc.
  apply IH. by apply merged_step.
Qed.
Lemma merged_folds primary ls : ∀ done st, merged primary done st →
  merged primary (done ++ concat ls) (fold_left (λ st l, fold_left (append_new key) l st) ls st).
Proof.
  induction ls as [|l ls IH]; intros done st H; simpl; [by rewrite app_nil_r|].
  rewrite app_assoc. apply IH. by apply merged_fold.
Qed.
Lemma merge_list_ok primary ls : ∃ seen, merged primary (concat ls) (seen, merge_list key primary ls).
Proof.
  pose proof (merged_folds primary ls [] _ (merged_init primary)) as H. unfold merge_list.
  destruct (fold_left _ ls _) as [seen l]. exists seen. exact H.
Qed.

Lemma fold_append_known l : ∀ st, (∀ x, x ∈ l → key x ∈ st.1) → fold_left (append_new key) l st = st.
Proof.
  induction l as [|x l IH]; intros st H; [done|]. simpl.
  assert (append_new key st x = st) as ->.
  { unfold append_new. rewrite decide_True; [done|]. apply H. by left. }
  apply IH. intros y Hy. apply H. by right.
Qed.
Lemma merge_list_again primary ls l : l ∈ ls → merge_list key (merge_list key primary ls) [l] = merge_list key primary ls.
Proof.
  intros Hl. destruct (merge_list_ok primary ls) as [seen [_ _ Hall _]]. unfold merge_list at 1. simpl.
  rewrite fold_append_known; [done|]. intros x Hx. simpl. apply elem_of_list_to_set.
  destruct (Hall x) as (y & Hy & Hk); [|rewrite <- Hk; by apply elem_of_list_fmap_1].
  apply elem_of_list_In, in_concat. exists l. split; by apply elem_of_list_In.
Qed.
End merge_list.

(** ** appendUniqueStrings *)
Lemma unique_loop_spec l : ∀ seen, NoDup (unique_loop seen l) ∧
  (∀ x, x ∈ unique_loop seen l ↔ x ∈ l ∧ x ∉ seen) ∧ sublist (unique_loop seen l) l.
Proof.
  induction l as [|s l IH]; intros seen; simpl.
  - split; [constructor|]. split; [|constructor]. intros x. split; [intros H; by apply not_elem_of_nil in H|].
    intros [H _]. by apply not_elem_of_nil in H.
  - destruct (decide (s ∈ seen)) as [Hin|Hin].
    + destruct (IH seen) as (H1 & H2 & H3). split; [done|]. split; [|by apply sublist_cons].
      intros x. rewrite H2, elem_of_cons. split; [tauto|]. intros [[->|?] ?]; tauto.
    + destruct (IH ({[s]} ∪ seen)) as (H1 & H2 & H3). split; [|split; [|by apply sublist_skip]].
      * constructor; [|done]. rewrite H2. set_solver.
      * intros x. rewrite !elem_of_cons, H2. destruct (decide (x = s)) as [->|Hne]; [tauto|]. set_solver.
Qed.
Lemma unique_loop_id l : ∀ seen, NoDup l → (∀ x, x ∈ l → x ∉ seen) → unique_loop seen l = l.
Proof.
  induction l as [|s l IH]; intros seen Hnd Hd; [done|]. simpl. apply NoDup_cons in Hnd as [Hs Hnd].
  rewrite decide_False by (apply Hd; by left). f_equal. apply IH; [done|]. intros x Hx.
  rewrite elem_of_union, elem_of_singleton. intros [->|Hin]; [done|]. apply (Hd x); [by right|done].
Qed.
Lemma unique_loop_app l1 l2 : ∀ seen, unique_loop seen (l1 ++ l2) =
  unique_loop seen l1 ++ unique_loop (list_to_set l1 ∪ seen) l2.
Proof.
  induction l1 as [|s l1 IH]; intros seen; simpl; [by rewrite union_empty_l_L|].
  destruct (decide (s ∈ seen)) as [Hin|Hin].
  - rewrite IH. f_equal. f_equal. set_solver.
  - rewrite IH. simpl. f_equal. f_equal. f_equal. set_solver.
Qed.
Lemma unique_loop_nil l : ∀ seen, (∀ x, x ∈ l → x ∈ seen) → unique_loop seen l = [].
Proof.
  induction l as [|s l IH]; intros seen H; [done|]. simpl. rewrite decide_True by (apply H; by left).
  apply IH. intros x Hx. apply H. by right.
Qed.
Lemma elem_append_unique base extras x : x ∈ append_unique base extras ↔ x ∈ base ∨ x ∈ extras.
Proof.
  unfold append_unique. destruct extras as [|e es].
  - split; [by left|]. intros [?|H]; [done|by apply not_elem_of_nil in H].
  - rewrite (proj1 (proj2 (unique_loop_spec _ _))), elem_of_app. set_solver.
Qed.
Lemma append_unique_NoDup base extras : NoDup base → NoDup (append_unique base extras).
Proof. intros H. unfold append_unique. destruct extras; [done|]. apply unique_loop_spec. Qed.
Lemma append_unique_prefix base extras : NoDup base → ∃ added, append_unique base extras = base ++ added.
Proof.
  intros H. unfold append_unique. destruct extras as [|e es]; [exists []; by rewrite app_nil_r|].
  rewrite unique_loop_app, unique_loop_id; [eauto|done|]. set_solver.
Qed.
Lemma append_unique_again base extras : extras ⊆ base → (NoDup base ∨ extras = []) → append_unique base extras = base.
Proof.
  intros Hsub Hnd. unfold append_unique. destruct extras as [|e es]; [done|].
  destruct Hnd as [Hnd|?]; [|done]. rewrite unique_loop_app, unique_loop_id; [|done|set_solver].
  rewrite unique_loop_nil; [by rewrite app_nil_r|]. intros x Hx. rewrite elem_of_union, elem_of_list_to_set. left. by apply Hsub.
Qed.
Lemma fold_unique_props ls : ∀ base,
  (∀ x, x ∈ fold_left append_unique ls base ↔ x ∈ base ∨ x ∈ concat ls) ∧
  (NoDup base ∨ (∃ l, l ∈ ls ∧ l ≠ []) → NoDup (fold_left append_unique ls base)).
Proof.
  induction ls as [|l ls IH]; intros base; simpl.
  - split.
    + intros x. split; [by left|]. intros [?|H]; [done|by apply not_elem_of_nil in H].
    + intros [?|(l & H & _)]; [done|by apply not_elem_of_nil in H].
  - destruct (IH (append_unique base l)) as [H1 H2]. split.
    + intros x. rewrite H1, elem_append_unique, elem_of_app. tauto.
    + intros H. apply H2. destruct (decide (l = [])) as [->|Hl].
      * simpl. destruct H as [H|(l' & Hl' & Hne)]; [by left|].
        apply elem_of_cons in Hl' as [->|Hl']; [done|]. right. eauto.
      * left. destruct H as [H|_]; [by apply append_unique_NoDup|].
        unfold append_unique. destruct l; [done|]. apply unique_loop_spec.
Qed.
Lemma fold_unique_again ls base l : l ∈ ls → append_unique (fold_left append_unique ls base) l = fold_left append_unique ls base.
Proof.
  intros Hl. destruct (fold_unique_props ls base) as [H1 H2]. apply append_unique_again.
  - intros x Hx. apply H1. right. apply elem_of_list_In, in_concat. exists l. split; by apply elem_of_list_In.
  - destruct (decide (l = [])) as [->|Hne]; [by right|left]. apply H2. right. eauto.
Qed.

(** ** Keys *)
Lemma key_inj l1 l2 : length l1 = length l2 → l1 ≠ [] →
  Forall (λ x, contains_byte nul x = false) l1 → Forall (λ x, contains_byte nul x = false) l2 →
  pattern_key l1 = pattern_key l2 → l1 = l2.
Proof.
  intros Hlen Hne H1 H2 Heq. unfold pattern_key in Heq.
  rewrite <- (split_join nul l1), <- (split_join nul l2); [by rewrite Heq| |done|done|done].
  destruct l2; [by destruct l1|done].
Qed.
