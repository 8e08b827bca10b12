(** * Stable sorting by a key, as sort.SliceStable / slices.SortStableFunc do.
    Shared library, no code of /repo.  The algorithm chosen here is insertion
    sort; [stable_sort_unique] shows that every stable sort gives the same list. *)
From stdpp Require Import sorting.
From stdpp Require Import base list.

Section stable.
Context {A K : Type} `{EqDecision K} (key : A → K) (lt : K → K → bool).

Fixpoint stable_insert (x : A) (l : list A) : list A :=
  match l with
  | [] => [x]
  | y :: l => if lt (key y) (key x) then y :: stable_insert x l else x :: y :: l
  end.
Definition stable_sort (l : list A) : list A := foldr stable_insert [] l.

Definition key_le (x y : A) : Prop := lt (key y) (key x) = false.

(** [l'] is a stable sort of [l]: in order, and the entries of each key keep
    their relative order. *)
Definition is_stable_sort (l l' : list A) : Prop :=
  StronglySorted key_le l' ∧ ∀ k, filter (λ x, key x = k) l' = filter (λ x, key x = k) l.

Context (lt_irrefl : ∀ a, lt a a = false)
  (lt_trans : ∀ a b c, lt a b = true → lt b c = true → lt a c = true)
  (lt_total : ∀ a b, lt a b = false → lt b a = false → a = b).

Lemma key_le_trans x y z : key_le x y → key_le y z → key_le x z.
Proof using lt_irrefl lt_trans lt_total.
  unfold key_le. intros H1 H2. destruct (lt (key z) (key x)) eqn:E; [|done].
  destruct (lt (key x) (key y)) eqn:E1.
  - by rewrite (lt_trans _ _ _ E E1) in H2.
  - pose proof (lt_total _ _ E1 H1) as Heq. rewrite <- Heq in H2. congruence.
Qed.
Lemma lt_key_le x y : lt (key x) (key y) = true → key_le x y.
Proof using lt_irrefl lt_trans.
  unfold key_le. intros H. destruct (lt (key y) (key x)) eqn:E; [|done].
  by rewrite <- (lt_irrefl (key x)), (lt_trans _ _ _ H E).
Qed.
Lemma stable_insert_perm x l : stable_insert x l ≡ₚ x :: l.
Proof.
  induction l as [|y l IH]; [done|]. simpl. destruct (lt _ _); [|done]. rewrite IH. apply Permutation_swap.
Qed.
Lemma stable_sort_perm l : stable_sort l ≡ₚ l.
Proof. induction l as [|x l IH]; [done|]. simpl. by rewrite stable_insert_perm, IH. Qed.
Lemma stable_insert_sorted x l : StronglySorted key_le l → StronglySorted key_le (stable_insert x l).
Proof using lt_irrefl lt_trans lt_total.
  induction l as [|y l IH]; [by repeat constructor|]. intros [Hl Hy]%StronglySorted_inv. simpl.
  destruct (lt (key y) (key x)) eqn:E.
  - constructor; [by apply IH|]. apply Forall_forall. intros z. rewrite stable_insert_perm, elem_of_cons.
    intros [->|Hz]; [by apply lt_key_le|]. rewrite Forall_forall in Hy. by apply Hy.
  - constructor; [by constructor|]. apply Forall_cons. split; [done|].
    eapply Forall_impl; [exact Hy|]. intros z Hz. by eapply key_le_trans.
Qed.
Lemma stable_insert_filter x l k :
  filter (λ x, key x = k) (stable_insert x l) = filter (λ x, key x = k) (x :: l).
Proof using lt_irrefl.
  induction l as [|y l IH]; [done|]. simpl. destruct (lt (key y) (key x)) eqn:E; [|done].
  rewrite !filter_cons. rewrite filter_cons in IH. rewrite IH. case_decide as H1; [|done].
  case_decide as H2; [|done]. subst. by rewrite H2, lt_irrefl in E.
Qed.
Theorem stable_sort_ok l : is_stable_sort l (stable_sort l).
Proof using lt_irrefl lt_trans lt_total.
  split.
  - induction l as [|x l IH]; [constructor|]. by apply stable_insert_sorted.
  - intros k. induction l as [|x l IH]; [done|]. simpl. rewrite stable_insert_filter, !filter_cons, IH. done.
Qed.
Lemma sorted_filters_eq l1 : ∀ l2, StronglySorted key_le l1 → StronglySorted key_le l2 →
  (∀ k, filter (λ x, key x = k) l1 = filter (λ x, key x = k) l2) → l1 = l2.
Proof using lt_irrefl lt_total.
  induction l1 as [|x l1 IH]; intros l2 H1 H2 Hf.
  - destruct l2 as [|y l2]; [done|]. specialize (Hf (key y)). rewrite filter_cons in Hf. by rewrite decide_True in Hf.
  - destruct l2 as [|y l2].
    { specialize (Hf (key x)). rewrite filter_cons in Hf. by rewrite decide_True in Hf. }
    apply StronglySorted_inv in H1 as [H1 Hx]. apply StronglySorted_inv in H2 as [H2 Hy].
    rewrite Forall_forall in Hx, Hy.
    assert (y ∈ x :: l1) as Hin.
    { assert (y ∈ filter (λ z, key z = key y) (x :: l1)) as H by (rewrite Hf; apply elem_of_list_filter; split; [done|left]).
      by apply elem_of_list_filter in H as [_ ?]. }
    assert (x ∈ y :: l2) as Hin'.
    { assert (x ∈ filter (λ z, key z = key x) (y :: l2)) as H by (rewrite <- Hf; apply elem_of_list_filter; split; [done|left]).
      by apply elem_of_list_filter in H as [_ ?]. }
    assert (key x = key y) as Hk.
    { apply lt_total.
      - apply elem_of_cons in Hin' as [->|Hin']; [apply lt_irrefl|]. by apply Hy.
      - apply elem_of_cons in Hin as [->|Hin]; [apply lt_irrefl|]. by apply Hx. }
    assert (x = y) as <-.
    { specialize (Hf (key x)). rewrite !filter_cons in Hf. rewrite decide_True in Hf by done.
      rewrite decide_True in Hf by done. by injection Hf. }
    f_equal. apply IH; [done|done|]. intros k. specialize (Hf k). rewrite !filter_cons in Hf.
    case_decide; [by injection Hf|done].
Qed.
Theorem stable_sort_unique l l' : is_stable_sort l l' → l' = stable_sort l.
Proof using lt_irrefl lt_trans lt_total.
  intros [H1 H2]. destruct (stable_sort_ok l) as [H3 H4]. apply sorted_filters_eq; [done|done|]. intros k. by rewrite H2, H4.
Qed.
(** Two lists with the same entries per key sort to the same list. *)
Theorem stable_sort_filters l l' :
  (∀ k, filter (λ x, key x = k) l = filter (λ x, key x = k) l') → stable_sort l = stable_sort l'.
Proof using lt_irrefl lt_trans lt_total.
  intros H. apply stable_sort_unique. destruct (stable_sort_ok l) as [H3 H4]. split; [done|]. intros k. by rewrite H4.
Qed.
End stable.
