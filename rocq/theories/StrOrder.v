(** * Byte-wise string order and sorting, as used by Go's [sort.Strings] and by
    [<] on strings; and [sort.Ints].  Shared library, no code of /repo. *)
From Coq Require Import Ascii String.
From stdpp Require Import sorting.
From stdpp Require Import base numbers list strings.

Definition string_le (a b : string) : Prop := String.leb a b = true.
Global Instance string_le_dec : RelDecision string_le.
Proof. intros a b. unfold string_le. apply _. Defined.

(** Go's [a < b] on strings. *)
Definition string_lt (a b : string) : bool := String.ltb a b.

Lemma ascii_compare_lt_trans a b c :
  Ascii.compare a b = Lt → Ascii.compare b c = Lt → Ascii.compare a c = Lt.
Proof.
  unfold Ascii.compare. rewrite !N.compare_lt_iff. lia.
Qed.

Lemma ascii_compare_refl a : Ascii.compare a a = Eq.
Proof. unfold Ascii.compare. apply N.compare_refl. Qed.

Lemma ascii_compare_eq a b : Ascii.compare a b = Eq → a = b.
Proof. apply Ascii.compare_eq_iff. Qed.

Lemma string_compare_refl a : String.compare a a = Eq.
Proof. induction a as [|x a IH]; simpl; [done|]. by rewrite ascii_compare_refl. Qed.

Lemma string_compare_lt_trans a : ∀ b c,
  String.compare a b = Lt → String.compare b c = Lt → String.compare a c = Lt.
Proof.
  induction a as [|x a IH]; intros [|y b] [|z c]; simpl; try done.
  destruct (Ascii.compare x y) eqn:Exy; [|intros _|done].
  - apply ascii_compare_eq in Exy as <-.
    destruct (Ascii.compare x z) eqn:Exz; eauto.
  - destruct (Ascii.compare y z) eqn:Eyz; [|intros _|done].
    + apply ascii_compare_eq in Eyz as <-. by rewrite Exy.
    + by rewrite (ascii_compare_lt_trans _ _ _ Exy Eyz).
Qed.

Lemma string_le_cases a b : string_le a b ↔ String.compare a b = Lt ∨ a = b.
Proof.
  unfold string_le, String.leb. destruct (String.compare a b) eqn:E.
  - apply String.compare_eq_iff in E. tauto.
  - tauto.
  - split; [done|]. intros [?| ->]; [done|]. by rewrite string_compare_refl in E.
Qed.

Lemma string_lt_spec a b : string_lt a b = true ↔ String.compare a b = Lt.
Proof. unfold string_lt, String.ltb. destruct (String.compare a b); split; done. Qed.

Lemma string_lt_not_le a b : string_lt a b = false ↔ string_le b a.
Proof.
  rewrite string_le_cases. unfold string_lt, String.ltb.
  rewrite (String.compare_antisym b a).
  destruct (String.compare a b) eqn:E; simpl.
  - apply String.compare_eq_iff in E. subst. split; [by right|done].
  - split; [done|]. intros [?| ->]; [done|]. by rewrite string_compare_refl in E.
  - split; [by left|done].
Qed.

Lemma string_lt_le a b : string_lt a b = true → string_le a b.
Proof. rewrite string_lt_spec, string_le_cases. by left. Qed.

Lemma string_lt_irrefl a : string_lt a a = false.
Proof. apply string_lt_not_le. apply string_le_cases. by right. Qed.

Global Instance string_le_preorder : PreOrder string_le.
Proof.
  split.
  - intros a. apply string_le_cases. by right.
  - intros a b c. rewrite !string_le_cases.
    intros [H1| ->]; [|done]. intros [H2| <-]; [|by left].
    left. by eapply string_compare_lt_trans.
Qed.
Global Instance string_le_antisym : AntiSymm (=) string_le.
Proof.
  intros a b. rewrite !string_le_cases.
  intros [H1| ->]; [|done]. intros [H2| <-]; [|done].
  pose proof (string_compare_lt_trans _ _ _ H1 H2) as H.
  by rewrite string_compare_refl in H.
Qed.
Global Instance string_le_total : Total string_le.
Proof.
  intros a b. rewrite !string_le_cases.
  rewrite (String.compare_antisym b a).
  destruct (String.compare a b) eqn:E; simpl; [|tauto..].
  left. right. by apply String.compare_eq_iff.
Qed.

Lemma string_le_lt_trans a b c : string_le a b → string_lt b c = true → string_lt a c = true.
Proof.
  intros H1 H2. destruct (string_lt a c) eqn:E; [done|]. apply string_lt_not_le in E.
  assert (string_le c b) as H3 by by transitivity a. apply string_lt_not_le in H3. congruence.
Qed.
Lemma string_lt_le_trans a b c : string_lt a b = true → string_le b c → string_lt a c = true.
Proof.
  intros H1 H2. destruct (string_lt a c) eqn:E; [done|]. apply string_lt_not_le in E.
  assert (string_le b a) as H3 by by transitivity c. apply string_lt_not_le in H3. congruence.
Qed.
Lemma string_lt_trans a b c : string_lt a b = true → string_lt b c = true → string_lt a c = true.
Proof. intros H1 H2. eapply string_lt_le_trans; [done|by apply string_lt_le]. Qed.

(** [sort.Strings]. *)
Definition ssort (l : list string) : list string := merge_sort string_le l.

Lemma ssort_perm l : ssort l ≡ₚ l.
Proof. apply merge_sort_Permutation. Qed.
Lemma ssort_sorted l : StronglySorted string_le (ssort l).
Proof. apply StronglySorted_merge_sort; apply _. Qed.
Lemma ssort_unique l1 l2 : l1 ≡ₚ l2 → ssort l1 = ssort l2.
Proof.
  intros H. eapply (StronglySorted_unique string_le); [apply ssort_sorted..|].
  by rewrite !ssort_perm.
Qed.
Lemma elem_of_ssort x l : x ∈ ssort l ↔ x ∈ l.
Proof. by rewrite ssort_perm. Qed.
Lemma NoDup_ssort l : NoDup (ssort l) ↔ NoDup l.
Proof. by rewrite ssort_perm. Qed.
Lemma length_ssort l : length (ssort l) = length l.
Proof. by rewrite ssort_perm. Qed.
Lemma ssort_id l : StronglySorted string_le l → ssort l = l.
Proof.
  intros H. eapply (StronglySorted_unique string_le); [apply ssort_sorted|done|].
  apply ssort_perm.
Qed.
Lemma ssort_idemp l : ssort (ssort l) = ssort l.
Proof. apply ssort_id, ssort_sorted. Qed.

(** [sort.Ints] on naturals. *)
Definition nsort (l : list nat) : list nat := merge_sort (≤) l.
Lemma nsort_perm l : nsort l ≡ₚ l.
Proof. apply merge_sort_Permutation. Qed.
Lemma nsort_sorted l : StronglySorted (≤) (nsort l).
Proof. apply StronglySorted_merge_sort; apply _. Qed.
Lemma nsort_unique l1 l2 : l1 ≡ₚ l2 → nsort l1 = nsort l2.
Proof.
  intros H. eapply (StronglySorted_unique (≤)); [apply nsort_sorted..|].
  by rewrite !nsort_perm.
Qed.
Lemma StronglySorted_le_lt l : NoDup l → StronglySorted (≤) l → StronglySorted (<) l.
Proof.
  induction l as [|x l IH]; intros Hnd Hs; [constructor|].
  apply NoDup_cons in Hnd as [Hx Hnd]. inversion Hs as [|? ? Hs' Hf]; subst.
  constructor; [by apply IH|].
  rewrite Forall_forall in Hf |- *. intros y Hy. specialize (Hf y Hy).
  destruct (decide (x = y)) as [->|]; [done|lia].
Qed.
