From Coq Require Import Ascii.
From stdpp Require Import sorting.
From stdpp Require Import base list strings.
From Verif Require Import StrOrder StrLib SccSpec IdModel IdSpec.

Lemma deco_any s : undecorated s ↔ str_any (λ a, mem_byte a "@[") s = false.
Proof.
  unfold undecorated, contains_byte. induction s as [|a s IH]; simpl; [done|].
  rewrite !orb_false_iff. rewrite <- IH. tauto.
Qed.

Lemma undecorated_app s t : undecorated s → undecorated t → undecorated (s +:+ t).
Proof. rewrite !deco_any, str_any_app. by intros -> ->. Qed.

Lemma undecorated_drop n s : undecorated s → undecorated (str_drop n s).
Proof.
  rewrite !deco_any. revert s. induction n as [|n IH]; intros [|a s]; try done.
  intros Hs. simpl. apply IH. simpl in Hs. by apply orb_false_iff in Hs as [_ ?].
Qed.

Lemma star_prefix_app s t : has_prefix "*" s = false → s ≠ "" → has_prefix "*" (s +:+ t) = false.
Proof. destruct s as [|a s]; [done|]. simpl. done. Qed.

Lemma base_raw c : has_prefix "*" (ci_pkg c) = false →
  base_id c = (if decide (ci_recv c = "") then ci_pkg c +:+ "." +:+ ci_name c
     else ci_pkg c +:+ "." +:+ bare_recv (ci_recv c) +:+ "." +:+ ci_name c).
Proof.
  intros Hp. unfold base_id, trim_prefix.
  destruct (decide (ci_recv c = "")); destruct (ci_pkg c) as [|a s]; simpl in *; by rewrite ?Hp.
Qed.

Lemma base_nostar c : has_prefix "*" (ci_pkg c) = false → has_prefix "*" (base_id c) = false ∧ base_id c ≠ "".
Proof.
  intros Hp. rewrite (base_raw c Hp). destruct (decide (ci_recv c = "")); destruct (ci_pkg c) as [|a s]; simpl in *; done.
Qed.

Lemma base_undecorated c : ordinary c → undecorated (base_id c).
Proof.
  intros (H1 & H2 & H3 & H4). rewrite base_raw by done.
  assert (undecorated ".") by done.
  assert (undecorated (bare_recv (ci_recv c))).
  { unfold bare_recv. destruct (has_prefix "*" (ci_recv c)); [by apply undecorated_drop|done]. }
  destruct (decide (ci_recv c = "")); repeat apply undecorated_app; done.
Qed.

Lemma strip_undecorated s t : undecorated s → strip_to_base (s +:+ t) = s +:+ strip_to_base t.
Proof. intros Hs. unfold strip_to_base. rewrite take_until_app. apply deco_any in Hs. by rewrite Hs. Qed.

Lemma strip_instance iter c : ordinary c →
  strip_to_base (instance_id iter c) = base_id c ∧
  strip_to_base (generic_id iter c) = base_id c ∧
  strip_to_base (base_id c) = base_id c.
Proof.
  intros Ho. pose proof (base_undecorated c Ho) as Hu.
  destruct (base_nostar c) as [Hs Hn]; [by destruct Ho as (_&_&_&?)|].
  split; [|split].
  - unfold instance_id, trim_prefix.
    rewrite star_prefix_app by done. rewrite strip_undecorated by done.
    destruct (ci_generics c); destruct (decide (ci_pos c = "")); by rewrite sapp_nil || (symmetry; apply sapp_nil).
  - unfold generic_id. destruct (ci_generics c).
    + pose proof (strip_undecorated _ "" Hu) as Hx. by rewrite !sapp_nil in Hx.
    + rewrite strip_undecorated by done. apply sapp_nil.
  - pose proof (strip_undecorated _ "" Hu) as Hx. by rewrite !sapp_nil in Hx.
Qed.

Lemma contains_app a s t : contains_byte a (s +:+ t) = contains_byte a s || contains_byte a t.
Proof. apply str_any_app. Qed.

Lemma last_dot s1 n1 s2 n2 : contains_byte "." n1 = false → contains_byte "." n2 = false →
  s1 +:+ "." +:+ n1 = s2 +:+ "." +:+ n2 → s1 = s2 ∧ n1 = n2.
Proof.
  intros H1 H2. revert s2. induction s1 as [|a s1 IH]; intros [|b s2] Heq.
  - injection Heq as ->. done.
  - injection Heq as <- ->. exfalso.
    rewrite contains_app in H1. apply orb_false_iff in H1 as [_ H1]. done.
  - injection Heq as -> <-. exfalso.
    rewrite contains_app in H2. apply orb_false_iff in H2 as [_ H2]. done.
  - injection Heq as -> Heq. apply IH in Heq as [-> ->]. done.
Qed.

Lemma word_bare s : word s → word (bare_recv s).
Proof.
  unfold bare_recv. destruct (has_prefix "*" s) eqn:H; [|done].
  apply has_prefix_spec in H as [t ->]. unfold word. rewrite !contains_app. simpl. done.
Qed.

Lemma bare_nil s : s ≠ "*" → bare_recv s = "" → s = "".
Proof.
  unfold bare_recv. destruct (has_prefix "*" s) eqn:H; [|done].
  apply has_prefix_spec in H as [t ->]. intros Hne. simpl. by intros ->.
Qed.

Lemma base_injective c1 c2 : ordinary c1 → ordinary c2 → conventional c1 → conventional c2 →
  base_id c1 = base_id c2 ↔ same_function c1 c2.
Proof.
  intros (_&_&_&Hs1) (_&_&_&Hs2) (Hn1 & Hr1 & Hst1 & Hp1) (Hn2 & Hr2 & Hst2 & Hp2).
  rewrite (base_raw c1), (base_raw c2) by done.
  apply word_bare in Hr1 as Hb1. apply word_bare in Hr2 as Hb2.
  split.
  - destruct (decide (ci_recv c1 = "")) as [E1|E1]; destruct (decide (ci_recv c2 = "")) as [E2|E2].
    + intros Heq. apply last_dot in Heq as [? ?]; [|apply Hn1|apply Hn2].
      unfold same_function. by rewrite E1, E2.
    + rewrite <- (sapp_assoc "." (bare_recv _)), <- (sapp_assoc (ci_pkg c2) ("." +:+ _)).
      intros Heq. apply last_dot in Heq as [Hp ?]; [|apply Hn1|apply Hn2].
      exfalso. specialize (Hp1 _ _ Hp). destruct Hb2 as [_ ?]. congruence.
    + rewrite <- (sapp_assoc "." (bare_recv _)), <- (sapp_assoc (ci_pkg c1) ("." +:+ _)).
      intros Heq. apply last_dot in Heq as [Hp ?]; [|apply Hn1|apply Hn2].
      exfalso. symmetry in Hp. specialize (Hp2 _ _ Hp). destruct Hb1 as [_ ?]. congruence.
    + rewrite <- (sapp_assoc "." (bare_recv (ci_recv c1))), <- (sapp_assoc (ci_pkg c1) ("." +:+ _)).
      rewrite <- (sapp_assoc "." (bare_recv (ci_recv c2))), <- (sapp_assoc (ci_pkg c2) ("." +:+ _)).
      intros Heq. apply last_dot in Heq as [Heq ?]; [|apply Hn1|apply Hn2].
      apply last_dot in Heq as [? ?]; [|apply Hb1|apply Hb2]. done.
  - intros (Hp & Hn & Hb). rewrite Hp, Hn, Hb.
    destruct (decide (ci_recv c1 = "")) as [E1|E1]; destruct (decide (ci_recv c2 = "")) as [E2|E2]; try done.
    + exfalso. apply E2, bare_nil; [done|]. rewrite <- Hb, E1. done.
    + exfalso. apply E1, bare_nil; [done|]. rewrite Hb, E2. done.
Qed.

Lemma instance_order iter1 iter2 c : is_order iter1 → is_order iter2 →
  instance_id iter1 c = instance_id iter2 c ∧ generic_id iter1 c = generic_id iter2 c.
Proof.
  intros H1 H2.
  assert (generic_parts iter1 c = generic_parts iter2 c) as Heq.
  { unfold generic_parts. apply ssort_unique. apply fmap_Permutation. by rewrite H1, H2. }
  unfold instance_id, generic_id. by rewrite Heq.
Qed.
