(** * Proofs about embedding types. *)
From Coq Require Import Ascii.
From stdpp Require Import sorting.
From stdpp Require Import base list strings gmap relations.
From Coq Require Import ZArith.
From Verif Require Import StrLib StrOrder StatModel WrapModel WrapSpec ValModel ValSpec.

Lemma trim_prefix_cases p s : trim_prefix p s = s ∨ s = p +:+ trim_prefix p s.
Proof.
  destruct (has_prefix p s) eqn:E.
  - apply has_prefix_spec in E as [t ->]. right. by rewrite trim_prefix_app.
  - left. unfold trim_prefix. by rewrite E.
Qed.
Lemma trim_prefix_none p s : has_prefix p s = false → trim_prefix p s = s.
Proof. intros E. unfold trim_prefix. by rewrite E. Qed.


Section embed.
Context (pkg : string) (types : list (string * list string)).
Lemma embedded_sound s u : embedded_name pkg s = u → s = u ∨ s = "*" +:+ u ∨ s = pkg +:+ "." +:+ u ∨ s = "*" +:+ pkg +:+ "." +:+ u.
Proof.
  unfold embedded_name. intros H. destruct (trim_prefix_cases "*" s) as [E1|E1]; destruct (trim_prefix_cases (pkg +:+ ".") (trim_prefix "*" s)) as [E2|E2]; rewrite H in E2.
  - left. congruence.
  - right. right. left. rewrite E1 in E2. rewrite E2. by rewrite sapp_assoc.
  - right. left. rewrite E1. by rewrite E2.
  - right. right. right. rewrite E1, E2. by rewrite sapp_assoc.
Qed.
Lemma embedded_complete s u : bare u → (∀ t, pkg ≠ "*" +:+ t) → s = u ∨ s = "*" +:+ u ∨ s = pkg +:+ "." +:+ u ∨ s = "*" +:+ pkg +:+ "." +:+ u → embedded_name pkg s = u.
Proof.
  intros [Hd Hs] Hp. unfold embedded_name.
  assert (trim_prefix (pkg +:+ ".") u = u) as Hu.
  { apply trim_prefix_none. destruct (has_prefix (pkg +:+ ".") u) eqn:E; [|done]. apply has_prefix_spec in E as [t ->]. exfalso.
    unfold dotless in Hd. clear -Hd. induction pkg as [|c p IH]; cbn in Hd; [done|]. apply orb_false_iff in Hd as [_ Hd]. by apply IH. }
  assert (trim_prefix "*" u = u) as Hu'.
  { apply trim_prefix_none. destruct (has_prefix "*" u) eqn:E; [|done]. apply has_prefix_spec in E as [t ->]. by destruct (Hs t). }
  assert (trim_prefix "*" (pkg +:+ "." +:+ u) = pkg +:+ "." +:+ u) as Hpu.
  { apply trim_prefix_none. destruct (has_prefix "*" (pkg +:+ "." +:+ u)) eqn:E; [|done]. apply has_prefix_spec in E as [t E]. exfalso.
    destruct pkg as [|c p]; [done|]. cbn in E. injection E as -> _. by destruct (Hp p). }
  assert (trim_prefix (pkg +:+ ".") (pkg +:+ "." +:+ u) = u) as Hq by (rewrite <- sapp_assoc; apply trim_prefix_app).
  intros [-> | [-> | [-> | ->]]].
  - by rewrite Hu'.
  - by rewrite trim_prefix_app.
  - by rewrite Hpu.
  - by rewrite trim_prefix_app.
Qed.

Lemma scan_keeps ts : ∀ names, names ⊆ (embed_scan pkg ts names).1.
Proof.
  induction ts as [|[t es] ts IH]; intros names; cbn [embed_scan]; [done|]. destruct (bool_decide _); [apply IH|]. destruct (existsb _ _); [|apply IH].
  cbn [fst]. intros x Hx. apply IH. by apply elem_of_app; left.
Qed.
Lemma scan_nodup ts : ∀ names, NoDup names → NoDup (embed_scan pkg ts names).1.
Proof.
  induction ts as [|[t es] ts IH]; intros names Hn; cbn [embed_scan]; [done|]. destruct (decide (t ∈ names)) as [Ht|Ht].
  - rewrite bool_decide_eq_true_2 by done. by apply IH.
  - rewrite bool_decide_eq_false_2 by done. destruct (existsb _ _); [|by apply IH]. cbn [fst]. apply IH. apply NoDup_app. split; [done|].
    split; [intros x Hx ->%elem_of_list_singleton; done|apply NoDup_singleton].
Qed.
Lemma scan_same ts : ∀ names, (embed_scan pkg ts names).2 = false → (embed_scan pkg ts names).1 = names.
Proof.
  induction ts as [|[t es] ts IH]; intros names; cbn [embed_scan]; [done|]. destruct (bool_decide _); [apply IH|]. destruct (existsb _ _); [done|apply IH].
Qed.
Lemma exists_embedded (names es : list string) : existsb (λ s, bool_decide (embedded_name pkg s ∈ names)) es = true ↔ ∃ s, s ∈ es ∧ embedded_name pkg s ∈ names.
Proof.
  rewrite existsb_exists. split; intros (s & Hs & H); exists s; (split; [by apply elem_of_list_In|]).
  - by apply bool_decide_eq_true in H.
  - by apply bool_decide_eq_true.
Qed.
Lemma scan_sound b ts : (∀ x, x ∈ ts → x ∈ types) → ∀ names, (∀ x, x ∈ names → rtc (embeds pkg types) x b) → ∀ x, x ∈ (embed_scan pkg ts names).1 → rtc (embeds pkg types) x b.
Proof.
  induction ts as [|[t es] ts IH]; intros Hts names Hn x; cbn [embed_scan]; [by apply Hn|].
  assert (∀ x, x ∈ ts → x ∈ types) as Hts' by (intros y Hy; apply Hts; by right).
  destruct (bool_decide _); [by apply IH|]. destruct (existsb _ _) eqn:E; [|by apply IH]. cbn [fst]. apply IH; [done|].
  intros y [Hy| ->%elem_of_list_singleton]%elem_of_app; [by apply Hn|]. apply exists_embedded in E as (s & Hs & Hin).
  apply rtc_l with (embedded_name pkg s); [|by apply Hn]. exists es, s. split; [apply Hts; left|]. split; [done|]. by apply embedded_sound.
Qed.
Lemma scan_complete ts t es s : (t, es) ∈ ts → s ∈ es → ∀ names, embedded_name pkg s ∈ names → t ∈ (embed_scan pkg ts names).1.
Proof.
  intros Ht Hs. induction ts as [|[t' es'] ts IH]; intros names Hin; [by apply elem_of_nil in Ht|]. cbn [embed_scan].
  apply elem_of_cons in Ht as [[= <- <-]|Ht].
  - destruct (decide (t ∈ names)) as [Htn|Htn].
    + rewrite bool_decide_eq_true_2 by done. by apply scan_keeps.
    + rewrite bool_decide_eq_false_2 by done. rewrite (proj2 (exists_embedded names es)) by (by exists s). cbn [fst]. apply scan_keeps. apply elem_of_app. right. by apply elem_of_list_singleton.
  - destruct (bool_decide _); [by apply IH|]. destruct (existsb _ _); [|by apply IH]. cbn [fst]. apply IH; [done|]. by apply elem_of_app; left.
Qed.

Lemma rounds_sound b n : ∀ names, (∀ x, x ∈ names → rtc (embeds pkg types) x b) → ∀ x, x ∈ embed_rounds pkg types n names → rtc (embeds pkg types) x b.
Proof.
  induction n as [|n IH]; intros names Hn x; cbn [embed_rounds]; [by apply Hn|].
  pose proof (scan_sound b types (λ x Hx, Hx) names Hn) as Hs. destruct (embed_scan pkg types names) as [names' grew]. cbn [fst] in Hs.
  destruct grew; [by apply IH|by apply Hs].
Qed.
Lemma rounds_keeps n : ∀ names, names ⊆ embed_rounds pkg types n names.
Proof.
  induction n as [|n IH]; intros names; cbn [embed_rounds]; [done|]. pose proof (scan_keeps types names) as Hs. destruct (embed_scan pkg types names) as [names' grew]. cbn [fst] in Hs.
  destruct grew; [|done]. etrans; [exact Hs|apply IH].
Qed.
Lemma rounds_nodup n : ∀ names, NoDup names → NoDup (embed_rounds pkg types n names).
Proof.
  induction n as [|n IH]; intros names Hn; cbn [embed_rounds]; [done|]. pose proof (scan_nodup types names Hn) as Hs. destruct (embed_scan pkg types names) as [names' grew]. cbn [fst] in Hs.
  destruct grew; [by apply IH|done].
Qed.
(** Types are reached one embedding per round at least; a scan that adds nothing has
    everything. *)
Lemma rounds_complete n : (∀ t, pkg ≠ "*" +:+ t) → ∀ k names x y, k ≤ n → y ∈ names → (∀ z, rtc (embeds pkg types) z y → bare z) → nsteps (embeds pkg types) k x y → x ∈ embed_rounds pkg types n names.
Proof.
  intros Hp. induction n as [|n IH]; intros k names x y Hk Hy Hb Hs; cbn [embed_rounds].
  { assert (k = 0) as -> by lia. inversion Hs; subst. done. }
  pose proof (scan_keeps types names) as Hkeep. pose proof (scan_same types names) as Hsame.
  assert (∀ t u, bare u → u ∈ names → embeds pkg types t u → t ∈ (embed_scan pkg types names).1) as Hstep.
  { intros t u Hbu Hu (es & s & Hts & Hse & Hform). apply (scan_complete _ _ es s); [done|done|]. by rewrite (embedded_complete s u). }
  destruct (embed_scan pkg types names) as [names' grew]. cbn [fst snd] in *.
  destruct grew.
  - destruct k as [|k].
    + inversion Hs; subst. by apply rounds_keeps, Hkeep.
    + apply nsteps_inv_r in Hs as (z & Hxz & Hzy).
      apply (IH k names' x z); [lia|apply (Hstep z y); [apply Hb; apply rtc_refl|done|done]| |done].
      intros v Hv. apply Hb. by apply rtc_r with z.
  - rewrite Hsame in * by done. clear -Hs Hstep Hy Hb. revert x y Hs Hy Hb. induction k as [|k IHk]; intros x y Hs Hy Hb; [by inversion Hs; subst|].
    apply nsteps_inv_r in Hs as (z & Hxz & Hzy). apply (IHk x z); [done|apply (Hstep z y); [apply Hb; apply rtc_refl|done|done]|].
    intros v Hv. apply Hb. by apply rtc_r with z.
Qed.
End embed.
