From stdpp Require Import sorting.
From Coq Require Import Ascii.
From stdpp Require Import base list strings gmap relations.
From Verif Require Import StrOrder StrLib StrSplit StrSub StableSort SccSpec DetModel DetSpec.

(** ** Quotes *)
Lemma not_contains_ends c s : contains_byte c s = false → ¬ ends_with c s.
Proof.
  intros H [t ->]. assert (contains_byte c (t +:+ String c "") = true); [|congruence].
  apply contains_byte_spec. by exists t, "".
Qed.
Lemma not_contains_starts c s : contains_byte c s = false → ¬ starts_with c s.
Proof.
  intros H [t ->]. assert (contains_byte c (String c t) = true); [|congruence].
  apply contains_byte_spec. by exists "", t.
Qed.

Lemma unquote_quoted p : contains_byte dquote p = false → unquote (quoted p) = p.
Proof.
  intros H. unfold unquote, quoted, trim.
  replace (trim_left dquote (String dquote (p +:+ String dquote ""))) with (trim_left dquote (p +:+ String dquote "")).
  2: { simpl. done. }
  destruct p as [|c p].
  - done.
  - rewrite trim_left_id.
    2: { intros [t Ht]. rewrite sapp_cons in Ht. injection Ht as -> _.
         apply (not_contains_starts _ _ H). by exists p. }
    rewrite trim_right_byte. apply trim_right_id. by apply not_contains_ends.
Qed.

Lemma unquote_raw p : unquote (raw_quoted p) = raw_quoted p.
Proof.
  unfold unquote, trim, raw_quoted. rewrite trim_left_id by (intros [t Ht]; discriminate).
  apply trim_right_id. intros [t Ht].
  assert (∃ u, String bquote (p +:+ String bquote "") = u +:+ String bquote "") as [u Hu].
  { exists (String bquote p). done. }
  rewrite Hu in Ht. clear -Ht. revert t Ht. induction u as [|c u IH]; intros [|d t] Ht; try discriminate.
  - injection Ht as _ Ht. destruct t; discriminate.
  - injection Ht as _ Ht. destruct u; discriminate.
  - rewrite !sapp_cons in Ht. injection Ht as _ Ht. by apply (IH t).
Qed.

Lemma contains_raw m p : m ≠ "" → contains_byte bquote m = false →
  str_contains m (raw_quoted p) = str_contains m p.
Proof.
  intros Hm Hb. apply eq_true_iff_eq. rewrite !str_contains_spec. unfold raw_quoted. split.
  - intros (a & b & Hs). destruct a as [|c a].
    { destruct m as [|c m]; [done|]. change ("" +:+ String c m +:+ b) with (String c (m +:+ b)) in Hs.
      injection Hs as <- _. exfalso. apply (not_contains_starts _ _ Hb). by exists m. }
    rewrite sapp_cons in Hs. injection Hs as _ Hs.
    assert (b = "" ∨ ∃ b' d, b = b' +:+ String d "") as [->|(b' & d & ->)].
    { clear. induction b as [|d b IH]; [by left|]. right. destruct IH as [->|(b' & e & ->)]; [by exists "", d|].
      by exists (String d b'), e. }
    + exfalso. apply (not_contains_ends _ _ Hb).
      assert (∃ m' d, m = m' +:+ String d "") as (m' & d & Hmm).
      { clear -Hm. induction m as [|d m IH]; [done|]. destruct m as [|e m]; [by exists "", d|].
        destruct IH as (m' & x & ->); [done|]. by exists (String d m'), x. }
      rewrite Hmm, sapp_nil, <-sapp_assoc in Hs.
      assert (String.length p = String.length (a +:+ m')) as Hl.
      { apply (f_equal String.length) in Hs. rewrite !sapp_length in *. simpl in Hs. lia. }
      destruct (sapp_inj_len _ _ _ _ Hl Hs) as [_ Hd]. injection Hd as <-. by exists m'.
    + exists a, b'. rewrite <-!sapp_assoc in Hs.
      assert (String.length p = String.length ((a +:+ m) +:+ b')) as Hl.
      { apply (f_equal String.length) in Hs. rewrite !sapp_length in *. simpl in Hs. lia. }
      destruct (sapp_inj_len _ _ _ _ Hl Hs) as [-> _]. by rewrite sapp_assoc.
  - intros (a & b & ->). exists (String bquote a), (b +:+ String bquote "").
    by rewrite !sapp_cons, !sapp_assoc.
Qed.

(** ** DetectAll *)
Lemma matches_any_marked f lit p : (∀ m, m ∈ fw_source f → good_marker m) → denotes lit p →
  matches_any (unquote lit) (fw_source f) = true ↔ marked f p.
Proof.
  intros Hg [[Hd Hb] Hlit]. unfold matches_any, marked. rewrite existsb_exists.
  assert (∀ m, m ∈ fw_source f → str_contains m (unquote lit) = str_contains m p) as Hm.
  { intros m Hm. destruct (Hg m Hm) as (Hne & Hmb & _). destruct Hlit as [->| ->].
    - by rewrite unquote_quoted.
    - rewrite unquote_raw. by apply contains_raw. }
  split.
  - intros (m & Hin & Hc). apply elem_of_list_In in Hin. rewrite Hm in Hc by done.
    exists m. split; [done|]. by apply str_contains_spec.
  - intros (m & Hin & Hc). exists m. split; [by apply elem_of_list_In|]. rewrite Hm by done. by apply str_contains_spec.
Qed.

Lemma filter_hd {A} (P : A → Prop) `{∀ x, Decision (P x)} l x r : filter P l = x :: r →
  ∃ pre post, l = pre ++ x :: post ∧ P x ∧ ∀ y, y ∈ pre → ¬ P y.
Proof.
  induction l as [|y l IH]; [done|]. rewrite filter_cons. destruct (decide (P y)) as [Hy|Hy].
  - intros Hf. injection Hf as -> _. exists [], l. split; [done|]. split; [done|]. intros ? ?%elem_of_nil. done.
  - intros Hf. destruct (IH Hf) as (pre & post & -> & Hx & Hpre). exists (y :: pre), post.
    split; [done|]. split; [done|]. intros z [->|Hz]%elem_of_cons; [done|by apply Hpre].
Qed.

Lemma detect_import_spec det lit p n : (∀ f m, f ∈ det → m ∈ fw_source f → good_marker m) → denotes lit p →
  detect_import det lit = Some n ↔ recognised det p n.
Proof.
  intros Hg Hd. unfold detect_import, recognised.
  assert (∀ f, f ∈ det → matches_any (unquote lit) (fw_source f) = true ↔ marked f p) as Hm.
  { intros f Hf. apply matches_any_marked; [|done]. intros m. by apply Hg. }
  split.
  - destruct (filter _ det) as [|f r] eqn:E; [done|]. intros [= <-].
    apply filter_hd in E as (pre & post & -> & Hf & Hpre). exists pre, f, post. split; [done|]. split; [done|].
    split; [apply Hm; [apply elem_of_app; right; left|done]|].
    intros g Hgin Hmk. apply (Hpre g Hgin). apply Hm; [apply elem_of_app; by left|done].
  - intros (pre & f & post & -> & Hn & Hmk & Hpre).
    rewrite filter_app, filter_cons.
    assert (filter (λ f, matches_any (unquote lit) (fw_source f) = true) pre = []) as ->.
    { destruct (filter _ pre) as [|g r] eqn:E; [done|]. exfalso.
      assert (g ∈ filter (λ f, matches_any (unquote lit) (fw_source f) = true) pre) as Hin by (rewrite E; left).
      apply elem_of_list_filter in Hin as [Hm1 Hin].
      apply (Hpre g Hin). apply Hm; [apply elem_of_app; by left|done]. }
    destruct (decide (matches_any (unquote lit) (fw_source f) = true)) as [_|Hno].
    + simpl. by rewrite Hn.
    + exfalso. apply Hno, Hm; [apply elem_of_app; right; left|done].
Qed.

Definition events (det : list framework) (lits : list string) : list string := omap (detect_import det) lits.

Lemma det_file_events det acc lits : det_file det acc lits = foldl det_add acc (events det lits).
Proof.
  unfold det_file, events. revert acc. induction lits as [|lit lits IH]; intros acc; simpl; [done|].
  destruct (detect_import det lit); simpl; apply IH.
Qed.

Lemma detect_import_in det lit n : detect_import det lit = Some n → n ∈ fw_name <$> det.
Proof.
  unfold detect_import. destruct (filter _ det) as [|f r] eqn:E; [done|]. intros [= <-].
  apply elem_of_list_fmap. exists f. split; [done|].
  assert (f ∈ filter (λ f, matches_any (unquote lit) (fw_source f) = true) det) as Hin by (rewrite E; left).
  by apply elem_of_list_filter in Hin as [_ Hin].
Qed.

Lemma det_add_elem acc n x : x ∈ det_add acc n ↔ x ∈ acc ∨ x = n.
Proof.
  unfold det_add. destruct (decide (n ∈ acc)) as [Hn|Hn].
  - split; [by left|]. intros [?| ->]; done.
  - by rewrite elem_of_app, elem_of_list_singleton.
Qed.
Lemma det_add_nodup acc n : NoDup acc → NoDup (det_add acc n).
Proof.
  unfold det_add. intros H. destruct (decide (n ∈ acc)) as [Hn|Hn]; [done|].
  apply NoDup_app. split; [done|]. split; [|apply NoDup_singleton].
  intros x Hx ->%elem_of_list_singleton. done.
Qed.
Lemma det_adds_elem es : ∀ acc x, x ∈ foldl det_add acc es ↔ x ∈ acc ∨ x ∈ es.
Proof.
  induction es as [|e es IH]; intros acc x; simpl.
  - split; [by left|]. intros [?|?%elem_of_nil]; done.
  - rewrite IH, det_add_elem, elem_of_cons. tauto.
Qed.
Lemma det_adds_nodup es : ∀ acc, NoDup acc → NoDup (foldl det_add acc es).
Proof. induction es as [|e es IH]; intros acc H; simpl; [done|]. by apply IH, det_add_nodup. Qed.
Lemma det_adds_noop es : ∀ acc, (∀ x, x ∈ es → x ∈ acc) → foldl det_add acc es = acc.
Proof.
  induction es as [|e es IH]; intros acc H; simpl; [done|].
  assert (det_add acc e = acc) as -> by (unfold det_add; rewrite decide_True; [done|apply H; left]).
  apply IH. intros x Hx. apply H. by right.
Qed.

Lemma full_list (acc names : list string) : NoDup acc → (∀ x, x ∈ acc → x ∈ names) → length acc = length names →
  ∀ x, x ∈ names → x ∈ acc.
Proof.
  intros Hn Hs Hl x Hx. assert (acc ≡ₚ names) as ->; [|done]. apply submseteq_Permutation_length_le; [lia|].
  apply NoDup_submseteq; [done|]. intros y. apply Hs.
Qed.

Lemma det_files_events det files : ∀ acc, NoDup acc → (∀ x, x ∈ acc → x ∈ fw_name <$> det) →
  det_files det files acc = foldl det_add acc (events det (concat (default [] <$> files))).
Proof.
  induction files as [|[lits|] files IH]; intros acc Hn Hs; [done| |].
  - simpl. unfold events. rewrite omap_app, foldl_app. fold (events det lits).
    rewrite <-det_file_events.
    assert (NoDup (det_file det acc lits)) as Hn' by (rewrite det_file_events; by apply det_adds_nodup).
    assert (∀ x, x ∈ det_file det acc lits → x ∈ fw_name <$> det) as Hs'.
    { intros x. rewrite det_file_events, det_adds_elem. intros [Hx|Hx]; [by apply Hs|].
      unfold events in Hx. apply elem_of_list_omap in Hx as (lit & _ & Hx). by eapply detect_import_in. }
    destruct (decide (length (det_file det acc lits) = length det)) as [E|E].
    + symmetry. apply det_adds_noop. intros x Hx. apply elem_of_list_omap in Hx as (lit & _ & Hx).
      apply (full_list _ (fw_name <$> det)); [done|done|by rewrite fmap_length|]. by eapply detect_import_in.
    + by apply IH.
  - simpl. by apply IH.
Qed.

Lemma det_adds_prefix es : ∀ acc, ∃ r, foldl det_add acc es = acc ++ r.
Proof.
  induction es as [|e es IH]; intros acc; simpl; [exists []; by rewrite app_nil_r|].
  destruct (IH (det_add acc e)) as [r Hr]. rewrite Hr. unfold det_add.
  destruct (decide (e ∈ acc)); [by exists r|]. exists (e :: r). by rewrite <-app_assoc.
Qed.

(** The elements come in the order of their first event. *)
Lemma det_adds_order es : ∀ a n b m, foldl det_add [] es = a ++ n :: b → m ∈ b →
  ∃ s1 s2, es = s1 ++ n :: s2 ∧ m ∉ s1.
Proof.
  induction es as [|e es IH] using rev_ind; intros a n b m; simpl.
  { by destruct a. }
  rewrite foldl_app. simpl. unfold det_add at 1. destruct (decide (e ∈ foldl det_add [] es)) as [He|He].
  - intros Hf Hm. destruct (IH _ _ _ _ Hf Hm) as (s1 & s2 & -> & Hs1). exists s1, (s2 ++ [e]).
    by rewrite <-app_assoc.
  - intros Hf Hm. destruct b as [|y b' _] using rev_ind; [by apply elem_of_nil in Hm|].
    replace (a ++ n :: b' ++ [y]) with ((a ++ n :: b') ++ [y]) in Hf by (by rewrite <-app_assoc).
    apply app_inj_tail in Hf as [Hf ->].
    apply elem_of_app in Hm as [Hm|Hm]; [|apply elem_of_list_singleton in Hm as ->].
    + destruct (IH _ _ _ _ Hf Hm) as (s1 & s2 & -> & Hs1). exists s1, (s2 ++ [y]). by rewrite <-app_assoc.
    + assert (n ∈ es) as Hn.
      { assert (n ∈ foldl det_add [] es) as Hx by (rewrite Hf; apply elem_of_app; right; left).
        apply det_adds_elem in Hx as [?%elem_of_nil|?]; done. }
      apply elem_of_list_split in Hn as (s1 & s2 & ->). exists s1, (s2 ++ [y]).
      rewrite <-app_assoc. split; [done|]. intros Hy. apply He. apply det_adds_elem. right.
      apply elem_of_app. by left.
Qed.

Lemma omap_split {A B} (f : A → option B) l s1 n s2 : omap f l = s1 ++ n :: s2 →
  ∃ l1 x l2, l = l1 ++ x :: l2 ∧ f x = Some n ∧ omap f l1 = s1.
Proof.
  revert s1. induction l as [|y l IH]; intros s1 H; simpl in H; [by destruct s1|].
  destruct (f y) as [z|] eqn:E.
  - destruct s1 as [|w s1]; simpl in H.
    + injection H as -> H. exists [], y, l. done.
    + injection H as -> H. destruct (IH _ H) as (l1 & x & l2 & -> & Hx & Ho). exists (y :: l1), x, l2.
      split; [done|]. split; [done|]. simpl. rewrite E. by f_equal.
  - destruct (IH _ H) as (l1 & x & l2 & -> & Hx & Ho). exists (y :: l1), x, l2.
    split; [done|]. split; [done|]. simpl. by rewrite E.
Qed.

Lemma files_denote files pathss : Forall2 file_denotes files pathss →
  Forall2 denotes (concat (default [] <$> files)) (concat pathss).
Proof.
  induction 1 as [|f ps files pathss Hf _ IH]; simpl; [constructor|].
  apply Forall2_app; [|done]. destruct f as [lits|]; simpl in *; [done|]. rewrite Hf. constructor.
Qed.

Lemma det_first_seen det files pathss :
  (∀ f m, f ∈ det → m ∈ fw_source f → good_marker m) →
  Forall2 file_denotes files pathss →
  first_seen det (concat pathss) (det_files det files []).
Proof.
  intros Hg Hf. apply files_denote in Hf.
  rewrite det_files_events; [|constructor|intros ? ?%elem_of_nil; done].
  set (lits := concat (default [] <$> files)) in *. set (paths := concat pathss) in *.
  split; [apply det_adds_nodup; constructor|]. split.
  - intros n. rewrite det_adds_elem. unfold events. rewrite elem_of_list_omap. split.
    + intros [?%elem_of_nil|(lit & Hl & Hd)]; [done|].
      apply elem_of_list_lookup in Hl as [k Hk].
      destruct (Forall2_lookup_l _ _ _ _ _ Hf Hk) as (p & Hp & Hd'). exists p.
      split; [by eapply elem_of_list_lookup_2|]. by apply (detect_import_spec det lit p n Hg Hd').
    + intros (p & Hp & Hr). apply elem_of_list_lookup in Hp as [k Hk].
      destruct (Forall2_lookup_r _ _ _ _ _ Hf Hk) as (lit & Hl & Hd). right. exists lit.
      split; [by eapply elem_of_list_lookup_2|]. by apply (detect_import_spec det lit p n Hg Hd).
  - intros a n b m Hab Hm. destruct (det_adds_order _ _ _ _ _ Hab Hm) as (s1 & s2 & Hs & Hns).
    apply omap_split in Hs as (l1 & x & l2 & Hl & Hx & Ho). rewrite Hl in Hf.
    apply Forall2_app_inv_l in Hf as (p1 & p2 & Hf1 & Hf2 & Hp).
    apply Forall2_cons_inv_l in Hf2 as (p & p2' & Hd & _ & ->). exists p1, p, p2'.
    split; [done|]. split; [by apply (detect_import_spec det x p n Hg Hd)|].
    intros j Hj Hr. apply Hns. rewrite <-Ho. apply elem_of_list_lookup in Hj as [k Hk].
    destruct (Forall2_lookup_r _ _ _ _ _ Hf1 Hk) as (lit & Hl1 & Hd1). apply elem_of_list_omap.
    exists lit. split; [by eapply elem_of_list_lookup_2|]. by apply (detect_import_spec det lit j m Hg Hd1).
Qed.

(** [first_seen] determines the list. *)
Lemma first_seen_unique reg is l1 l2 : first_seen reg is l1 → first_seen reg is l2 →
  (∀ i n m, recognised reg i n → recognised reg i m → n = m) → l1 = l2.
Proof.
  intros (N1 & M1 & O1) (N2 & M2 & O2) Hfun.
  assert (l1 ≡ₚ l2) as Hp.
  { apply NoDup_Permutation; [done|done|]. intros x. by rewrite M1, M2. }
  clear M1 M2. revert l2 N2 O2 Hp. induction l1 as [|x l1 IH]; intros l2 N2 O2 Hp.
  { by apply Permutation_nil_l in Hp. }
  destruct l2 as [|y l2]; [by apply Permutation_nil_r in Hp|].
  destruct (decide (x = y)) as [->|Hne].
  - f_equal. apply NoDup_cons in N1 as [_ N1]. apply NoDup_cons in N2 as [_ N2].
    apply IH; [done| |done| |by apply Permutation_cons_inv in Hp].
    + intros a n b m -> Hm. apply (O1 (y :: a) n b m); done.
    + intros a n b m -> Hm. apply (O2 (y :: a) n b m); done.
  - exfalso.
    assert (y ∈ l1) as Hy.
    { assert (y ∈ x :: l1) as Hy by (rewrite Hp; left). apply elem_of_cons in Hy as [?|?]; [congruence|done]. }
    assert (x ∈ l2) as Hx.
    { assert (x ∈ y :: l2) as Hx by (rewrite <-Hp; left). apply elem_of_cons in Hx as [?|?]; [congruence|done]. }
    destruct (O1 [] x l1 y eq_refl Hy) as (s1 & i & s2 & Hs & Hi & Hn).
    destruct (O2 [] y l2 x eq_refl Hx) as (t1 & j & t2 & Ht & Hj & Hn').
    rewrite Hs in Ht.
    assert (length s1 = length t1 ∨ length s1 < length t1 ∨ length t1 < length s1) as [E|[E|E]] by lia.
    + apply app_inj_1 in Ht as [_ Ht]; [|done]. injection Ht as -> _. apply Hne. by eapply Hfun.
    + apply (Hn' i); [|done].
      assert ((s1 ++ i :: s2) !! length s1 = Some i) as L by (by rewrite lookup_app_r, Nat.sub_diag by lia).
      rewrite Ht, lookup_app_l in L by done. by eapply elem_of_list_lookup_2.
    + apply (Hn j); [|done].
      assert ((t1 ++ j :: t2) !! length t1 = Some j) as L by (by rewrite lookup_app_r, Nat.sub_diag by lia).
      rewrite <-Ht, lookup_app_l in L by done. by eapply elem_of_list_lookup_2.
Qed.
