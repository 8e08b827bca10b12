(** * Proofs about verbs. *)
From Coq Require Import Ascii.
From stdpp Require Import sorting.
From stdpp Require Import base list strings gmap.
From Verif Require Import StrLib StrSplit PathModel PathSpec PathProofs PathProofs2 VerbModel VerbSpec.

(** ** Trimming *)
Lemma all_of_snoc_cons cs c s : mem_byte c cs = true → all_of cs s → all_of cs (String c s).
Proof.
  intros Hc Hs d a b E. destruct a as [|a' a].
  - injection E as <- <-. by apply mem_spec.
  - rewrite sapp_cons in E. injection E as _ E. by apply (Hs d a b).
Qed.
Lemma trim_left_dec cs s : ∃ a, s = a +:+ trim_left_any cs s ∧ all_of cs a.
Proof.
  induction s as [|c s (a & E & Ha)]; [by exists ""; split; [|apply all_of_nil]|]. cbn. destruct (mem_byte c cs) eqn:H.
  - exists (String c a). rewrite sapp_cons. split; [by rewrite <- E|by apply all_of_snoc_cons].
  - exists "". split; [done|apply all_of_nil].
Qed.
Lemma trim_right_dec cs s : ∃ b, s = trim_right_any cs s +:+ b ∧ all_of cs b.
Proof.
  induction s as [|c s (b & E & Hb)]; [by exists ""; split; [|apply all_of_nil]|]. cbn.
  destruct (trim_right_any cs s) as [|d t] eqn:Ht.
  - destruct (mem_byte c cs) eqn:H.
    + exists (String c s). split; [done|]. apply all_of_snoc_cons; [done|]. by rewrite E.
    + exists b. rewrite sapp_cons. split; [|done]. by rewrite E at 1.
  - exists b. rewrite sapp_cons. by rewrite <- E.
Qed.
Lemma trim_any_dec cs s : ∃ a b, s = a +:+ trim_any cs s +:+ b ∧ all_of cs a ∧ all_of cs b.
Proof.
  destruct (trim_left_dec cs s) as (a & E & Ha). destruct (trim_right_dec cs (trim_left_any cs s)) as (b & E' & Hb).
  exists a, b. unfold trim_any. by rewrite <- E'.
Qed.
(** A string with both ends outside [cs]. *)
Definition firm (cs s : string) : Prop := (∃ c t, s = String c t ∧ mem_byte c cs = false) ∧ ∃ t c, s = t +:+ String c "" ∧ mem_byte c cs = false.
Lemma trim_any_firm cs a s b : all_of cs a → all_of cs b → firm cs s → trim_any cs (a +:+ s +:+ b) = s.
Proof.
  intros Ha Hb [(c & t & E & Hc) (t' & c' & E' & Hc')]. unfold trim_any. rewrite trim_left_all by done.
  rewrite E at 1. rewrite sapp_cons, trim_left_stop by done. rewrite <- sapp_cons, <- E, E', sapp_assoc. cbn.
  by apply trim_right_app.
Qed.
Lemma spaces_not_quotes c : mem_byte c spaces = true → mem_byte c quotes = false.
Proof.
  unfold spaces, quotes. cbn [mem_byte]. intros H.
  repeat (apply orb_true_iff in H as [H|H]; [apply bool_decide_eq_true in H; subst; reflexivity|]). done.
Qed.
Lemma snoc_dec s : s = "" ∨ ∃ t c, s = t +:+ String c "".
Proof.
  induction s as [|c s [->|(t & d & ->)]]; [by left|right; by exists "", c|right; exists (String c t), d; by rewrite sapp_cons].
Qed.
Lemma all_of_last cs t c : all_of cs (t +:+ String c "") → mem_byte c cs = true.
Proof. intros H. by apply mem_spec, (H c t ""). Qed.
Lemma firm_pad s1 w s2 : all_of spaces s1 → all_of spaces s2 → firm quotes w → firm quotes (s1 +:+ w +:+ s2).
Proof.
  intros H1 H2 [(c & t & E & Hc) (t' & c' & E' & Hc')]. split.
  - destruct s1 as [|d s1].
    + exists c, (t +:+ s2). rewrite E. by rewrite <- sapp_cons.
    + apply all_of_cons in H1 as [H1 _]. exists d, (s1 +:+ w +:+ s2). rewrite sapp_cons. by split; [|apply spaces_not_quotes].
  - destruct (snoc_dec s2) as [->|(u & d & ->)].
    + exists (s1 +:+ t'), c'. rewrite sapp_nil, E'. by rewrite sapp_assoc.
    + apply all_of_last in H2. exists (s1 +:+ w +:+ u), d. rewrite !sapp_assoc. by split; [|apply spaces_not_quotes].
Qed.

(** ** Upper-casing and the verbs *)
Lemma http_verb_methods v : http_verb v ↔ v ∈ http_methods.
Proof.
  split; intros H; unfold http_verb, http_methods in *;
    repeat (apply elem_of_cons in H as [->|H]; [apply (bool_decide_unpack _); vm_compute; done|]); by apply elem_of_nil in H.
Qed.
Lemma to_upper_app s t : to_upper (s +:+ t) = to_upper s +:+ to_upper t.
Proof. induction s as [|c s IH]; [done|]. rewrite sapp_cons. cbn [to_upper]. by rewrite IH, sapp_cons. Qed.
Lemma upper_char_quote c : in_range "A" "Z" (upper_char c) = true → mem_byte c quotes = false ∧ mem_byte c spaces = false.
Proof. destruct c as [b0 b1 b2 b3 b4 b5 b6 b7]. destruct b0, b1, b2, b3, b4, b5, b6, b7; vm_compute; done. Qed.
Lemma verb_ends v : http_verb v → (∃ c t, v = String c t ∧ in_range "A" "Z" c = true) ∧ ∃ t c, v = t +:+ String c "" ∧ in_range "A" "Z" c = true.
Proof.
  assert (∀ v, http_verb v → ∃ c t d, v = String c (t +:+ String d "") ∧ in_range "A" "Z" c = true ∧ in_range "A" "Z" d = true) as H.
  { intros w H. unfold http_verb in H.
    apply elem_of_cons in H as [->|H]; [by exists "G"%char, "E", "T"%char|].
    apply elem_of_cons in H as [->|H]; [by exists "H"%char, "EA", "D"%char|].
    apply elem_of_cons in H as [->|H]; [by exists "P"%char, "OS", "T"%char|].
    apply elem_of_cons in H as [->|H]; [by exists "P"%char, "U", "T"%char|].
    apply elem_of_cons in H as [->|H]; [by exists "P"%char, "ATC", "H"%char|].
    apply elem_of_cons in H as [->|H]; [by exists "D"%char, "ELET", "E"%char|].
    apply elem_of_cons in H as [->|H]; [by exists "C"%char, "ONNEC", "T"%char|].
    apply elem_of_cons in H as [->|H]; [by exists "O"%char, "PTION", "S"%char|].
    apply elem_of_cons in H as [->|H]; [by exists "T"%char, "RAC", "E"%char|]. by apply elem_of_nil in H. }
  intros Hv. destruct (H v Hv) as (c & t & d & -> & Hc & Hd). split; [by eauto|]. exists (String c t), d. by rewrite sapp_cons.
Qed.
Lemma upper_snoc w t c : to_upper w = t +:+ String c "" → ∃ t' c', w = t' +:+ String c' "" ∧ upper_char c' = c.
Proof.
  intros H. destruct (snoc_dec w) as [->|(u & d & ->)]; [by destruct t|]. exists u, d. split; [done|].
  rewrite to_upper_app in H. cbn [to_upper] in H. revert t H. generalize (to_upper u) as x. intros x. induction x as [|a x IH]; intros [|b t] H.
  - by injection H.
  - rewrite sapp_cons in H. injection H as _ H. by destruct t.
  - rewrite sapp_cons in H. injection H as _ H. by destruct x.
  - rewrite !sapp_cons in H. injection H as _ H. by apply (IH t).
Qed.
Lemma verb_firm w : http_verb (to_upper w) → firm quotes w ∧ firm spaces w.
Proof.
  intros H. destruct (verb_ends _ H) as [(c & t & E & Hc) (t' & c' & E' & Hc')].
  destruct w as [|d w]; [done|]. cbn [to_upper] in E. injection E as Ed _. subst c.
  destruct (upper_snoc _ _ _ E') as (u & e & Eu & Ee). subst c'.
  apply upper_char_quote in Hc as [Hc1 Hc2]. apply upper_char_quote in Hc' as [Hd1 Hd2].
  split; (split; [by eauto|by exists u, e]).
Qed.
Lemma verb_of_reads part v : http_verb v → verb_of part = v ↔ reads part v.
Proof.
  intros Hv. split.
  - intros <-. split; [done|]. destruct (trim_any_dec quotes part) as (q1 & q2 & E & H1 & H2).
    destruct (trim_any_dec spaces (trim_any quotes part)) as (s1 & s2 & E' & H3 & H4).
    exists q1, s1, (trim_any spaces (trim_any quotes part)), s2, q2. split_and!; try done. rewrite E at 1. rewrite E' at 1. by rewrite !sapp_assoc.
  - intros (_ & q1 & s1 & w & s2 & q2 & -> & H1 & H2 & H3 & H4 & Hw). unfold verb_of.
    destruct (verb_firm w) as [Hq Hs]; [by rewrite Hw|].
    replace (q1 +:+ s1 +:+ w +:+ s2 +:+ q2) with (q1 +:+ (s1 +:+ w +:+ s2) +:+ q2) by by rewrite !sapp_assoc.
    rewrite trim_any_firm; [|done|done|by apply firm_pad]. by rewrite trim_any_firm.
Qed.
Lemma upper_idem s : to_upper (to_upper s) = to_upper s.
Proof.
  induction s as [|c s IH]; [done|]. cbn [to_upper]. rewrite IH. f_equal.
  destruct c as [b0 b1 b2 b3 b4 b5 b6 b7]. destruct b0, b1, b2, b3, b4, b5, b6, b7; vm_compute; done.
Qed.
Lemma valid_verb part : (bool_decide (verb_of part = "") || negb (valid_method (verb_of part))) = false ↔ http_verb (verb_of part).
Proof.
  unfold valid_method. assert (to_upper (verb_of part) = verb_of part) as -> by apply upper_idem.
  rewrite orb_false_iff, negb_false_iff, bool_decide_eq_true, bool_decide_eq_false. unfold http_verb. set_unfold. split.
  - intros [_ H]. tauto.
  - intros H. split; [|tauto]. intros E. rewrite E in H. naive_solver.
Qed.

(** ** The comma list *)
Lemma mentions_step named vs v : first_mentions named vs → first_mentions (named ++ [v]) (if decide (v ∈ vs) then vs else vs ++ [v]).
Proof.
  intros (H1 & H2 & H3). destruct (decide (v ∈ vs)) as [Hv|Hv].
  - split; [done|split].
    + intros w. rewrite elem_of_app, elem_of_list_singleton, H2. rewrite H2 in Hv. by split; [left|intros [?| ->]].
    + intros i j a b Hij Ha Hb. destruct (H3 i j a b Hij Ha Hb) as (m & Hm & Hn). exists m. split; [by apply lookup_app_l_Some|].
      intros n [Hn'|[Hn' _]]%lookup_app_Some; [by apply Hn|]. apply lookup_lt_Some in Hm. lia.
  - split; [apply NoDup_app; split_and!; [done| |apply NoDup_singleton]|split].
    + by intros w Hw ->%elem_of_list_singleton.
    + intros w. by rewrite !elem_of_app, H2.
    + intros i j a b Hij Ha Hb. apply lookup_app_Some in Hb as [Hb|[Hl Hb]].
      * rewrite lookup_app_l in Ha by (apply lookup_lt_Some in Hb; lia).
        destruct (H3 i j a b Hij Ha Hb) as (m & Hm & Hn). exists m. split; [by apply lookup_app_l_Some|].
        intros n [Hn'|[Hn' _]]%lookup_app_Some; [by apply Hn|]. apply lookup_lt_Some in Hm. lia.
      * apply list_lookup_singleton_Some in Hb as [Hj <-].
        rewrite lookup_app_l in Ha by lia. apply elem_of_list_lookup_2 in Ha. rewrite H2 in Ha.
        apply elem_of_list_lookup_1 in Ha as [m Hm]. exists m. split; [by apply lookup_app_l_Some|].
        intros n [Hn|[Hn _]]%lookup_app_Some.
        -- destruct Hv. apply H2. by apply elem_of_list_lookup_2 in Hn.
        -- apply lookup_lt_Some in Hm. lia.
Qed.
Lemma verbs_loop_ok parts : ∀ named acc vs, first_mentions named acc → verbs_loop parts acc = Some vs →
  ∃ rest, Forall2 reads parts rest ∧ first_mentions (named ++ rest) vs.
Proof.
  induction parts as [|p parts IH]; intros named acc vs Hm H.
  - injection H as <-. exists []. rewrite app_nil_r. by split.
  - cbn [verbs_loop] in H. destruct (_ || _) eqn:E; [done|]. apply valid_verb in E.
    destruct (IH (named ++ [verb_of p]) _ _ (mentions_step _ _ _ Hm) H) as (rest & Hr & Hv).
    exists (verb_of p :: rest). rewrite <- app_assoc in Hv. split; [|done]. constructor; [|done]. by apply verb_of_reads.
Qed.
Lemma verbs_loop_none parts acc : verbs_loop parts acc = None ↔ ∃ p, p ∈ parts ∧ ∀ v, ¬ reads p v.
Proof.
  revert acc. induction parts as [|p parts IH]; intros acc; cbn [verbs_loop].
  - split; [done|]. intros (p & H & _). by apply elem_of_nil in H.
  - destruct (_ || _) eqn:E.
    + split; [|done]. intros _. exists p. split; [left|]. intros v Hv. assert (http_verb v) as Hh by apply Hv.
      apply verb_of_reads in Hv; [|done]. rewrite <- Hv in Hh. apply valid_verb in Hh. congruence.
    + apply valid_verb in E. rewrite IH. split.
      * intros (q & Hq & H). exists q. by split; [right|].
      * intros (q & [->|Hq]%elem_of_cons & H); [|by exists q]. destruct (H (verb_of p)). by apply verb_of_reads.
Qed.
Lemma first_mentions_nil : first_mentions [] [].
Proof. split; [constructor|split; [done|]]. intros i j a b _ H. done. Qed.

(** ** splitMethodFromPath *)
Lemma take_until_split c s : contains_byte c s = true →
  s = take_until (λ d, bool_decide (d = c)) s +:+ String c (str_drop (S (String.length (take_until (λ d, bool_decide (d = c)) s))) s).
Proof.
  induction s as [|d s IH]; [done|]. unfold contains_byte. cbn [str_any take_until]. intros H.
  destruct (bool_decide (d = c)) eqn:E.
  - apply bool_decide_eq_true in E as ->. by destruct s.
  - cbn [orb] in H. rewrite sapp_cons. cbn [String.length str_drop]. f_equal. apply IH. exact H.
Qed.

Lemma split_method_sound raw m p : split_method raw = (m, p) → m ≠ "" →
  http_verb m ∧ ∃ q1 s1 w s2 gap tail q2, raw = q1 +:+ s1 +:+ w +:+ s2 +:+ " " +:+ gap +:+ p +:+ tail +:+ q2 ∧
    all_of quotes q1 ∧ all_of spaces s1 ∧ to_upper w = m ∧ all_of spaces s2 ∧ all_of spaces gap ∧ all_of spaces tail ∧ all_of quotes q2.
Proof.
  unfold split_method. intros H Hm. destruct (negb (contains_byte " " (trim_any quotes raw))) eqn:Ec; [injection H as <- _; done|].
  apply negb_false_iff in Ec. cbn [orb] in H. destruct (bool_decide _) eqn:Eb in H; [injection H as <- _; done|].
  destruct (decide _) as [Hh|_] in H; [|injection H as <- _; done]. pose proof (f_equal fst H) as Em. pose proof (f_equal snd H) as Ep. cbn [fst snd] in Em, Ep. clear H. rewrite Em in Hh. split; [by apply http_verb_methods|].
  destruct (trim_any_dec quotes raw) as (q1 & q2 & E & H1 & H2). pose proof (take_until_split _ _ Ec) as Es.
  remember (take_until (λ c, bool_decide (c = " "%char)) (trim_any quotes raw)) as before.
  remember (str_drop (S (String.length before)) (trim_any quotes raw)) as after.
  destruct (trim_any_dec spaces before) as (s1 & s2 & E1 & H3 & H4). destruct (trim_any_dec spaces after) as (gap & tail & E2 & H5 & H6).
  exists q1, s1, (trim_any spaces before), s2, gap, tail, q2. split_and!; try done.
  rewrite Ep in E2. rewrite E at 1. rewrite Es, E2. rewrite E1 at 1. rewrite !sapp_assoc, sapp_cons, !sapp_assoc. done.
Qed.
Lemma split_method_none raw p : split_method raw = ("", p) → ∃ q1 q2, raw = q1 +:+ p +:+ q2 ∧ all_of quotes q1 ∧ all_of quotes q2.
Proof.
  unfold split_method. intros H. destruct (trim_any_dec quotes raw) as (q1 & q2 & E & H1 & H2). exists q1, q2.
  destruct (_ || _) in H; [injection H as <-; done|].
  destruct (decide _) as [Hh|_] in H; [|injection H as <-; done]. injection H as Em _. rewrite Em in Hh. exfalso. revert Hh. apply (bool_decide_unpack _). vm_compute. done.
Qed.

(** ** Words *)
Section words.
Context {R : Type} (is_letter is_upper is_lower : R → bool) (name : list R).
Notation at_ := (at_ name).
Notation cut := (cut is_upper is_lower name).
Notation word_at := (word_at is_letter is_upper is_lower name).
Notation slice := (slice name).
Notation split_loop := (split_loop is_letter is_upper is_lower).

Definition starts (i : nat) : Prop := i = 0 ∨ ¬ at_ is_letter (i - 1) ∨ cut i.
Definition ends (j : nat) : Prop := ¬ at_ is_letter j ∨ cut j.
Definition open (i k : nat) : Prop :=
  i ≤ k ∧ starts i ∧ (∀ m, i ≤ m < k → at_ is_letter m) ∧ (∀ m, i < m < k → ¬ cut m).
Lemma at_dec f k : at_ f k ∨ ¬ at_ f k.
Proof.
  unfold VerbSpec.at_. destruct (name !! k) as [r|]; [|right; by intros (r & [=] & _)].
  destruct (f r) eqn:E; [left; by exists r|right; intros (r' & [= <-] & H); congruence].
Qed.
Lemma close i k a b : open i k → ends k → i ≤ a → word_at a b → (a = i ∧ b = k) ∨ k ≤ a.
Proof.
  intros (Hik & Hs & Hl & Hc) He Hia (Hab & Wl & Wc & Ws & We).
  destruct (decide (k ≤ a)) as [|Hka]; [by right|left].
  assert (a = i) as ->.
  { destruct (decide (a = i)) as [|Hne]; [done|]. destruct Ws as [->|[W|W]].
    - lia.
    - destruct W. apply Hl. lia.
    - destruct (Hc a); [lia|done]. }
  split; [done|]. destruct (decide (b < k)) as [Hlt|Hge].
  - destruct We as [W|W]; [destruct W; apply Hl; lia|destruct (Hc b); [lia|done]].
  - destruct (decide (b = k)) as [|Hne]; [done|]. destruct He as [W|W].
    + destruct W. apply Wl. lia.
    + destruct (Wc k); [lia|done].
Qed.
Lemma close_word i k : open i k → ends k → i < k → word_at i k.
Proof. intros (Hik & Hs & Hl & Hc) He Hlt. split_and!; done. Qed.
Lemma slice_snoc i k r : i ≤ k → name !! k = Some r → slice i k ++ [r] = slice i (S k).
Proof.
  intros Hik Hr. unfold VerbSpec.slice. replace (S k - i) with (S (k - i)) by lia.
  rewrite (take_S_r _ _ r); [done|]. rewrite lookup_drop. by replace (i + (k - i)) with k by lia.
Qed.
Lemma slice_nil i : slice i i = [].
Proof. unfold VerbSpec.slice. by rewrite Nat.sub_diag. Qed.
Lemma slice_length i k : i ≤ k ≤ length name → length (slice i k) = k - i.
Proof. intros H. unfold VerbSpec.slice. rewrite take_length, drop_length. lia. Qed.
Lemma slice_last i k : i < k ≤ length name → last (slice i k) = name !! (k - 1).
Proof.
  intros H. rewrite last_lookup, slice_length by lia. unfold VerbSpec.slice. rewrite lookup_take by lia. rewrite lookup_drop. f_equal. lia.
Qed.
Definition spans_from (i : nat) (spans : list (nat * nat)) : Prop :=
  StronglySorted (λ x y, x.1 < y.1) spans ∧ ∀ a b, (a, b) ∈ spans ↔ i ≤ a ∧ word_at a b.
Lemma spans_close i k j spans : open i k → ends k → spans_from j spans → k ≤ j → (∀ a, k ≤ a < j → ¬ at_ is_letter a) →
  spans_from i (if decide (i = k) then spans else (i, k) :: spans).
Proof.
  intros Ho He [Hs Hw] Hkj Hgap. assert (∀ a b, word_at a b → k ≤ a → j ≤ a) as Hj.
  { intros a b W Hk. destruct (decide (j ≤ a)) as [|Hn]; [done|]. destruct (Hgap a); [lia|]. destruct W as (? & W & _). apply W. lia. }
  destruct (decide (i = k)) as [->|Hne].
  - split; [done|]. intros a b. rewrite Hw. split; intros [H W]; (split; [|done]); [lia|]. by apply (Hj a b).
  - assert (i < k) as Hlt by (destruct Ho; lia). split.
    + constructor; [done|]. apply Forall_forall. intros [a b] [Ha _]%Hw. simpl. lia.
    + intros a b. rewrite elem_of_cons, Hw. split.
      * intros [[= -> ->]|[Ha W]]; [split; [lia|by apply close_word]|split; [lia|done]].
      * intros [Ha W]. destruct (close _ _ _ _ Ho He Ha W) as [[-> ->]|Hk]; [by left|right]. split; [by apply (Hj a b)|done].
Qed.
Lemma split_spans rest : ∀ i k, open i k → k ≤ length name → drop k name = rest →
  ∃ spans, split_loop (slice i k) rest = (λ s, slice s.1 s.2) <$> spans ∧ spans_from i spans.
Proof.
  induction rest as [|r rest IH]; intros i k Ho Hk Hd.
  - assert (k = length name) as ->. { apply (f_equal length) in Hd. rewrite drop_length in Hd. simpl in Hd. lia. }
    assert (ends (length name)) as He. { left. intros (r & Hr & _). apply lookup_lt_Some in Hr. lia. }
    assert (spans_from (length name) []) as Hn.
    { split; [constructor|]. intros a b. split; [intros H; by apply elem_of_nil in H|]. intros [Ha (W1 & W2 & _)].
      destruct (W2 a) as (r & Hr & _); [lia|]. apply lookup_lt_Some in Hr. lia. }
    pose proof (spans_close i (length name) _ _ Ho He Hn (le_n _)) as H. eexists. split; [|apply H; intros; lia].
    cbn [VerbModel.split_loop]. destruct Ho as [Hik _]. rewrite slice_length by lia. destruct (decide (i = length name)) as [->|Hne].
    + by rewrite decide_True by lia.
    + rewrite decide_False by lia. done.
  - assert (name !! k = Some r ∧ drop (S k) name = rest) as [Hr Hd'].
    { split; [|by rewrite <- (drop_drop name k 1) || (rewrite <- Nat.add_1_r, <- drop_drop, Hd)].
      replace k with (k + 0) by lia. by rewrite <- lookup_drop, Hd. }
    pose proof (lookup_lt_Some _ _ _ Hr) as Hlt. pose proof Ho as (Hik & Hs & Hl & Hc). cbn [VerbModel.split_loop].
    destruct (is_letter r) eqn:El; cbn [negb].
    2:{ assert (¬ at_ is_letter k) as Hn by (intros (r' & Hr' & Hl'); congruence).
        destruct (IH (S k) (S k)) as (spans & E & Hsp); [|lia|done|].
        { split; [done|split; [|split; intros; lia]]. right; left. by rewrite Nat.sub_succ, Nat.sub_0_r. }
        rewrite slice_nil in E. rewrite E. exists (if decide (i = k) then spans else (i, k) :: spans). split.
        - rewrite slice_length by lia. destruct (decide (i = k)) as [->|Hne]; [by rewrite decide_True by lia|by rewrite decide_False by lia].
        - apply (spans_close i k (S k)); [done|by left|done|lia|]. intros a Ha. by replace a with k by lia. }
    assert (at_ is_letter k) as Hat by by exists r.
    set (bd := match last (slice i k) with Some prev => _ | None => false end).
    assert (bd = true ↔ i < k ∧ cut k) as Hbd.
    { unfold bd, VerbSpec.cut, VerbSpec.at_. destruct (decide (i = k)) as [->|Hne].
      - rewrite slice_nil. simpl. split; [done|lia].
      - rewrite slice_last by lia. assert (k - 1 < length name) as [prev Hp]%lookup_lt_is_Some by lia. rewrite Hp, Hr.
        assert (name !! (k + 1) = head rest) as ->.
        { rewrite Nat.add_1_r, <- Hd'. rewrite <- (Nat.add_0_r (S k)), <- lookup_drop. rewrite Nat.add_0_r. by destruct (drop (S k) name). }
        rewrite andb_true_iff, orb_true_iff, andb_true_iff. split.
        + intros [H1 H2]. split; [lia|]. split; [lia|]. split; [by eauto|]. destruct H2 as [H2|[H2 H3]]; [left; by eauto|right]. split; [by eauto|].
          destruct rest as [|n rest]; [done|]. by exists n.
        + intros (_ & _ & (r1 & [= <-] & H1) & H2). split; [done|]. destruct H2 as [(p & [= <-] & H2)|[(p & [= <-] & H2) (n & Hn & H3)]]; [by left|right].
          split; [done|]. destruct rest as [|n' rest]; [done|]. by injection Hn as ->. }
    destruct bd.
    + destruct Hbd as [[Hik' Hcut] _]; [done|].
      destruct (IH k (S k)) as (spans & E & Hsp); [|lia|done|].
      { split; [lia|]. split; [by right; right|]. split; [|intros; lia]. intros m Hm. by replace m with k by lia. }
      rewrite <- (slice_snoc k k r), slice_nil in E by done. simpl in E. rewrite E. exists ((i, k) :: spans). split; [done|].
      pose proof (spans_close i k k spans Ho (or_intror Hcut) Hsp (le_n _)) as H. rewrite decide_False in H by lia. apply H. intros; lia.
    + assert (¬ (i < k ∧ cut k)) as Hno by (intros H; destruct Hbd as [_ Hbd]; specialize (Hbd H); discriminate).
      destruct (IH i (S k)) as (spans & E & Hsp); [|lia|done|].
      { split; [lia|]. split; [done|]. split.
        - intros m Hm. destruct (decide (m = k)) as [->|]; [done|]. apply Hl. lia.
        - intros m Hm Hcm. destruct (decide (m = k)) as [->|]; [apply Hno; split; [lia|done]|]. apply (Hc m); [lia|done]. }
      rewrite (slice_snoc i k r) by done. rewrite E. by exists spans.
Qed.
Lemma split_words : ∃ spans, split_name_words is_letter is_upper is_lower name = (λ s, slice s.1 s.2) <$> spans ∧
  StronglySorted (λ x y, x.1 < y.1) spans ∧ ∀ i j, (i, j) ∈ spans ↔ word_at i j.
Proof.
  destruct (split_spans name 0 0) as (spans & E & Hs & Hw); [|lia|done|].
  { split; [lia|]. split; [by left|]. split; intros; lia. }
  rewrite slice_nil in E. exists spans. split; [done|]. split; [done|]. intros i j. rewrite Hw. split; [by intros [_ ?]|split; [lia|done]].
Qed.
Lemma words_spec w : w ∈ split_name_words is_letter is_upper is_lower name ↔ word is_letter is_upper is_lower name w.
Proof.
  destruct split_words as (spans & -> & _ & Hw). rewrite elem_of_list_fmap. split.
  - intros ([i j] & -> & H%Hw). by exists i, j.
  - intros (i & j & H%Hw & ->). by exists (i, j).
Qed.
Lemma first_spec w : head (split_name_words is_letter is_upper is_lower name) = Some w ↔ first_word is_letter is_upper is_lower name w.
Proof.
  destruct split_words as (spans & -> & Hs & Hw). destruct spans as [|[i j] spans]; simpl.
  - split; [done|]. intros (i & j & H%Hw & _). by apply elem_of_nil in H.
  - apply StronglySorted_inv in Hs as [_ Hf]. rewrite Forall_forall in Hf. split.
    + intros [= <-]. exists i, j. split; [apply Hw; left|]. split; [done|]. intros a b [[= -> ->]|H]%Hw%elem_of_cons; [done|]. apply Hf in H. simpl in H. lia.
    + intros (a & b & W & -> & Hmin). f_equal. pose proof W as W'. apply Hw, elem_of_cons in W' as [[= -> ->]|H]; [done|]. apply Hf in H. simpl in H.
      specialize (Hmin i j). rewrite <- Hw in Hmin. specialize (Hmin ltac:(left)). lia.
Qed.
End words.

Lemma split_letters {R} (is_letter is_upper is_lower : R → bool) rest : ∀ cur,
  concat (split_loop is_letter is_upper is_lower cur rest) = cur ++ filter (λ r, is_letter r = true) rest.
Proof.
  induction rest as [|r rest IH]; intros cur; cbn [split_loop].
  - rewrite filter_nil. destruct cur; reflexivity.
  - rewrite filter_cons. destruct (is_letter r) eqn:E; cbn [negb].
    + rewrite decide_True by done. destruct (match last cur with Some _ => _ | None => false end).
      * cbn [concat]. by rewrite IH.
      * by rewrite IH, <- app_assoc.
    + rewrite concat_app, IH. rewrite (decide_False (P := false = true)) by done. destruct cur; [done|]. cbn [length]. rewrite decide_False by done. cbn [concat]. by rewrite app_nil_r.
Qed.

(** ** Bubble sort *)
Section bubble.
Context {R : Type}.
Implicit Types l a s : list (mapping R).
Definition ge (x y : mapping R) : Prop := (mm_priority y ≤ mm_priority x)%Z.
Definition same_keys l l' : Prop := ∀ k, filter (λ m, mm_priority m = k) l = filter (λ m, mm_priority m = k) l'.
Lemma pass_spec k : ∀ a s, length a = S k → ∃ a' x, bubble_pass k (a ++ s) = a' ++ x :: s ∧ length a' = k ∧
  a' ++ [x] ≡ₚ a ∧ (∀ y, y ∈ a' → ge y x) ∧ same_keys (a' ++ [x]) a.
Proof.
  induction k as [|k IH]; intros a s Hl.
  - destruct a as [|x [|? ?]]; try done. exists [], x. split_and!; try done. intros y Hy. by apply elem_of_nil in Hy.
  - destruct a as [|x [|y a]]; try done. cbn [app bubble_pass].
    destruct (decide (mm_priority x < mm_priority y)%Z) as [Hxy|Hxy].
    + destruct (IH (x :: a) s) as (a' & z & E & Hl' & Hp & Hg & Hk); [simpl in *; lia|]. cbn [app] in E. rewrite E.
      exists (y :: a'), z. split_and!; [done|simpl; lia| | |].
      * simpl. rewrite Hp. apply Permutation_swap.
      * intros w [->|Hw]%elem_of_cons; [|by apply Hg]. unfold ge. assert (x ∈ a' ++ [z]) as Hx by (rewrite Hp; left).
        apply elem_of_app in Hx as [Hx| ->%elem_of_list_singleton]; [apply Hg in Hx; unfold ge in Hx; lia|lia].
      * intros p. specialize (Hk p). cbn [app]. rewrite !filter_cons. rewrite !filter_cons in Hk.
        destruct (decide (mm_priority y = p)); destruct (decide (mm_priority x = p)); try lia; by rewrite Hk.
    + destruct (IH (y :: a) s) as (a' & z & E & Hl' & Hp & Hg & Hk); [simpl in *; lia|]. cbn [app] in E. rewrite E.
      exists (x :: a'), z. split_and!; [done|simpl; lia|simpl; by rewrite Hp| |].
      * intros w [->|Hw]%elem_of_cons; [|by apply Hg]. unfold ge. assert (y ∈ a' ++ [z]) as Hx by (rewrite Hp; left).
        apply elem_of_app in Hx as [Hx| ->%elem_of_list_singleton]; [apply Hg in Hx; unfold ge in Hx; lia|lia].
      * intros p. specialize (Hk p). cbn [app]. rewrite !filter_cons. rewrite !filter_cons in Hk.
        destruct (decide (mm_priority x = p)); by rewrite Hk.
Qed.
Lemma bubble_spec k : ∀ a s, length a = S k → StronglySorted ge s → (∀ x y, x ∈ a → y ∈ s → ge x y) →
  StronglySorted ge (bubble k (a ++ s)) ∧ same_keys (bubble k (a ++ s)) (a ++ s).
Proof.
  induction k as [|k IH]; intros a s Hl Hs Hg.
  - destruct a as [|x [|? ?]]; try done. cbn. split; [|done]. constructor; [done|]. apply Forall_forall. intros y Hy. apply Hg; [left|done].
  - cbn [bubble]. destruct (pass_spec (S k) a s Hl) as (a' & x & E & Hl' & Hp & Hg' & Hk). rewrite E.
    destruct (IH a' (x :: s)) as [H1 H2]; [done| | |].
    + constructor; [done|]. apply Forall_forall. intros y Hy. apply Hg; [|done]. rewrite <- Hp. apply elem_of_app. right. left.
    + intros y z Hy [->|Hz]%elem_of_cons; [by apply Hg'|]. apply Hg; [|done]. rewrite <- Hp. apply elem_of_app. by left.
    + split; [done|]. intros p. rewrite H2. specialize (Hk p). rewrite filter_app in Hk. rewrite !filter_app, <- Hk.
      rewrite <- app_assoc. f_equal. by rewrite <- (filter_app _ [x]).
Qed.
Lemma bubble_sorted l : StronglySorted ge (bubble_sort l) ∧ same_keys (bubble_sort l) l.
Proof.
  unfold bubble_sort. destruct l as [|x l]; [by split; [constructor|]|].
  destruct (bubble_spec (length l) (x :: l) []) as [H1 H2]; [done|constructor| |].
  - intros y z _ Hz. by apply elem_of_nil in Hz.
  - rewrite app_nil_r in H1, H2. simpl. rewrite Nat.sub_0_r. done.
Qed.
Lemma same_keys_elem l l' x : same_keys l l' → x ∈ l ↔ x ∈ l'.
Proof.
  intros H. specialize (H (mm_priority x)). split; intros Hx.
  - assert (x ∈ filter (λ m, mm_priority m = mm_priority x) l) as Hf by (by apply elem_of_list_filter). rewrite H in Hf. by apply elem_of_list_filter in Hf as [_ ?].
  - assert (x ∈ filter (λ m, mm_priority m = mm_priority x) l') as Hf by (by apply elem_of_list_filter). rewrite <- H in Hf. by apply elem_of_list_filter in Hf as [_ ?].
Qed.
Lemma head_filter_index (P : mapping R → Prop) `{∀ x, Decision (P x)} l m : head (filter P l) = Some m →
  ∃ i, l !! i = Some m ∧ P m ∧ ∀ j y, l !! j = Some y → P y → i ≤ j.
Proof.
  induction l as [|x l IH]; [done|]. rewrite filter_cons. destruct (decide (P x)) as [Hx|Hx].
  - intros [= <-]. exists 0. split; [done|]. split; [done|]. intros; lia.
  - intros Hh. destruct (IH Hh) as (i & Hi & Hm & Hmin). exists (S i). split; [done|]. split; [done|].
    intros [|j] y Hy HP; [by injection Hy as ->|]. specialize (Hmin j y Hy HP). lia.
Qed.
Lemma first_mapping_none hit l : first_mapping hit l = None ↔ ∀ m, m ∈ l → existsb hit (mm_patterns m) = false.
Proof.
  unfold first_mapping. rewrite head_None. split.
  - intros H m Hm. apply not_true_is_false. intros E. assert (m ∈ filter (λ m, existsb hit (mm_patterns m) = true) l) as Hf by by apply elem_of_list_filter.
    rewrite H in Hf. by apply elem_of_nil in Hf.
  - intros H. destruct (filter _ l) as [|x l'] eqn:E; [done|]. assert (x ∈ filter (λ m, existsb hit (mm_patterns m) = true) l) as Hf by (rewrite E; left).
    apply elem_of_list_filter in Hf as [H1 H2]. apply H in H2. congruence.
Qed.
Lemma first_mapping_best hit l m : first_mapping hit (bubble_sort l) = Some m → best (λ m, existsb hit (mm_patterns m) = true) l m.
Proof.
  unfold first_mapping. intros H. destruct (bubble_sorted l) as [Hs Hk].
  destruct (head_filter_index _ _ _ H) as (i0 & Hi0 & Hm & Hmin).
  assert (∀ m', m' ∈ l → existsb hit (mm_patterns m') = true → (mm_priority m' ≤ mm_priority m)%Z) as Hmax.
  { intros m' Hm' Hh. rewrite <- (same_keys_elem _ _ _ Hk) in Hm'. apply elem_of_list_lookup_1 in Hm' as [j Hj].
    pose proof (Hmin j m' Hj Hh) as Hij. destruct (decide (i0 = j)) as [->|Hne]; [rewrite Hi0 in Hj; injection Hj as ->; lia|].
    clear -Hs Hi0 Hj Hij Hne. revert i0 j Hi0 Hj Hij Hne. induction Hs as [|x s Hs IH Hf]; [done|]. intros [|i] [|j] Hi Hj Hij Hne; try lia.
    - injection Hi as ->. rewrite Forall_forall in Hf. apply Hf. by apply (elem_of_list_lookup_2 s j).
    - apply (IH i j); [done|done|lia|lia]. }
  assert (head (filter (λ m, existsb hit (mm_patterns m) = true) (filter (λ x, mm_priority x = mm_priority m) l)) = Some m) as Hh.
  { rewrite <- Hk. rewrite list_filter_filter. rewrite (list_filter_iff _ (λ x, mm_priority x = mm_priority m ∧ existsb hit (mm_patterns x) = true)) by (intros; tauto).
    rewrite <- list_filter_filter. destruct (filter _ (bubble_sort l)) as [|x t]; [done|]. injection H as ->. rewrite filter_cons. by rewrite decide_True. }
  rewrite list_filter_filter in Hh. destruct (head_filter_index _ _ _ Hh) as (i & Hi & [Hm1 Hm2] & Hmin').
  exists i. split; [done|]. split; [done|]. intros i' m' Hi' Hh'.
  assert (mm_priority m' ≤ mm_priority m)%Z as Hle by (apply Hmax; [by apply (elem_of_list_lookup_2 _ i')|done]).
  destruct (decide (mm_priority m' = mm_priority m)) as [Heq|Hne]; [right|left; lia]. split; [done|]. by apply (Hmin' i' m').
Qed.
Lemma best_unique (P Q : mapping R → Prop) l m m' : (∀ x, P x ↔ Q x) → best P l m → best Q l m' → m = m'.
Proof.
  intros HPQ (i & Hi & Hm & H) (j & Hj & Hm' & H'). apply HPQ in Hm' as Hm''. apply HPQ in Hm as Hm3.
  destruct (H j m' Hj Hm'') as [?|[? ?]], (H' i m Hi Hm3) as [?|[? ?]]; try lia.
  assert (i = j) as -> by lia. congruence.
Qed.
End bubble.
