(** * C12, C13: gitignore-style patterns and filters. *)
From Coq Require Import Ascii.
From stdpp Require Import base list strings.
From Verif Require Import StrLib StrSplit PairProofs GlobModel GlobSpec GlobProofs.

(** ** Bridges *)
Lemma has_char_spec c s : has_char c s ↔ contains_byte c s = true.
Proof.
  split.
  - intros (a & b & ->). rewrite contains_app, contains_cons, bool_decide_eq_true_2 by done. by rewrite orb_true_r.
  - induction s as [|x s IH]; [done|]. rewrite contains_cons. intros [->%bool_decide_eq_true|H]%orb_true_iff.
    + by exists "", s.
    + destruct (IH H) as (a & b & ->). by exists (String x a), b.
Qed.
Lemma not_has_char c s : ¬ has_char c s → contains_byte c s = false.
Proof. rewrite has_char_spec. by destruct (contains_byte c s). Qed.
Lemma not_starts c s : ¬ starts_with c s → has_prefix (String c "") s = false.
Proof.
  intros H. destruct (has_prefix (String c "") s) eqn:E; [|done]. exfalso. apply H.
  apply has_prefix_spec in E as [r ->]. by exists r.
Qed.
Lemma not_ends c s : ¬ ends_with c s → has_suffix (String c "") s = false.
Proof.
  intros H. destruct (has_suffix (String c "") s) eqn:E; [|done]. exfalso. apply H.
  apply has_suffix_spec in E as [r ->]. by exists r.
Qed.
Lemma trim_prefix_none p s : has_prefix p s = false → trim_prefix p s = s.
Proof. unfold trim_prefix. by intros ->. Qed.
Lemma str_join_app (l1 l2 : list string) : l1 ≠ [] → l2 ≠ [] →
  str_join "/" (l1 ++ l2) = str_join "/" l1 +:+ String c_slash (str_join "/" l2).
Proof.
  intros H1 H2. induction l1 as [|y l IH]; [done|]. destruct l as [|z l].
  - cbn [app]. destruct l2 as [|q l2]; [done|]. by rewrite str_join_cons2.
  - cbn [app]. rewrite !str_join_cons2. cbn [app] in IH. rewrite IH by done. by rewrite !sapp_assoc.
Qed.

Definition start_toks (p : string) : list tok := if contains_byte c_slash p then [] else [TAnyDir].
Lemma start_text p : has_prefix "/" p = false →
  (if negb (contains_byte c_slash (trim_prefix "/" p)) && negb (has_prefix "/" p) then "^(?:.*/)?" else "^") =
  "^" +:+ texts (start_toks p).
Proof.
  intros H. rewrite trim_prefix_none, H by done. unfold start_toks. by destruct (contains_byte c_slash p).
Qed.
Lemma start_wf p : Forall wf_tok (start_toks p).
Proof. unfold start_toks. destruct (contains_byte c_slash p); repeat constructor. Qed.

Lemma match_open other p path : plain p → ¬ ends_with "/" p → ¬ starts_with "/" path →
  glob_match other p path = true ↔ tm (ctoks None p (start_toks p)) path.
Proof.
  intros (Hne & Hcl & Hb & Hs) He Hp. unfold glob_match. rewrite (not_starts "!") by done. rewrite decide_False by done.
  unfold match_pos. rewrite !trim_prefix_none by (by apply not_starts). unfold go_match, pattern_to_regex.
  rewrite (not_ends "/") by done. rewrite start_text by (by apply not_starts).
  rewrite (emit_ctoks _ _ _ _ _ (le_n _)) by done. rewrite sapp_assoc, re_parse_texts.
  - apply toks_match_tm.
  - apply (ctoks_wf _ _ _ _ (le_n _)), start_wf.
Qed.
Lemma match_dir other p path : plain p → ¬ starts_with "/" path →
  glob_match other (p +:+ "/") path = true ↔ tm (ctoks None p (start_toks p) ++ [TOrSub]) path.
Proof.
  intros (Hne & Hcl & Hb & Hs) Hp. destruct p as [|c p']; [done|]. set (p := String c p') in *.
  assert (has_prefix "!" (p +:+ "/") = false) as H1.
  { apply not_starts. intros [r Hr]. apply Hb. exists p'. unfold p in *. cbn in Hr. by injection Hr as ->. }
  assert (has_prefix "/" (p +:+ "/") = false) as H2.
  { apply not_starts. intros [r Hr]. apply Hs. exists p'. unfold p in *. cbn in Hr. by injection Hr as ->. }
  unfold glob_match. rewrite H1. rewrite decide_False by done.
  unfold match_pos. rewrite !trim_prefix_none by (done || by apply not_starts). unfold go_match, pattern_to_regex.
  rewrite has_suffix_snoc. rewrite !(str_take_snoc p "/").
  rewrite start_text by (by apply not_starts).
  rewrite (emit_ctoks _ _ _ _ _ (le_n _)) by done. rewrite (sapp_assoc "^"). change "(?:|/.*)" with (tok_text TOrSub).
  rewrite <- texts_snoc, sapp_assoc, re_parse_texts.
  - apply toks_match_tm.
  - apply Forall_app. split; [|by repeat constructor]. apply (ctoks_wf _ _ _ _ (le_n _)), start_wf.
Qed.

Lemma ctoks_slash p : contains_byte c_slash p = true → whole_stars (segments p) → ¬ ends_in_two_stars (segments p) →
  ctoks None p (start_toks p) = gtoks (segments p).
Proof.
  intros Hs Hw He. unfold start_toks. rewrite Hs. unfold segments in *.
  rewrite <- (str_join_split c_slash p) at 1. apply (ctoks_segments (split_byte c_slash p)); try done.
  - apply split_byte_nonnil.
  - intros Heq. rewrite <- (str_join_split c_slash p), Heq in Hs. done.
  - apply Forall_forall. intros x. apply split_byte_parts.
Qed.
Lemma segments_not_single p : contains_byte c_slash p = true → segments p ≠ ["**"].
Proof. intros Hs Heq. unfold segments in Heq. rewrite <- (str_join_split "/" p), Heq in Hs. done. Qed.
Lemma segments_free p : Forall (λ s, contains_byte c_slash s = false) (segments p).
Proof. apply Forall_forall. intros x. apply split_byte_parts. Qed.

(** ** C12: patterns with a slash *)
Theorem C12_segment_by_segment other p path :
  plain p → ¬ ends_with "/" p → has_char "/" p → whole_stars (segments p) → ¬ ends_in_two_stars (segments p) →
  plain_path path →
  glob_match other p path = true ↔ seg_glob (segments p) (segments path).
Proof.
  intros Hpl He Hsl%has_char_spec Hw H2 [Hnl Hst]. rewrite match_open by done. rewrite ctoks_slash by done.
  apply gtoks_match; [apply split_byte_nonnil|by apply segments_not_single|apply segments_free|done|by apply not_has_char].
Qed.
Print Assumptions C12_segment_by_segment.

Example C12_segment_example other :
  plain "a/**/b?.go" ∧ ¬ ends_with "/" "a/**/b?.go" ∧ plain_path "a/x/y/bc.go" ∧
  glob_match other "a/**/b?.go" "a/x/y/bc.go" = true ∧ glob_match other "a/**/b?.go" "a/x/b/.go" = false.
Proof.
  split; [|split; [|split; [|split]]].
  - split; [done|]. split; [|by split; intros [r Hr]].
    intros a b Heq. exfalso. assert (contains_byte "[" "a/**/b?.go" = true) as H; [|done].
    apply has_char_spec. by exists a, b.
  - intros [r Hr]. assert (has_suffix "/" "a/**/b?.go" = true) as H; [|done]. apply has_suffix_spec. by exists r.
  - split; [|by intros [r Hr]]. intros H%has_char_spec. done.
  - vm_compute. reflexivity.
  - vm_compute. reflexivity.
Qed.

(** Without a double star, the path has as many segments as the pattern: neither
    a star nor a question mark crosses a slash. *)
Lemma seg_glob_length ps ss : "**" ∉ ps → seg_glob ps ss → length ps = length ss.
Proof.
  intros Hn H. induction H as [|p s ps ss Hp Hm Hg IH|ps ss H IH|s ps ss H IH]; [done| | |].
  - simpl. f_equal. apply IH. intros Hin. apply Hn. by right.
  - exfalso. apply Hn. left.
  - exfalso. apply Hn. left.
Qed.
Theorem C12_wildcards_stay_in_their_segment other p path :
  plain p → ¬ ends_with "/" p → has_char "/" p → ¬ double_star_inside p → plain_path path →
  glob_match other p path = true →
  length (segments path) = length (segments p) ∧
  ∀ i ps ss, segments p !! i = Some ps → segments path !! i = Some ss → seg_match ps ss.
Proof.
  intros Hpl He Hsl Hd Hpp.
  assert (∀ s, s ∈ segments p → ¬ double_star_inside s) as Hseg.
  { intros s Hs (a & b & ->). apply Hd. unfold segments in Hs. apply elem_of_list_split in Hs as (l1 & l2 & Heq).
    rewrite <- (str_join_split c_slash p), Heq. unfold double_star_inside.
    assert (∃ x y, str_join (String c_slash "") (l1 ++ (a +:+ "**" +:+ b) :: l2) = x +:+ (a +:+ "**" +:+ b) +:+ y) as (x & y & ->).
    { clear. induction l1 as [|z l1 IH].
      - cbn [app]. destruct l2 as [|q l2]; [exists "", ""; by rewrite sapp_nil|]. rewrite str_join_cons2. by eexists "", _.
      - destruct IH as (x & y & IH). cbn [app]. destruct (l1 ++ (a +:+ "**" +:+ b) :: l2) as [|q l] eqn:E.
        { destruct l1; discriminate. }
        rewrite str_join_cons2, IH. exists (z +:+ "/" +:+ x), y. by rewrite !sapp_assoc. }
    exists (x +:+ a), (b +:+ y). by rewrite !sapp_assoc. }
  assert ("**" ∉ segments p) as Hns.
  { intros Hin. apply (Hseg _ Hin). by exists "", "". }
  rewrite C12_segment_by_segment; try done.
  2:{ intros s Hs. right. by apply Hseg. }
  2:{ intros [pre Heq]. apply Hns. rewrite Heq. apply elem_of_app. right. left. }
  intros Hg. split; [symmetry; by apply seg_glob_length|].
  revert Hg Hns. generalize (segments path). generalize (segments p). clear.
  intros ps ss Hg. induction Hg as [|p s ps ss Hp Hm Hg IH|ps ss H IH|s ps ss H IH]; intros Hns.
  - done.
  - intros [|i] a b; [simpl; congruence|]. simpl. apply IH. intros Hin. apply Hns. by right.
  - exfalso. apply Hns. left.
  - exfalso. apply Hns. left.
Qed.
Print Assumptions C12_wildcards_stay_in_their_segment.
Example C12_wildcards_example other :
  glob_match other "a/*.go" "a/m.go" = true ∧ glob_match other "a/*.go" "a/b/m.go" = false ∧
  glob_match other "a?b/c" "a/b/c" = false.
Proof. split; [|split]; vm_compute; reflexivity. Qed.

(** A pattern without wildcards that contains a slash matches exactly itself. *)
Lemma seg_match_literal p s : literal p → seg_match p s ↔ s = p.
Proof.
  intros (H1 & H2 & _). apply not_has_char in H1, H2. revert s. induction p as [|c p IH]; intros s.
  - split; [by inversion 1|intros ->; constructor].
  - rewrite contains_cons in H1, H2. apply orb_false_iff in H1 as [H1%bool_decide_eq_false H1'], H2 as [H2%bool_decide_eq_false H2'].
    specialize (IH H1' H2'). split.
    + inversion 1; subst; try done. f_equal. by apply IH.
    + intros ->. constructor; [done|done|]. by apply IH.
Qed.
Theorem C12_literal_matches_itself other p path :
  plain p → literal p → ¬ ends_with "/" p → has_char "/" p → plain_path path →
  glob_match other p path = true ↔ path = p.
Proof.
  intros Hpl Hlit He Hsl Hpp. pose proof Hlit as (Hs1 & _ & _).
  assert (∀ s, s ∈ segments p → literal s) as Hall.
  { intros s Hs. destruct Hlit as (H1 & H2 & H3).
    assert (∀ c, ¬ has_char c p → ¬ has_char c s) as H.
    { intros c Hc (a & b & ->). apply Hc. unfold segments in Hs. apply elem_of_list_split in Hs as (l1 & l2 & Heq).
      rewrite <- (str_join_split c_slash p), Heq. clear.
      induction l1 as [|z l1 (x & y & IH)].
      - cbn [app]. destruct l2 as [|q l2]; [by exists a, b|]. rewrite str_join_cons2. eexists a, _. by rewrite sapp_assoc.
      - cbn [app]. destruct (l1 ++ (a +:+ String c b) :: l2) as [|q l] eqn:E.
        { destruct l1; discriminate. }
        rewrite str_join_cons2, IH. exists (z +:+ "/" +:+ x), y. by rewrite !sapp_assoc. }
    split; [|split]; by apply H. }
  assert ("**" ∉ segments p) as Hns.
  { intros Hin. destruct (Hall _ Hin) as (H & _ & _). apply H. by exists "", "*". }
  rewrite C12_segment_by_segment; try done.
  2:{ intros s Hs. right. intros (a & b & ->). destruct (Hall _ Hs) as (H & _ & _). apply H. by exists a, (String "*" b). }
  2:{ intros [pre Heq]. apply Hns. rewrite Heq. apply elem_of_app. right. left. }
  assert (∀ ps ss, (∀ s, s ∈ ps → literal s) → seg_glob ps ss ↔ ss = ps) as Hg.
  { clear. induction ps as [|p ps IH]; intros ss Hl.
    - split; [by inversion 1|intros ->; constructor].
    - assert (p ≠ "**") as Hp.
      { intros ->. destruct (Hl "**" ltac:(left)) as (H & _ & _). apply H. by exists "", "*". }
      rewrite seg_glob_cons by done. split.
      + intros (s & ss' & -> & Hm & Hg). apply seg_match_literal in Hm as ->; [|apply Hl; left]. f_equal.
        apply IH; [|done]. intros s Hs. apply Hl. by right.
      + intros ->. exists p, ps. split; [done|]. split; [apply seg_match_literal; [apply Hl; left|done]|].
        apply IH; [|done]. intros s Hs. apply Hl. by right. }
  rewrite Hg by done. split; [|by intros ->]. intros Heq.
  rewrite <- (str_join_split c_slash p), <- (str_join_split c_slash path). unfold segments in Heq. by f_equal.
Qed.
Print Assumptions C12_literal_matches_itself.
Example C12_literal_example other :
  glob_match other "cmd/main.go" "cmd/main.go" = true ∧ glob_match other "cmd/main.go" "cmd/mainxgo" = false ∧
  glob_match other "cmd/main.go" "x/cmd/main.go" = false.
Proof. split; [|split]; vm_compute; reflexivity. Qed.

(** ** C12: patterns without a slash match at any depth *)
Lemma tm_anydir ts s : contains_byte newline s = false →
  tm (TAnyDir :: ts) s ↔ ∃ dirs rest, split_byte c_slash s = dirs ++ split_byte c_slash rest ∧ tm ts rest ∧
     (s = rest ∨ ∃ w, s = w +:+ String c_slash rest).
Proof.
  intros Hnl. rewrite tm_cons_iff. split.
  - intros (u & v & -> & Hu & Hv). cbn [tok_match] in Hu.
    apply orb_true_iff in Hu as [->%bool_decide_eq_true|[Hu _]%andb_true_iff].
    + exists [], v. split; [done|]. split; [done|by left].
    + apply has_suffix_spec in Hu as [w ->]. exists (split_byte c_slash w), v. rewrite sapp_assoc.
      change ("/" +:+ v) with (String c_slash v). split; [apply split_byte_app|]. split; [done|]. right. by exists w.
  - intros (dirs & rest & Heq & Hr & [->|[w ->]]).
    + exists "", rest. done.
    + exists (w +:+ "/"), rest. split; [by rewrite sapp_assoc|]. split; [|done].
      cbn [tok_match]. apply orb_true_iff. right. apply andb_true_iff. split; [apply has_suffix_snoc|].
      apply no_newline_spec. rewrite contains_app in *. rewrite contains_cons in Hnl.
      apply orb_false_iff in Hnl as [Hw _]. by rewrite Hw.
Qed.
Lemma ctoks_noslash p : contains_byte c_slash p = false → ¬ double_star_inside p →
  ctoks None p (start_toks p) = TAnyDir :: stoks p.
Proof.
  intros Hs Hd. unfold start_toks. rewrite Hs.
  destruct (ctoks_segment p None "" [TAnyDir]) as [prev' H]; [done|done|by left|]. rewrite sapp_nil in H. by rewrite H.
Qed.
Theorem C12_no_slash_matches_at_any_depth other p path :
  plain p → ¬ has_char "/" p → ¬ double_star_inside p → plain_path path →
  glob_match other p path = true ↔ ∃ dirs base, segments path = dirs ++ [base] ∧ seg_match p base.
Proof.
  intros Hpl Hsl Hd [Hnl Hst]. apply not_has_char in Hsl as Hsl', Hnl.
  rewrite match_open; [|done| |done].
  2:{ intros [r ->]. apply Hsl. by exists r, "". }
  rewrite ctoks_noslash by done. rewrite tm_anydir by done. unfold segments. split.
  - intros (dirs & base & Heq & Hm & _). apply stoks_match in Hm as [Hm Hb]; [|done]. exists dirs, base.
    rewrite (split_no_slash base) in Heq by done. done.
  - intros (dirs & base & Heq & Hm).
    assert (contains_byte c_slash base = false) as Hb.
    { apply (split_byte_parts c_slash path). rewrite Heq. apply elem_of_app. right. left. }
    exists dirs, base. split; [by rewrite (split_no_slash base)|]. split; [by apply stoks_match|].
    destruct dirs as [|d dirs].
    + left. by rewrite <- (str_join_split c_slash path), Heq.
    + right. exists (str_join "/" (d :: dirs)). rewrite <- (str_join_split c_slash path) at 1. rewrite Heq.
      by apply (str_join_app (d :: dirs) [base]).
Qed.
Print Assumptions C12_no_slash_matches_at_any_depth.
Example C12_any_depth_example other :
  glob_match other "*.go" "a/b/m.go" = true ∧ glob_match other "*.go" "m.go" = true ∧ glob_match other "*.go" "m.go/x" = false.
Proof. split; [|split]; vm_compute; reflexivity. Qed.

(** A lone double star matches every path. *)
Theorem C12_double_star_matches_everything other path : plain_path path → glob_match other "**" path = true.
Proof.
  intros [Hnl Hst]. apply not_has_char in Hnl. rewrite match_open; [| | |done].
  - change (ctoks None "**" (start_toks "**")) with [TAnyDir; TAny]. apply tm_cons_iff. exists "", path.
    split; [done|]. split; [done|]. apply tm_one. by apply no_newline_spec.
  - split; [done|]. split; [|by split; intros [r Hr]].
    intros a b Heq. exfalso. assert (contains_byte "[" "**" = true) as H; [|done]. apply has_char_spec. by exists a, b.
  - intros [r Hr]. assert (has_suffix "/" "**" = true) as H; [|done]. apply has_suffix_spec. by exists r.
Qed.
Print Assumptions C12_double_star_matches_everything.
Example C12_double_star_example other : glob_match other "**" "a/b.go" = true ∧ glob_match other "**" "" = true.
Proof. split; vm_compute; reflexivity. Qed.

(** ** C12: a trailing slash matches the directory and everything below *)
Lemma tm_orsub ts s : contains_byte newline s = false →
  tm (ts ++ [TOrSub]) s ↔ ∃ u, tm ts u ∧ (s = u ∨ ∃ w, s = u +:+ String c_slash w).
Proof.
  intros Hnl. rewrite tm_app. setoid_rewrite tm_one. split.
  - intros (u & v & -> & Hu & Hv). exists u. split; [done|]. cbn [tok_match] in Hv.
    apply orb_true_iff in Hv as [->%bool_decide_eq_true|[Hv _]%andb_true_iff].
    + left. by rewrite sapp_nil.
    + right. apply has_prefix_spec in Hv as [w ->]. by exists w.
  - intros (u & Hu & [->|[w ->]]).
    + exists u, "". by rewrite sapp_nil.
    + exists u, (String c_slash w). split; [done|]. split; [done|]. cbn [tok_match]. apply orb_true_iff. right.
      apply andb_true_iff. split; [apply has_prefix_spec; by exists w|]. apply no_newline_spec.
      rewrite contains_app in Hnl. by apply orb_false_iff in Hnl as [_ ?].
Qed.
Theorem C12_trailing_slash_with_slash other p path :
  plain p → has_char "/" p → whole_stars (segments p) → ¬ ends_in_two_stars (segments p) → plain_path path →
  glob_match other (p +:+ "/") path = true ↔
  ∃ dir below, segments path = dir ++ below ∧ seg_glob (segments p) dir.
Proof.
  intros Hpl Hsl%has_char_spec Hw H2 [Hnl Hst]. apply not_has_char in Hnl. rewrite match_dir by done.
  rewrite tm_orsub by done. rewrite ctoks_slash by done.
  assert (∀ u, contains_byte newline u = false → tm (gtoks (segments p)) u ↔ seg_glob (segments p) (segments u)) as Hg.
  { intros u Hu. apply gtoks_match; [apply split_byte_nonnil|by apply segments_not_single|apply segments_free|done|done]. }
  split.
  - intros (u & Hu & [->|[w ->]]).
    + exists (segments u), []. rewrite app_nil_r. split; [done|]. by apply Hg.
    + exists (segments u), (segments w). split; [apply split_byte_app|]. apply Hg; [|done].
      rewrite contains_app in Hnl. by apply orb_false_iff in Hnl as [? _].
  - intros (dir & below & Heq & Hd).
    assert (dir ≠ []) as Hdir.
    { intros ->. eapply seg_glob_nonempty; [..|done]; [apply split_byte_nonnil|].
      apply last_star_ok; [apply split_byte_nonnil|by apply segments_not_single|done]. }
    pose proof (segments_free path) as Hf. rewrite Heq in Hf. apply Forall_app in Hf as [Hf1 Hf2].
    assert (path = str_join "/" dir ∨ ∃ w, path = str_join "/" dir +:+ String c_slash w) as Hpath.
    { unfold segments in Heq. rewrite <- (str_join_split c_slash path), Heq. destruct below as [|b below].
      - left. by rewrite app_nil_r.
      - right. exists (str_join "/" (b :: below)). by apply str_join_app. }
    exists (str_join "/" dir). split; [|done]. apply Hg.
    + destruct Hpath as [->|[w ->]]; [done|]. rewrite contains_app in Hnl. by apply orb_false_iff in Hnl as [? _].
    + unfold segments. by rewrite (split_join c_slash dir).
Qed.
Print Assumptions C12_trailing_slash_with_slash.
Theorem C12_trailing_slash_any_depth other p path :
  plain p → ¬ has_char "/" p → ¬ double_star_inside p → plain_path path →
  glob_match other (p +:+ "/") path = true ↔
  ∃ above dir below, segments path = above ++ dir :: below ∧ seg_match p dir.
Proof.
  intros Hpl Hsl Hd [Hnl Hst]. apply not_has_char in Hsl, Hnl. rewrite match_dir by done.
  rewrite tm_orsub by done. rewrite ctoks_noslash by done. unfold segments. split.
  - intros (u & Hu & Hp).
    assert (contains_byte newline u = false) as Hnu.
    { destruct Hp as [->|[w ->]]; [done|]. rewrite contains_app in Hnl. by apply orb_false_iff in Hnl as [? _]. }
    apply tm_anydir in Hu as (above & dir & Heq & Hm & _); [|done]. apply stoks_match in Hm as [Hm Hdir]; [|done].
    rewrite (split_no_slash dir) in Heq by done. destruct Hp as [->|[w ->]].
    + exists above, dir, []. by rewrite Heq.
    + exists above, dir, (split_byte c_slash w). rewrite split_byte_app, Heq, <- app_assoc. done.
  - intros (above & dir & below & Heq & Hm).
    assert (contains_byte c_slash dir = false) as Hdir.
    { apply (split_byte_parts c_slash path). rewrite Heq. apply elem_of_app. right. left. }
    assert (path = str_join "/" (above ++ [dir]) ∨ ∃ w, path = str_join "/" (above ++ [dir]) +:+ String c_slash w) as Hpath.
    { rewrite <- (str_join_split c_slash path), Heq. rewrite cons_middle, app_assoc. destruct below as [|b below].
      - left. by rewrite app_nil_r.
      - right. exists (str_join "/" (b :: below)). apply str_join_app; [by destruct above|done]. }
    exists (str_join "/" (above ++ [dir])). split; [|done].
    assert (contains_byte newline (str_join "/" (above ++ [dir])) = false) as Hnu.
    { destruct Hpath as [<-|[w ->]]; [done|]. rewrite contains_app in Hnl. by apply orb_false_iff in Hnl as [? _]. }
    apply tm_anydir; [done|]. exists above, dir. split; [|split; [by apply stoks_match|]].
    + rewrite (split_join c_slash (above ++ [dir])); [by rewrite split_no_slash|by destruct above|].
      apply Forall_forall. intros x Hx. apply (split_byte_parts c_slash path). rewrite Heq.
      rewrite cons_middle, app_assoc. apply elem_of_app. by left.
    + destruct above as [|a above]; [by left|]. right. exists (str_join "/" (a :: above)).
      by apply (str_join_app (a :: above) [dir]).
Qed.
Print Assumptions C12_trailing_slash_any_depth.
Example C12_trailing_slash_example other :
  glob_match other "gen/" "gen" = true ∧ glob_match other "gen/" "x/gen/a.go" = true ∧ glob_match other "gen/" "x/gens" = false ∧
  glob_match other "a/b/" "a/b/c" = true ∧ glob_match other "a/b/" "x/a/b" = false.
Proof. split; [|split; [|split; [|split]]]; vm_compute; reflexivity. Qed.

(** ** C12: leading bang and slash *)
Theorem C12_bang_inverts other p path :
  p ≠ "" → ¬ starts_with "!" p → glob_match other ("!" +:+ p) path = negb (glob_match other p path).
Proof.
  intros Hne Hb. unfold glob_match at 2. rewrite (not_starts "!") by done. rewrite decide_False by done.
  unfold glob_match. change ("!" +:+ p) with (String "!" p).
  assert (has_prefix "!" (String "!" p) = true) as -> by (apply has_prefix_spec; by exists p).
  change (str_drop 1 (String "!" p)) with p. by rewrite decide_False.
Qed.
Print Assumptions C12_bang_inverts.
Theorem C12_empty_matches_nothing other path : glob_match other "" path = false ∧ glob_match other "!" path = false.
Proof. done. Qed.
Theorem C12_leading_slash_of_the_path_is_ignored other p path :
  ¬ starts_with "/" path → glob_match other p ("/" +:+ path) = glob_match other p path.
Proof.
  intros Hp. unfold glob_match, match_pos. rewrite (trim_prefix_none "/" path) by (by apply not_starts).
  assert (trim_prefix "/" ("/" +:+ path) = path) as ->; [|done].
  unfold trim_prefix. assert (has_prefix "/" ("/" +:+ path) = true) as -> by (apply has_prefix_spec; by exists path). done.
Qed.
Print Assumptions C12_leading_slash_of_the_path_is_ignored.
Theorem C12_leading_slash_of_the_pattern_is_ignored other p path :
  p ≠ "" → ¬ starts_with "!" p → ¬ starts_with "/" p → glob_match other ("/" +:+ p) path = glob_match other p path.
Proof.
  intros Hne Hb Hs. unfold glob_match. rewrite (not_starts "!" p) by done. change ("/" +:+ p) with (String "/" p).
  assert (has_prefix "!" (String "/" p) = false) as -> by (apply not_starts; by intros [r Hr]).
  rewrite !decide_False by done. unfold match_pos. rewrite (trim_prefix_none "/" p) by (by apply not_starts).
  assert (trim_prefix "/" (String "/" p) = p) as ->; [|done].
  unfold trim_prefix. assert (has_prefix "/" (String "/" p) = true) as -> by (apply has_prefix_spec; by exists p). done.
Qed.
Print Assumptions C12_leading_slash_of_the_pattern_is_ignored.
Example C12_bang_example other :
  glob_match other "!*.tmp" "a/x.tmp" = false ∧ glob_match other "!*.tmp" "a/x.go" = true ∧ glob_match other "/a/b" "a/b" = true.
Proof. split; [|split]; vm_compute; reflexivity. Qed.

(** ** C12: where the statement is false *)
(** A leading slash does not anchor: the literal pattern with a slash matches another path. *)
Theorem C12_rooted_literal_refuted other :
  ∃ p path, literal p ∧ has_char "/" p ∧ path ≠ p ∧ path ≠ "foo" ∧ glob_match other p path = true.
Proof.
  exists "/foo", "x/foo". split; [|split; [by exists "", "foo"|]].
  - split; [|split]; intros H%has_char_spec; vm_compute in H; done.
  - split; [done|]. split; [done|]. vm_compute. reflexivity.
Qed.
(** Two trailing double stars do not match a path they should. *)
Theorem C12_repeated_double_star_refuted other :
  ∃ p path, plain p ∧ plain_path path ∧ whole_stars (segments p) ∧ seg_glob (segments p) (segments path) ∧
    glob_match other p path = false.
Proof.
  exists "a/**/**", "a/b/c". split; [|split; [|split; [|split]]].
  - split; [done|]. split; [|by split; intros [r Hr]].
    intros a b Heq. exfalso. assert (contains_byte "[" "a/**/**" = true) as H; [|done]. apply has_char_spec. by exists a, b.
  - split; [|by intros [r Hr]]. by intros H%has_char_spec.
  - change (segments "a/**/**") with ["a"; "**"; "**"]. intros s Hs.
    apply elem_of_cons in Hs as [->|Hs]; [right|left].
    + intros (x & y & Heq). assert (contains_byte "*" "a" = true) as H; [|done]. apply has_char_spec. by exists x, (String "*" y).
    + apply elem_of_cons in Hs as [->|Hs]; [done|]. by apply elem_of_list_singleton in Hs.
  - change (segments "a/**/**") with ["a"; "**"; "**"]. change (segments "a/b/c") with ["a"; "b"; "c"].
    constructor; [done| |].
    + constructor; [done|done|constructor].
    + apply sg_none, sg_more, sg_more, sg_none. constructor.
  - vm_compute. reflexivity.
Qed.
(** A directory name with a line break is not any directory. *)
Theorem C12_newline_refuted other :
  ∃ p path, plain p ∧ ¬ has_char "/" p ∧ (∃ dirs base, segments path = dirs ++ [base] ∧ seg_match p base) ∧
    glob_match other p path = false.
Proof.
  exists "x", (String "010" "/x"). split; [|split; [|split]].
  - split; [done|]. split; [|by split; intros [r Hr]].
    intros a b Heq. exfalso. assert (contains_byte "[" "x" = true) as H; [|done]. apply has_char_spec. by exists a, b.
  - by intros H%has_char_spec.
  - exists [String "010" ""], "x". split; [done|]. constructor; [done|done|constructor].
  - vm_compute. reflexivity.
Qed.

(** ** C13: filters *)
Section filters.
Context (other : string → string → option bool).
Lemma match_any_spec ps path : match_any other ps path = true ↔ ∃ p, p ∈ ps ∧ glob_match other p path = true.
Proof.
  induction ps as [|p ps IH]; cbn [match_any].
  - split; [done|]. intros (p & Hp & _). by apply elem_of_nil in Hp.
  - destruct (glob_match other p path) eqn:E.
    + split; [|done]. intros _. exists p. split; [left|done].
    + rewrite IH. split.
      * intros (q & Hq & Hm). exists q. split; [by right|done].
      * intros (q & [->|Hq]%elem_of_cons & Hm); [congruence|]. eauto.
Qed.
Definition keep_path (includes excludes : list string) (path : string) : bool :=
  match includes with [] => true | _ => match_any other includes path end && negb (match_any other excludes path).
Lemma keep_path_spec includes excludes path :
  keep_path includes excludes path = true ↔ wanted (glob_match other) includes excludes path.
Proof.
  unfold keep_path, wanted. rewrite andb_true_iff, negb_true_iff.
  rewrite <- not_true_iff_false, match_any_spec. destruct includes as [|i is].
  - split; intros [_ H]; split; try done. by left.
  - rewrite match_any_spec. split; intros [H1 H2]; split; try done; [by right|]. by destruct H1.
Qed.
Lemma filter_fold includes excludes paths : ∀ acc,
  fold_left (filter_step other includes excludes) paths acc = acc ++ filter (λ x, keep_path includes excludes x = true) paths.
Proof.
  induction paths as [|x paths IH]; intros acc; [by rewrite app_nil_r|].
  cbn [fold_left]. rewrite IH, filter_cons. unfold filter_step, keep_path.
  destruct (match includes with [] => true | _ => match_any other includes x end); [|done].
  destruct (match_any other excludes x); [done|]. cbn. by rewrite <- app_assoc.
Qed.
Lemma filter_paths_eq paths includes excludes :
  filter_paths other paths includes excludes = filter (λ x, keep_path includes excludes x = true) paths.
Proof. unfold filter_paths. by rewrite filter_fold. Qed.

Theorem C13_filter_is_the_selection paths includes excludes :
  filter_paths other paths includes excludes `sublist_of` paths ∧
  (∀ x, x ∈ filter_paths other paths includes excludes ↔ x ∈ paths ∧ wanted (glob_match other) includes excludes x) ∧
  ∀ l, l `sublist_of` paths → (∀ x, x ∈ l → wanted (glob_match other) includes excludes x) →
    l `sublist_of` filter_paths other paths includes excludes.
Proof.
  rewrite filter_paths_eq. split.
  { clear. induction paths as [|x paths IH]; [constructor|]. rewrite filter_cons. case_decide; by constructor. }
  split.
  - intros x. rewrite elem_of_list_filter, keep_path_spec. tauto.
  - intros l Hl Hw. induction Hl as [|x l paths Hl IH|x l paths Hl IH].
    + constructor.
    + rewrite filter_cons, decide_True by (apply keep_path_spec, Hw; left). apply sublist_skip, IH.
      intros y Hy. apply Hw. by right.
    + rewrite filter_cons. case_decide; [apply sublist_cons|]; by apply IH.
Qed.
Theorem C13_filter_idempotent paths includes excludes :
  filter_paths other (filter_paths other paths includes excludes) includes excludes = filter_paths other paths includes excludes.
Proof. rewrite !filter_paths_eq, list_filter_filter. apply list_filter_iff. naive_solver. Qed.
End filters.
Print Assumptions C13_filter_is_the_selection.
Print Assumptions C13_filter_idempotent.
Example C13_example other :
  filter_paths other ["a/m.go"; "a/m_test.go"; "b.txt"; "a/m.go"] ["*.go"] ["*_test.go"] = ["a/m.go"; "a/m.go"].
Proof. vm_compute. reflexivity. Qed.
