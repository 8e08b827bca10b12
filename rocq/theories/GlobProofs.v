(** * Lemmas about gitignore-style patterns. *)
From Coq Require Import Ascii.
From stdpp Require Import base list strings.
From Verif Require Import StrLib StrSplit PairProofs GlobModel GlobSpec.

(** ** Texts of tokens *)
Definition lit_text (c : ascii) : string :=
  if re_special c || bool_decide (c = c_open) then String c_bsl (String c "") else String c "".
Definition tok_text (t : tok) : string :=
  match t with
  | TAnyDir => "(?:.*/)?" | TAnyDirLazy => "(?:.*?/)?" | TSub => "(?:/.*)?" | TOrSub => "(?:|/.*)"
  | TAny => ".*" | TSeg => "[^/]*" | TOne => "[^/]" | TLit c => lit_text c
  end.
Fixpoint texts (ts : list tok) : string := match ts with [] => "" | t :: ts => tok_text t +:+ texts ts end.
Lemma texts_app a b : texts (a ++ b) = texts a +:+ texts b.
Proof. induction a as [|t a IH]; [done|]. cbn [app texts]. by rewrite IH, sapp_assoc. Qed.
Lemma texts_snoc a t : texts (a ++ [t]) = texts a +:+ tok_text t.
Proof. rewrite texts_app. cbn [texts]. by rewrite sapp_nil. Qed.

Definition wf_tok (t : tok) : Prop := match t with TLit c => c ≠ c_star ∧ c ≠ c_q | _ => True end.

Lemma escaped_is_escapable c : re_special c || bool_decide (c = c_open) = true → rx_escapable c = true.
Proof. destruct c as [[] [] [] [] [] [] [] []]; vm_compute; done. Qed.
Lemma unescaped_is_literal c : re_special c || bool_decide (c = c_open) = false → c ≠ c_star → c ≠ c_q → rx_active c = false.
Proof. destruct c as [[] [] [] [] [] [] [] []]; intros H H1 H2; try (vm_compute in H; done); vm_compute; try done; exfalso; first [by apply H1|by apply H2]. Qed.
Lemma has_prefix_head a p b s : a ≠ b → has_prefix (String a p) (String b s) = false.
Proof. intros H. cbn [has_prefix]. by rewrite bool_decide_eq_false_2. Qed.
Lemma parse_tok_text t rest : wf_tok t → (∀ r, rest ≠ String c_star r) →
  parse_tok (tok_text t +:+ rest) = Some (t, rest).
Proof.
  intros Hwf Hrest. destruct t as [| | | | | | |c]; try (cbn; reflexivity).
  - assert (has_prefix "[^/]*" ("[^/]" +:+ rest) = false) as H.
    { change (has_prefix "*" rest = false). destruct rest as [|c r]; [done|]. apply has_prefix_head.
      intros <-. by destruct (Hrest r). }
    unfold parse_tok. cbn [tok_text]. rewrite H. reflexivity.
  - cbn [tok_text]. unfold lit_text. destruct Hwf as [Hs Hq].
    destruct (re_special c || bool_decide (c = c_open)) eqn:E.
    + change (String c_bsl (String c "") +:+ rest) with (String c_bsl (String c rest)).
      unfold parse_tok. rewrite !has_prefix_head by done. rewrite decide_True by done. by rewrite (escaped_is_escapable _ E).
    + pose proof E as E0. apply orb_false_iff in E as [E1 E2]. apply bool_decide_eq_false in E2.
      assert (c ≠ "("%char ∧ c ≠ "."%char ∧ c ≠ c_bsl) as (H1 & H2 & H3).
      { split; [|split]; intros ->; vm_compute in E1; done. }
      change (String c "" +:+ rest) with (String c rest).
      unfold parse_tok. rewrite !has_prefix_head by (unfold c_open in *; congruence).
      rewrite decide_False by done. by rewrite (unescaped_is_literal _ E0).
Qed.
Lemma tok_text_head t : wf_tok t → ∃ c s, tok_text t = String c s ∧ c ≠ c_star ∧ c ≠ "$"%char.
Proof.
  intros Hwf. destruct t as [| | | | | | |c]; try (eexists _, _; split; [reflexivity|]; split; done).
  cbn [tok_text]. unfold lit_text. destruct (re_special c || bool_decide (c = c_open)) eqn:E.
  - eexists _, _. split; [done|]. done.
  - eexists _, _. split; [done|]. destruct Hwf. split; [done|]. intros ->. vm_compute in E. done.
Qed.
Lemma texts_end_head ts : Forall wf_tok ts → ∀ r, texts ts +:+ "$" ≠ String c_star r.
Proof.
  intros Hwf r. destruct ts as [|t ts]; [done|]. apply Forall_cons in Hwf as [Hwf _].
  destruct (tok_text_head t Hwf) as (c & s & Heq & Hc & _). cbn [texts]. rewrite Heq. by intros [= ->].
Qed.
Lemma parse_toks_texts ts : Forall wf_tok ts → ∀ fuel, length ts ≤ fuel →
  parse_toks fuel (texts ts +:+ "$") = Some ts.
Proof.
  induction ts as [|t ts IH]; intros Hwf fuel Hf.
  - by destruct fuel.
  - apply Forall_cons in Hwf as [Ht Hwf]. destruct fuel as [|fuel]; [simpl in Hf; lia|].
    cbn [parse_toks texts]. rewrite decide_False.
    2:{ destruct (tok_text_head t Ht) as (c & s & Heq & _ & Hc). rewrite Heq. by intros [= ->]. }
    rewrite sapp_assoc, parse_tok_text by (try done; by apply texts_end_head).
    cbn [mbind option_bind]. rewrite IH; [done|done|simpl in Hf; lia].
Qed.
Lemma texts_length ts : Forall wf_tok ts → length ts ≤ String.length (texts ts).
Proof.
  induction ts as [|t ts IH]; intros Hwf; [done|]. apply Forall_cons in Hwf as [Ht Hwf]. specialize (IH Hwf).
  destruct (tok_text_head t Ht) as (c & s & Heq & _ & _). cbn [texts length]. rewrite sapp_length, Heq. simpl. lia.
Qed.
Lemma re_parse_texts ts : Forall wf_tok ts → re_parse ("^" +:+ texts ts +:+ "$") = Some ts.
Proof.
  intros Hwf. change ("^" +:+ texts ts +:+ "$") with (String "^" (texts ts +:+ "$")). unfold re_parse. rewrite decide_True by done.
  apply parse_toks_texts; [done|].
  rewrite sapp_length. pose proof (texts_length ts Hwf). lia.
Qed.

(** ** Tokens of a pattern without classes *)
Definition end_star (prev : option ascii) (acc : list tok) : list tok :=
  if decide (prev = Some c_slash) then
    match last acc with Some (TLit c) => if decide (c = c_slash) then removelast acc ++ [TSub] else acc ++ [TSub] | _ => acc ++ [TSub] end
  else acc ++ [TAny].
Fixpoint ctoks (prev : option ascii) (p : string) (acc : list tok) : list tok :=
  match p with
  | "" => acc
  | String c p1 =>
    if decide (c = c_star) then
      match p1 with
      | String c1 p2 =>
        if decide (c1 = c_star) then
          match p2 with
          | "" => end_star prev acc
          | String c2 p3 =>
            if decide (c2 = c_slash) then ctoks (Some c_slash) p3 (acc ++ [TAnyDirLazy])
            else ctoks (Some c_star) p2 (acc ++ [TAny])
          end
        else ctoks (Some c_star) p1 (acc ++ [TSeg])
      | "" => acc ++ [TSeg]
      end
    else if decide (c = c_q) then ctoks (Some c_q) p1 (acc ++ [TOne])
    else ctoks (Some c) p1 (acc ++ [TLit c])
  end.

Lemma no_class_tail c p : no_class (String c p) → no_class p.
Proof. intros H a b Heq. apply (H (String c a) b). by rewrite Heq. Qed.
Lemma find_close_none s : contains_byte "]" s = false → find_close s = None.
Proof.
  induction s as [|c s IH]; [done|]. rewrite contains_cons. intros [Hc Hs]%orb_false_iff.
  apply bool_decide_eq_false in Hc. cbn [find_close]. rewrite decide_False by done. by rewrite IH.
Qed.

Lemma has_suffix_snoc c s : has_suffix (String c "") (s +:+ String c "") = true.
Proof. apply has_suffix_spec. by exists s. Qed.
Lemma sapp_snoc_inj s t c d : s +:+ String c "" = t +:+ String d "" → s = t ∧ c = d.
Proof.
  intros H. assert (String.length s = String.length t) as Hl.
  { apply (f_equal String.length) in H. rewrite !sapp_length in H. simpl in H. lia. }
  destruct (sapp_inj_len _ _ _ _ Hl H) as [-> [= ->]]. done.
Qed.
(** Whether the text ends in a slash depends on the last token only. *)
Lemma tok_text_last t : ∃ s c, tok_text t = s +:+ String c "" ∧ (c = c_slash ↔ t = TLit c_slash).
Proof.
  destruct t as [| | | | | | |c].
  - exists "(?:.*/)", "?"%char. by split; [|split].
  - exists "(?:.*?/)", "?"%char. by split; [|split].
  - exists "(?:/.*)", "?"%char. by split; [|split].
  - exists "(?:|/.*", ")"%char. by split; [|split].
  - exists ".", "*"%char. by split; [|split].
  - exists "[^/]", "*"%char. by split; [|split].
  - exists "[^/", "]"%char. by split; [|split].
  - cbn [tok_text]. unfold lit_text. destruct (re_special c || bool_decide (c = c_open)).
    + exists (String c_bsl ""), c. split; [done|]. split; [by intros ->|by intros [= ->]].
    + exists "", c. split; [done|]. split; [by intros ->|by intros [= ->]].
Qed.
Lemma has_suffix_texts acc :
  has_suffix "/" ("^" +:+ texts acc) = true ↔ last acc = Some (TLit c_slash).
Proof.
  destruct acc as [|t acc _] using rev_ind.
  - split; [|done]. vm_compute. done.
  - rewrite last_snoc, texts_snoc. destruct (tok_text_last t) as (s & c & -> & Hc). rewrite <- !sapp_assoc. split.
    + intros (u & Hu)%has_suffix_spec. change "/" with (String c_slash "") in Hu. apply sapp_snoc_inj in Hu as [_ ->].
      f_equal. by apply Hc.
    + intros [= Ht]. apply Hc in Ht as ->. apply has_suffix_snoc.
Qed.
Lemma str_take_snoc s c : str_take (String.length (s +:+ String c "") - 1) (s +:+ String c "") = s.
Proof.
  rewrite sapp_length. change (String.length (String c "")) with 1. rewrite Nat.add_sub. apply str_take_app.
Qed.

Lemma emit_ctoks n : ∀ p prev acc fuel, String.length p ≤ n → String.length p ≤ fuel → no_class p →
  emit fuel prev p ("^" +:+ texts acc) = "^" +:+ texts (ctoks prev p acc).
Proof.
  induction n as [|n IH]; intros p prev acc fuel Hn Hf Hcl.
  - destruct p as [|c p]; [|simpl in Hn; lia]. by destruct fuel.
  - destruct p as [|c p1]; [by destruct fuel|]. destruct fuel as [|fuel]; [simpl in Hf; lia|].
    simpl in Hn, Hf. pose proof (no_class_tail _ _ Hcl) as Hcl1.
    assert (∀ t prev p, String.length p ≤ n → String.length p ≤ fuel → no_class p →
       emit fuel prev p (("^" +:+ texts acc) +:+ tok_text t) = "^" +:+ texts (ctoks prev p (acc ++ [t]))) as Hstep.
    { intros t prev' p' H1 H2 H3. rewrite sapp_assoc, <- texts_snoc. by apply IH. }
    cbn [emit ctoks]. destruct (decide (c = c_star)) as [->|Hstar].
    { destruct p1 as [|c1 p2].
      { rewrite sapp_assoc. change "[^/]*" with (tok_text TSeg). rewrite <- texts_snoc. by destruct fuel. }
      simpl in Hn, Hf. destruct (decide (c1 = c_star)) as [->|H1].
      2:{ apply (Hstep TSeg); simpl; [lia|lia|done]. }
      destruct p2 as [|c2 p3].
      { unfold end_star. case_decide as Hp.
        - destruct (has_suffix "/" ("^" +:+ texts acc)) eqn:Hs.
          + apply has_suffix_texts in Hs. rewrite Hs. rewrite decide_True by done.
            destruct acc as [|t acc _] using rev_ind; [done|]. rewrite last_snoc in Hs. injection Hs as ->.
            rewrite removelast_last. rewrite !texts_snoc. cbn [tok_text]. change (lit_text c_slash) with (String c_slash "").
            rewrite <- !(sapp_assoc "^"), str_take_snoc. done.
          + assert (end_star prev acc = acc ++ [TSub] → True) as _ by done.
            assert (last acc ≠ Some (TLit c_slash)) as Hl.
            { intros Hl. apply has_suffix_texts in Hl. congruence. }
            rewrite sapp_assoc. change "(?:/.*)?" with (tok_text TSub). rewrite <- texts_snoc.
            destruct (last acc) as [[| | | | | | |c]|]; try done. by rewrite decide_False by congruence.
        - rewrite sapp_assoc. change ".*" with (tok_text TAny). by rewrite <- texts_snoc. }
      simpl in Hn, Hf. pose proof (no_class_tail _ _ Hcl1) as Hcl2. pose proof (no_class_tail _ _ Hcl2) as Hcl3.
      case_decide.
      - apply (Hstep TAnyDirLazy); [lia|lia|done].
      - apply (Hstep TAny); simpl; [lia|lia|done]. }
    destruct (decide (c = c_q)) as [->|Hq]; [apply (Hstep TOne); [lia|lia|done]|].
    destruct (decide (c = c_open)) as [->|Hopen].
    { rewrite find_close_none by (by apply (Hcl "")). apply (Hstep (TLit c_open)); [lia|lia|done]. }
    destruct (decide (c = c_slash)) as [->|Hsl].
    { apply (Hstep (TLit c_slash)); [lia|lia|done]. }
    specialize (Hstep (TLit c) (Some c) p1 ltac:(lia) ltac:(lia) Hcl1). cbn [tok_text] in Hstep. unfold lit_text in Hstep.
    rewrite (bool_decide_eq_false_2 (c = c_open)), orb_false_r in Hstep by done. by destruct (re_special c).
Qed.
Lemma ctoks_wf n : ∀ p prev acc, String.length p ≤ n → Forall wf_tok acc → Forall wf_tok (ctoks prev p acc).
Proof.
  induction n as [|n IH]; intros p prev acc Hn Hwf.
  - destruct p as [|c p]; [done|simpl in Hn; lia].
  - destruct p as [|c p1]; [done|]. simpl in Hn. cbn [ctoks].
    assert (∀ t, wf_tok t → Forall wf_tok (acc ++ [t])) as Hsn.
    { intros t Ht. apply Forall_app. split; [done|]. by constructor. }
    destruct (decide (c = c_star)) as [->|Hstar].
    { destruct p1 as [|c1 p2]; [by apply Hsn|]. simpl in Hn. case_decide; [|apply IH; [simpl; lia|by apply Hsn]].
      destruct p2 as [|c2 p3].
      - unfold end_star. case_decide; [|by apply Hsn].
        assert (Forall wf_tok (removelast acc ++ [TSub])).
        { destruct acc as [|t acc _] using rev_ind; [by repeat constructor|]. rewrite removelast_last.
          apply Forall_app in Hwf as [? _]. apply Forall_app. split; [done|by repeat constructor]. }
        destruct (last acc) as [[]|]; try (by apply Hsn). case_decide; [done|by apply Hsn].
      - simpl in Hn. case_decide; apply IH; simpl; try lia; by apply Hsn. }
    destruct (decide (c = c_q)); apply IH; try lia; by apply Hsn.
Qed.

(** ** The language of tokens *)
Inductive tm : list tok → string → Prop :=
| tm_nil : tm [] ""
| tm_cons t ts u v : tok_match t u = true → tm ts v → tm (t :: ts) (u +:+ v).
Lemma elem_cuts s : ∀ u v, (u, v) ∈ cuts s ↔ s = u +:+ v.
Proof.
  induction s as [|c s IH]; intros u v.
  - cbn [cuts]. rewrite elem_of_list_singleton. split; [by intros [= -> ->]|].
    intros H. symmetry in H. apply sapp_eq_nil in H as [-> ->]. done.
  - cbn [cuts]. rewrite elem_of_cons, elem_of_list_fmap. split.
    + intros [[= -> ->]|([a b] & [= -> ->] & Hin)]; [done|]. apply IH in Hin as ->. done.
    + intros H. destruct u as [|d u]; [left; by rewrite H|]. right. cbn [String.append] in H. injection H as -> H.
      exists (u, v). split; [done|]. by apply IH.
Qed.
Lemma toks_match_tm ts : ∀ s, toks_match ts s = true ↔ tm ts s.
Proof.
  induction ts as [|t ts IH]; intros s; cbn [toks_match].
  - rewrite bool_decide_eq_true. split; [intros ->; constructor|by inversion 1].
  - rewrite existsb_exists. split.
    + intros ([u v] & Hin%elem_of_list_In & [H1 H2]%andb_true_iff). apply elem_cuts in Hin as ->. constructor; [done|by apply IH].
    + inversion 1 as [|? ? u v Ht Hts]; subst. exists (u, v). split; [by apply elem_of_list_In, elem_cuts|].
      rewrite Ht. by apply IH.
Qed.
Lemma tm_app a b s : tm (a ++ b) s ↔ ∃ u v, s = u +:+ v ∧ tm a u ∧ tm b v.
Proof.
  revert s. induction a as [|t a IH]; intros s; cbn [app].
  - split.
    + intros H. exists "", s. split; [done|]. split; [constructor|done].
    + intros (u & v & -> & Hu & Hv). inversion Hu; subst. done.
  - split.
    + inversion 1 as [|? ? u v Ht Hts]; subst. apply IH in Hts as (u' & v' & -> & Hu & Hv).
      exists (u +:+ u'), v'. rewrite sapp_assoc. split; [done|]. split; [by constructor|done].
    + intros (u & v & -> & Hu & Hv). inversion Hu as [|? ? u1 u2 Ht Hts]; subst. rewrite sapp_assoc.
      constructor; [done|]. apply IH. eauto.
Qed.
Lemma tm_cons_iff t ts s : tm (t :: ts) s ↔ ∃ u v, s = u +:+ v ∧ tok_match t u = true ∧ tm ts v.
Proof.
  split; [inversion 1; subst; eauto|]. intros (u & v & -> & H1 & H2). by constructor.
Qed.
Lemma tm_one t s : tm [t] s ↔ tok_match t s = true.
Proof.
  rewrite tm_cons_iff. split.
  - intros (u & v & -> & H & Hv). inversion Hv; subst. by rewrite sapp_nil.
  - intros H. exists s, "". rewrite sapp_nil. split; [done|]. split; [done|constructor].
Qed.

(** ** Segments *)
Definition char_tok (c : ascii) : tok := if decide (c = c_star) then TSeg else if decide (c = c_q) then TOne else TLit c.
Fixpoint stoks (p : string) : list tok := match p with "" => [] | String c p => char_tok c :: stoks p end.

Lemma stoks_match p : contains_byte c_slash p = false → ∀ s, tm (stoks p) s ↔ seg_match p s ∧ contains_byte c_slash s = false.
Proof.
  induction p as [|c p IH]; intros Hp s; cbn [stoks].
  - split; [inversion 1; subst; split; [constructor|done]|]. intros [H _]. inversion H; subst. constructor.
  - rewrite contains_cons in Hp. apply orb_false_iff in Hp as [Hc Hp]. apply bool_decide_eq_false in Hc.
    rewrite tm_cons_iff. unfold char_tok. destruct (decide (c = c_star)) as [->|Hstar]; [|destruct (decide (c = c_q)) as [->|Hq]].
    + split.
      * intros (u & v & -> & Hu & Hv). apply IH in Hv as [Hv Hvs]; [|done]. simpl in Hu. apply negb_true_iff in Hu.
        split; [by constructor|]. by rewrite contains_app, Hu.
      * intros [H Hs]. inversion H as [|u p' s' Hm| |]; subst; [|done].
        rewrite contains_app in Hs. apply orb_false_iff in Hs as [Hu Hs]. exists u, s'. split; [done|].
        split; [simpl; by rewrite Hu|]. by apply IH.
    + split.
      * intros (u & v & -> & Hu & Hv). apply IH in Hv as [Hv Hvs]; [|done].
        cbn [tok_match] in Hu. apply andb_true_iff in Hu as [Hl%bool_decide_eq_true Hu%negb_true_iff].
        destruct u as [|x [|? ?]]; [done| |done]. split; [by apply sm_one|].
        change (String x "" +:+ v) with (String x v). rewrite contains_cons in *. rewrite Hvs.
        apply orb_false_iff in Hu as [-> _]. done.
      * intros [H Hs]. inversion H as [| |x p' s' Hm|]; subst; [|done].
        rewrite contains_cons in Hs. apply orb_false_iff in Hs as [Hx Hs]. exists (String x ""), s'. split; [done|].
        split; [|by apply IH]. cbn [tok_match]. rewrite bool_decide_eq_true_2 by done.
        rewrite contains_cons, Hx. done.
    + split.
      * intros (u & v & -> & Hu & Hv). apply IH in Hv as [Hv Hvs]; [|done]. simpl in Hu. apply bool_decide_eq_true in Hu as ->.
        split; [by apply sm_lit|]. change (String c "" +:+ v) with (String c v). rewrite contains_cons, Hvs.
        by rewrite bool_decide_eq_false_2.
      * intros [H Hs]. inversion H as [|u p' s' Hm|x p' s' Hm|c' p' s' H1 H2 Hm]; subst; [done|done|].
        rewrite contains_cons in Hs. apply orb_false_iff in Hs as [Hx Hs]. exists (String c ""), s'. split; [done|].
        split; [simpl; by apply bool_decide_eq_true_2|]. by apply IH.
Qed.

Fixpoint gtoks (segs : list string) : list tok :=
  match segs with
  | [] => []
  | s :: rest =>
    match rest with
    | [] => stoks s
    | r :: rest' =>
      if decide (s = "**") then TAnyDirLazy :: gtoks rest
      else match rest' with
      | [] => if decide (r = "**") then stoks s ++ [TSub] else stoks s ++ TLit c_slash :: gtoks rest
      | _ => stoks s ++ TLit c_slash :: gtoks rest
      end
    end
  end.

Lemma split_no_slash s : contains_byte c_slash s = false → split_byte c_slash s = [s].
Proof. apply split_byte_none. Qed.
Lemma seg_glob_single p ss : p ≠ "**" → seg_glob [p] ss ↔ ∃ s, ss = [s] ∧ seg_match p s.
Proof.
  intros Hp. split.
  - inversion 1 as [|? s ? ss' _ Hm Hg| |]; subst; [|done|done]. inversion Hg; subst. eauto.
  - intros (s & -> & Hm). constructor; [done|done|constructor].
Qed.
Lemma seg_glob_cons p ps ss : p ≠ "**" → seg_glob (p :: ps) ss ↔ ∃ s ss', ss = s :: ss' ∧ seg_match p s ∧ seg_glob ps ss'.
Proof.
  intros Hp. split.
  - inversion 1; subst; [eauto|done|done].
  - intros (s & ss' & -> & ? & ?). by constructor.
Qed.
Lemma seg_glob_star ps ss : seg_glob ("**" :: ps) ss ↔ ∃ pre ss', ss = pre ++ ss' ∧ seg_glob ps ss'.
Proof.
  split.
  - intros H. remember ("**" :: ps) as l eqn:E. induction H as [|p s ps' ss' Hne|ps' ss' H _|s ps' ss' H IH]; [done| | |].
    + by injection E as -> ->.
    + injection E as ->. by exists [], ss'.
    + injection E as ->. destruct (IH eq_refl) as (pre & t & -> & Ht). by exists (s :: pre), t.
  - intros (pre & t & -> & Ht). induction pre as [|s pre IH]; [by constructor|]. by constructor.
Qed.
Lemma seg_glob_nonempty ps : ps ≠ [] → ¬ (∃ k, ps = replicate (S k) "**") → ¬ seg_glob ps [].
Proof.
  induction ps as [|p ps IH]; [done|]. intros _ Hn H. inversion H as [| |ps' ss' Hg|]; subst.
  destruct ps as [|q ps]; [apply Hn; by exists 0|]. apply IH; [done| |done].
  intros [k Hk]. apply Hn. exists (S k). by rewrite Hk.
Qed.

Lemma whole_stars_tail s segs : whole_stars (s :: segs) → whole_stars segs.
Proof. intros H x Hx. apply H. by right. Qed.
Lemma not_two_tail s segs : ¬ ends_in_two_stars (s :: segs) → ¬ ends_in_two_stars segs.
Proof. intros H [pre ->]. apply H. by exists (s :: pre). Qed.

Lemma no_newline_spec u : no_newline u = true ↔ contains_byte newline u = false.
Proof. unfold no_newline. apply negb_true_iff. Qed.

Definition two_or_more (segs : list string) : Prop := segs ≠ ["**"].
Lemma star_tail_ok rest : rest ≠ [] → ¬ ends_in_two_stars ("**" :: rest) → ¬ ∃ k, rest = replicate (S k) "**".
Proof.
  intros Hne Hn [k ->]. apply Hn. exists (replicate k "**"). 
  change ("**" :: replicate (S k) "**") with (replicate (S (S k)) "**").
  replace (S (S k)) with (k + 2) by lia. by rewrite replicate_add.
Qed.
Lemma last_star_ok segs : segs ≠ [] → segs ≠ ["**"] → ¬ ends_in_two_stars segs → ¬ ∃ k, segs = replicate (S k) "**".
Proof.
  intros Hne H1 Hn [k ->]. destruct k as [|k]; [done|]. apply Hn. exists (replicate k "**").
  replace (S (S k)) with (k + 2) by lia. by rewrite replicate_add.
Qed.

Lemma gtoks_match segs : segs ≠ [] → segs ≠ ["**"] →
  Forall (λ s, contains_byte c_slash s = false) segs → ¬ ends_in_two_stars segs →
  ∀ s, contains_byte newline s = false → tm (gtoks segs) s ↔ seg_glob segs (split_byte c_slash s).
Proof.
  induction segs as [|p rest IH]; [done|]. intros _ Hns Hsl Hne2 s Hnl.
  apply Forall_cons in Hsl as [Hp Hsl]. cbn [gtoks]. destruct rest as [|r rest'].
  - assert (p ≠ "**") as Hp' by (intros ->; done). rewrite stoks_match by done.
    rewrite seg_glob_single by done. split.
    + intros [Hm Hs]. exists s. by rewrite split_no_slash.
    + intros (s' & Heq & Hm).
      assert (s = s') as <- by (rewrite <- (str_join_split c_slash s), Heq; done). split; [done|].
      apply (split_byte_parts c_slash s s). rewrite Heq. by left.
  - assert (tm (gtoks (r :: rest')) = tm (gtoks (r :: rest')) ) as _ by done.
    pose proof (not_two_tail _ _ Hne2) as Hne2'.
    destruct (decide (p = "**")) as [->|Hp'].
    + assert (r :: rest' ≠ ["**"]) as Hrr.
      { intros [= -> ->]. apply Hne2. by exists []. }
      rewrite tm_cons_iff, seg_glob_star. split.
      * intros (u & v & -> & Hu & Hv). rewrite contains_app in Hnl. apply orb_false_iff in Hnl as [Hnu Hnv].
        apply IH in Hv; [|done..]. cbn [tok_match] in Hu. apply orb_true_iff in Hu as [->%bool_decide_eq_true|[Hu _]%andb_true_iff].
        -- exists [], (split_byte c_slash v). done.
        -- apply has_suffix_spec in Hu as [w ->]. exists (split_byte c_slash w), (split_byte c_slash v). split; [|done].
           rewrite sapp_assoc. change ("/" +:+ v) with (String c_slash v). apply split_byte_app.
      * intros (pre & ss' & Heq & Hg).
        assert (ss' ≠ []) as Hss.
        { intros ->. eapply seg_glob_nonempty; [..|done]; [done|]. by apply star_tail_ok. }
        destruct pre as [|x pre] using rev_ind.
        { exists "", s. split; [done|]. split; [done|]. apply IH; try done. cbn [app] in Heq. by rewrite Heq. }
        clear IHpre. set (w := str_join "/" (pre ++ [x])). set (v := str_join "/" ss').
        assert (Forall (λ y, contains_byte c_slash y = false) ((pre ++ [x]) ++ ss')) as Hall.
        { apply Forall_forall. intros y Hy. apply (split_byte_parts c_slash s y). by rewrite Heq. }
        apply Forall_app in Hall as [Hall1 Hall2].
        assert (s = (w +:+ "/") +:+ v) as ->.
        { rewrite <- (str_join_split c_slash s), Heq. rewrite sapp_assoc. unfold w, v.
          assert (∀ l : list string, l ≠ [] → str_join "/" (l ++ ss') = str_join "/" l +:+ "/" +:+ str_join "/" ss') as Hj.
          { clear -Hss. induction l as [|y l IH]; [done|]. intros _. destruct l as [|z l].
            - cbn [app]. destruct ss' as [|q ss']; [done|]. by rewrite str_join_cons2.
            - cbn [app]. rewrite !str_join_cons2. cbn [app] in IH. rewrite IH by done. by rewrite !sapp_assoc. }
          apply Hj. by destruct pre. }
        rewrite contains_app in Hnl. apply orb_false_iff in Hnl as [Hnl1 Hnl2].
        exists (w +:+ "/"), v. split; [done|]. split.
        -- cbn [tok_match]. apply orb_true_iff. right. apply andb_true_iff. split; [apply has_suffix_snoc|by apply no_newline_spec].
        -- apply IH; try done. unfold v. rewrite split_join by done. done.
    + assert (tm (stoks p ++ TLit c_slash :: gtoks (r :: rest')) s ↔
        ∃ u v, s = u +:+ String c_slash v ∧ (seg_match p u ∧ contains_byte c_slash u = false) ∧ tm (gtoks (r :: rest')) v) as Hmid.
      { rewrite tm_app. split.
        - intros (u & v & -> & Hu & Hv). apply tm_cons_iff in Hv as (a & b & -> & Ha & Hb).
          apply bool_decide_eq_true in Ha as ->. exists u, b. split; [done|]. split; [by apply stoks_match|done].
        - intros (u & v & -> & Hu & Hv). exists u, (String c_slash v). split; [done|].
          split; [by apply stoks_match|]. apply tm_cons_iff. exists (String c_slash ""), v. split; [done|]. by split. }
      assert (r :: rest' ≠ ["**"] → tm (stoks p ++ TLit c_slash :: gtoks (r :: rest')) s ↔
        seg_glob (p :: r :: rest') (split_byte c_slash s)) as Hcase.
      { intros Hrr. rewrite Hmid, seg_glob_cons by done. split.
        - intros (u & v & -> & [Hm Hu] & Hv). rewrite split_byte_app, split_no_slash by done. cbn [app].
          exists u, (split_byte c_slash v). split; [done|]. split; [done|].
          apply IH; try done. rewrite contains_app, contains_cons in Hnl. apply orb_false_iff in Hnl as [_ [_ Hnl]%orb_false_iff]. done.
        - intros (u & ss' & Heq & Hm & Hg).
          assert (ss' ≠ []) as Hss.
          { intros ->. eapply seg_glob_nonempty; [..|done]; [done|]. by apply last_star_ok. }
          assert (s = u +:+ String c_slash (str_join "/" ss')) as ->.
          { rewrite <- (str_join_split c_slash s), Heq. destruct ss'; [done|]. by rewrite str_join_cons2. }
          assert (Forall (λ y, contains_byte c_slash y = false) (u :: ss')) as [Hu Hall]%Forall_cons.
          { apply Forall_forall. intros y Hy. apply (split_byte_parts c_slash (u +:+ String c_slash (str_join "/" ss')) y). by rewrite Heq. }
          exists u, (str_join "/" ss'). split; [done|]. split; [done|]. apply IH; try done.
          + rewrite contains_app, contains_cons in Hnl. apply orb_false_iff in Hnl as [_ [_ Hnl]%orb_false_iff]. done.
          + by rewrite split_join. }
      destruct rest' as [|x rest'']; [|by apply Hcase].
      destruct (decide (r = "**")) as [->|Hr]; [|apply Hcase; congruence].
      rewrite tm_app, seg_glob_cons by done. setoid_rewrite tm_one. split.
      * intros (u & v & -> & Hu & Hv). apply stoks_match in Hu as [Hm Hu]; [|done].
        cbn [tok_match] in Hv. apply orb_true_iff in Hv as [->%bool_decide_eq_true|[Hv _]%andb_true_iff].
        -- rewrite sapp_nil, split_no_slash by done. exists u, []. split; [done|]. split; [done|]. repeat constructor.
        -- apply has_prefix_spec in Hv as [w ->]. change ("/" +:+ w) with (String c_slash w).
           rewrite split_byte_app, split_no_slash by done. exists u, (split_byte c_slash w). split; [done|]. split; [done|].
           apply seg_glob_star. exists (split_byte c_slash w), []. rewrite app_nil_r. split; [done|constructor].
      * intros (u & ss' & Heq & Hm & _).
        assert (Forall (λ y, contains_byte c_slash y = false) (u :: ss')) as [Hu Hall]%Forall_cons.
        { apply Forall_forall. intros y Hy. apply (split_byte_parts c_slash s y). by rewrite Heq. }
        destruct ss' as [|y ss'].
        -- assert (s = u) as -> by (by rewrite <- (str_join_split c_slash s), Heq).
           exists u, "". rewrite sapp_nil. split; [done|]. split; [by apply stoks_match|done].
        -- assert (s = u +:+ String c_slash (str_join "/" (y :: ss'))) as Hs.
           { rewrite <- (str_join_split c_slash s), Heq. by rewrite str_join_cons2. }
           exists u, (String c_slash (str_join "/" (y :: ss'))). split; [done|]. split; [by apply stoks_match|].
           cbn [tok_match]. apply orb_true_iff. right. apply andb_true_iff. split; [by apply has_prefix_spec; exists (str_join "/" (y :: ss'))|].
           apply no_newline_spec. rewrite Hs, contains_app in Hnl. by apply orb_false_iff in Hnl as [_ ?].
Qed.

(** ** Tokens of a pattern, segment by segment *)
Lemma double_star_tail c s : ¬ double_star_inside (String c s) → ¬ double_star_inside s.
Proof. intros H (a & b & ->). apply H. by exists (String c a), b. Qed.
Lemma ctoks_segment seg : ∀ prev rest acc, ¬ double_star_inside seg → contains_byte c_slash seg = false →
  (rest = "" ∨ ∃ r, rest = String c_slash r) →
  ∃ prev', ctoks prev (seg +:+ rest) acc = ctoks prev' rest (acc ++ stoks seg).
Proof.
  induction seg as [|c seg IH]; intros prev rest acc Hd Hs Hr.
  - exists prev. by rewrite app_nil_r.
  - rewrite contains_cons in Hs. apply orb_false_iff in Hs as [Hc%bool_decide_eq_false Hs].
    pose proof (double_star_tail _ _ Hd) as Hd'.
    rewrite sapp_cons. cbn [stoks]. unfold char_tok. rewrite cons_middle, app_assoc. cbn [ctoks].
    destruct (decide (c = c_star)) as [->|Hstar].
    + destruct seg as [|c1 seg'].
      * cbn [String.append]. destruct Hr as [->|[r ->]].
        -- exists None. by rewrite app_nil_r.
        -- change ("" +:+ String c_slash r) with (String c_slash r). cbv beta iota. rewrite decide_False by done. cbn [stoks]. rewrite app_nil_r. by exists (Some c_star).
      * rewrite sapp_cons. rewrite decide_False.
        2:{ intros ->. apply Hd. by exists "", seg'. }
        rewrite <- sapp_cons. apply IH; done.
    + destruct (decide (c = c_q)); apply IH; done.
Qed.

Lemma whole_stars_head p rest : whole_stars (p :: rest) → p ≠ "**" → ¬ double_star_inside p.
Proof. intros H Hp. destruct (H p ltac:(left)); done. Qed.
Lemma ctoks_segments segs : segs ≠ [] → segs ≠ ["**"] → whole_stars segs →
  Forall (λ s, contains_byte c_slash s = false) segs → ¬ ends_in_two_stars segs →
  ∀ prev acc, ctoks prev (str_join "/" segs) acc = acc ++ gtoks segs.
Proof.
  induction segs as [|p rest IH]; [done|]. intros _ Hns Hw Hsl Hne2 prev acc.
  apply Forall_cons in Hsl as [Hp Hsl]. destruct rest as [|r rest'].
  - assert (p ≠ "**") as Hp' by (intros ->; done). cbn [str_join gtoks].
    destruct (ctoks_segment p prev "" acc) as [prev' H]; [by eapply whole_stars_head|done|by left|].
    rewrite sapp_nil in H. by rewrite H.
  - rewrite str_join_cons2. pose proof (not_two_tail _ _ Hne2) as Hne2'. pose proof (whole_stars_tail _ _ Hw) as Hw'.
    cbn [gtoks]. destruct (decide (p = "**")) as [->|Hp'].
    + change ("**" +:+ "/" +:+ str_join "/" (r :: rest')) with (String c_star (String c_star (String c_slash (str_join "/" (r :: rest'))))).
      cbn [ctoks]. rewrite !(decide_True (P := c_star = c_star)) by done. rewrite (decide_True (P := c_slash = c_slash)) by done.
      rewrite IH; [by rewrite <- app_assoc|done| |done|done|done].
      intros [= -> ->]. apply Hne2. by exists [].
    + change ("/" +:+ str_join "/" (r :: rest')) with (String c_slash (str_join "/" (r :: rest'))).
      destruct (ctoks_segment p prev (String c_slash (str_join "/" (r :: rest'))) acc) as [prev' ->];
        [by eapply whole_stars_head|done|right; by eexists|].
      assert (r :: rest' ≠ ["**"] → ctoks prev' (String c_slash (str_join "/" (r :: rest'))) (acc ++ stoks p) =
        acc ++ stoks p ++ TLit c_slash :: gtoks (r :: rest')) as Hcase.
      { intros Hrr. cbn [ctoks]. rewrite !decide_False by done. rewrite IH by done. by rewrite <- !app_assoc. }
      destruct rest' as [|x rest'']; [|by apply Hcase].
      destruct (decide (r = "**")) as [->|Hr]; [|apply Hcase; congruence].
      cbn [str_join ctoks]. rewrite !decide_False by done. rewrite !(decide_True (P := "*"%char = c_star)) by done.
      unfold end_star. rewrite decide_True by done. rewrite last_snoc, decide_True by done. rewrite removelast_last.
      by rewrite <- app_assoc.
Qed.
