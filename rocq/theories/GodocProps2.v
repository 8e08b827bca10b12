(** * C107 The documentation of a handler: which comment, and its two parts. *)
From Coq Require Import Ascii ZArith Lia.
From stdpp Require Import sorting.
From stdpp Require Import base numbers list strings gmap.
From Verif Require Import StrLib StrSplit PathModel PathSpec PathProofs PathProofs2 VerbModel VerbSpec VerbProofs PairModel PairProofs MountProofs DetModel ScanModel GodocModel GodocProps.

(** ** The words of a comment *)
(** The words of a text: maximal runs without white space, as an author reads them. *)
Inductive reads_words (cs : string) : string → list string → Prop :=
| rw_end gap : all_of cs gap → reads_words cs gap []
| rw_last gap w : all_of cs gap → w ≠ "" → solid cs w → reads_words cs (gap +:+ w) [w]
| rw_word gap w c s ws : all_of cs gap → w ≠ "" → solid cs w → mem_byte c cs = true → reads_words cs (String c s) ws → reads_words cs (gap +:+ w +:+ String c s) (w :: ws).

Lemma words_two cs c d s : words cs (String c (String d s)) = (if mem_byte c cs then words cs (String d s) else if mem_byte d cs then String c "" :: words cs (String d s) else match words cs (String d s) with w :: ws => String c w :: ws | [] => [String c ""] end).
Proof. done. Qed.
Lemma words_gap cs gap s : all_of cs gap → words cs (gap +:+ s) = words cs s.
Proof.
  induction gap as [|c gap IH]; intros H; [done|]. apply all_of_cons in H as [Hc H]. rewrite sapp_cons. cbn [words]. rewrite Hc. by apply IH.
Qed.
Lemma words_solid cs w s : w ≠ "" → solid cs w → (s = "" ∨ ∃ c t, s = String c t ∧ mem_byte c cs = true) → words cs (w +:+ s) = w :: words cs s.
Proof.
  intros N Hw Hs. induction w as [|c w IH]; [done|]. apply solid_cons in Hw as [Hc Hw]. rewrite sapp_cons. destruct w as [|d w].
  - change ("" +:+ s) with s. cbn [words]. rewrite Hc. destruct Hs as [->|(x & t & -> & Hx)]; [done|]. by rewrite Hx.
  - rewrite sapp_cons in *. assert (IH' := IH (ltac:(done)) Hw). apply solid_cons in Hw as [Hd Hw]. rewrite words_two, Hc, Hd. by rewrite IH'.

Qed.
Lemma reads_words_words cs s ws : reads_words cs s ws → words cs s = ws.
Proof.
  induction 1 as [gap H|gap w H N Hw|gap w c s ws H N Hw Hc R IH].
  - rewrite <- (sapp_nil gap). by rewrite words_gap.
  - rewrite words_gap by done. rewrite <- (sapp_nil w) at 1. rewrite words_solid; [done|done|done|by left].
  - rewrite words_gap by done. rewrite words_solid; [by rewrite IH|done|done|]. right. by exists c, s.
Qed.
Lemma skip_word_dec s : ∃ w, s = w +:+ skip_word s ∧ solid doc_spaces w ∧ (skip_word s = "" ∨ ∃ c t, skip_word s = String c t ∧ mem_byte c doc_spaces = true).
Proof.
  induction s as [|c s (w & E & Hw & H)].
  - exists "". split_and!; [done| |by left]. intros c a b E. by destruct a.
  - cbn [skip_word]. destruct (mem_byte c doc_spaces) eqn:Hc.
    + exists "". split_and!; [done| |right; by exists c, s]. intros x a b E0. by destruct a.
    + exists (String c w). rewrite sapp_cons. split_and!; [by rewrite <- E|by apply solid_cons|done].
Qed.
Lemma skip_words_spec n : ∀ s, words doc_spaces s = take n (words doc_spaces s) ++ words doc_spaces (skip_words n s).
Proof.
  induction n as [|n IH]; intros s; [done|]. cbn [skip_words]. destruct (trim_left_dec doc_spaces s) as (a & E & Ha).
  destruct (trim_left_head doc_spaces s) as [T|(c & t & T & Hc)]; rewrite T in *.
  - assert (W : words doc_spaces s = []) by (rewrite E; by rewrite words_gap). by rewrite W.
  - rewrite E. rewrite words_gap by done. destruct (skip_word_dec (String c t)) as (w & Ew & Hw & H). 
    assert (N : w ≠ ""). { intros ->. change ("" +:+ skip_word (String c t)) with (skip_word (String c t)) in Ew. rewrite <- Ew in H. destruct H as [?|(c' & t' & Ec & Hc')]; [done|]. injection Ec as -> ->. congruence. }
    remember (skip_word (String c t)) as s' eqn:Es. rewrite Ew. rewrite words_solid by done. cbn [take app]. by rewrite <- IH.
Qed.
Lemma words_tail cs s gap : all_of cs gap → words cs (s +:+ gap) = words cs s.
Proof.
  intros H. induction s as [|c s IH]; [change ("" +:+ gap) with gap; rewrite <- (sapp_nil gap); by rewrite words_gap|].
  rewrite sapp_cons. destruct s as [|d s].
  - change ("" +:+ gap) with gap in *. cbn [words]. destruct (mem_byte c cs); [done|]. destruct gap as [|x gap]; [done|]. apply all_of_cons in H as [Hx H]. rewrite Hx. by rewrite IH.
  - rewrite sapp_cons in *. rewrite !words_two. by rewrite IH.
Qed.
(** Every byte of white space in the text is one of the four. *)
Definition ordinary (s : string) : Prop := ∀ c a b, s = a +:+ String c b → mem_byte c spaces = true → mem_byte c doc_spaces = true.
Lemma trim_words s : ordinary s → words doc_spaces (trim_space s) = words doc_spaces s.
Proof.
  intros O. unfold trim_space. destruct (trim_any_dec spaces s) as (a & b & E & Ha & Hb). rewrite E at 2.
  assert (A : all_of doc_spaces a). { intros c x y ->. apply mem_spec. apply (O c x (y +:+ trim_any spaces s +:+ b)); [by rewrite E at 1; rewrite !sapp_assoc, sapp_cons|]. apply mem_spec. by apply (Ha c x y). }
  assert (B : all_of doc_spaces b). { intros c x y ->. apply mem_spec. apply (O c (a +:+ trim_any spaces s +:+ x) y); [by rewrite E at 1; rewrite !sapp_assoc|]. apply mem_spec. by apply (Hb c x y). }
  rewrite words_gap by done. by rewrite words_tail.
Qed.
Lemma skip_words_suffix n : ∀ s, ∃ p, s = p +:+ skip_words n s.
Proof.
  induction n as [|n IH]; intros s; [by exists ""|]. cbn [skip_words]. destruct (trim_left_dec doc_spaces s) as (a & E & _). destruct (trim_left_any doc_spaces s) as [|c t] eqn:T; [by exists a|].
  destruct (skip_word_dec (String c t)) as (w & Ew & _). destruct (IH (skip_word (String c t))) as [p Ep]. exists (a +:+ w +:+ p). rewrite !sapp_assoc, <- Ep, <- Ew. done.
Qed.
(** The description is the rest of the comment, word for word: the first sentence takes as many words as it has, none of the others is lost, repeated or changed. *)
Theorem C107_words syn text n k :
  ordinary text → syn text ≠ "" → reads_words spaces (syn text) n → reads_words doc_spaces text k →
  ∃ s d, split_synopsis syn text = (s, d) ∧ s = syn text ∧ (∃ p q, text = p +:+ d +:+ q) ∧ words doc_spaces d = drop (length n) k.
Proof.
  intros O N Rn Rk. apply reads_words_words in Rn, Rk. unfold split_synopsis. rewrite decide_False by done. eexists _, _. split; [reflexivity|]. split; [done|]. rewrite Rn. subst k.
  destruct (skip_words_suffix (length n) text) as [p Ep]. split.
  - unfold trim_space. destruct (trim_any_dec spaces (skip_words (length n) text)) as (a & b & E & _ & _). exists (p +:+ a), b. rewrite sapp_assoc, <- E. done.
  - rewrite trim_words.
    + assert (H := skip_words_spec (length n) text). rewrite <- (take_drop (length n) (words doc_spaces text)) in H at 1. by apply app_inv_head in H.
    + intros c a b E. apply (O c (p +:+ a) b). rewrite sapp_assoc, <- E. done.
Qed.
Print Assumptions C107_words.
(** The text up to the first full stop, for the cases below. *)
Fixpoint sentence (s : string) : string := match s with "" => "" | String c t => if decide (c = "."%char) then "." else String c (sentence t) end.
Example C107_words_case :
  split_synopsis sentence ("Pings  the" +:+ new_line +:+ "host. Then it" +:+ new_line +:+ "rests. ") = ("Pings  the" +:+ new_line +:+ "host.", "Then it" +:+ new_line +:+ "rests.").
Proof. reflexivity. Qed.
Example C107_words_reads : reads_words spaces "Pings  it." ["Pings"; "it."] ∧ ordinary "Pings  it.".
Proof.
  split.
  - apply (rw_word _ "" "Pings" " " " it."); [apply all_of_nil|done| |done|].
    + intros c a b E. repeat (destruct a as [|? a]; [by injection E as <- _|injection E as _ E]). by destruct a.
    + apply (rw_last _ "  " "it."); [repeat apply all_of_snoc_cons; [done..|apply all_of_nil]|done|].
      intros c a b E. repeat (destruct a as [|? a]; [by injection E as <- _|injection E as _ E]). by destruct a.
  - intros c a b E H. unfold doc_spaces. repeat (destruct a as [|? a]; [injection E as <- _; by vm_compute in H|injection E as _ E]). by destruct a.
Qed.

(** ** Which comment *)
(** The name as the extractor may render it: alone, with its package, with the package and the separator, or both. *)
Definition rendered (pkg name f : string) : Prop :=
  f = name ∨ pkg ≠ "" ∧ (f = pkg +:+ "." +:+ name ∨ f = pkg +:+ "-->" +:+ name ∨ f = pkg +:+ "-->" +:+ pkg +:+ "." +:+ name).
Lemma replace_none s : contains_byte ">" s = false → replace_sep s = s.
Proof.
  induction s as [|c s IH]; intros H; [done|]. rewrite contains_cons in H. apply orb_false_iff in H as [Hc H].
  assert (E : replace_sep (String c s) = String c (replace_sep s)).
  { destruct s as [|d [|e s]]; [by destruct c as [[] [] [] [] [] [] [] []]|destruct c as [[] [] [] [] [] [] [] []]; try done; by destruct d as [[] [] [] [] [] [] [] []]|].
    rewrite !contains_cons in H. apply orb_false_iff in H as [Hd H]. apply orb_false_iff in H as [He H]. apply bool_decide_eq_false in He.
    destruct (decide (c = "-"%char)) as [->|N]; [|cbn; destruct c as [[] [] [] [] [] [] [] []]; done].
    destruct (decide (d = "-"%char)) as [->|N]; [|destruct d as [[] [] [] [] [] [] [] []]; done].
    destruct e as [[] [] [] [] [] [] [] []]; done. }
  rewrite E. by rewrite IH.
Qed.
Lemma replace_sep_app a b : contains_byte ">" a = false → replace_sep (a +:+ "-->" +:+ b) = a +:+ "." +:+ replace_sep b.
Proof.
  induction a as [|c s IH]; intros H; [done|]. rewrite contains_cons in H. apply orb_false_iff in H as [Hc H].
  rewrite (sapp_cons c s ("-->" +:+ b)), (sapp_cons c s ("." +:+ replace_sep b)). rewrite <- (IH H).
  destruct (decide (c = "-"%char)) as [->|N]; [|destruct c as [[] [] [] [] [] [] [] []]; done].
  destruct s as [|d s]; [done|]. rewrite !sapp_cons. rewrite contains_cons in H. apply orb_false_iff in H as [Hd H].
  destruct (decide (d = "-"%char)) as [->|N]; [|destruct d as [[] [] [] [] [] [] [] []]; done].
  destruct s as [|e s]; [done|]. rewrite !sapp_cons. rewrite contains_cons in H. apply orb_false_iff in H as [He _]. apply bool_decide_eq_false in He.
  destruct e as [[] [] [] [] [] [] [] []]; done.
Qed.
Lemma cut_stop fuel pkg s : has_prefix (pkg +:+ ".") s = false → cut_pkg fuel pkg s = s.
Proof. intros H. destruct fuel; [done|]. cbn [cut_pkg]. by rewrite H. Qed.
Lemma cut_go fuel pkg s : cut_pkg (S fuel) pkg (pkg +:+ "." +:+ s) = cut_pkg fuel pkg s.
Proof.
  cbn [cut_pkg]. rewrite <- sapp_assoc. rewrite (proj2 (has_prefix_spec (pkg +:+ ".") _)) by eauto. by rewrite str_drop_app.
Qed.
Lemma name_read pkg name f : contains_byte ">" pkg = false → contains_byte ">" name = false → has_prefix (pkg +:+ ".") name = false → rendered pkg name f → handler_name (DRoute f pkg) = name.
Proof.
  intros Hp Hn Hh R. unfold handler_name. cbn [dr_function dr_package].
  assert (Hd : contains_byte ">" (pkg +:+ "." +:+ name) = false) by (rewrite !contains_app, Hp, Hn; done).
  destruct R as [->|[N [->|[->| ->]]]].
  - rewrite replace_none by done. destruct (decide (pkg = "")); [done|]. by apply cut_stop.
  - rewrite replace_none by done. rewrite decide_False by done. destruct (String.length _) as [|k] eqn:L; [rewrite !sapp_length in L; cbn in L; lia|]. rewrite cut_go. by apply cut_stop.
  - rewrite replace_sep_app, replace_none by done. rewrite decide_False by done. destruct (String.length _) as [|k] eqn:L; [rewrite !sapp_length in L; cbn in L; lia|]. rewrite cut_go. by apply cut_stop.
  - rewrite replace_sep_app, replace_none by done. rewrite decide_False by done. destruct (String.length _) as [|[|k]] eqn:L; [rewrite !sapp_length in L; cbn in L; lia..|]. rewrite !cut_go. by apply cut_stop.
Qed.
Lemma prefix_dot pkg s : contains_byte "." s = false → has_prefix (pkg +:+ ".") s = false.
Proof. intros H. apply not_true_iff_false. intros [t ->]%has_prefix_spec. rewrite !contains_app in H. change (contains_byte "." ".") with true in H. rewrite orb_true_r in H. done. Qed.
Lemma prefix_method pkg recv m : contains_byte "." recv = false → contains_byte "." m = false → pkg ≠ recv → has_prefix (pkg +:+ ".") (recv +:+ "." +:+ m) = false.
Proof.
  intros Hr Hm N. apply not_true_iff_false. intros [t E]%has_prefix_spec. rewrite sapp_assoc in E. change ("." +:+ m) with (String "." m) in E. change ("." +:+ t) with (String "." t) in E.
  assert (S1 := split_last_app "." recv m Hm). rewrite E in S1. destruct (split_last "." t) as [[a b]|] eqn:T.
  - apply split_last_some in T as [-> Hb]. assert (E2 : pkg +:+ String "." (a +:+ String "." b) = (pkg +:+ String "." a) +:+ String "." b) by (rewrite sapp_assoc; by rewrite sapp_cons).
    rewrite E2, split_last_app in S1 by done. injection S1 as <- _. rewrite contains_app, contains_cons in Hr. cbn in Hr. rewrite orb_true_r in Hr. done.
  - assert (Ht : contains_byte "." t = false). { apply not_true_iff_false. intros H. clear -T H. induction t as [|x t IH]; [done|]. cbn [split_last] in T. rewrite contains_cons in H. destruct (split_last "." t) as [[??]|]; [done|]. destruct (decide (x = "."%char)); [done|]. rewrite bool_decide_eq_false_2 in H by done. by apply IH. }
    rewrite split_last_app in S1 by done. injection S1 as -> _. done.
Qed.
Section which.
  Context (syn : string → string) (find_type : string → string → option (list dfield)) (method : string → string → string → option string) (function : string → string → option string) (implementers : string → list string).
  Notation comments := (handler_comments find_type method function implementers).
  Notation doc := (handler_doc syn find_type method function implementers).
  (** A handler that is a function gets that function's comment, in whichever of the four ways it is rendered. *)
  Theorem C107_function pkg name f hms c :
    contains_byte ">" pkg = false → contains_byte ">" name = false → contains_byte "." name = false → rendered pkg name f → function pkg name = Some c → comments (DRoute f pkg) hms = c.
  Proof.
    intros Hp Hn Hd R F. unfold handler_comments. rewrite (name_read pkg name f) by (try done; by apply prefix_dot). cbn [dr_package]. by rewrite split_last_none, F.
  Qed.
  (** A method value gets the comment of the method of its receiver, unless the package is named like the receiver's type. *)
  Theorem C107_method pkg recv m f hms c :
    contains_byte ">" pkg = false → contains_byte ">" recv = false → contains_byte ">" m = false → contains_byte "." recv = false → contains_byte "." m = false → pkg ≠ recv →
    rendered pkg (recv +:+ "." +:+ m) f → method pkg recv m = Some c → comments (DRoute f pkg) hms = c.
  Proof.
    intros Hp H1 H2 H3 H4 N R F. unfold handler_comments.
    rewrite (name_read pkg (recv +:+ "." +:+ m) f); [|done|rewrite !contains_app, H1, H2; done|by apply prefix_method|done]. cbn [dr_package]. change ("." +:+ m) with (String "." m). rewrite split_last_app by done.
    unfold receiver_type. rewrite split_last_none by done. by rewrite F.
  Qed.
  (** A method value on a struct field: the method of the named type of the first field of that name. *)
  Theorem C107_field pkg owner field m f hms c pre p n post :
    contains_byte ">" pkg = false → contains_byte ">" (owner +:+ "." +:+ field +:+ "." +:+ m) = false → contains_byte "." field = false → contains_byte "." m = false →
    has_prefix (pkg +:+ ".") (owner +:+ "." +:+ field +:+ "." +:+ m) = false → rendered pkg (owner +:+ "." +:+ field +:+ "." +:+ m) f →
    find_type pkg owner = Some (pre ++ DField field (Some (p, n)) :: post) → Forall (λ g, df_name g ≠ field) pre →
    method pkg n m = Some c → comments (DRoute f pkg) hms = c.
  Proof.
    intros Hp H1 H2 H3 N R T P F. unfold handler_comments. rewrite (name_read pkg _ f) by done. cbn [dr_package].
    assert (E : owner +:+ "." +:+ field +:+ "." +:+ m = (owner +:+ String "." field) +:+ String "." m) by (rewrite sapp_assoc; by rewrite sapp_cons). rewrite E.
    rewrite split_last_app by done. unfold receiver_type. rewrite split_last_app, T by done. rewrite filter_app.
    replace (filter (λ g : dfield, df_name g = field) pre) with ([] : list dfield).
    - rewrite app_nil_l, filter_cons_True by done. cbn [head]. by rewrite F.
    - symmetry. clear -P. induction P as [|x l Hx P IH]; [done|]. by rewrite filter_cons_False.
  Qed.
  (** The first of the framework's handler methods that a type has. *)
  Definition serves (pkg recv : string) (hms : list string) (c : string) : Prop := ∃ pre hm post, hms = pre ++ hm :: post ∧ method pkg recv hm = Some c ∧ ∀ h, h ∈ pre → method pkg recv h = None.
  Lemma first_method_spec pkg recv hms c : first_method method pkg recv hms = Some c ↔ serves pkg recv hms c.
  Proof.
    unfold first_method. split.
    - induction hms as [|h hms IH]; [done|]. cbn. destruct (method pkg recv h) as [c'|] eqn:M.
      + intros [= ->]. exists [], h, hms. split_and!; [done|done|]. intros ? []%elem_of_nil.
      + intros (pre & hm & post & -> & Hc & P)%IH. exists (h :: pre), hm, post. split_and!; [done|done|]. intros x [->|Hx]%elem_of_cons; [done|by apply P].
    - intros (pre & hm & post & -> & Hc & P). induction pre as [|h pre IH]; cbn; [by rewrite Hc|]. rewrite (P h) by (by left). apply IH. intros x Hx. apply P. by right.
  Qed.
  (** A handler passed as a value of a type of the package: the first configured handler method of that type. *)
  Theorem C107_value pkg name f hms c :
    contains_byte ">" pkg = false → contains_byte ">" name = false → contains_byte "." name = false → name ≠ "" → rendered pkg name f →
    function pkg name = None → serves pkg name hms c → comments (DRoute f pkg) hms = c.
  Proof.
    intros Hp Hn Hd Ne R F M. unfold handler_comments. rewrite (name_read pkg name f) by (try done; by apply prefix_dot). cbn [dr_package]. rewrite split_last_none, F by done.
    unfold value_comments. rewrite decide_False. 2:{ intros [->|?]; [|done]. destruct M as (pre & ? & ? & E & _). by destruct pre. }
    unfold receiver_type. rewrite split_last_none by done. apply first_method_spec in M. by rewrite M.
  Qed.
  (** A value of an interface type of another package: the comment of the sole implementer's handler method, and none if there are several. *)
  Theorem C107_interface pkg name f hms :
    contains_byte ">" pkg = false → contains_byte ">" name = false → has_prefix (pkg +:+ ".") name = false → (∃ p n, name = p +:+ "." +:+ n ∧ contains_byte "." n = false ∧ find_type pkg p = None ∧ (∀ recv, method pkg recv n = None) ∧ (∀ h, h ∈ hms → method pkg n h = None)) →
    rendered pkg name f →
    (∀ ip iname c, implementers name = [ip +:+ "." +:+ iname] → contains_byte "." iname = false → serves ip iname hms c → comments (DRoute f pkg) hms = c) ∧
    (length (implementers name) ≠ 1 → comments (DRoute f pkg) hms = "").
  Proof.
    intros Hp Hn Hh (p & n & E & Hd & T & M & P) R. unfold handler_comments. rewrite (name_read pkg name f) by done. cbn [dr_package].
    assert (SL : split_last "." name = Some (p, n)) by (rewrite E; change ("." +:+ n) with (String "." n); by apply split_last_app). rewrite SL, M.
    assert (V : hms ≠ [] → value_comments find_type method implementers pkg name hms = match implementers name with [i] => match split_last "." i with Some (q, k) => default "" (first_method method q k hms) | None => "" end | _ => "" end).
    { intros Nh. unfold value_comments. rewrite decide_False by (intros [?|E0]; [done|]; by rewrite E0 in SL). unfold receiver_type, value_type_key. rewrite SL, T.
      destruct (first_method method pkg n hms) as [c|] eqn:Fm; [|by rewrite decide_True].
      apply first_method_spec in Fm as (pre & hm & post & Eh & Hc & _). rewrite (P hm) in Hc; [done|]. rewrite Eh. apply elem_of_app. right. by left. }
    split.
    - intros ip iname c I Hi S1. rewrite V by (intros ->; destruct S1 as (pre & ? & ? & E1 & _); by destruct pre). rewrite I. change ("." +:+ iname) with (String "." iname). rewrite split_last_app by done.
      apply first_method_spec in S1. by rewrite S1.
    - intros L. destruct (decide (hms = [])) as [->|Nh]; [unfold value_comments; by rewrite decide_True by (by left)|]. rewrite V by done. by destruct (implementers name) as [|? [|??]].
  Qed.
  (** A field of an interface type of another package, passed as a value: again the sole implementer's handler method, looked up by the full name of the field's type. *)
  Theorem C107_field_interface pkg owner field f hms pre p n post :
    let name := owner +:+ "." +:+ field in
    contains_byte ">" pkg = false → contains_byte ">" name = false → has_prefix (pkg +:+ ".") name = false → contains_byte "." field = false → rendered pkg name f →
    find_type pkg owner = Some (pre ++ DField field (Some (p, n)) :: post) → Forall (λ g, df_name g ≠ field) pre → p ≠ "" →
    (∀ recv, method pkg recv field = None) → (∀ h, h ∈ hms → method pkg n h = None) →
    (∀ ip iname c, implementers (p +:+ "." +:+ n) = [ip +:+ "." +:+ iname] → contains_byte "." iname = false → serves ip iname hms c → comments (DRoute f pkg) hms = c) ∧
    (length (implementers (p +:+ "." +:+ n)) ≠ 1 → comments (DRoute f pkg) hms = "").
  Proof.
    intros name Hp Hn Hh Hd R T P Np M Ph. unfold handler_comments. rewrite (name_read pkg name f) by done. cbn [dr_package].
    assert (SL : split_last "." name = Some (owner, field)) by (unfold name; change ("." +:+ field) with (String "." field); by apply split_last_app). rewrite SL, M.
    assert (V : hms ≠ [] → value_comments find_type method implementers pkg name hms = match implementers (p +:+ "." +:+ n) with [i] => match split_last "." i with Some (q, k) => default "" (first_method method q k hms) | None => "" end | _ => "" end).
    { intros Nh. unfold value_comments. rewrite decide_False by (intros [?|E0]; [done|]; by rewrite E0 in SL).
      assert (RT : receiver_type find_type pkg name = n).
      { unfold receiver_type. rewrite SL, T, filter_app. replace (filter (λ g : dfield, df_name g = field) pre) with ([] : list dfield).
        - by rewrite app_nil_l, filter_cons_True.
        - symmetry. clear -P. induction P as [|x l Hx P IH]; [done|]. by rewrite filter_cons_False. }
      assert (VK : value_type_key find_type pkg name = p +:+ "." +:+ n).
      { unfold value_type_key. rewrite SL, T. clear -P Np. induction P as [|x l Hx P IH]; cbn.
        - rewrite decide_True by done. rewrite decide_False by done. done.
        - rewrite decide_False by done. done. }
      rewrite RT, VK. rewrite (decide_False (P := p +:+ "." +:+ n = "")) by (destruct p; [done|by rewrite sapp_cons]).
      destruct (first_method method pkg n hms) as [c|] eqn:Fm; [|done].
      apply first_method_spec in Fm as (pr & hm & po & Eh & Hc & _). rewrite (Ph hm) in Hc; [done|]. rewrite Eh. apply elem_of_app. right. by left. }
    split.
    - intros ip iname c I Hi S1. rewrite V by (intros ->; destruct S1 as (pr & ? & ? & E1 & _); by destruct pr). rewrite I. change ("." +:+ iname) with (String "." iname). rewrite split_last_app by done.
      apply first_method_spec in S1. by rewrite S1.
    - intros L. destruct (decide (hms = [])) as [->|Nh]; [unfold value_comments; by rewrite decide_True by (by left)|]. rewrite V by done. by destruct (implementers (p +:+ "." +:+ n)) as [|? [|??]].
  Qed.
  (** The operation's summary and description: from the annotations if the comment has any, else its first sentence and the rest; a comment without a sentence is the summary whole; no
      comment, no documentation. *)
  Theorem C107_doc r hms :
    let c := comments r hms in
    (dr_function r = "" ∨ c = "" → doc r hms = ("", "")) ∧
    (dr_function r ≠ "" → c ≠ "" →
      (∀ s d, swaggo_doc syn c = Some (s, d) → doc r hms = (s, d)) ∧
      (Forall plain (doc_lines c) → syn c ≠ "" → doc r hms = split_synopsis syn c) ∧
      (Forall plain (doc_lines c) → syn c = "" → doc r hms = (c, ""))).
  Proof.
    intros c. subst c. unfold handler_doc. split.
    - intros [H|H]; [by rewrite (decide_True (P := dr_function r = "")) by done|]. rewrite H. by destruct (decide (dr_function r = "")).
    - intros Nf Nc. rewrite (decide_False (P := dr_function r = "")) by done. rewrite (decide_False (P := comments r hms = "")) by done.
      assert (P : Forall plain (doc_lines (comments r hms)) → swaggo_doc syn (comments r hms) = None).
      { intros F. destruct (C107_swaggo syn (comments r hms)) as (lead & bs & L & ->). assert (L' : laid_out (doc_lines (comments r hms)) (doc_lines (comments r hms)) []) by (split_and!; [cbn; by rewrite app_nil_r|done|constructor]).
        destruct (C107_layout _ _ _ _ _ L L') as [_ ->]. done. }
      split_and!.
      + by intros s d ->.
      + intros F S1. rewrite (P F), split_first. by rewrite decide_False.
      + intros F S1. rewrite (P F), split_first. by rewrite decide_True.
  Qed.
End which.
Print Assumptions C107_function.
Print Assumptions C107_method.
Print Assumptions C107_field.
Print Assumptions C107_value.
Print Assumptions C107_interface.
Print Assumptions C107_field_interface.
Print Assumptions C107_doc.

(** ** Cases *)
Definition ping_types (pkg name : string) : option (list dfield) := if decide (pkg = "api" ∧ name = "Deps") then Some [DField "Log" None; DField "Health" (Some ("api", "HealthHandler")); DField "Users" (Some ("users", "Handler")); DField "Web" (Some ("net/http", "Handler"))] else None.
Definition ping_methods (pkg recv m : string) : option string :=
  if decide ((pkg, recv, m) = ("api", "HealthHandler", "Ping")) then Some "Pings."
  else if decide ((pkg, recv, m) = ("users", "Handler", "List")) then Some "Lists users."
  else if decide ((pkg, recv, m) = ("api", "Handler", "List")) then Some "Lists the handlers."
  else if decide ((pkg, recv, m) = ("web", "Page", "ServeHTTP")) then Some "Serves."
  else if decide ((pkg, recv, m) = ("Health", "Health", "Ping")) then Some "Checks." else None.
Definition ping_functions (pkg name : string) : option string := if decide ((pkg, name) = ("api", "List")) then Some "Lists all." else if decide ((pkg, name) = ("Health", "Ping")) then Some "Another ping." else None.
Definition ping_impls (key : string) : list string := if decide (key = "net/http.Handler") then ["web.Page"] else [].
Notation ping_comments := (handler_comments ping_types ping_methods ping_functions ping_impls).
Example C107_which_cases :
  ping_comments (DRoute "api.List" "api") [] = "Lists all." ∧ ping_comments (DRoute "api-->api.HealthHandler.Ping" "api") [] = "Pings." ∧
  ping_comments (DRoute "api-->Deps.Health.Ping" "api") [] = "Pings." ∧ ping_comments (DRoute "net/http.Handler" "api") ["ServeHTTP"] = "Serves." ∧
  ping_comments (DRoute "api-->Deps.Web" "api") ["ServeHTTP"] = "Serves." ∧ ping_comments (DRoute "api-->Deps.Users" "api") ["ServeHTTP"] = "" ∧
  ping_comments (DRoute "Page" "web") ["Handle"; "ServeHTTP"] = "Serves.".
Proof. split_and!; reflexivity. Qed.
Example C107_doc_case : handler_doc sentence ping_types ping_methods ping_functions ping_impls (DRoute "api.List" "api") [] = ("Lists all.", "").
Proof. reflexivity. Qed.

(** ** Refuted *)
(** "A method value on a field is documented by the method of the field's type": the package of that type is not used. Where the handler's package has a type of the same name
    and method, its comment is taken instead. *)
Theorem C107_type_package_refuted :
  ∃ find_type method function implementers pkg owner field p n m c c',
    find_type pkg owner = Some [DField field (Some (p, n))] ∧ method p n m = Some c ∧ p ≠ pkg ∧
    handler_comments find_type method function implementers (DRoute (pkg +:+ "-->" +:+ owner +:+ "." +:+ field +:+ "." +:+ m) pkg) [] = c' ∧ c' ≠ c ∧ c' ≠ "".
Proof.
  exists (λ pkg name, if decide (name = "Deps") then Some [DField "Users" (Some ("users", "Handler"))] else None), ping_methods, ping_functions, ping_impls, "api", "Deps", "Users", "users", "Handler", "List", "Lists users.", "Lists the handlers.".
  split_and!; by try reflexivity.
Qed.
Print Assumptions C107_type_package_refuted.
(** "A method value gets its method's comment": not where the package and the receiver's type have one name, since that name is cut off as often as it stands in front; the
    comment of a function of the method's name is taken. *)
Theorem C107_same_name_refuted :
  ∃ find_type method function implementers pkg recv m c c',
    method pkg recv m = Some c ∧ contains_byte "." recv = false ∧ handler_comments find_type method function implementers (DRoute (pkg +:+ "-->" +:+ pkg +:+ "." +:+ recv +:+ "." +:+ m) pkg) [] = c' ∧ c' ≠ c ∧ c' ≠ "".
Proof. exists ping_types, ping_methods, ping_functions, ping_impls, "Health", "Health", "Ping", "Checks.", "Another ping.". split_and!; by try reflexivity. Qed.
Print Assumptions C107_same_name_refuted.
(** "Prose is kept": above annotations, only its first sentence, and only if there is no @Summary. *)
Theorem C107_lead_refuted :
  ∃ syn text text', swaggo_doc syn text = Some ("Pings.", "") ∧ swaggo_doc syn text' = Some ("P", "") ∧
    doc_lines text = ["Pings. Needs a token."; "@Router /ping"] ∧ doc_lines text' = ["Pings. Needs a token."; "@Summary P"].
Proof.
  exists sentence, ("Pings. Needs a token." +:+ new_line +:+ "@Router /ping"), ("Pings. Needs a token." +:+ new_line +:+ "@Summary P"). split_and!; reflexivity.
Qed.
Print Assumptions C107_lead_refuted.
(** Words are separated by blanks, tabs, new lines and carriage returns. *)
Theorem C107_separators c : mem_byte c doc_spaces = true ↔ c = " "%char ∨ c = "009"%char ∨ c = "010"%char ∨ c = "013"%char.
Proof. destruct c as [[] [] [] [] [] [] [] []]; vm_compute; intuition discriminate. Qed.
Print Assumptions C107_separators.
