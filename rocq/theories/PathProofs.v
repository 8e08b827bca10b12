(** * Proofs about paths. *)
From Coq Require Import Ascii.
From stdpp Require Import sorting.
From stdpp Require Import base list strings gmap.
From Verif Require Import StrOrder StrLib StrSplit DecLib RouteModel PairProofs PathModel PathSpec.

Lemma free_of_spec c s : free_of c s ↔ contains_byte c s = false.
Proof.
  induction s as [|x s IH].
  - split; [done|]. intros _ (a & b & H). by destruct a.
  - cbn [contains_byte str_any]. unfold contains_byte in *. cbn [str_any]. split.
    + intros H. apply orb_false_iff. split.
      * apply bool_decide_eq_false. intros ->. apply H. by exists "", s.
      * apply IH. intros (a & b & ->). apply H. by exists (String x a), b.
    + intros [H1%bool_decide_eq_false H2]%orb_false_iff (a & b & H). destruct a as [|y a].
      * injection H as -> _. done.
      * injection H as -> H. apply IH in H2. apply H2. eauto.
Qed.
Lemma free_cons c x s : free_of c (String x s) ↔ x ≠ c ∧ free_of c s.
Proof.
  rewrite !free_of_spec. unfold contains_byte. cbn. rewrite orb_false_iff, bool_decide_eq_false. done.
Qed.
Lemma free_app c s t : free_of c (s +:+ t) ↔ free_of c s ∧ free_of c t.
Proof. rewrite !free_of_spec. unfold contains_byte. by rewrite str_any_app, orb_false_iff. Qed.
Lemma ident_start_char c : ident_start c = true → ident_char c = true.
Proof. unfold ident_char. by intros ->. Qed.
Lemma ident_char_brace c : ident_char c = true → c ≠ c_lbrace ∧ c ≠ c_rbrace ∧ c ≠ c_colon.
Proof. intros H. repeat split; intros ->; by vm_compute in H. Qed.
Lemma ident_chars_free d s : ident_char d = false → str_any (λ c, negb (ident_char c)) s = false → free_of d s.
Proof.
  intros Hd. induction s as [|x s IH]; intros H.
  - intros (a & b & He). by destruct a.
  - cbn in H. apply orb_false_iff in H as [H1%negb_false_iff H2]. apply free_cons. split; [congruence|by apply IH].
Qed.
Lemma ident_free d n : ident_char d = false → ident n → free_of d n.
Proof.
  intros Hd (c & s & -> & Hc & Hs). apply free_cons. split; [|by apply ident_chars_free].
  apply ident_start_char in Hc. congruence.
Qed.

(** ** Braces *)
Definition prefix_res (s : string) (r : option (string * string)) : option (string * string) :=
  match r with Some (a, b) => Some (s +:+ a, b) | None => None end.
Lemma close_balanced s : balanced s → ∀ d t, close_brace d (s +:+ t) = prefix_res s (close_brace d t).
Proof.
  induction 1 as [|c s H1 H2 Hs IH|s t Hs IHs Ht IHt]; intros d u.
  - change ("" +:+ u) with u. by destruct (close_brace d u) as [[? ?]|].
  - rewrite sapp_cons. cbn [close_brace]. rewrite decide_False, decide_False, IH by done.
    by destruct (close_brace d u) as [[? ?]|].
  - rewrite sapp_cons. cbn [close_brace]. rewrite decide_True by done. rewrite sapp_assoc, IHs, sapp_cons.
    cbn [close_brace]. rewrite decide_False, decide_True by done. rewrite IHt.
    destruct (close_brace d u) as [[a b]|]; [|done]. cbn [prefix_res]. do 2 f_equal.
    by rewrite !sapp_cons, sapp_assoc, sapp_cons.
Qed.
Lemma balanced_free s : free_of c_lbrace s → free_of c_rbrace s → balanced s.
Proof.
  induction s as [|c s IH]; [constructor|]. intros [H1 H2]%free_cons [H3 H4]%free_cons. constructor; [done..|by apply IH].
Qed.
Lemma balanced_app s t : balanced s → balanced t → balanced (s +:+ t).
Proof.
  induction 1 as [|c s H1 H2 Hs IH|s u Hs IHs Hu IHu]; intros Ht; [done| |].
  - rewrite sapp_cons. constructor; [done..|by apply IH].
  - rewrite sapp_cons, sapp_assoc, sapp_cons. constructor; [done|by apply IHu].
Qed.
Lemma close_here s t : balanced s → close_brace 0 (s +:+ String c_rbrace t) = Some (s, t).
Proof.
  intros H. rewrite close_balanced by done. cbn [close_brace]. rewrite decide_False, decide_True by done.
  cbn. by rewrite sapp_nil.
Qed.
Lemma before_colon_free s : free_of c_colon s → before_colon s = s.
Proof. intros H%free_of_spec. by apply take_until_none. Qed.
Lemma before_colon_app s t : free_of c_colon s → before_colon (s +:+ String c_colon t) = s.
Proof.
  intros H%free_of_spec. unfold before_colon. rewrite take_until_app. unfold contains_byte in H. rewrite H. cbn.
  by rewrite sapp_nil.
Qed.
Lemma after_colon_app s t : free_of c_colon s → after_colon (s +:+ String c_colon t) = t.
Proof.
  intros H. unfold after_colon. rewrite before_colon_app by done.
  change (s +:+ String c_colon t) with (s +:+ (String c_colon "" +:+ t)). rewrite <- sapp_assoc.
  replace (S (String.length s)) with (String.length (s +:+ String c_colon "")) by (rewrite sapp_length; cbn; lia).
  apply str_drop_app.
Qed.
Lemma drop_over n s : String.length s ≤ n → str_drop n s = "".
Proof.
  revert n. induction s as [|c s IH]; intros [|n] H; cbn in *; try done; [lia|]. apply IH. lia.
Qed.
Lemma after_colon_free s : free_of c_colon s → after_colon s = "".
Proof. intros H. unfold after_colon. rewrite before_colon_free by done. apply drop_over. lia. Qed.

(** ** Stripping constraints *)
Lemma strip_lit fuel s t : free_of c_lbrace s → strip_loop (String.length s + fuel) (s +:+ t) = s +:+ strip_loop fuel t.
Proof.
  induction s as [|c s IH]; intros H; [done|]. apply free_cons in H as [H1 H2]. rewrite !sapp_cons.
  cbn [String.length plus strip_loop]. rewrite decide_False by done. by rewrite IH.
Qed.
Lemma strip_loop_enough fuel fuel' s : String.length s ≤ fuel → String.length s ≤ fuel' → strip_loop fuel s = strip_loop fuel' s.
Proof.
  revert fuel' s. induction fuel as [|fuel IH]; intros fuel' s H1 H2.
  - destruct s; [|cbn in H1; lia]. by destruct fuel'.
  - destruct fuel' as [|fuel']; [destruct s; [done|cbn in H2; lia]|]. destruct s as [|c s]; [done|]. cbn in H1, H2. cbn [strip_loop].
    case_decide; [|f_equal; apply IH; lia].
    destruct (close_brace 0 s) as [[inner rest]|] eqn:E; [|done]. do 3 f_equal.
    assert (String.length rest ≤ String.length s) as Hl.
    { clear -E. revert E. generalize 0. revert inner rest. induction s as [|c s IH]; intros inner rest d E; [done|].
      cbn [close_brace] in E. case_decide; [|case_decide; [destruct d as [|d]|]].
      - destruct (close_brace (S d) s) as [[a b]|] eqn:E'; [|done]. injection E as <- <-. apply IH in E'. cbn. lia.
      - injection E as <- <-. cbn. lia.
      - destruct (close_brace d s) as [[a b]|] eqn:E'; [|done]. injection E as <- <-. apply IH in E'. cbn. lia.
      - destruct (close_brace d s) as [[a b]|] eqn:E'; [|done]. injection E as <- <-. apply IH in E'. cbn. lia. }
    apply IH; lia.
Qed.
(** The loop with enough fuel. *)
Definition strip (s : string) : string := strip_loop (String.length s) s.
Lemma strip_eq path : strip_param_patterns path = strip path.
Proof.
  unfold strip_param_patterns. destruct (contains_byte c_lbrace path) eqn:E; [done|].
  apply free_of_spec in E. pose proof (strip_lit 0 path "" E) as H. rewrite Nat.add_0_r, !sapp_nil in H. by symmetry.
Qed.
Lemma strip_text s t : free_of c_lbrace s → strip (s +:+ t) = s +:+ strip t.
Proof. intros H. unfold strip at 1. rewrite sapp_length, strip_lit by done. done. Qed.
Lemma strip_group inner rest : balanced inner →
  strip (String c_lbrace (inner +:+ String c_rbrace rest)) = String c_lbrace (before_colon inner +:+ String c_rbrace (strip rest)).
Proof.
  intros H. unfold strip at 1. cbn [String.length strip_loop]. rewrite decide_True, close_here by done. do 3 f_equal.
  apply strip_loop_enough; rewrite ?sapp_length; cbn; lia.
Qed.

Definition strip_piece (p : piece) : piece := match p with Brace n _ => Brace n None | _ => p end.
Lemma strip_show ps : well_formed ps → strip (show ps) = show (strip_piece <$> ps).
Proof.
  induction ps as [|p ps IH]; [done|]. intros (Hp & Hps & _). rewrite fmap_cons. cbn [show foldr]. fold (show ps).
  fold (show (strip_piece <$> ps)). rewrite <- IH by done. destruct p as [s|n|n [r|]]; cbn [piece_ok strip_piece show_piece] in *.
  - rewrite strip_text; [done|tauto].
  - rewrite strip_text; [done|]. apply free_cons. split; [done|]. by apply ident_free.
  - destruct Hp as (H1 & H2 & H3 & H4).
    transitivity (strip (String c_lbrace ((n +:+ String c_colon r) +:+ String c_rbrace (show ps)))).
    { f_equal. rewrite !sapp_cons, !sapp_assoc, !sapp_cons, !sapp_assoc, sapp_cons. done. }
    rewrite strip_group; [|apply balanced_app; [by apply balanced_free|]; by constructor].
    rewrite before_colon_app by done. rewrite !sapp_cons, !sapp_assoc, sapp_cons. done.
  - destruct Hp as (H1 & H2 & H3 & _). rewrite !sapp_cons, !sapp_assoc, sapp_cons. change ("" +:+ ?x) with x.
    rewrite strip_group by (by apply balanced_free). by rewrite before_colon_free.
Qed.

(** ** Colons *)
Lemma colon_text s t : free_of c_colon s → colon_replace false (s +:+ t) = s +:+ colon_replace false t.
Proof.
  induction s as [|c s IH]; intros H; [done|]. apply free_cons in H as [H1 H2]. rewrite !sapp_cons. cbn [colon_replace andb].
  rewrite bool_decide_eq_false_2 by done. cbn [andb]. by rewrite IH.
Qed.
Lemma colon_inside s t : str_any (λ c, negb (ident_char c)) s = false →
  colon_replace true (s +:+ t) = s +:+ colon_replace true t.
Proof.
  induction s as [|c s IH]; intros H; [done|]. cbn in H. apply orb_false_iff in H as [H1%negb_false_iff H2].
  rewrite !sapp_cons. cbn [colon_replace andb]. rewrite H1. by rewrite IH.
Qed.
Lemma colon_leave s : (match s with String c _ => ident_char c = false | "" => True end) →
  colon_replace true s = String c_rbrace (colon_replace false s).
Proof. destruct s as [|c s]; [done|]. intros H. cbn [colon_replace andb]. by rewrite H. Qed.
Lemma show_head ps c s : show ps = String c s → well_formed ps →
  match ps with Lit (String x _) :: _ => c = x | Colon _ :: _ => c = c_colon | Brace _ _ :: _ => c = c_lbrace | _ => False end.
Proof.
  destruct ps as [|[[|x l]|n|n [r|]] ps]; cbn; intros H Hwf; try done.
  - by destruct Hwf as ((? & _) & _).
  - by injection H as -> _.
  - by injection H as -> _.
  - by injection H as -> _.
  - by injection H as -> _.
Qed.
Lemma colon_show ps : well_formed ps → Forall (λ p, match p with Brace _ (Some _) => False | _ => True end) ps →
  colon_replace false (show ps) = show (openapi ps).
Proof.
  induction ps as [|p ps IH]; [done|]. intros (Hp & Hps & Hj) [Hb Hbs]%Forall_cons. unfold openapi in *. rewrite fmap_cons.
  cbn [show foldr]. fold (show ps). fold (show (openapi_piece <$> ps)). rewrite <- IH by done.
  destruct p as [s|n|n [r|]]; [| |done|]; cbn [piece_ok openapi_piece show_piece] in *.
  - rewrite colon_text; [done|tauto].
  - rewrite !sapp_cons, !sapp_assoc. destruct Hp as (c & s & -> & Hc & Hs). rewrite !sapp_cons. cbn [colon_replace andb starts_ident].
    rewrite Hc, bool_decide_eq_true_2 by done. cbn [andb]. f_equal. rewrite (ident_start_char _ Hc). f_equal.
    rewrite colon_inside by done. f_equal. rewrite colon_leave; [done|].
    destruct (show ps) as [|d u] eqn:E; [done|]. pose proof (show_head _ _ _ E Hps) as Hh.
    destruct ps as [|[[|x l]|m|m o] ps]; try done; subst; done.
  - destruct Hp as (H1 & H2 & H3 & _). rewrite colon_text; [done|].
    apply free_cons. split; [done|]. apply free_app. split; [done|]. apply free_cons. split; [done|]. intros (a & b & ?). by destruct a.
Qed.
Lemma well_formed_strip ps : well_formed ps → well_formed (strip_piece <$> ps).
Proof.
  induction ps as [|p ps IH]; [done|]. intros (Hp & Hps & Hj). rewrite fmap_cons. split; [|split; [by apply IH|]].
  - by destruct p as [s|n|n [r|]]; cbn in *; [..|naive_solver|].
  - destruct p as [s|n|n o]; [done| |done]. destruct ps as [|[[|x l]|m|m o] ps]; done.
Qed.
Lemma openapi_strip ps : openapi (strip_piece <$> ps) = openapi ps.
Proof. unfold openapi. rewrite <- list_fmap_compose. apply list_fmap_ext. by intros ? [s|n|n [r|]] ?. Qed.
Lemma convert_show ps : well_formed ps → convert_path (show ps) = show (openapi ps).
Proof.
  intros H. unfold convert_path. rewrite strip_eq, strip_show by done.
  rewrite colon_show; [by rewrite openapi_strip|by apply well_formed_strip|].
  apply Forall_fmap, Forall_forall. by intros [s|n|n [r|]] _.
Qed.
Lemma well_formed_openapi ps : well_formed ps → well_formed (openapi ps).
Proof.
  unfold openapi. induction ps as [|p ps IH]; [done|]. intros (Hp & Hps & Hj). rewrite fmap_cons. split; [|split; [by apply IH|]].
  - destruct p as [s|n|n o]; cbn in *; [done| |tauto]. split; [by apply ident_free|]. split; [by apply ident_free|]. split; [by apply ident_free|done].
  - by destruct p as [s|n|n o].
Qed.
Lemma openapi_idemp ps : openapi (openapi ps) = openapi ps.
Proof. unfold openapi. rewrite <- list_fmap_compose. apply list_fmap_ext. by intros ? [s|n|n [r|]] ?. Qed.

(** ** The constraints *)
Lemma params_lit fuel s t : free_of c_lbrace s → path_params (String.length s + fuel) (s +:+ t) = path_params fuel t.
Proof.
  induction s as [|c s IH]; intros H; [done|]. apply free_cons in H as [H1 H2]. rewrite !sapp_cons.
  cbn [String.length plus path_params]. rewrite decide_False by done. by rewrite IH.
Qed.
Lemma close_length d s inner rest : close_brace d s = Some (inner, rest) → String.length rest ≤ String.length s.
Proof.
  revert d inner rest. induction s as [|c s IH]; intros d inner rest E; [done|].
  cbn [close_brace] in E. case_decide; [|case_decide; [destruct d as [|d]|]].
  - destruct (close_brace (S d) s) as [[a b]|] eqn:E'; [|done]. injection E as <- <-. apply IH in E'. cbn. lia.
  - injection E as <- <-. cbn. lia.
  - destruct (close_brace d s) as [[a b]|] eqn:E'; [|done]. injection E as <- <-. apply IH in E'. cbn. lia.
  - destruct (close_brace d s) as [[a b]|] eqn:E'; [|done]. injection E as <- <-. apply IH in E'. cbn. lia.
Qed.
Lemma params_enough fuel fuel' s : String.length s ≤ fuel → String.length s ≤ fuel' → path_params fuel s = path_params fuel' s.
Proof.
  revert fuel' s. induction fuel as [|fuel IH]; intros fuel' s H1 H2.
  - destruct s; [|cbn in H1; lia]. by destruct fuel'.
  - destruct fuel' as [|fuel']; [destruct s; [done|cbn in H2; lia]|]. destruct s as [|c s]; [done|]. cbn in H1, H2. cbn [path_params].
    case_decide; [|apply IH; lia].
    destruct (close_brace 0 s) as [[inner rest]|] eqn:E; [|done]. f_equal. apply close_length in E. apply IH; lia.
Qed.
Lemma each_text s t : free_of c_lbrace s → for_each_path_param (s +:+ t) = for_each_path_param t.
Proof. intros H. unfold for_each_path_param at 1. rewrite sapp_length, params_lit by done. done. Qed.
Lemma each_group inner rest : balanced inner →
  for_each_path_param (String c_lbrace (inner +:+ String c_rbrace rest)) =
  (before_colon inner, after_colon inner) :: for_each_path_param rest.
Proof.
  intros H. unfold for_each_path_param at 1. cbn [String.length path_params]. rewrite decide_True, close_here by done. f_equal.
  apply params_enough; rewrite ?sapp_length; cbn; lia.
Qed.
(** The braces of a path with their constraints. *)
Definition braces (ps : list piece) : list (string * string) :=
  omap (λ p, match p with Brace n o => Some (n, default "" o) | _ => None end) ps.
Lemma each_show ps : well_formed ps → for_each_path_param (show ps) = braces ps.
Proof.
  induction ps as [|p ps IH]; [done|]. intros (Hp & Hps & _). cbn [show foldr]. fold (show ps).
  destruct p as [s|n|n [r|]]; cbn [piece_ok show_piece braces omap list_omap] in *.
  - rewrite each_text; [by apply IH|tauto].
  - rewrite each_text; [by apply IH|]. apply free_cons. split; [done|]. by apply ident_free.
  - destruct Hp as (H1 & H2 & H3 & H4).
    transitivity (for_each_path_param (String c_lbrace ((n +:+ String c_colon r) +:+ String c_rbrace (show ps)))).
    { f_equal. rewrite !sapp_cons, !sapp_assoc, !sapp_cons, !sapp_assoc, sapp_cons. done. }
    rewrite each_group; [|apply balanced_app; [by apply balanced_free|]; by constructor].
    rewrite before_colon_app, after_colon_app, IH by done. done.
  - destruct Hp as (H1 & H2 & H3 & _). rewrite !sapp_cons, !sapp_assoc, sapp_cons. change ("" +:+ ?x) with x.
    rewrite each_group by (by apply balanced_free). rewrite before_colon_free, after_colon_free, IH by done. done.
Qed.

(** ** Placeholders of an emitted path *)
Lemma ident_run_app s t : str_any (λ c, negb (ident_char c)) s = false →
  (match t with String c _ => ident_char c = false | "" => True end) → ident_run (s +:+ t) = s.
Proof.
  intros H Ht. induction s as [|c s IH].
  - change ("" +:+ t) with t. destruct t as [|c t]; [done|]. cbn. by rewrite Ht.
  - cbn in H. apply orb_false_iff in H as [H1%negb_false_iff H2]. rewrite sapp_cons. cbn [ident_run]. rewrite H1. by rewrite IH.
Qed.
Lemma ident_run_chars s : str_any (λ c, negb (ident_char c)) (ident_run s) = false.
Proof. induction s as [|c s IH]; [done|]. cbn. destruct (ident_char c) eqn:E; [|done]. cbn. by rewrite E. Qed.
Lemma ident_run_split s : ∃ t, s = ident_run s +:+ t.
Proof.
  induction s as [|c s [t IH]]; [by exists ""|]. cbn. destruct (ident_char c).
  - exists t. rewrite sapp_cons. by f_equal.
  - by exists (String c s).
Qed.
Lemma name_here_spec s n : n ∈ name_here s ↔ ident n ∧ ∃ b, s = n +:+ String c_rbrace b.
Proof.
  unfold name_here. split.
  - destruct (starts_ident s && _) eqn:E; [|by intros ?%elem_of_nil]. intros ->%elem_of_list_singleton.
    apply andb_true_iff in E as [E1 E2]. destruct s as [|c s]; [done|]. cbn in E1. split.
    + exists c, (ident_run s). cbn. rewrite (ident_start_char _ E1). split; [done|]. split; [done|]. apply ident_run_chars.
    + destruct (ident_run_split (String c s)) as [t Ht]. rewrite Ht in E2 at 2. rewrite str_drop_app in E2.
      apply has_prefix_spec in E2 as [b ->]. exists b. rewrite Ht at 1. done.
  - intros ((c & s' & -> & Hc & Hs) & b & ->).
    assert (ident_run (String c s' +:+ String c_rbrace b) = String c s') as E.
    { apply ident_run_app; [|done]. cbn. by rewrite (ident_start_char _ Hc), Hs. }
    rewrite E, str_drop_app. assert (starts_ident (String c s' +:+ String c_rbrace b) = true) as -> by done. cbn. left.
Qed.
Lemma name_here_length s : length (name_here s) ≤ 1.
Proof. unfold name_here. destruct (_ && _); cbn; lia. Qed.
Lemma brace_names_spec s n : n ∈ brace_names s ↔ placeholder s n.
Proof.
  unfold placeholder. induction s as [|c s IH].
  - split; [by intros ?%elem_of_nil|]. intros (_ & a & b & H). by destruct a.
  - cbn [brace_names]. rewrite elem_of_app, IH. split.
    + intros [H|(Hi & a & b & ->)]; [|split; [done|]; by exists (String c a), b].
      case_decide as Hc; [|by apply elem_of_nil in H]. apply name_here_spec in H as [Hi [b ->]].
      split; [done|]. exists "", b. by rewrite Hc.
    + intros (Hi & a & b & H). destruct a as [|x a].
      * injection H as -> ->. left. rewrite decide_True by done. apply name_here_spec. eauto.
      * injection H as -> ->. right. eauto.
Qed.
Lemma brace_names_at a t : brace_names (a +:+ String c_lbrace t) = brace_names a ++ brace_names (String c_lbrace t).
Proof.
  induction a as [|c a IH]; [done|]. rewrite sapp_cons. cbn [brace_names]. rewrite IH.
  rewrite <- app_assoc. f_equal. case_decide as Hc; [|done]. unfold name_here.
  assert (starts_ident (a +:+ String c_lbrace t) = starts_ident a) as -> by (by destruct a).
  assert (ident_run (a +:+ String c_lbrace t) = ident_run a) as ->.
  { clear. induction a as [|x a IH]; [done|]. rewrite sapp_cons. cbn [ident_run]. by rewrite IH. }
  destruct (ident_run_split a) as [u Hu].
  assert (has_prefix (String c_rbrace "") (str_drop (String.length (ident_run a)) (a +:+ String c_lbrace t)) =
          has_prefix (String c_rbrace "") (str_drop (String.length (ident_run a)) a)) as ->; [|done].
  rewrite Hu at 2 4. rewrite sapp_assoc, !str_drop_app. destruct u as [|y u]; [by vm_compute|]. rewrite sapp_cons. cbn.
  by destruct u, (a +:+ String c_lbrace t).
Qed.
Lemma brace_names_pos s i n : brace_names s !! i = Some n →
  ∃ a b, s = a +:+ String c_lbrace (n +:+ String c_rbrace b) ∧ ident n ∧ length (brace_names a) = i.
Proof.
  revert i. induction s as [|c s IH]; intros i H; [done|]. cbn [brace_names] in H.
  apply lookup_app_Some in H as [H|[Hl H]].
  - case_decide as Hc; [|done].
    assert (n ∈ name_here s) as Hn by (by eapply elem_of_list_lookup_2).
    apply lookup_lt_Some in H. pose proof (name_here_length s). assert (i = 0) as -> by lia.
    apply name_here_spec in Hn as [Hi [b ->]]. exists "", b. rewrite Hc. done.
  - apply IH in H as (a & b & -> & Hi & Hlen). exists (String c a), b. split; [done|]. split; [done|].
    cbn [brace_names]. rewrite app_length, Hlen.
    assert ((if decide (c = c_lbrace) then name_here a else []) =
            (if decide (c = c_lbrace) then name_here (a +:+ String c_lbrace (n +:+ String c_rbrace b)) else [])) as ->.
    { pose proof (brace_names_at (String c a) (n +:+ String c_rbrace b)) as HH. rewrite sapp_cons in HH. cbn [brace_names] in HH.
      rewrite (brace_names_at a) in HH. cbn [brace_names] in HH. rewrite <- app_assoc in HH.
      apply app_inv_tail in HH. done. }
    lia.
Qed.
Lemma distinct_NoDup s : placeholders_distinct s → NoDup (brace_names s).
Proof.
  intros H. apply NoDup_alt. intros i j n Hi Hj.
  apply brace_names_pos in Hi as (a & b & E1 & Hn & <-). apply brace_names_pos in Hj as (a' & b' & E2 & _ & <-).
  by rewrite (H n a b a' b' Hn E1 E2).
Qed.

Lemma NoDup_distinct s : NoDup (brace_names s) → placeholders_distinct s.
Proof.
  assert (∀ c s n b, NoDup (brace_names (String c s)) → ident n → String c s = String c_lbrace (n +:+ String c_rbrace b) →
            placeholder s n → False) as Hdup.
  { intros c t n b Hnd Hn E Hp. injection E as -> ->. cbn [brace_names] in Hnd. rewrite decide_True in Hnd by done.
    apply NoDup_app in Hnd as (_ & Hd & _). apply (Hd n); [apply name_here_spec; eauto|by apply brace_names_spec]. }
  intros H n a b a' b' Hn. revert s H a'. induction a as [|c a IH]; intros s H a' E E'.
  - destruct a' as [|c' a']; [done|]. exfalso. rewrite sapp_cons in E'. change ("" +:+ String c_lbrace (n +:+ String c_rbrace b)) with (String c_lbrace (n +:+ String c_rbrace b)) in E. subst s.
    eapply (Hdup _ _ n b); [exact H|done|done|]. injection E' as _ E'. split; [done|]. eauto.
  - rewrite sapp_cons in E. subst s. destruct a' as [|c' a'].
    + exfalso. change ("" +:+ String c_lbrace (n +:+ String c_rbrace b')) with (String c_lbrace (n +:+ String c_rbrace b')) in E'.
      eapply (Hdup _ _ n b'); [exact H|done|exact E'|]. split; [done|]. eauto.
    + rewrite sapp_cons in E'. injection E' as <- E'. f_equal. apply (IH (a +:+ String c_lbrace (n +:+ String c_rbrace b))); [|done|exact E'].
      cbn [brace_names] in H. by apply NoDup_app in H as (_ & _ & H).
Qed.

(** ** Parameters *)
Lemma covered_spec ps n : n ∈ covered_names ps ↔ ∃ p, p ∈ ps ∧ n ∈ covered_by p.
Proof.
  unfold covered_names. rewrite elem_of_list_to_set, elem_of_list_In, in_concat. split.
  - intros (l & Hl & Hn). apply elem_of_list_In, elem_of_list_fmap in Hl as (p & -> & Hp). exists p. split; [done|by apply elem_of_list_In].
  - intros (p & Hp & Hn). exists (covered_by p). split; [|by apply elem_of_list_In]. apply elem_of_list_In, elem_of_list_fmap. eauto.
Qed.
Definition prm_key (p : prm) : string := pr_name p +:+ ":" +:+ pr_in p.
Lemma dedup_prms_in seen ps p : p ∈ dedup_prms seen ps → p ∈ ps ∧ prm_key p ∉ seen.
Proof.
  revert seen. induction ps as [|x ps IH]; intros seen; [by intros ?%elem_of_nil|]. cbn [dedup_prms]. fold (prm_key x).
  destruct (decide (prm_key x ∈ seen)) as [Hx|Hx].
  - intros [H1 H2]%IH. split; [by right|done].
  - intros [->|H]%elem_of_cons; [split; [left|done]|]. apply IH in H as [H1 H2]. split; [by right|]. set_solver.
Qed.
Lemma dedup_prms_NoDup seen ps : NoDup (prm_key <$> dedup_prms seen ps).
Proof.
  revert seen. induction ps as [|x ps IH]; intros seen; [constructor|]. cbn [dedup_prms]. fold (prm_key x).
  destruct (decide (prm_key x ∈ seen)) as [Hx|Hx]; [done|]. rewrite fmap_cons. constructor; [|done].
  intros (p & Hk & Hp)%elem_of_list_fmap. apply dedup_prms_in in Hp as [_ Hp]. set_solver.
Qed.
Lemma dedup_prms_first seen a p b : prm_key p ∉ seen → (∀ q, q ∈ a → prm_key q ≠ prm_key p) →
  p ∈ dedup_prms seen (a ++ p :: b).
Proof.
  revert seen. induction a as [|x a IH]; intros seen Hs Ha.
  - cbn [app dedup_prms]. fold (prm_key p). rewrite decide_False by done. left.
  - cbn [app dedup_prms]. fold (prm_key x). destruct (decide (prm_key x ∈ seen)) as [Hx|Hx].
    + apply IH; [done|]. intros q Hq. apply Ha. by right.
    + right. apply IH; [|intros q Hq; apply Ha; by right]. pose proof (Ha x (elem_of_list_here _ _)). set_solver.
Qed.
Lemma prm_key_inj p q : free_of ":"%char (pr_in p) → free_of ":"%char (pr_in q) → prm_key p = prm_key q →
  pr_name p = pr_name q ∧ pr_in p = pr_in q.
Proof.
  intros Hp%free_of_spec Hq%free_of_spec H. unfold prm_key in H.
  change (":" +:+ pr_in p) with (String ":" (pr_in p)) in H. change (":" +:+ pr_in q) with (String ":" (pr_in q)) in H.
  pose proof (split_last_app ":" (pr_name p) (pr_in p) Hp) as E1. rewrite H in E1.
  rewrite (split_last_app ":" (pr_name q) (pr_in q) Hq) in E1. by injection E1 as -> ->.
Qed.

Definition ref_prm (n : string) : prm := Prm "" "" false None (dynamic_ref n).
Fixpoint new_names (cov : gset string) (names : list string) : list string :=
  match names with
  | [] => []
  | n :: names => if decide (n ∈ cov) then new_names cov names else n :: new_names ({[n]} ∪ cov) names
  end.
Lemma dyn_fold names cov ps : (fold_left dyn_step names (cov, ps)).2 = ps ++ (ref_prm <$> new_names cov names).
Proof.
  revert cov ps. induction names as [|n names IH]; intros cov ps; [by rewrite app_nil_r|]. cbn [fold_left new_names].
  unfold dyn_step at 2. cbn [fst snd]. destruct (decide (n ∈ cov)) as [H|H]; [apply IH|]. rewrite IH, <- app_assoc. done.
Qed.
Lemma append_dynamic_eq ps dyn : append_dynamic ps dyn = ps ++ (ref_prm <$> new_names (dyn_covered ps) dyn).
Proof. destruct dyn as [|n dyn]; [by rewrite app_nil_r|]. unfold append_dynamic. apply dyn_fold. Qed.
Lemma new_names_spec cov names n : n ∈ new_names cov names ↔ n ∈ names ∧ n ∉ cov.
Proof.
  revert cov. induction names as [|x names IH]; intros cov; cbn [new_names].
  - split; [by intros ?%elem_of_nil|by intros [?%elem_of_nil _]].
  - destruct (decide (x ∈ cov)) as [Hx|Hx].
    + rewrite IH, elem_of_cons. split; [tauto|]. intros [[->|?] ?]; done.
    + rewrite !elem_of_cons, IH, not_elem_of_union, not_elem_of_singleton. destruct (decide (n = x)) as [->|]; tauto.
Qed.
Lemma new_names_NoDup cov names : NoDup (new_names cov names).
Proof.
  revert cov. induction names as [|x names IH]; intros cov; cbn [new_names]; [constructor|]. case_decide; [done|].
  constructor; [|done]. rewrite new_names_spec. set_solver.
Qed.

(** ** Component names *)
Lemma lower_upper c : in_range "A" "Z" c = false → lower_char (upper_char c) = c.
Proof. destruct c as [[] [] [] [] [] [] [] []]; vm_compute; done. Qed.
Lemma ref_target_dynamic n : uncapitalised n → ref_target (dynamic_ref n) = n.
Proof.
  intros (c & s & -> & Hc). unfold ref_target, dynamic_ref.
  assert (has_prefix param_ref_prefix (param_ref_prefix +:+ dynamic_component (String c s)) = true) as ->.
  { apply has_prefix_spec. eauto. }
  rewrite trim_prefix_app. unfold dynamic_component. rewrite trim_suffix_app. by rewrite lower_upper.
Qed.
Lemma dynamic_component_inj n m : uncapitalised n → uncapitalised m → dynamic_component n = dynamic_component m → n = m.
Proof.
  intros Hn Hm H. rewrite <- (ref_target_dynamic n Hn), <- (ref_target_dynamic m Hm). unfold dynamic_ref. by rewrite H.
Qed.
Definition comp_prm (n : string) : prm := Prm n "path" true (Some (string_sch "")) "".
Lemma components_fold names m0 key q :
  (fold_left (λ m name, match m !! dynamic_component name with
                       | Some _ => m
                       | None => <[dynamic_component name := comp_prm name]> m end) names m0 : gmap string prm) !! key = Some q →
  m0 !! key = Some q ∨ ∃ n, n ∈ names ∧ key = dynamic_component n ∧ q = comp_prm n.
Proof.
  revert m0. induction names as [|n names IH]; intros m0 H; [by left|]. cbn [fold_left] in H. apply IH in H as [H|(x & Hx & H1 & H2)].
  - destruct (m0 !! dynamic_component n) eqn:E; [by left|]. apply lookup_insert_Some in H as [[<- <-]|[_ H]]; [|by left].
    right. exists n. split; [left|done].
  - right. exists x. split; [by right|done].
Qed.
Lemma components_has names m0 n : n ∈ names ∨ is_Some (m0 !! dynamic_component n) →
  is_Some ((fold_left (λ m name, match m !! dynamic_component name with
                       | Some _ => m
                       | None => <[dynamic_component name := comp_prm name]> m end) names m0 : gmap string prm) !! dynamic_component n).
Proof.
  revert m0. induction names as [|x names IH]; intros m0 H; cbn [fold_left].
  - by destruct H as [?%elem_of_nil|?].
  - apply IH. destruct H as [[<-|H]%elem_of_cons|H].
    + right. destruct (m0 !! dynamic_component n) as [y|] eqn:E; [by rewrite E|]. by rewrite lookup_insert.
    + by left.
    + right. destruct (m0 !! dynamic_component x) as [y|] eqn:E; [done|].
      destruct (decide (dynamic_component x = dynamic_component n)) as [->|Hne]; [by rewrite lookup_insert|by rewrite lookup_insert_ne].
Qed.
Lemma components_lookup dyns n : (∀ l m, l ∈ dyns → m ∈ l → uncapitalised m) → (∃ l, l ∈ dyns ∧ n ∈ l) →
  dynamic_components dyns !! dynamic_component n = Some (comp_prm n).
Proof.
  intros Hu (l & Hl & Hn).
  assert (∀ m, m ∈ concat dyns → uncapitalised m) as Hu'.
  { intros m Hm%elem_of_list_In%in_concat. destruct Hm as (l' & Hl' & Hm). apply elem_of_list_In in Hl', Hm. by apply (Hu l'). }
  assert (n ∈ concat dyns) as Hin.
  { apply elem_of_list_In, in_concat. exists l. split; by apply elem_of_list_In. }
  destruct (components_has (concat dyns) ∅ n (or_introl Hin)) as [q Hq].
  unfold dynamic_components. fold comp_prm. unfold comp_prm in Hq at 1. change (λ n, Prm n "path" true (Some (string_sch "")) "") with comp_prm in *.
  rewrite Hq. f_equal. apply components_fold in Hq as [Hq|(m & Hm & Hk & ->)]; [by rewrite lookup_empty in Hq|].
  by rewrite (dynamic_component_inj m n (Hu' m Hm) (Hu' n Hin) (eq_sym Hk)).
Qed.

(** ** The parameter list of an operation *)
Lemma handler_resolve m ps b mp : handler_params ps → handler_params (resolve_form m ps b mp).1.
Proof.
  intros H. unfold resolve_form. destruct (negb _ && negb mp); [done|].
  destruct (takes_body m && negb b); cbn [fst].
  - intros p [_ Hp]%elem_of_list_filter. by apply H.
  - intros p [Hp|Hp]%elem_of_app.
    + apply elem_of_list_filter in Hp as [_ Hp]. by apply H.
    + apply elem_of_list_fmap in Hp as (q & -> & Hq). apply elem_of_list_filter in Hq as [_ Hq].
      apply elem_of_list_filter in Hq as [_ Hq]. destruct (H q Hq) as (H1 & H2 & H3). cbn. split; [done|]. split; [done|].
      apply free_of_spec. vm_compute. done.
Qed.
Lemma handler_dedup ps : handler_params ps → handler_params (dedup_prms ∅ ps).
Proof. intros H p [Hp _]%dedup_prms_in. by apply H. Qed.
Lemma covered_handler ps p n : handler_params ps → p ∈ ps → n ∈ covered_by p → declares_here p n.
Proof.
  intros H Hp Hn. destruct (H p Hp) as (H1 & H2 & _). unfold covered_by in Hn. rewrite (decide_True (P := pr_ref p = "")) in Hn by done.
  rewrite app_nil_r in Hn. destruct (decide (pr_in p = "path")) as [Hi|Hi]; [|by apply elem_of_nil in Hn].
  apply elem_of_list_singleton in Hn as ->. unfold declares_here. auto.
Qed.
Lemma covered_ref m n : uncapitalised m → n ∈ covered_by (ref_prm m) ↔ n = m.
Proof.
  intros Hm. unfold covered_by, ref_prm. cbn [pr_in pr_ref pr_name]. rewrite decide_False by done.
  rewrite decide_False by done. rewrite ref_target_dynamic by done. rewrite decide_False; [|by destruct Hm as (? & ? & -> & _)].
  cbn [app]. apply elem_of_list_singleton.
Qed.
Lemma ref_app_inj key key' : "#/components/parameters/" +:+ key = "#/components/parameters/" +:+ key' → key = key'.
Proof. intros H. by repeat (injection H as H). Qed.

Section decl.
Context (dyns : list (list string)) (dyn : list string) (ps : list prm) (path : string) (pats : gmap string string).
Context (Hu : ∀ l m, l ∈ dyns → m ∈ l → uncapitalised m) (Hd : dyn ∈ dyns) (Hps : handler_params ps)
  (Hnd : NoDup (prm_key <$> ps)) (Hpath : NoDup (brace_names path)).
Local Notation comps := (dynamic_components dyns).
Local Notation refs := (new_names (dyn_covered ps) dyn).
Local Notation out := (ensure_all path (append_dynamic ps dyn) pats).
Lemma declares_handler p n : p ∈ ps → declares comps p n ↔ declares_here p n.
Proof.
  intros Hp. split; [|by left]. intros [H|(k & q & H & _)]; [done|]. destruct (Hps p Hp) as (H1 & _). rewrite H1 in H. done.
Qed.
Lemma declares_ref m n : m ∈ dyn → declares comps (ref_prm m) n ↔ n = m.
Proof.
  intros Hm. assert (comps !! dynamic_component m = Some (comp_prm m)) as Hc by (apply components_lookup; eauto). split.
  - intros [(H & _)|(k & q & H & Hq & Hn)]; [done|]. apply ref_app_inj in H. subst k. rewrite Hc in Hq. injection Hq as <-.
    by destruct Hn as (_ & <- & _).
  - intros ->. right. exists (dynamic_component m), (comp_prm m). done.
Qed.
Lemma declares_synth x n : declares comps (synthesized pats x) n ↔ n = x.
Proof.
  split.
  - intros [(_ & <- & _)|(k & q & H & _)]; [done|]. done.
  - intros ->. left. done.
Qed.
Lemma out_eq : out = ps ++ (ref_prm <$> refs) ++ (synthesized pats <$> filter (λ n, n ∉ covered_names (append_dynamic ps dyn)) (brace_names path)).
Proof. unfold ensure_all. rewrite append_dynamic_eq at 1. by rewrite <- app_assoc. Qed.
Lemma refs_unc m : m ∈ refs → m ∈ dyn ∧ uncapitalised m.
Proof. intros [H _]%new_names_spec. eauto. Qed.
Lemma covered_all n : n ∈ covered_names (append_dynamic ps dyn) ↔ (∃ p, p ∈ ps ∧ declares_here p n) ∨ n ∈ refs.
Proof.
  rewrite covered_spec, append_dynamic_eq. split.
  - intros (p & [Hp|Hp]%elem_of_app & Hn).
    + left. exists p. split; [done|]. by apply (covered_handler ps).
    + apply elem_of_list_fmap in Hp as (m & -> & Hm). right. apply covered_ref in Hn as ->; [done|]. by apply refs_unc.
  - intros [(p & Hp & Hn)|Hn].
    + exists p. split; [apply elem_of_app; by left|]. destruct Hn as (H1 & <- & H3 & _). unfold covered_by. rewrite (decide_True (P := pr_in p = "path")) by done. left.
    + exists (ref_prm n). split; [apply elem_of_app; right; by apply elem_of_list_fmap_1|]. apply covered_ref; [by apply refs_unc|done].
Qed.
Lemma declared_exists n : n ∈ brace_names path → ∃ p, p ∈ out ∧ declares comps p n.
Proof.
  intros Hn. rewrite out_eq. destruct (decide (n ∈ covered_names (append_dynamic ps dyn))) as [Hc|Hc].
  - apply covered_all in Hc as [(p & Hp & Hd')|Hr].
    + exists p. split; [apply elem_of_app; by left|by left].
    + exists (ref_prm n). split; [apply elem_of_app; right; apply elem_of_app; left; by apply elem_of_list_fmap_1|].
      apply declares_ref; [by apply refs_unc|done].
  - exists (synthesized pats n). split.
    + apply elem_of_app; right; apply elem_of_app; right. apply elem_of_list_fmap_1. by apply elem_of_list_filter.
    + by apply declares_synth.
Qed.
Lemma NoDup_fmap_lookup {A B} (f : A → B) (l : list A) i j x y : NoDup (f <$> l) → l !! i = Some x → l !! j = Some y → f x = f y → i = j.
Proof.
  intros H Hi Hj E. apply (NoDup_lookup (f <$> l) i j (f x)); [done| |].
  - by rewrite list_lookup_fmap, Hi.
  - by rewrite list_lookup_fmap, Hj, E.
Qed.
Lemma declared_unique n i j p q : out !! i = Some p → out !! j = Some q →
  declares comps p n → declares comps q n → i = j.
Proof.
  rewrite out_eq. set (S := filter _ _).
  assert (∀ p, p ∈ ps → declares comps p n → n ∉ refs ∧ n ∉ S) as HD.
  { intros p0 Hp Hd0. apply declares_handler in Hd0; [|done]. split.
    - intros Hr. pose proof (refs_unc n Hr) as [_ (c & s & Hc & _)]. apply new_names_spec in Hr as [_ Hr]. apply Hr.
      apply elem_of_difference. split; [|rewrite elem_of_singleton; by rewrite Hc].
      apply covered_spec. exists p0. split; [done|]. destruct Hd0 as (_ & <- & H3 & _). unfold covered_by.
      rewrite (decide_True (P := pr_in p0 = "path")) by done. left.
    - intros [Hr _]%elem_of_list_filter. apply Hr. apply covered_all. left. eauto. }
  assert (n ∈ refs → n ∉ S) as HR.
  { intros Hr [Hs _]%elem_of_list_filter. apply Hs. apply covered_all. by right. }
  assert (∀ i p, (ps ++ (ref_prm <$> refs) ++ (synthesized pats <$> S)) !! i = Some p → declares comps p n →
    (ps !! i = Some p ∧ i < length ps) ∨ (∃ k, i = length ps + k ∧ refs !! k = Some n) ∨
    (∃ k, i = length ps + (length refs + k) ∧ S !! k = Some n)) as Hcase.
  { intros i0 p0 Hi Hdec. apply lookup_app_Some in Hi as [Hi|[Hl Hi]].
    - left. split; [done|]. by eapply lookup_lt_Some.
    - right. apply lookup_app_Some in Hi as [Hi|[Hl2 Hi]].
      + left. apply list_lookup_fmap_Some in Hi as (m & Hm & ->).
        apply declares_ref in Hdec; [|apply refs_unc; by eapply elem_of_list_lookup_2]. subst m. exists (i0 - length ps). split; [lia|done].
      + right. rewrite fmap_length in Hl2, Hi. apply list_lookup_fmap_Some in Hi as (m & Hm & ->). apply declares_synth in Hdec. subst m.
        exists (i0 - length ps - length refs). split; [lia|done]. }
  assert (NoDup S) as HS by by apply NoDup_filter.
  intros Hi Hj Hp Hq.
  pose proof (Hcase i p Hi Hp) as [[H1 _]|[(k & -> & Hk)|(k & -> & Hk)]];
  pose proof (Hcase j q Hj Hq) as [[H2 _]|[(k' & -> & Hk')|(k' & -> & Hk')]].
  - apply declares_handler in Hp; [|by eapply elem_of_list_lookup_2]. apply declares_handler in Hq; [|by eapply elem_of_list_lookup_2].
    apply (NoDup_fmap_lookup prm_key ps i j p q Hnd H1 H2). destruct Hp as (_ & E1 & E2 & _), Hq as (_ & E3 & E4 & _).
    unfold prm_key. congruence.
  - exfalso. destruct (HD p (elem_of_list_lookup_2 _ _ _ H1) Hp) as [H _]. apply H. by eapply elem_of_list_lookup_2.
  - exfalso. destruct (HD p (elem_of_list_lookup_2 _ _ _ H1) Hp) as [_ H]. apply H. by eapply elem_of_list_lookup_2.
  - exfalso. destruct (HD q (elem_of_list_lookup_2 _ _ _ H2) Hq) as [H _]. apply H. by eapply elem_of_list_lookup_2.
  - f_equal. eapply NoDup_lookup; [apply new_names_NoDup|done|done].
  - exfalso. apply HR; by eapply elem_of_list_lookup_2.
  - exfalso. destruct (HD q (elem_of_list_lookup_2 _ _ _ H2) Hq) as [_ H]. apply H. by eapply elem_of_list_lookup_2.
  - exfalso. apply HR; by eapply elem_of_list_lookup_2.
  - f_equal. f_equal. by eapply (NoDup_lookup S).
Qed.
End decl.
