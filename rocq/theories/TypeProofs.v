(** * Proofs about the type model. *)
From Coq Require Import Ascii.
From stdpp Require Import base list strings.
From Verif Require Import StrLib StrSplit StrSub PathModel PathSpec PathProofs2 PairModel PairProofs VerbProofs ScanModel ScanProps TypeModel TypeSpec.

Section tref_ind.
  Context (P : tref → Prop).
  Context (HN : ∀ p n args c, Forall P args → P (TNamed p n args c)) (HP : ∀ e, P e → P (TPtr e)) (HS : ∀ e, P e → P (TSlice e)).
  Context (HA : ∀ l e, P e → P (TArr l e)) (HM : ∀ k e, P k → P e → P (TMap k e)) (HC : ∀ d e, P e → P (TChan d e)).
  Fixpoint tref_ind' (t : tref) : P t :=
    match t with
    | TNamed p n args c => HN p n args c ((fix go l : Forall P l := match l with [] => Forall_nil_2 _ | a :: l => Forall_cons_2 _ _ _ (tref_ind' a) (go l) end) args)
    | TPtr e => HP e (tref_ind' e)
    | TSlice e => HS e (tref_ind' e)
    | TArr l e => HA l e (tref_ind' e)
    | TMap k e => HM k e (tref_ind' k) (tref_ind' e)
    | TChan d e => HC d e (tref_ind' e)
    end.
End tref_ind.

(** ** Text *)
Lemma plain_cons c s : plain (String c s) ↔ mem_byte c special = false ∧ plain s.
Proof.
  split.
  - intros H. split; [by apply (H "" c s)|]. intros a d b E. apply (H (String c a) d b). by rewrite sapp_cons, E.
  - intros [Hc H] a d b E. destruct a as [|x a]; [by injection E as -> _|]. rewrite sapp_cons in E. injection E as _ E. by apply (H a d b).
Qed.
Lemma plain_nil : plain "".
Proof. intros [|] ? ? ?; done. Qed.
Lemma plain_app s t : plain s → plain t → plain (s +:+ t).
Proof. intros H1 H2. induction s as [|c s IH]; [done|]. apply plain_cons in H1 as [Hc H1]. rewrite sapp_cons. apply plain_cons. split; [done|by apply IH]. Qed.
Lemma plain_no c s : plain s → mem_byte c special = true → contains_byte c s = false.
Proof. intros H Hc. destruct (contains_byte c s) eqn:E; [|done]. apply contains_byte_spec in E as (a & b & E). by rewrite (H a c b E) in Hc. Qed.
Lemma special_sub c : mem_byte c special = false → mem_byte c "[]()" = false ∧ mem_byte c spaces = false ∧ c ≠ ","%char ∧ c ≠ "*"%char.
Proof.
  intros H. assert (∀ d, mem_byte d special = true → c ≠ d) as Hd by (intros d Hd ->; congruence).
  split; [|split; [|split; by apply Hd]].
  - destruct (mem_byte c "[]()") eqn:E; [|done]. exfalso. apply mem_spec in E as (a & b & E). 
    do 4 (destruct a as [|? a]; [injection E as <- _; by eapply Hd; [|reflexivity]|injection E as _ E]). by destruct a.
  - destruct (mem_byte c spaces) eqn:E; [|done]. exfalso. apply mem_spec in E as (a & b & E). unfold spaces in E.
    do 6 (destruct a as [|? a]; [injection E as <- _; by eapply Hd; [|reflexivity]|injection E as _ E]). by destruct a.
Qed.
Lemma bal_app s t : balanced s → balanced t → balanced (s +:+ t).
Proof.
  intros H Ht. induction H as [|c s Hc H IH|inner s Hi IHi H IH|inner s Hi IHi H IH]; [done| | |].
  - rewrite sapp_cons. by constructor.
  - rewrite sapp_cons, sapp_assoc, sapp_cons. by constructor.
  - rewrite sapp_cons, sapp_assoc, sapp_cons. by constructor.
Qed.
Lemma bal_group s : balanced s → balanced ("[" +:+ s +:+ "]").
Proof. intros H. apply (bal_square s ""); [done|constructor]. Qed.
Lemma plain_bal s : plain s → balanced s.
Proof. induction s as [|c s IH]; [constructor|]. intros [Hc H]%plain_cons. constructor; [by apply special_sub|by apply IH]. Qed.
Lemma round_square c : mem_byte c "[]()" = false → c ≠ "["%char ∧ c ≠ "]"%char ∧ ¬ arg_open c ∧ ¬ arg_close c.
Proof.
  intros H. assert (∀ d, mem_byte d "[]()" = true → c ≠ d) as Hd by (intros d Hd ->; congruence).
  split; [by apply Hd|]. split; [by apply Hd|]. unfold arg_open, arg_close. rewrite !elem_of_cons, !elem_of_nil. split; intros [E|[E|[]]]; by apply Hd in E.
Qed.
Lemma bal_nested s : balanced s → arg_nested s.
Proof.
  induction 1 as [|c s Hc H IH|inner s Hi IHi H IH|inner s Hi IHi H IH]; [constructor| | |].
  - apply round_square in Hc as (_ & _ & H1 & H2). by constructor.
  - constructor; [left|done|left|done].
  - constructor; [right; left|done|right; left|done].
Qed.
Lemma arg_app s t : arg s → arg t → arg (s +:+ t).
Proof.
  intros H Ht. induction H as [|c s H1 H2 H3 H IH|o inner c s Ho Hi Hc H IH]; [done| |].
  - rewrite sapp_cons. by constructor.
  - rewrite sapp_cons, sapp_assoc, sapp_cons. by constructor.
Qed.
Lemma arg_group' s : balanced s → arg ("[" +:+ s +:+ "]").
Proof. intros H. apply (arg_group "[" s "]" ""); [left|by apply bal_nested|left|constructor]. Qed.
Lemma plain_arg s : plain s → arg s.
Proof. induction s as [|c s IH]; [constructor|]. intros [Hc H]%plain_cons. apply special_sub in Hc as (H1 & _ & H3 & _). apply round_square in H1 as (_ & _ & H1 & H2). constructor; [done|done|done|by apply IH]. Qed.
Lemma close_bal s : balanced s → ∀ d rest, close_at d (s +:+ rest) = (λ '(a, b), (s +:+ a, b)) <$> close_at d rest.
Proof.
  assert (∀ (f g : string → string) (x : option (string * string)), (λ '(a, b), (f a, b)) <$> ((λ '(a, b), (g a, b)) <$> x) = (λ '(a, b), (f (g a), b)) <$> x) as Hc.
  { intros f g [[a b]|]; done. }
  induction 1 as [|c s Hc' H IH|inner s Hi IHi H IH|inner s Hi IHi H IH]; intros d rest.
  - change ("" +:+ rest) with rest. by destruct (close_at d rest) as [[a b]|].
  - apply round_square in Hc' as (H1 & H2 & _). rewrite sapp_cons. cbn [close_at]. rewrite decide_False by done. rewrite decide_False by done. rewrite IH, Hc. done.
  - rewrite sapp_cons, sapp_assoc, sapp_cons. cbn [close_at]. rewrite decide_False by done. rewrite decide_True by done. rewrite IHi. cbn [close_at]. rewrite decide_True by done. rewrite IH, !Hc.
    destruct (close_at d rest) as [[a b]|]; [|done]. cbn [fmap option_fmap option_map]. norm.
  - rewrite sapp_cons, sapp_assoc, sapp_cons. cbn [close_at]. rewrite !decide_False by done. rewrite IHi. cbn [close_at]. rewrite !decide_False by done. rewrite IH, !Hc.
    destruct (close_at d rest) as [[a b]|]; [|done]. cbn [fmap option_fmap option_map]. norm.
Qed.
Lemma close_here s rest : balanced s → close_at 0 (s +:+ "]" +:+ rest) = Some (s, rest).
Proof. intros H. rewrite close_bal by done. change ("]" +:+ rest) with (String "]" rest). cbn [close_at]. rewrite decide_True by done. cbn. by rewrite sapp_nil. Qed.
Lemma firm_trim s : firm spaces s → trim_space s = s.
Proof. intros H. pose proof (trim_any_firm spaces "" s "" (all_of_nil _) (all_of_nil _) H) as E. change ("" +:+ s +:+ "") with (s +:+ "") in E. by rewrite sapp_nil in E. Qed.
Lemma firm_nonempty s : firm spaces s → s ≠ "".
Proof. intros [(c & t & -> & _) _]. done. Qed.
Lemma last_char s : s ≠ "" → ∃ t c, s = t +:+ String c "".
Proof. induction s as [|x s IH]; [done|]. intros _. destruct s as [|y s]; [by exists "", x|]. destruct IH as (t & c & E); [done|]. exists (String x t), c. by rewrite sapp_cons, E. Qed.
Lemma plain_firm s : plain s → s ≠ "" → firm spaces s.
Proof.
  intros H Hne. split.
  - destruct s as [|c s]; [done|]. exists c, s. split; [done|]. apply plain_cons in H as [Hc _]. by apply special_sub in Hc as (_ & Hc & _).
  - destruct (last_char s Hne) as (t & c & E). exists t, c. split; [done|]. pose proof (H t c "" E) as Hc. by apply special_sub in Hc as (_ & Hc & _).
Qed.
(** Firmness depends on the two ends. *)
Lemma firm_ends a x b : firm spaces a → firm spaces b → firm spaces (a +:+ x +:+ b).
Proof.
  intros [(c & t & -> & Hc) _] [_ (t' & c' & -> & Hc')]. split.
  - exists c, (t +:+ x +:+ t' +:+ String c' ""). by rewrite sapp_cons.
  - exists (String c t +:+ x +:+ t'), c'. split; [|done]. by rewrite !sapp_assoc.
Qed.
Lemma firm_char c : mem_byte c spaces = false → firm spaces (String c "").
Proof. intros H. split; [by exists c, ""|by exists "", c]. Qed.

(** ** The spelling of a named type *)
Lemma contains_app_l p a b : str_contains p a = true → str_contains p (a +:+ b) = true.
Proof. rewrite !str_contains_spec. intros (x & y & ->). exists x, (y +:+ b). by rewrite !sapp_assoc. Qed.
Lemma contains_app_r p a b : str_contains p b = true → str_contains p (a +:+ b) = true.
Proof. rewrite !str_contains_spec. intros (x & y & ->). exists (a +:+ x), y. by rewrite !sapp_assoc. Qed.
Lemma not_contains_parts p a b : str_contains p (a +:+ b) = false → str_contains p a = false ∧ str_contains p b = false.
Proof.
  intros H. split.
  - destruct (str_contains p a) eqn:E; [|done]. by rewrite (contains_app_l p a b E) in H.
  - destruct (str_contains p b) eqn:E; [|done]. by rewrite (contains_app_r p a b E) in H.
Qed.
Lemma cut_arrow_none s : str_contains arrow s = false → cut_arrow s = None.
Proof.
  induction s as [|c s IH]; intros H; [done|]. cbn [cut_arrow]. destruct (has_prefix arrow (String c s)) eqn:E.
  - apply has_prefix_spec in E as [t E]. assert (str_contains arrow (String c s) = true) as H'; [|congruence]. apply str_contains_spec. exists "", t. done.
  - rewrite IH; [done|]. by apply (not_contains_parts arrow (String c "") s) in H as [_ H].
Qed.
Lemma cut_arrow_some s t : str_contains arrow s = false → cut_arrow (s +:+ arrow +:+ t) = Some (s, t).
Proof.
  induction s as [|c s IH]; intros H.
  - reflexivity.
  - rewrite sapp_cons. cbn [cut_arrow]. destruct (has_prefix arrow (String c (s +:+ arrow +:+ t))) eqn:E.
    + exfalso. apply has_prefix_spec in E as [x E]. change (arrow +:+ x) with (String "-" (String "-" (String ">" x))) in E. injection E as -> E.
      destruct s as [|d s]; [done|]. rewrite sapp_cons in E. injection E as -> E. destruct s as [|e s]; [done|]. rewrite sapp_cons in E. injection E as -> E.
      assert (str_contains arrow (String "-" (String "-" (String ">" s))) = true) as H'; [|congruence]. apply str_contains_spec. by exists "", s.
    + rewrite IH; [done|]. by apply (not_contains_parts arrow (String c "") s) in H as [_ H].
Qed.
Lemma split_arrow_none n s : str_contains arrow s = false → split_arrow n s = [s].
Proof. intros H. destruct n; [done|]. cbn. by rewrite cut_arrow_none. Qed.
Lemma name_ok_arrows pkg name : name_ok pkg name → str_contains arrow pkg = false ∧ str_contains arrow name = false.
Proof. intros (_ & _ & _ & _ & _ & H). apply not_contains_parts in H as [H1 H]. apply not_contains_parts in H as [_ H2]. done. Qed.

(** The base of a named type without arguments or constraint. *)
Definition shown_name (m : mode) (name : string) : string := if is_simple m && bool_decide (name = "interface{}") then "any" else name.
Definition base_of (m : mode) (pkg name : string) : string :=
  if bool_decide (pkg = "") then shown_name m name
  else match m with Simple => shown_name m name | Internal => pkg +:+ arrow +:+ shown_name m name | Dotted => pkg +:+ "." +:+ shown_name m name end.
Lemma plain_any : plain "any".
Proof. repeat (apply plain_cons; split; [done|]). apply plain_nil. Qed.
Lemma plain_arrow : plain arrow.
Proof. repeat (apply plain_cons; split; [done|]). apply plain_nil. Qed.
Lemma name_ok_shown m pkg name : name_ok pkg name → plain (shown_name m name) ∧ shown_name m name ≠ "" ∧ shown_name m name ≠ "map" ∧ contains_byte "." (shown_name m name) = false ∧ str_contains arrow (shown_name m name) = false.
Proof.
  intros H. pose proof (name_ok_arrows _ _ H) as [_ Ha]. destruct H as (_ & H2 & H3 & H4 & H5 & _). unfold shown_name. destruct (is_simple m && _).
  - split; [apply plain_any|]. done.
  - done.
Qed.
Lemma plain_not_space s : plain s → name_ok "" s → s ≠ "interface {}".
Proof. intros H _ ->. pose proof (H "interface" " "%char "{}" eq_refl) as H'. done. Qed.
Lemma render_named m pkg name args : name_ok pkg name →
  render m (TNamed pkg name args "") = base_of m pkg name +:+ match args with [] => "" | _ => "[" +:+ str_join ", " (render (arg_mode m) <$> args) +:+ "]" end.
Proof.
  intros (_ & H2 & _). cbn [render]. rewrite decide_True by done. unfold base_of, shown_name.
  assert (bool_decide (name ∈ ["interface{}"; "interface {}"]) = bool_decide (name = "interface{}")) as ->.
  { apply bool_decide_ext. rewrite !elem_of_cons, elem_of_nil. split; [|by left]. intros [H|[->|[]]]; [done|]. pose proof (H2 "interface" " "%char "{}" eq_refl). done. }
  destruct args; [by rewrite sapp_nil|done].
Qed.
Lemma base_plain m pkg name : name_ok pkg name → plain (base_of m pkg name).
Proof.
  intros H. destruct (name_ok_shown m pkg name H) as (Hn & _). destruct H as (Hp & _). unfold base_of. case_bool_decide; [done|]. destruct m; [| |done].
  - apply plain_app; [done|]. apply plain_app; [|done]. apply plain_cons. split; [done|apply plain_nil].
  - apply plain_app; [done|]. apply plain_app; [apply plain_arrow|done].
Qed.
Lemma base_nonempty m pkg name : name_ok pkg name → base_of m pkg name ≠ "".
Proof. intros H. destruct (name_ok_shown m pkg name H) as (_ & Hn & _). unfold base_of. case_bool_decide as Hb; [done|]. destruct m; [| |done]; intros E; apply sapp_eq_nil in E as [E _]; done. Qed.
Lemma base_not_map m pkg name : name_ok pkg name → base_of m pkg name ≠ "map".
Proof.
  intros H. destruct (name_ok_shown m pkg name H) as (_ & _ & Hn & _). unfold base_of. case_bool_decide as Hb; [done|]. destruct m; [| |done]; intros E.
  - assert (contains_byte "." "map" = true) as H'; [|done]. rewrite <- E. apply contains_byte_spec. by exists pkg, (shown_name Dotted name).
  - assert (contains_byte "-" "map" = true) as H'; [|done]. rewrite <- E. apply contains_byte_spec. by exists pkg, ("->" +:+ shown_name Internal name).
Qed.
(** A prefix that mixes plain text and a special character cannot start such a spelling. *)
Lemma no_prefix base tl q c r : plain base → (tl = "" ∨ ∃ x, tl = String "[" x) → plain q → mem_byte c special = true → (c ≠ "["%char ∨ base ≠ q) → has_prefix (q +:+ String c r) (base +:+ tl) = false.
Proof.
  intros Hb Ht Hq Hc Hx. destruct (has_prefix _ _) eqn:E; [|done]. exfalso. apply has_prefix_spec in E as [x E].
  revert base Hb Hx E. induction q as [|d q IH]; intros base Hb Hx E.
  - change ("" +:+ String c r) with (String c r) in E. rewrite sapp_cons in E. destruct base as [|e base].
    + destruct Ht as [->|[y ->]]; [done|]. injection E as <- _. destruct Hx as [Hx|Hx]; done.
    + rewrite sapp_cons in E. injection E as -> _. apply plain_cons in Hb as [Hb _]. congruence.
  - rewrite !sapp_cons in E. apply plain_cons in Hq as [Hd Hq]. destruct base as [|e base].
    + destruct Ht as [->|[y ->]]; [done|]. injection E as <- _. done.
    + rewrite sapp_cons in E. injection E as -> E. apply plain_cons in Hb as [He Hb]. apply (IH Hq base Hb); [|done]. destruct Hx as [Hx|Hx]; [by left|right; congruence].
Qed.
Lemma plain_q s : str_any (λ c, mem_byte c special) s = false → plain s.
Proof. induction s as [|c s IH]; intros H; [apply plain_nil|]. cbn in H. apply orb_false_iff in H as [H1 H2]. apply plain_cons. split; [done|by apply IH]. Qed.

(** ** What parsing sees of a named type *)
Lemma parse_named_case n base tl : plain base → base ≠ "" → base ≠ "map" → (tl = "" ∨ ∃ x, tl = String "[" x) →
  parse (S n) (base +:+ tl) = parse_named (parse n) (base +:+ tl).
Proof.
  intros Hb Hne Hm Ht. cbn [parse]. rewrite decide_False by (intros [E _]%sapp_eq_nil; done).
  assert (has_prefix "*" (base +:+ tl) = false) as -> by (apply (no_prefix base tl "" "*" ""); [done|done|apply plain_nil|done|by left]).
  assert (has_prefix "[]" (base +:+ tl) = false) as -> by (apply (no_prefix base tl "" "[" "]"); [done|done|apply plain_nil|done|by right]).
  assert (has_prefix "map[" (base +:+ tl) = false) as -> by (apply (no_prefix base tl "map" "[" ""); [done|done|by apply plain_q|done|by right]).
  assert (has_prefix "chan<- " (base +:+ tl) = false) as -> by (apply (no_prefix base tl "chan<-" " " ""); [done|done|by apply plain_q|done|by left]).
  assert (has_prefix "<-chan " (base +:+ tl) = false) as -> by (apply (no_prefix base tl "<-chan" " " ""); [done|done|by apply plain_q|done|by left]).
  assert (has_prefix "chan " (base +:+ tl) = false) as -> by (apply (no_prefix base tl "chan" " " ""); [done|done|by apply plain_q|done|by left]).
  assert (has_prefix "[" (base +:+ tl) = false) as -> by (apply (no_prefix base tl "" "[" ""); [done|done|apply plain_nil|done|by right]).
  done.
Qed.
Lemma no_square_any base : plain base → str_any (λ c, bool_decide (c = "["%char)) base = false.
Proof. intros H. by apply (plain_no "[" base H). Qed.
Lemma peel_none base : plain base → peel_args base = (base, []).
Proof. intros H. unfold peel_args. by rewrite (plain_no "[" base H). Qed.
Lemma peel_some base inner : plain base → base ≠ "" → peel_args (base +:+ "[" +:+ inner +:+ "]") = (base, split_args inner).
Proof.
  intros H Hne. unfold peel_args. assert (take_until (λ c, bool_decide (c = "["%char)) (base +:+ "[" +:+ inner +:+ "]") = base) as ->.
  { change ("[" +:+ inner +:+ "]") with (String "[" (inner +:+ "]")). rewrite take_until_app, no_square_any by done. cbn [take_until]. rewrite bool_decide_eq_true_2 by done. by rewrite sapp_nil. }
  assert (contains_byte "[" (base +:+ "[" +:+ inner +:+ "]") = true) as ->.
  { apply contains_byte_spec. by exists base, (inner +:+ "]"). }
  rewrite bool_decide_eq_false_2 by done. assert (has_suffix "]" (base +:+ "[" +:+ inner +:+ "]") = true) as ->.
  { apply has_suffix_spec. exists (base +:+ "[" +:+ inner). by rewrite !sapp_assoc. }
  cbn [negb andb]. f_equal. f_equal.
  assert (str_drop (S (String.length base)) (base +:+ "[" +:+ inner +:+ "]") = inner +:+ "]") as ->.
  { replace (S (String.length base)) with (String.length (base +:+ "[")) by (rewrite sapp_length; cbn; lia). rewrite <- sapp_assoc. apply str_drop_app. }
  replace (String.length (base +:+ "[" +:+ inner +:+ "]") - 1 - S (String.length base)) with (String.length inner) by (rewrite !sapp_length; cbn; lia). apply str_take_app.
Qed.
Lemma join_space a l : str_join ", " (a :: l) = str_join "," (a :: (String " " <$> l)).
Proof.
  revert a. induction l as [|b l IH]; intros a; [done|]. rewrite str_join_cons2, IH. rewrite fmap_cons, str_join_cons2. f_equal.
  assert (∀ X, str_join "," (String " " b :: X) = String " " (str_join "," (b :: X))) as ->; [|done]. intros [|x X]; [done|]. by rewrite !str_join_cons2.
Qed.
Lemma trim_lead s : firm spaces s → trim_space (String " " s) = s.
Proof.
  intros H. pose proof (trim_any_firm spaces " " s "") as E. change (" " +:+ s +:+ "") with (String " " (s +:+ "")) in E. rewrite sapp_nil in E. apply E; [|apply all_of_nil|done].
  apply all_of_snoc_cons; [done|apply all_of_nil].
Qed.
Lemma split_args_join a l : Forall (λ s, arg s ∧ firm spaces s) (a :: l) → split_args (str_join ", " (a :: l)) = a :: l.
Proof.
  intros H. rewrite join_space. apply Forall_cons in H as [[Ha Hf] H].
  assert (∃ init t, a :: (String " " <$> l) = init ++ [t] ∧ trim_space t ≠ "") as (init & t & E & Ht).
  { destruct l as [|b l _] using rev_ind; [exists [], a; split; [done|]; rewrite firm_trim by done; by apply firm_nonempty|].
    apply Forall_app in H as [_ H]. apply Forall_cons in H as [[_ Hb] _]. exists (a :: (String " " <$> l)), (String " " b). split; [by rewrite fmap_app|]. rewrite trim_lead by done. by apply firm_nonempty. }
  rewrite E, C46_args_split_at_top; [|rewrite <- E|done].
  - rewrite <- E. rewrite fmap_cons, firm_trim by done. f_equal. rewrite <- list_fmap_compose. clear E. induction l as [|b l IH]; [done|]. apply Forall_cons in H as [[Hb Hb'] H]. rewrite fmap_cons. change ((trim_space ∘ String " ") b) with (trim_space (String " " b)). rewrite trim_lead by done. f_equal. by apply IH.
  - constructor; [done|]. apply Forall_fmap. eapply Forall_impl; [done|]. intros s [Hs _]. cbn. constructor; [by apply (bool_decide_unpack _)|by apply (bool_decide_unpack _)|done|done].
Qed.

(** ** Facts about every rendering *)
Lemma args_forall args : foldr (λ a P, well_formed true a ∧ P) True args ↔ Forall (well_formed true) args.
Proof. induction args as [|a args IH]; cbn; [done|]. rewrite Forall_cons, IH. done. Qed.
Lemma ident_plain name : is_ident name = true → plain name ∧ name ≠ "".
Proof.
  assert (∀ c, ident_char c = true → mem_byte c special = false) as Hc.
  { intros c H. destruct (mem_byte c special) eqn:E; [|done]. exfalso. apply mem_spec in E as (a & b & E). unfold special, spaces in E.
    do 12 (destruct a as [|? a]; [injection E as <- _; done|injection E as _ E]). by destruct a. }
  unfold is_ident. destruct name as [|c s]; [done|]. intros [H1 H2]%andb_true_iff. split; [|done]. apply plain_cons. split.
  - apply Hc. unfold ident_char. by rewrite H1.
  - apply negb_true_iff in H2. apply plain_q. clear H1. induction s as [|d s IH]; [done|]. cbn in H2 |- *. apply orb_false_iff in H2 as [H2 H3]. apply negb_false_iff in H2. rewrite (Hc d H2). by apply IH.
Qed.
Lemma ident_interface name : is_ident name = true → name ∉ ["interface{}"; "interface {}"].
Proof. intros H. rewrite !elem_of_cons, elem_of_nil. intros [->|[->|[]]]; done. Qed.
Lemma render_decl m name c : decl_ok name c → render m (TNamed "" name [] c) = name +:+ " " +:+ c.
Proof.
  intros (H1 & H2 & H3 & _). cbn [render]. rewrite decide_False by (by apply firm_nonempty). rewrite (bool_decide_eq_false_2 (name ∈ _)) by (by apply ident_interface). rewrite andb_false_r. done.
Qed.
Lemma balanced_lit s : str_any (λ c, mem_byte c "[]()") s = false → balanced s.
Proof. induction s as [|c s IH]; intros H; [constructor|]. cbn in H. apply orb_false_iff in H as [H1 H2]. constructor; [done|by apply IH]. Qed.
Lemma arg_lit s : str_any (λ c, mem_byte c "[](),") s = false → arg s.
Proof.
  induction s as [|c s IH]; intros H; [constructor|]. cbn [str_any] in H. apply orb_false_iff in H as [H1 H2].
  assert (∀ d, mem_byte d "[]()," = true → c ≠ d) as Hd by (intros d Hd ->; congruence).
  constructor; [| |by apply Hd|by apply IH]; unfold arg_open, arg_close; rewrite !elem_of_cons, !elem_of_nil; intros [E|[E|[]]]; by apply Hd in E.
Qed.
Lemma bal_join l : Forall balanced l → balanced (str_join ", " l).
Proof.
  induction 1 as [|s l Hs H IH]; [constructor|]. destruct l as [|t l]; [done|]. rewrite str_join_cons2. apply bal_app; [done|]. apply bal_app; [by apply balanced_lit|done].
Qed.
Lemma render_facts t : ∀ a m, well_formed a t → balanced (render m t) ∧ arg (render m t) ∧ firm spaces (render m t).
Proof.
  assert (∀ p e, balanced p → arg p → firm spaces p → balanced e ∧ arg e ∧ firm spaces e → balanced (p +:+ e) ∧ arg (p +:+ e) ∧ firm spaces (p +:+ e)) as Hpre.
  { intros p e H1 H2 H3 (H4 & H5 & H6). split; [by apply bal_app|]. split; [by apply arg_app|]. by apply (firm_ends p "" e). }
  assert (∀ p e, str_any (λ c, mem_byte c "[](),") p = false → (∃ c t, p = String c t ∧ mem_byte c spaces = false) → balanced e ∧ arg e ∧ firm spaces e → balanced (p +:+ e) ∧ arg (p +:+ e) ∧ firm spaces (p +:+ e)) as Hlit.
  { intros p e H1 (c & t' & E & Hc) (H4 & H5 & H6). split.
    - apply bal_app; [|done]. apply balanced_lit. clear -H1. induction p as [|d p IH]; [done|]. cbn [str_any] in H1 |- *. apply orb_false_iff in H1 as [H1 H2]. rewrite IH by done. rewrite orb_false_r.
      destruct (mem_byte d "[]()") eqn:Em; [|done]. apply mem_spec in Em as (x & y & Em). assert (mem_byte d "[](),"  = true) as H'; [|congruence]. apply mem_spec. exists x, (y +:+ ","). change "[](),"%string with ("[]()" +:+ ","). by rewrite Em, sapp_assoc.
    - split; [apply arg_app; [by apply arg_lit|done]|]. destruct H6 as [_ (t2 & c2 & -> & Hc2)]. split; [exists c, (t' +:+ t2 +:+ String c2 ""); by rewrite E|]. exists (p +:+ t2), c2. by rewrite sapp_assoc. }
  induction t as [pkg name args c IH|e IH|e IH|len e IH|k e IHk IHe|d e IH] using tref_ind'; intros a m H; cbn [well_formed] in H.
  - destruct H as [(-> & Hn & Ha)|(-> & -> & -> & Hd)].
    + rewrite render_named by done. apply args_forall in Ha. pose proof (base_plain m _ _ Hn) as Hb. pose proof (base_nonempty m _ _ Hn) as Hne.
      destruct args as [|x args]; [rewrite sapp_nil; split; [by apply plain_bal|]; split; [by apply plain_arg|by apply plain_firm]|]. set (r := x :: args) in *.
      assert (balanced (str_join ", " (render (arg_mode m) <$> r))) as Hj.
      { apply bal_join, Forall_fmap. apply Forall_forall. intros y Hy. rewrite Forall_forall in IH, Ha. by apply (IH y Hy true), Ha. }
      split; [apply bal_app; [by apply plain_bal|by apply bal_group]|]. split; [apply arg_app; [by apply plain_arg|by apply arg_group']|].
      rewrite <- sapp_assoc. rewrite <- (sapp_assoc (base_of m pkg name +:+ "[")). rewrite (sapp_assoc (base_of m pkg name)). rewrite (sapp_assoc (base_of m pkg name)). rewrite !sapp_assoc.
      rewrite <- (sapp_assoc "["). apply (firm_ends (base_of m pkg name) ("[" +:+ str_join ", " (render (arg_mode m) <$> r)) "]"); [by apply plain_firm|by apply firm_char].
    + rewrite render_decl by done. destruct Hd as (H1 & _ & H3 & H4 & H5). apply ident_plain in H1 as [Hp Hne].
      split; [apply bal_app; [by apply plain_bal|apply bal_app; [by apply balanced_lit|done]]|]. split; [apply arg_app; [by apply plain_arg|apply arg_app; [by apply arg_lit|done]]|].
      apply firm_ends; [by apply plain_firm|done].
  - cbn [render]. apply Hlit; [done|by exists "*"%char, ""|by apply (IH false)].
  - cbn [render]. apply Hpre; [apply (bal_group ""); constructor|apply (arg_group' ""); constructor| |by apply (IH false)]. apply (firm_ends "[" "" "]"); by apply firm_char.
  - destruct H as (H1 & H2 & H3). cbn [render]. replace ("[" +:+ len +:+ "]" +:+ render m e) with (("[" +:+ len +:+ "]") +:+ render m e) by (by rewrite !sapp_assoc).
    apply Hpre; [by apply bal_group|by apply arg_group'| |by apply (IH false)]. apply (firm_ends "[" len "]"); by apply firm_char.
  - destruct H as (H1 & H2). cbn [render]. destruct (IHk false m H1) as (Hk1 & Hk2 & Hk3). 
    replace ("map[" +:+ render m k +:+ "]" +:+ render m e) with ("map" +:+ ("[" +:+ render m k +:+ "]") +:+ render m e) by (by rewrite !sapp_assoc).
    apply Hpre; [by apply balanced_lit|by apply arg_lit|by apply plain_firm; [apply plain_q|]|]. apply Hpre; [by apply bal_group|by apply arg_group'| |by apply (IHe false)]. apply (firm_ends "[" (render m k) "]"); by apply firm_char.
  - cbn [render]. destruct d; (apply Hlit; [done|by eexists _, _|by apply (IH false)]).
Qed.

(** ** Declarations are told apart from types *)
Lemma take_space_app s t : contains_byte " " s = false → take_until (λ c, bool_decide (c = " "%char)) (s +:+ String " " t) = s.
Proof. intros H. rewrite take_until_app. unfold contains_byte in H. rewrite H. cbn [take_until]. rewrite bool_decide_eq_true_2 by done. by rewrite sapp_nil. Qed.
(** Text whose first blank comes after a character that no identifier has. *)
Lemma decl_none_at p c s : contains_byte " " p = false → c ≠ " "%char → ident_char c = false → decl_arg (p +:+ String c s) = None.
Proof.
  intros Hp Hc Hi. unfold decl_arg. destruct (decide _); [done|]. destruct (decide _); [done|].
  assert (take_until (λ c, bool_decide (c = " "%char)) (p +:+ String c s) = p +:+ String c (take_until (λ c, bool_decide (c = " "%char)) s)) as ->.
  { rewrite take_until_app. unfold contains_byte in Hp. rewrite Hp. cbn [take_until]. by rewrite bool_decide_eq_false_2. }
  destruct (is_ident _) eqn:E; [|done]. exfalso. destruct p as [|x p].
  - cbn [is_ident append] in E. apply andb_true_iff in E as [E _]. unfold ident_char in Hi. by rewrite E in Hi.
  - rewrite sapp_cons in E. cbn [is_ident] in E. apply andb_true_iff in E as [_ E]. apply negb_true_iff in E. rewrite str_any_app in E. apply orb_false_iff in E as [_ E]. cbn in E. by rewrite Hi in E.
Qed.
Lemma decl_none_plain s : contains_byte " " s = false → decl_arg s = None.
Proof. intros H. unfold decl_arg. rewrite take_until_none by done. by rewrite decide_True. Qed.
Lemma decl_none_render t m : wf t → decl_arg (render m t) = None.
Proof.
  destruct t as [pkg name args c|e|e|len e|k e|d e]; intros H; cbn [well_formed] in H.
  - destruct H as [(-> & Hn & Ha)|(? & _)]; [|done]. rewrite render_named by done. pose proof (plain_no " " _ (base_plain m _ _ Hn) eq_refl) as Hb. destruct args as [|x args]; [rewrite sapp_nil; by apply decl_none_plain|].
    by apply decl_none_at.
  - by apply (decl_none_at "" "*").
  - by apply (decl_none_at "" "[").
  - by apply (decl_none_at "" "[").
  - by apply (decl_none_at "map" "[").
  - cbn [render]. destruct d.
    + unfold decl_arg. change ("chan " +:+ render m e) with ("chan" +:+ String " " (render m e)). rewrite take_space_app by done. destruct (decide _); [done|]. rewrite decide_True; [done|]. by apply (bool_decide_unpack _).
    + by apply (decl_none_at "chan" "<").
    + by apply (decl_none_at "" "<").
Qed.
Lemma decl_some name c : decl_ok name c → decl_arg (name +:+ " " +:+ c) = Some (name, c).
Proof.
  intros (H1 & H2 & H3 & _). pose proof (ident_plain _ H1) as [Hp Hne]. unfold decl_arg. change (" " +:+ c) with (String " " c). rewrite take_space_app by (by apply plain_no).
  rewrite decide_False.
  2:{ intros E. assert (String.length name = String.length (name +:+ String " " c)) as El by (by rewrite <- E). rewrite sapp_length in El. cbn in El. lia. }
  rewrite decide_False. 2:{ rewrite elem_of_cons. intros [?|?]; done. }
  rewrite H1. do 2 f_equal. assert (str_drop (S (String.length name)) (name +:+ String " " c) = c) as ->; [|by apply firm_trim].
  replace (S (String.length name)) with (String.length (name +:+ " ")) by (rewrite sapp_length; cbn; lia). replace (name +:+ String " " c) with ((name +:+ " ") +:+ c) by (by rewrite sapp_assoc). apply str_drop_app.
Qed.

(** ** Reading back *)
Lemma length_join_in s l : s ∈ l → String.length s ≤ String.length (str_join ", " l).
Proof.
  induction l as [|a l IH]; [by intros ?%elem_of_nil|]. intros [->|H]%elem_of_cons.
  - destruct l; [done|]. rewrite str_join_cons2, sapp_length. lia.
  - destruct l as [|b l]; [by apply elem_of_nil in H|]. rewrite str_join_cons2, !sapp_length. specialize (IH H). lia.
Qed.
Lemma parse_render t : ∀ m n, (wf t → String.length (render m t) < n → parse n (render m t) = shown m t) ∧
  (well_formed true t → String.length (render m t) < n → parse_arg (parse n) (render m t) = shown m t).
Proof.
  assert (∀ t m n, (wf t → String.length (render m t) < n → parse n (render m t) = shown m t) → wf t → String.length (render m t) < n → parse_arg (parse n) (render m t) = shown m t) as Harg.
  { intros t' m n H Hw Hl. unfold parse_arg. rewrite decl_none_render by done. by apply H. }
  assert (∀ t m n, (match t with TNamed _ _ _ _ => False | _ => True end) → (wf t → String.length (render m t) < n → parse n (render m t) = shown m t) →
    (wf t → String.length (render m t) < n → parse n (render m t) = shown m t) ∧ (well_formed true t → String.length (render m t) < n → parse_arg (parse n) (render m t) = shown m t)) as Hother.
  { intros t' m n Hk H. split; [done|]. intros Hw. apply Harg; [done|]. by destruct t'. }
  induction t as [pkg name args c IH|e IH|e IH|len e IH|k e IHk IHe|d e IH] using tref_ind'; intros m n.
  - assert (c = "" ∧ name_ok pkg name ∧ Forall (well_formed true) args → String.length (render m (TNamed pkg name args c)) < n → parse n (render m (TNamed pkg name args c)) = shown m (TNamed pkg name args c)) as Hmain.
    { intros (-> & Hn & Ha) Hl. rewrite render_named in * by done. pose proof (base_plain m _ _ Hn) as Hb. pose proof (base_nonempty m _ _ Hn) as Hne. destruct n as [|n]; [lia|].
      rewrite parse_named_case; [|done|done|by apply base_not_map|destruct args; [by left|right; by eexists]]. 
      unfold parse_named.
      assert (peel_args (base_of m pkg name +:+ match args with [] => "" | _ => "[" +:+ str_join ", " (render (arg_mode m) <$> args) +:+ "]" end) = (base_of m pkg name, render (arg_mode m) <$> args)) as ->.
      { destruct args as [|x args]; [rewrite sapp_nil; by rewrite peel_none|]. rewrite peel_some by done. f_equal. rewrite fmap_cons. apply split_args_join. rewrite <- fmap_cons. apply Forall_fmap. eapply Forall_impl; [exact Ha|].
        intros y Hy. cbn. by destruct (render_facts y true (arg_mode m) Hy) as (_ & ? & ?). }
      assert (parse_arg (parse n) <$> (render (arg_mode m) <$> args) = shown (arg_mode m) <$> args) as ->.
      { rewrite <- list_fmap_compose. apply list_fmap_ext. intros i y Hy%elem_of_list_lookup_2. cbn. rewrite Forall_forall in IH, Ha. apply (IH y Hy); [by apply Ha|].
        destruct args as [|x args]; [by apply elem_of_nil in Hy|]. pose proof (length_join_in (render (arg_mode m) y) (render (arg_mode m) <$> (x :: args))) as Hle.
        rewrite !sapp_length in Hl. cbn [String.length] in Hl. feed specialize Hle; [by apply elem_of_list_fmap_1|]. lia. }
      destruct (name_ok_shown m _ _ Hn) as (_ & _ & _ & Hdot & Harr). pose proof (name_ok_arrows _ _ Hn) as [Hpa _]. pose proof Hn as (_ & _ & _ & _ & _ & Hall).
      assert (∀ nm, str_contains arrow nm = false → contains_byte "." nm = false → match cut_arrow nm with
          | Some (pkg0, rest) => TNamed pkg0 (default "" (head (split_arrow (String.length rest) rest))) match shown (arg_mode m) <$> args with [] => parse_arg (parse n) <$> tail (split_arrow (String.length rest) rest) | _ => shown (arg_mode m) <$> args end ""
          | None => match split_last "." nm with Some (p0, n0) => if decide (p0 = "") then TNamed "" nm (shown (arg_mode m) <$> args) "" else TNamed p0 n0 (shown (arg_mode m) <$> args) "" | None => TNamed "" nm (shown (arg_mode m) <$> args) "" end
          end = TNamed "" nm (shown (arg_mode m) <$> args) "") as Hbare.
      { intros nm H1 H2. by rewrite cut_arrow_none, split_last_none. }
      cbn [shown]. fold (shown_name m name). unfold base_of. case_bool_decide as Hp.
      - subst pkg. rewrite Hbare by done. by destruct (is_simple m).
      - destruct m; cbn [is_simple].
        + rewrite cut_arrow_none by done. change ("." +:+ shown_name Dotted name) with (String "." (shown_name Dotted name)). rewrite split_last_app by done. by rewrite decide_False.
        + rewrite cut_arrow_some by done. rewrite split_arrow_none by done. cbn. by destruct args.
        + by rewrite Hbare. }
    split.
    + cbn [well_formed]. intros [(H1 & H2 & H3)|(? & _)]; [|done]. apply Hmain. by rewrite <- args_forall.
    + intros Hw Hl. pose proof Hw as Hw'. cbn [well_formed] in Hw. destruct Hw as [(-> & H2 & H3)|(_ & -> & -> & Hd)].
      * apply Harg; [|left; done|done]. intros _. apply Hmain. by rewrite <- args_forall.
      * rewrite render_decl by done. unfold parse_arg. rewrite decl_some by done. cbn [shown]. destruct Hd as (H1 & _). pose proof (ident_interface _ H1) as Hi.
        rewrite bool_decide_eq_false_2; [|intros ->; apply Hi; left]. rewrite andb_false_r. by destruct (is_simple m).
  - apply Hother; [done|]. cbn [well_formed render shown]. intros Hw Hl. destruct n as [|n]; [lia|]. rewrite sapp_length in Hl. cbn [String.length] in Hl. cbn [parse]. 
    rewrite decide_False by done. change (has_prefix "*" ("*" +:+ render m e)) with (has_prefix "" (render m e)). cbn [has_prefix]. f_equal. change (str_drop 1 ("*" +:+ render m e)) with (str_drop 0 (render m e)). cbn [str_drop]. apply IH; [done|lia].
  - apply Hother; [done|]. cbn [well_formed render shown]. intros Hw Hl. destruct n as [|n]; [lia|]. rewrite sapp_length in Hl. cbn [String.length] in Hl. cbn [parse]. rewrite decide_False by done.
    change (TSlice (parse n (render m e)) = TSlice (shown m e)). f_equal. apply IH; [done|lia].
  - apply Hother; [done|]. cbn [well_formed render shown]. intros (H1 & H2 & Hw) Hl. destruct n as [|n]; [lia|]. rewrite !sapp_length in Hl. cbn [String.length] in Hl. cbn [parse]. rewrite decide_False by done.
    destruct (render_facts e false m Hw) as (_ & _ & Hf). apply firm_nonempty in Hf.
    assert (has_prefix "[]" ("[" +:+ len +:+ "]" +:+ render m e) = false) as ->.
    { destruct len as [|x len]; [done|]. destruct (has_prefix _ _) eqn:E; [|done]. exfalso. apply has_prefix_spec in E as [y E]. change ("[" +:+ String x len +:+ "]" +:+ render m e) with (String "[" (String x (len +:+ "]" +:+ render m e))) in E. change ("[]" +:+ y) with (String "[" (String "]" y)) in E.
      injection E as -> _. inversion H2; subst; done. }
    change (match close_at 0 (len +:+ "]" +:+ render m e) with Some (len0, elem) => if decide (len0 = "" ∨ elem = "") then parse_named (parse n) ("[" +:+ len +:+ "]" +:+ render m e) else TArr len0 (parse n elem) | None => parse_named (parse n) ("[" +:+ len +:+ "]" +:+ render m e) end = TArr len (shown m e)).
    rewrite close_here by done. rewrite decide_False by (intros [?|?]; done). f_equal. apply IH; [done|lia].
  - apply Hother; [done|]. cbn [well_formed render shown]. intros (H1 & Hw) Hl. destruct n as [|n]; [lia|]. rewrite !sapp_length in Hl. cbn [String.length] in Hl. cbn [parse]. rewrite decide_False by done.
    destruct (render_facts e false m Hw) as (_ & _ & Hf). apply firm_nonempty in Hf. destruct (render_facts k false m H1) as (Hk & _ & _).
    change (match close_at 0 (render m k +:+ "]" +:+ render m e) with Some (key, elem) => if decide (elem = "") then parse_named (parse n) ("map[" +:+ render m k +:+ "]" +:+ render m e) else TMap (parse n key) (parse n elem) | None => parse_named (parse n) ("map[" +:+ render m k +:+ "]" +:+ render m e) end = TMap (shown m k) (shown m e)).
    rewrite close_here by done. rewrite decide_False by done. f_equal; [apply IHk; [done|lia]|apply IHe; [done|lia]].
  - apply Hother; [done|]. cbn [well_formed render shown]. intros Hw Hl. destruct n as [|n]; [lia|].
    destruct d; rewrite !sapp_length in Hl; cbn [String.length] in Hl; cbn [parse]; rewrite decide_False by done.
    + change (TChan SendRecv (parse n (render m e)) = TChan SendRecv (shown m e)). f_equal. apply IH; [done|lia].
    + change (TChan SendOnly (parse n (render m e)) = TChan SendOnly (shown m e)). f_equal. apply IH; [done|lia].
    + change (TChan RecvOnly (parse n (render m e)) = TChan RecvOnly (shown m e)). f_equal. apply IH; [done|lia].
Qed.
Lemma parse_type_render t m : wf t → parse_type (render m t) = shown m t.
Proof. intros H. destruct (render_facts t false m H) as (_ & _ & Hf). unfold parse_type. rewrite firm_trim by done. apply parse_render; [done|lia]. Qed.
