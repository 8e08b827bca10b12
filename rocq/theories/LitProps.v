(** * Literal types: C41. *)
From Coq Require Import Ascii.
From stdpp Require Import base list strings gmap.
From Verif Require Import StrLib StrSplit DecLib PathModel PathSpec PathProofs PathProofs2 VerbProofs LitModel.

(** ** Specification *)

(** A double-quoted or back-quoted string literal with the given content. *)
Definition quoted (content source : string) : Prop :=
  source = String "034" (content +:+ String "034" "") ∨ source = String backquote (content +:+ String backquote "").
(** Characters that occur in numbers and in the words true, false, nil, inf and nan. *)
Definition wordish (c : ascii) : bool := ident_char c || bool_decide (c = "+"%char) || bool_decide (c = "-"%char) || bool_decide (c = "."%char).
Definition digits (s : string) : Prop := s ≠ "" ∧ all_digits s = true.
(** An unsigned decimal exponent part, possibly absent. *)
Definition exponent (s : string) : Prop :=
  s = "" ∨ ∃ e sign d, (e = "e" ∨ e = "E") ∧ (sign = "" ∨ sign = "+" ∨ sign = "-") ∧ digits d ∧ s = e +:+ sign +:+ d.

(** ** Lemmas *)
Lemma is_digit_range c : is_digit c = in_range "0" "9" c.
Proof. destruct c as [b0 b1 b2 b3 b4 b5 b6 b7]. destruct b0, b1, b2, b3, b4, b5, b6, b7; vm_compute; done. Qed.
Lemma digit_wordish c : is_digit c = true → wordish c = true.
Proof. rewrite is_digit_range. unfold wordish, ident_char. intros ->. by rewrite orb_true_r. Qed.
Lemma hex_wordish c : hex_digit c = true → wordish c = true.
Proof. destruct c as [b0 b1 b2 b3 b4 b5 b6 b7]. destruct b0, b1, b2, b3, b4, b5, b6, b7; vm_compute; done. Qed.
Lemma lower_wordish c d : lower_char c = d → in_range "a" "z" d = true → wordish c = true.
Proof. intros <-. destruct c as [b0 b1 b2 b3 b4 b5 b6 b7]. destruct b0, b1, b2, b3, b4, b5, b6, b7; vm_compute; done. Qed.
Definition all_wordish (s : string) : Prop := str_any (λ c, negb (wordish c)) s = false.
Lemma all_wordish_cons c s : all_wordish (String c s) ↔ wordish c = true ∧ all_wordish s.
Proof. unfold all_wordish. cbn. rewrite orb_false_iff, negb_false_iff. done. Qed.
Lemma wordish_drop_sign s : all_wordish (drop_sign s) → all_wordish s.
Proof.
  destruct s as [|c s]; [done|]. cbn. destruct (_ || _) eqn:E; [|done]. intros H. apply all_wordish_cons. split; [|done].
  apply orb_true_iff in E as [E|E]; apply bool_decide_eq_true in E as ->; done.
Qed.
Lemma parse_digits_all s : ∀ acc n, parse_digits acc s = Some n → all_digits s = true.
Proof.
  induction s as [|c s IH]; intros acc n H; [done|]. cbn in *. unfold is_digit. destruct (digit c) as [d|]; [|done]. cbn in *. by apply (IH _ _ H).
Qed.
Lemma all_digits_wordish s : all_digits s = true → all_wordish s.
Proof.
  induction s as [|c s IH]; [done|]. cbn [all_digits]. intros [H1 H2]%andb_true_iff. apply all_wordish_cons. split; [by apply digit_wordish|by apply IH].
Qed.
Lemma parse_nat_digits s n : parse_nat s = Some n → all_digits s = true.
Proof. destruct s as [|c s]; [done|]. apply parse_digits_all. Qed.
Lemma parse_uint_wordish s : parse_uint s = true → all_digits s = true.
Proof. unfold parse_uint. destruct (parse_nat s) eqn:E; [|done]. intros _. by apply parse_nat_digits in E. Qed.
Lemma parse_int_wordish s : parse_int s = true → all_digits (drop_sign s) = true.
Proof.
  unfold parse_int. destruct (atoi_opt s) as [z|] eqn:E; [|done]. intros _.
  destruct s as [|c s]; [done|]. destruct (decide (c = "-"%char)) as [->|H1].
  { cbn in E. destruct (parse_nat s) eqn:En; [|done]. cbn. by apply parse_nat_digits in En. }
  destruct (decide (c = "+"%char)) as [->|H2].
  { cbn in E. destruct (parse_nat s) eqn:En; [|done]. cbn. by apply parse_nat_digits in En. }
  assert (atoi_opt (String c s) = Z.of_N <$> parse_nat (String c s)) as E'.
  { clear E. destruct c as [b0 b1 b2 b3 b4 b5 b6 b7]. destruct b0, b1, b2, b3, b4, b5, b6, b7; done. }
  rewrite E' in E. destruct (parse_nat (String c s)) eqn:En; [|done]. apply parse_nat_digits in En.
  cbn [drop_sign]. rewrite !bool_decide_false by done. done.
Qed.
Lemma mantissa_wordish s : ∀ hex sd sg u rest a b, mantissa hex sd sg u s = (rest, a, b) → all_wordish rest → all_wordish s.
Proof.
  induction s as [|c s IH]; intros hex sd sg u rest a b H Hr; [done|]. cbn in H.
  destruct (bool_decide (c = "_"%char)) eqn:E1; [apply bool_decide_eq_true in E1 as ->; apply all_wordish_cons; split; [done|by eapply IH]|].
  destruct (bool_decide (c = "."%char)) eqn:E2.
  { apply bool_decide_eq_true in E2 as ->. destruct sd; [by injection H as <- _ _|]. apply all_wordish_cons. split; [done|by eapply IH]. }
  destruct (is_digit c) eqn:E3; cbn in H.
  { apply all_wordish_cons. split; [by apply digit_wordish|by eapply IH]. }
  destruct hex; cbn in H; [|by injection H as <- _ _]. destruct (hex_digit c) eqn:E4; [|by injection H as <- _ _].
  apply all_wordish_cons. split; [by apply hex_wordish|by eapply IH].
Qed.
Lemma exp_wordish s : ∀ u rest a, exp_digits u s = (rest, a) → all_wordish rest → all_wordish s.
Proof.
  induction s as [|c s IH]; intros u rest a H Hr; [done|]. cbn in H.
  destruct (bool_decide (c = "_"%char)) eqn:E1; [apply bool_decide_eq_true in E1 as ->; apply all_wordish_cons; split; [done|by eapply IH]|].
  destruct (is_digit c) eqn:E3; [|by injection H as <- _].
  apply all_wordish_cons. split; [by apply digit_wordish|by eapply IH].
Qed.
Lemma read_float_wordish s u : read_float s = Some ("", u) → all_wordish s.
Proof.
  unfold read_float. intros H. apply wordish_drop_sign. set (t := drop_sign s) in *. clearbody t.
  set (hex := match t with String a (String b (String _ _)) => _ | _ => false end) in *.
  destruct (mantissa hex false false false (if hex then str_drop 2 t else t)) as [[rest sg] und] eqn:Em.
  assert (all_wordish (if hex then str_drop 2 t else t) → all_wordish t) as Ht.
  { destruct hex eqn:Eh; [|done]. destruct t as [|a [|b [|c t]]]; try done. unfold hex in Eh. apply andb_true_iff in Eh as [E1 E2].
    apply bool_decide_eq_true in E1, E2. subst a. intros Hw. apply all_wordish_cons. split; [done|]. apply all_wordish_cons.
    split; [by apply (lower_wordish b "x")|]. done. }
  apply Ht, (mantissa_wordish _ _ _ _ _ _ _ _ Em). clear Em Ht.
  destruct (negb sg); [done|]. destruct rest as [|c r]; [done|].
  destruct (bool_decide (lower_char c = _)) eqn:Ec.
  - apply bool_decide_eq_true in Ec. apply all_wordish_cons. split; [apply (lower_wordish c _ Ec); by destruct hex|].
    apply wordish_drop_sign. destruct (drop_sign r) as [|d r'] eqn:Er; [done|]. destruct (is_digit d); [|done].
    injection H as H. change (exp_digits und (String d r') = ("", u)) in H. by apply (exp_wordish _ _ _ _ H).
  - destruct hex; done.
Qed.
Lemma lower_str_word s w : lower_str s = w → str_any (λ c, negb (in_range "a" "z" c)) w = false → all_wordish s.
Proof.
  revert w. induction s as [|c s IH]; intros w <- H; [done|]. cbn in H. apply orb_false_iff in H as [H1 H2].
  apply negb_false_iff in H1. apply all_wordish_cons. split; [by apply (lower_wordish c (lower_char c))|]. by apply (IH _ eq_refl).
Qed.
Lemma special_wordish s : special s = true → all_wordish s.
Proof.
  unfold special. intros [H|H]%orb_true_iff; apply bool_decide_eq_true in H.
  - apply wordish_drop_sign. apply elem_of_cons in H as [H|H]; [by apply (lower_str_word _ _ H)|].
    apply elem_of_list_singleton in H. by apply (lower_str_word _ _ H).
  - by apply (lower_str_word _ _ H).
Qed.
(** Everything the type tests accept consists of word characters. *)
Lemma not_string_wordish fin s : (parse_int s || parse_uint s || parse_float fin s || bool_decide (s = "true") || bool_decide (s = "false") || bool_decide (s = "nil")) = true →
  all_wordish s.
Proof.
  rewrite !orb_true_iff. intros [[[[[H|H]|H]|H]|H]|H].
  - apply wordish_drop_sign, all_digits_wordish. by apply parse_int_wordish.
  - by apply all_digits_wordish, parse_uint_wordish.
  - unfold parse_float in H. apply orb_true_iff in H as [H|H]; [by apply special_wordish|].
    destruct (read_float s) as [[rest u]|] eqn:E; [|done]. apply andb_true_iff in H as [[H _]%andb_true_iff _].
    apply bool_decide_eq_true in H as ->. by apply (read_float_wordish s u).
  - apply bool_decide_eq_true in H as ->. done.
  - apply bool_decide_eq_true in H as ->. done.
  - apply bool_decide_eq_true in H as ->. done.
Qed.
Lemma literal_string fin s : (parse_int (trim_any literal_quotes s) || parse_uint (trim_any literal_quotes s) || parse_float fin (trim_any literal_quotes s) ||
    bool_decide (trim_any literal_quotes s = "true") || bool_decide (trim_any literal_quotes s = "false") || bool_decide (trim_any literal_quotes s = "nil")) = false →
  determine_literal_type fin s = "string".
Proof.
  unfold determine_literal_type. rewrite !orb_false_iff. intros [[[[[-> ->] ->] ->] ->] ->]. done.
Qed.
(** Trimming the ends keeps every other character. *)
Lemma trim_any_keeps cs s c : mem_byte c cs = false → mem_byte c s = true → mem_byte c (trim_any cs s) = true.
Proof.
  intros Hc Hs. destruct (trim_any_dec cs s) as (a & b & E & Ha & Hb). rewrite E, !mem_app in Hs.
  apply orb_true_iff in Hs as [Hs|[Hs|Hs]%orb_true_iff]; [|done|]; apply mem_spec in Hs as (x & y & ->).
  - exfalso. destruct (Ha c x y eq_refl) as (x' & y' & ->). rewrite mem_app in Hc. cbn in Hc. rewrite bool_decide_true, orb_true_r in Hc; done.
  - exfalso. destruct (Hb c x y eq_refl) as (x' & y' & ->). rewrite mem_app in Hc. cbn in Hc. rewrite bool_decide_true, orb_true_r in Hc; done.
Qed.
Lemma wordish_mem s c : all_wordish s → mem_byte c s = true → wordish c = true.
Proof.
  intros H Hm. apply mem_spec in Hm as (x & y & ->). unfold all_wordish in H. rewrite str_any_app in H. cbn in H.
  apply orb_false_iff in H as [_ H]. apply orb_false_iff in H as [H _]. by apply negb_false_iff in H.
Qed.
Lemma trim_digits cs s : digits s → (∀ c, is_digit c = true → mem_byte c cs = false) → trim_any cs s = s.
Proof.
  intros [Hne Hd] Hc. destruct s as [|c s]; [done|]. destruct (snoc_dec (String c s)) as [|(t & d & Ed)]; [done|].
  apply (trim_any_stop cs s c t d); [| |done].
  - apply Hc. cbn in Hd. by apply andb_true_iff in Hd as [? _].
  - apply Hc. rewrite Ed in Hd. clear -Hd. induction t as [|e t IH]; cbn in Hd; [by apply andb_true_iff in Hd as [? _]|].
    apply andb_true_iff in Hd as [_ Hd]. by apply IH.
Qed.
Lemma digit_not_quote c : is_digit c = true → mem_byte c literal_quotes = false ∧ mem_byte c (String "034"%char "") = false.
Proof. destruct c as [b0 b1 b2 b3 b4 b5 b6 b7]. destruct b0, b1, b2, b3, b4, b5, b6, b7; vm_compute; done. Qed.
Lemma parse_nat_some s : digits s → ∃ n, parse_nat s = Some n.
Proof.
  intros [Hne Hd]. destruct s as [|c s]; [done|]. unfold parse_nat. generalize 0%N as acc. revert Hd. generalize (String c s) as t. clear Hne c s.
  intros t. induction t as [|c t IH]; intros Hd acc; [by exists acc|]. cbn in *. apply andb_true_iff in Hd as [H1 H2].
  unfold is_digit in H1. apply bool_decide_eq_true in H1 as [d ->]. cbn. by apply IH.
Qed.

(** ** The property *)

(** An unquoted decimal integer that fits a 64-bit integer is an integer. *)
Theorem C41_integers finite s n : digits s → parse_nat s = Some n → (n < 2 ^ 64)%N →
  documented_type finite s = if decide (n < 2 ^ 63)%N then "int" else "uint".
Proof.
  intros Hs Hn Hr. unfold documented_type, determine_literal_type.
  rewrite (trim_digits (String "034" "") s) by (done || by intros c [_ ?]%digit_not_quote).
  rewrite (trim_digits literal_quotes s) by (done || by intros c [? _]%digit_not_quote).
  unfold parse_int, parse_uint. rewrite atoi_opt_digits by apply Hs. rewrite Hn. cbn [fmap option_fmap option_map].
  destruct (decide (n < 2 ^ 63)%N) as [Hlt|Hge].
  - rewrite bool_decide_true; [done|]. change (2 ^ 63)%N with (Z.to_N (2 ^ 63)) in Hlt. lia.
  - rewrite bool_decide_false by (change (2 ^ 63)%N with (Z.to_N (2 ^ 63)) in Hge; lia). by rewrite bool_decide_true.
Qed.
(** A quoted literal whose content holds a character that no number and no word of the
    language has is a string. *)
Theorem C41_quoted_text_partial finite source content c : quoted content source →
  mem_byte c content = true → wordish c = false → c ≠ "034"%char → c ≠ backquote → documented_type finite source = "string".
Proof.
  intros Hq Hm Hw H1 H2. unfold documented_type. apply literal_string. apply not_true_is_false. intros H. apply not_string_wordish in H.
  assert (mem_byte c source = true) as Hs.
  { destruct Hq as [->| ->]; cbn [mem_byte]; rewrite mem_app, Hm; cbn; by rewrite orb_true_r. }
  assert (mem_byte c literal_quotes = false) as H3 by (unfold literal_quotes; cbn [mem_byte]; by rewrite !bool_decide_false).
  assert (mem_byte c (String "034" "") = false) as H4 by (cbn [mem_byte]; by rewrite !bool_decide_false).
  apply (trim_any_keeps _ _ _ H4) in Hs. apply (trim_any_keeps _ _ _ H3) in Hs. pose proof (wordish_mem _ _ H Hs). congruence.
Qed.

Definition nonempty (s : string) : bool := match s with "" => false | _ => true end.
Lemma mantissa_digits d : ∀ sd sg u rest, all_digits d = true → mantissa false sd sg u (d +:+ rest) = mantissa false sd (sg || nonempty d) u rest.
Proof.
  induction d as [|c d IH]; intros sd sg u rest H; [by rewrite orb_false_r|]. cbn in H. apply andb_true_iff in H as [H1 H2].
  rewrite sapp_cons. cbn [mantissa]. rewrite H1. rewrite (bool_decide_false (c = "_"%char)) by (intros ->; done).
  rewrite (bool_decide_false (c = "."%char)) by (intros ->; done). cbn [orb]. rewrite IH by done. cbn [nonempty]. by rewrite orb_true_r.
Qed.
Lemma mantissa_exponent e sd sg u : exponent e → mantissa false sd sg u e = (e, sg, u).
Proof.
  intros [->|(x & sign & d & Hx & _ & _ & ->)]; [done|]. destruct Hx as [->| ->]; done.
Qed.
Lemma exp_digits_all d : ∀ u, all_digits d = true → exp_digits u d = ("", u).
Proof.
  induction d as [|c d IH]; intros u H; [done|]. cbn in *. apply andb_true_iff in H as [H1 H2]. rewrite H1.
  rewrite (bool_decide_false (c = "_"%char)) by (intros ->; done). by apply IH.
Qed.
(** What follows the mantissa. *)
Lemma tail_exponent e u : exponent e →
  match e with
  | String c r => if bool_decide (lower_char c = "e"%char) then match drop_sign r with String d _ => if is_digit d then Some (exp_digits u (drop_sign r)) else None | "" => None end else Some (e, u)
  | "" => Some ("", u)
  end = Some ("", u).
Proof.
  intros [->|(x & sign & d & Hx & Hs & [Hne Hd] & ->)]; [done|].
  assert (drop_sign (sign +:+ d) = d) as E.
  { destruct d as [|c d]; [done|]. cbn in Hd. apply andb_true_iff in Hd as [Hd _]. destruct Hs as [->|[->| ->]]; [|done|done].
    cbn [drop_sign]. change ("" +:+ String c d) with (String c d). cbn. rewrite !bool_decide_false; [done|intros ->; done|intros ->; done]. }
  destruct Hx as [->| ->].
  - change ("e" +:+ sign +:+ d) with (String "e" (sign +:+ d)). cbn iota beta. rewrite bool_decide_true by done. rewrite E.
    destruct d as [|c d]; [done|]. pose proof Hd as Hd'. cbn in Hd. apply andb_true_iff in Hd as [-> _]. by rewrite exp_digits_all.
  - change ("E" +:+ sign +:+ d) with (String "E" (sign +:+ d)). cbn iota beta. rewrite bool_decide_true by done. rewrite E.
    destruct d as [|c d]; [done|]. pose proof Hd as Hd'. cbn in Hd. apply andb_true_iff in Hd as [-> _]. by rewrite exp_digits_all.
Qed.
(** No sign and no base prefix in front of digits. *)
Definition plain_start (t : string) : Prop :=
  match t with
  | String a t' => (is_digit a = true ∨ a = "."%char) ∧ match t' with String b _ => (is_digit b || bool_decide (b = "."%char) || bool_decide (lower_char b = "e"%char)) = true | "" => True end
  | "" => False
  end.
Lemma plain_sign t : plain_start t → drop_sign t = t.
Proof.
  destruct t as [|a t]; [done|]. cbn. intros [[H|H] _]; rewrite !bool_decide_false; try done; intros ->; done.
Qed.
Lemma plain_hex t : plain_start t → match t with String a (String b (String _ _)) => bool_decide (a = "0"%char) && bool_decide (lower_char b = "x"%char) | _ => false end = false.
Proof.
  destruct t as [|a [|b [|c t]]]; try done. cbn. intros [_ H]. apply andb_false_iff. right. apply bool_decide_eq_false. intros E. rewrite E in H.
  rewrite !orb_true_iff in H. destruct H as [[H|H]|H].
  - revert H E. destruct b as [b0 b1 b2 b3 b4 b5 b6 b7]. destruct b0, b1, b2, b3, b4, b5, b6, b7; vm_compute; done.
  - apply bool_decide_eq_true in H as ->. done.
  - by apply bool_decide_eq_true in H.
Qed.
Lemma digits_app_start d rest : all_digits d = true → plain_start rest → plain_start (d +:+ rest).
Proof.
  intros Hd Hr. destruct d as [|a d]; [done|]. cbn in Hd. apply andb_true_iff in Hd as [H1 H2]. rewrite sapp_cons. split; [by left|].
  destruct d as [|b d].
  - change ("" +:+ rest) with rest. destruct rest as [|b r]; [done|]. destruct Hr as [[H| ->] _]; [by rewrite H|done].
  - rewrite sapp_cons. cbn in H2. apply andb_true_iff in H2 as [-> _]. done.
Qed.
Lemma read_plain t rest sg u : plain_start t → mantissa false false false false t = (rest, sg, u) → sg = true → exponent rest → read_float t = Some ("", u).
Proof.
  intros Hp Hm -> He. unfold read_float. rewrite (plain_sign t Hp), (plain_hex t Hp). rewrite Hm. cbn [negb].
  by apply (tail_exponent rest u).
Qed.
(** A character that is not a digit rules out both integer readings. *)
Lemma not_integer t c : plain_start t → mem_byte c t = true → is_digit c = false → parse_int t = false ∧ parse_uint t = false.
Proof.
  intros Hp Hm Hc. assert (all_digits t = true → False) as Hno.
  { intros H. clear Hp. induction t as [|d t IH]; [done|]. cbn in *. apply andb_true_iff in H as [H1 H2]. apply orb_true_iff in Hm as [Hm|Hm]; [|by apply IH].
    apply bool_decide_eq_true in Hm as ->. congruence. }
  split.
  - destruct (parse_int t) eqn:E; [|done]. apply parse_int_wordish in E. rewrite plain_sign in E by done. by destruct Hno.
  - destruct (parse_uint t) eqn:E; [|done]. apply parse_uint_wordish in E. by destruct Hno.
Qed.
Lemma float_shape t : plain_start t → (∃ s c, t = s +:+ String c "" ∧ (is_digit c = true ∨ c = "."%char)) →
  trim_any (String "034" "") t = t ∧ trim_any literal_quotes t = t.
Proof.
  intros Hp (s & c & E & Hc). destruct t as [|a t]; [done|]. destruct Hp as [Ha _].
  assert (∀ x, is_digit x = true ∨ x = "."%char → mem_byte x literal_quotes = false ∧ mem_byte x (String "034" "") = false) as H.
  { intros x [Hx| ->]; [by apply digit_not_quote|done]. }
  destruct (H a Ha), (H c Hc). split; by apply (trim_any_stop _ t a s c).
Qed.
Lemma last_digit d : digits d → ∃ s c, d = s +:+ String c "" ∧ is_digit c = true.
Proof.
  intros [Hne Hd]. destruct (snoc_dec d) as [|(s & c & ->)]; [done|]. exists s, c. split; [done|].
  clear Hne. induction s as [|e s IH]; cbn in Hd; [by apply andb_true_iff in Hd as [? _]|]. apply andb_true_iff in Hd as [_ Hd]. by apply IH.
Qed.
Lemma exponent_last e : exponent e → e ≠ "" → ∃ s c, e = s +:+ String c "" ∧ is_digit c = true.
Proof.
  intros [->|(x & sign & d & _ & _ & Hd & ->)] He; [done|]. destruct (last_digit d Hd) as (s & c & -> & Hc). exists (x +:+ sign +:+ s), c. by rewrite !sapp_assoc.
Qed.
Lemma float_type finite t rest : plain_start t → mantissa false false false false t = (rest, true, false) → exponent rest →
  (∃ s c, t = s +:+ String c "" ∧ (is_digit c = true ∨ c = "."%char)) → (∃ c, mem_byte c t = true ∧ is_digit c = false) → finite t = true →
  documented_type finite t = "float64".
Proof.
  intros Hp Hm He Hl (c & Hc & Hnd) Hf. destruct (float_shape t Hp Hl) as [E1 E2]. unfold documented_type, determine_literal_type. rewrite E1, E2.
  destruct (not_integer t c Hp Hc Hnd) as [-> ->]. unfold parse_float. rewrite (read_plain t rest true false) by done. rewrite bool_decide_true by done.
  rewrite Hf. cbn. by rewrite orb_true_r.
Qed.
(** An unquoted decimal floating-point literal in range is a float: with a point ... *)
Theorem C41_floats finite d1 d2 e : all_digits d1 = true → all_digits d2 = true → d1 ≠ "" ∨ d2 ≠ "" → exponent e →
  finite (d1 +:+ "." +:+ d2 +:+ e) = true → documented_type finite (d1 +:+ "." +:+ d2 +:+ e) = "float64".
Proof.
  intros H1 H2 Hne He. apply (float_type finite _ e).
  - apply digits_app_start; [done|]. split; [by right|]. change ("" +:+ (d2 +:+ e)) with (d2 +:+ e). destruct d2 as [|c d2].
    + change ("" +:+ e) with e. destruct He as [->|(x & sign & d & Hx & _ & _ & ->)]; [done|]. by destruct Hx as [->| ->].
    + rewrite sapp_cons. cbn in H2. apply andb_true_iff in H2 as [-> _]. done.
  - rewrite mantissa_digits by done. change ("." +:+ d2 +:+ e) with (String "." (d2 +:+ e)). cbn [mantissa]. rewrite (bool_decide_false ("."%char = "_"%char)) by done.
    rewrite bool_decide_true by done. rewrite mantissa_digits by done. rewrite mantissa_exponent by done. f_equal. f_equal. destruct d1, d2; naive_solver.
  - done.
  - destruct (decide (e = "")) as [->|Hen].
    + rewrite sapp_nil. destruct (decide (d2 = "")) as [->|Hd2].
      * exists d1, "."%char. split; [done|by right].
      * destruct (last_digit d2) as (s & c & -> & Hc); [done|]. exists (d1 +:+ "." +:+ s), c. rewrite !sapp_assoc. split; [done|by left].
    + destruct (exponent_last e He Hen) as (s & c & -> & Hc). exists (d1 +:+ "." +:+ d2 +:+ s), c. rewrite !sapp_assoc. split; [done|by left].
  - exists "."%char. split; [|done]. rewrite !mem_app. cbn. by rewrite !orb_true_r.
Qed.
(** ... or with an exponent. *)
Theorem C41_floats_exponent finite d e : digits d → exponent e → e ≠ "" → finite (d +:+ e) = true → documented_type finite (d +:+ e) = "float64".
Proof.
  intros [Hn Hd] He Hen. assert (∃ x r, e = String x r ∧ lower_char x = "e"%char) as (x & r & Ee & Hx).
  { destruct He as [->|(x & sign & d' & Hx & _ & _ & ->)]; [done|]. destruct Hx as [->| ->]; by eexists _, _. }
  apply (float_type finite _ e).
  - destruct d as [|a d]; [done|]. cbn in Hd. apply andb_true_iff in Hd as [H1 H2]. rewrite sapp_cons. split; [by left|].
    destruct d as [|b d]; [|rewrite sapp_cons; cbn in H2; apply andb_true_iff in H2 as [-> _]; done].
    change ("" +:+ e) with e. rewrite Ee. rewrite (bool_decide_true (lower_char x = "e"%char)) by done. by rewrite orb_true_r.
  - rewrite mantissa_digits by done. rewrite mantissa_exponent by done. f_equal. f_equal. by destruct d.
  - done.
  - destruct (exponent_last e He Hen) as (s & c & -> & Hc). exists (d +:+ s), c. rewrite !sapp_assoc. split; [done|by left].
  - exists x. split; [rewrite mem_app, Ee; cbn; rewrite bool_decide_true by done; by rewrite orb_true_r|].
    revert Hx. destruct x as [b0 b1 b2 b3 b4 b5 b6 b7]. destruct b0, b1, b2, b3, b4, b5, b6, b7; vm_compute; done.
Qed.
(** The full statement fails in both directions.  Quoted text that looks like a number, a
    boolean or nil is documented as one, whatever the range test says ... *)
Theorem C41_quoted_refuted finite : ∃ c1 c2 c3 c4 s1 s2 s3 s4,
  quoted c1 s1 ∧ documented_type finite s1 = "int" ∧ quoted c2 s2 ∧ documented_type finite s2 = "bool" ∧
  quoted c3 s3 ∧ documented_type finite s3 = "float64" ∧ quoted c4 s4 ∧ documented_type finite s4 = "interface{}".
Proof.
  exists "12345", "true", "Infinity", "nil".
  exists (String "034" ("12345" +:+ String "034" "")), (String "034" ("true" +:+ String "034" "")),
    (String "034" ("Infinity" +:+ String "034" "")), (String backquote ("nil" +:+ String backquote "")).
  split; [by left|]. split; [vm_compute; done|]. split; [by left|]. split; [vm_compute; done|].
  split; [by left|]. split; [vm_compute; done|]. split; [by right|]. vm_compute; done.
Qed.
(** ... and an integer written in another base is documented as a string. *)
Theorem C41_based_integer_refuted finite : documented_type finite "0x1F" = "string" ∧ documented_type finite "0b101" = "string" ∧ documented_type finite "0o17" = "string".
Proof. vm_compute. done. Qed.
Print Assumptions C41_integers.
Print Assumptions C41_quoted_text_partial.
Print Assumptions C41_floats.
Print Assumptions C41_floats_exponent.
Print Assumptions C41_quoted_refuted.
Print Assumptions C41_based_integer_refuted.
Example C41_example : documented_type (λ _, true) "200" = "int" ∧ documented_type (λ _, true) "18446744073709551615" = "uint" ∧
  documented_type (λ _, true) "1.5e-3" = "float64" ∧ documented_type (λ _, true) (String "034" ("hello, world" +:+ String "034" "")) = "string" ∧
  digits "200" ∧ parse_nat "200" = Some 200%N ∧ exponent "e-3" ∧ quoted "hello, world" (String "034" ("hello, world" +:+ String "034" "")) ∧
  mem_byte " " "hello, world" = true ∧ wordish " " = false.
Proof.
  split; [vm_compute; done|]. split; [vm_compute; done|]. split; [vm_compute; done|]. split; [vm_compute; done|]. split; [done|]. split; [vm_compute; done|].
  split; [|split; [by left|split; vm_compute; done]]. right. exists "e", "-", "3". split; [by left|]. split; [by right; right|]. done.
Qed.
