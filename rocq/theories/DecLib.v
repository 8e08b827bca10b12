(** * Decimal spelling of integers: strconv.Itoa / AppendInt / fmt %d and
    strconv.Atoi.  Shared library, no code of /repo.  Integers are unbounded:
    Atoi's range error is not modelled. *)
From Coq Require Import Ascii.
From stdpp Require Import base numbers list strings pretty.
From Verif Require Import StrLib.

Definition itoa_nat (n : nat) : string := pretty (N.of_nat n).
Definition itoa (z : Z) : string := pretty z.

Definition digit (c : ascii) : option N :=
  let n := N_of_ascii c in
  if bool_decide (48 ≤ n ∧ n ≤ 57)%N then Some (n - 48)%N else None.
Fixpoint parse_digits (acc : N) (s : string) : option N :=
  match s with
  | "" => Some acc
  | String c s => d ← digit c; parse_digits (10 * acc + d) s
  end.
(** Digits, at least one. *)
Definition parse_nat (s : string) : option N := match s with "" => None | _ => parse_digits 0 s end.
(** strconv.Atoi: an optional sign, then digits. *)
Definition atoi_opt (s : string) : option Z :=
  match s with
  | String "-" s => (λ n, Z.opp (Z.of_N n)) <$> parse_nat s
  | String "+" s => Z.of_N <$> parse_nat s
  | _ => Z.of_N <$> parse_nat s
  end.
(** [n, _ := strconv.Atoi(s)]: zero on a syntax error. *)
Definition atoi (s : string) : Z := default 0%Z (atoi_opt s).

Definition is_digit (c : ascii) : bool := bool_decide (is_Some (digit c)).
Fixpoint all_digits (s : string) : bool := match s with "" => true | String c s => is_digit c && all_digits s end.

Lemma pretty_char_digit n : (n < 10)%N → digit (pretty_N_char n) = Some n.
Proof.
  intros H. assert (n = 0 ∨ n = 1 ∨ n = 2 ∨ n = 3 ∨ n = 4 ∨ n = 5 ∨ n = 6 ∨ n = 7 ∨ n = 8 ∨ n = 9)%N as Hn by lia.
  destruct Hn as [->|[->|[->|[->|[->|[->|[->|[->|[->| ->]]]]]]]]]; reflexivity.
Qed.
Lemma parse_pretty_go x : ∀ s, parse_digits 0 (pretty_N_go x s) = parse_digits x s.
Proof.
  induction (N.lt_wf_0 x) as [x _ IH]. intros s. destruct (decide (0 < x)%N) as [Hx|Hx].
  - rewrite pretty_N_go_step by done. rewrite IH by (by apply N.div_lt). cbn [parse_digits].
    rewrite pretty_char_digit by (apply N.mod_lt; lia). cbn [mbind option_bind]. f_equal. symmetry. apply N.div_mod. lia.
  - assert (x = 0%N) as -> by lia. by rewrite pretty_N_go_0.
Qed.
Lemma pretty_go_nonempty x s : (0 < x)%N ∨ s ≠ "" → pretty_N_go x s ≠ "".
Proof.
  revert s. induction (N.lt_wf_0 x) as [x _ IH]. intros s H. destruct (decide (0 < x)%N) as [Hx|Hx].
  - rewrite pretty_N_go_step by done. apply IH; [by apply N.div_lt|by right].
  - assert (x = 0%N) as -> by lia. rewrite pretty_N_go_0. destruct H; [lia|done].
Qed.
Lemma parse_nat_pretty (n : N) : parse_nat (pretty n) = Some n.
Proof.
  unfold pretty, pretty_N. case_decide as Hn; [by subst|].
  unfold parse_nat. destruct (pretty_N_go n "") eqn:E.
  - exfalso. apply (pretty_go_nonempty n "") in E; [done|left; lia].
  - by rewrite <- E, parse_pretty_go.
Qed.
Lemma all_digits_pretty_go x : ∀ s, all_digits s = true → all_digits (pretty_N_go x s) = true.
Proof.
  induction (N.lt_wf_0 x) as [x _ IH]. intros s Hs. destruct (decide (0 < x)%N) as [Hx|Hx].
  - rewrite pretty_N_go_step by done. apply IH; [by apply N.div_lt|]. simpl. rewrite Hs.
    unfold is_digit. rewrite pretty_char_digit by (apply N.mod_lt; lia). done.
  - assert (x = 0%N) as -> by lia. by rewrite pretty_N_go_0.
Qed.
Lemma all_digits_pretty (n : N) : all_digits (pretty n) = true.
Proof. unfold pretty, pretty_N. case_decide; [done|]. by apply all_digits_pretty_go. Qed.
Lemma all_digits_contains c s : all_digits s = true → is_digit c = false → contains_byte c s = false.
Proof.
  induction s as [|x s IH]; [done|]. simpl. intros [Hx Hs]%andb_true_iff Hc. unfold contains_byte. simpl.
  rewrite bool_decide_eq_false_2; [by apply IH|]. intros ->. congruence.
Qed.
Lemma parse_nat_itoa_nat n : parse_nat (itoa_nat n) = Some (N.of_nat n).
Proof. apply parse_nat_pretty. Qed.
Lemma itoa_nat_inj a b : itoa_nat a = itoa_nat b → a = b.
Proof. intros H. apply (f_equal parse_nat) in H. rewrite !parse_nat_itoa_nat in H. injection H. lia. Qed.
Lemma itoa_nonneg z : (0 ≤ z)%Z → itoa z = pretty (Z.to_N z).
Proof. unfold itoa. destruct z as [|p|p]; [done|done|lia]. Qed.
Lemma itoa_neg z : (z < 0)%Z → itoa z = String "-" (pretty (Z.to_N (- z))).
Proof. unfold itoa. destruct z as [|p|p]; [lia|lia|done]. Qed.
Lemma all_digits_head c s : all_digits (String c s) = true → c ≠ "-"%char ∧ c ≠ "+"%char.
Proof. simpl. intros [H _]%andb_true_iff. split; intros ->; vm_compute in H; done. Qed.
Lemma atoi_opt_digits s : all_digits s = true → atoi_opt s = Z.of_N <$> parse_nat s.
Proof.
  intros H. destruct s as [|c s]; [done|]. destruct (all_digits_head _ _ H) as [H1 H2].
  unfold atoi_opt. destruct c as [[] [] [] [] [] [] [] []]; try done.
Qed.
Lemma atoi_itoa z : atoi (itoa z) = z.
Proof.
  unfold atoi. destruct (decide (0 ≤ z)%Z) as [Hz|Hz].
  - rewrite itoa_nonneg by done. rewrite atoi_opt_digits by apply all_digits_pretty.
    rewrite parse_nat_pretty. simpl. lia.
  - rewrite itoa_neg by lia. cbn [atoi_opt]. rewrite parse_nat_pretty. simpl. lia.
Qed.
Lemma itoa_inj a b : itoa a = itoa b → a = b.
Proof. intros H. rewrite <- (atoi_itoa a), H. apply atoi_itoa. Qed.
Lemma contains_itoa c z : is_digit c = false → c ≠ "-"%char → contains_byte c (itoa z) = false.
Proof.
  intros Hc Hm. destruct (decide (0 ≤ z)%Z) as [Hz|Hz].
  - rewrite itoa_nonneg by done. apply all_digits_contains; [apply all_digits_pretty|done].
  - rewrite itoa_neg by lia. unfold contains_byte. simpl. rewrite bool_decide_eq_false_2 by congruence.
    apply all_digits_contains; [apply all_digits_pretty|done].
Qed.
Lemma contains_itoa_nat c n : is_digit c = false → contains_byte c (itoa_nat n) = false.
Proof. intros Hc. apply all_digits_contains; [apply all_digits_pretty|done]. Qed.
