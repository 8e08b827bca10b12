(** * C97: the status a text, a variable and a constructor state. *)
From Coq Require Import Ascii ZArith.
From stdpp Require Import base list strings gmap.
From Verif Require Import StrLib StrSplit DecLib PairModel PairProofs MountProofs DetModel ConModel StatModel StatSpec StatProofs CodeModel.

(** ** The specification of a status text *)
(** A text without the double quotes around it. *)
Definition unquoted (s m : string) : Prop := (∃ a b, s = rep_byte a dquote +:+ (m +:+ rep_byte b dquote)) ∧ ¬ starts_with dquote m ∧ ¬ ends_with dquote m.
(** What is behind the last dot. *)
Definition behind_dot (m t : string) : Prop := contains_byte "." t = false ∧ (m = t ∨ ∃ p, m = p +:+ String "." t).
(** Decimal numbers. *)
Inductive digits : string → Z → Prop :=
| digits_one c d : Z.of_nat (nat_of_ascii c) = (48 + d)%Z → (0 <= d <= 9)%Z → digits (String c "") d
| digits_more s z c d : digits s z → Z.of_nat (nat_of_ascii c) = (48 + d)%Z → (0 <= d <= 9)%Z → digits (s +:+ String c "") (10 * z + d)%Z.
Definition spells (t : string) (z : Z) : Prop := digits t z ∨ (∃ s, t = String "+" s ∧ digits s z) ∨ (∃ s, t = String "-" s ∧ digits s (- z)).
(** A name of net/http, or a number that fits in 64 bits. *)
Definition states (s : string) (z : Z) : Prop :=
  ∃ m t, unquoted s m ∧ behind_dot m t ∧ ((t, z) ∈ status_names ∨ spells t z ∧ (- 2 ^ 63 <= z < 2 ^ 63)%Z).

Lemma unquoted_trim s m : unquoted s m ↔ trim dquote s = m.
Proof.
  split.
  - intros ((a & b & ->) & Hs & He). unfold trim. rewrite trim_left_app.
    assert (trim_left dquote (rep_byte a dquote) = "") as ->. { apply trim_right_nil_left, trim_right_rep. }
    rewrite decide_True by done. destruct m as [|c m].
    + change ("" +:+ rep_byte b dquote) with (rep_byte b dquote). rewrite <- trim_comm. by rewrite trim_right_rep.
    + rewrite trim_left_id. { rewrite trim_right_app, trim_right_rep, decide_True by done. by apply trim_right_id. }
      intros [t Ht]. apply Hs. rewrite sapp_cons in Ht. injection Ht as -> _. by exists m.
  - intros <-. unfold trim. split; [|split].
    + destruct (trim_left_spec dquote s) as (a & Ha & _). destruct (trim_right_spec dquote (trim_left dquote s)) as (b & Hb & _). exists a, b. by rewrite <- Hb.
    + rewrite <- trim_comm. by destruct (trim_left_spec dquote (trim_right dquote s)) as (n & _ & ?).
    + by destruct (trim_right_spec dquote (trim_left dquote s)) as (n & _ & ?).
Qed.
Lemma behind_dot_split m t : behind_dot m t ↔ (match split_last "." m with Some (_, r) => r | None => m end) = t.
Proof.
  split.
  - intros (Ht & [->|(p & ->)]); [by rewrite split_last_none|by rewrite split_last_app].
  - destruct (split_last "." m) as [[p r]|] eqn:E; intros <-.
    + apply split_last_some in E as [-> E]. split; [done|]. right. by exists p.
    + split; [|by left]. revert E. induction m as [|c m IH]; [done|]. cbn [split_last]. destruct (split_last "." m) as [[? ?]|]; [done|].
      destruct (decide (c = "."%char)) as [|N]; [done|]. intros _. unfold contains_byte in *. cbn [str_any]. rewrite bool_decide_eq_false_2 by done. by apply IH.
Qed.
Lemma digit_spec c d : digit c = Some d ↔ Z.of_nat (nat_of_ascii c) = (48 + Z.of_N d)%Z ∧ (0 <= Z.of_N d <= 9)%Z.
Proof.
  unfold digit, nat_of_ascii. destruct (decide (48 ≤ N_of_ascii c ∧ N_of_ascii c ≤ 57)%N) as [H|H].
  - rewrite bool_decide_eq_true_2 by done. split; [intros [= <-]; lia|]. intros H'. f_equal. lia.
  - rewrite bool_decide_eq_false_2 by done. split; [done|]. intros H'. exfalso. apply H. lia.
Qed.
Lemma parse_snoc acc s c : parse_digits acc (s +:+ String c "") = (n ← parse_digits acc s; d ← digit c; Some (10 * n + d)%N).
Proof.
  revert acc. induction s as [|a s IH]; intros acc.
  - change ("" +:+ String c "") with (String c ""). cbn [parse_digits mbind option_bind]. by destruct (digit c).
  - rewrite sapp_cons. cbn [parse_digits]. destruct (digit a) as [d|]; [|done]. cbn [mbind option_bind]. apply IH.
Qed.
Lemma digits_parse s z : digits s z → ∃ n, parse_nat s = Some n ∧ z = Z.of_N n.
Proof.
  induction 1 as [c d Hc Hd|s z c d Hs (n & Hn & ->) Hc Hd].
  - exists (Z.to_N d). split; [|lia]. cbn. rewrite (proj2 (digit_spec c (Z.to_N d))) by lia. cbn. f_equal; lia.
  - exists (10 * n + Z.to_N d)%N. split; [|lia]. unfold parse_nat in *. destruct s as [|a s]; [done|]. rewrite sapp_cons.
    rewrite <- sapp_cons. rewrite parse_snoc, Hn. cbn [mbind option_bind]. by rewrite (proj2 (digit_spec c (Z.to_N d))) by lia.
Qed.
Lemma parse_from s : ∀ s0 z0 n, digits s0 (Z.of_N z0) → parse_digits z0 s = Some n → digits (s0 +:+ s) (Z.of_N n).
Proof.
  induction s as [|c s IH]; intros s0 z0 n H0.
  - cbn. intros [= <-]. by rewrite sapp_nil.
  - cbn [parse_digits]. destruct (digit c) as [d|] eqn:Ed; [|done]. cbn [mbind option_bind]. intros H. apply digit_spec in Ed as [Ec Ed].
    replace (s0 +:+ String c s) with ((s0 +:+ String c "") +:+ s) by (by rewrite sapp_assoc).
    apply (IH _ (10 * z0 + d)%N); [|done]. replace (Z.of_N (10 * z0 + d)) with (10 * Z.of_N z0 + Z.of_N d)%Z by lia. by constructor.
Qed.
Lemma parse_digits_spec s n : parse_nat s = Some n ↔ digits s (Z.of_N n).
Proof.
  split.
  - unfold parse_nat. destruct s as [|c s]; [done|]. cbn [parse_digits]. destruct (digit c) as [d|] eqn:Ed; [|done]. cbn [mbind option_bind]. intros H.
    change (String c s) with (String c "" +:+ s). apply (parse_from _ _ (10 * 0 + d)%N); [|done]. apply digit_spec in Ed as [Ec Ed].
    replace (Z.of_N (10 * 0 + d)) with (Z.of_N d) by lia. by constructor.
  - intros H. apply digits_parse in H as (n' & Hn & E). rewrite Hn. f_equal. lia.
Qed.
Lemma digits_head s z : digits s z → ∃ c t, s = String c t ∧ (48 ≤ nat_of_ascii c ≤ 57).
Proof.
  induction 1 as [c d Hc Hd|s z c d Hs (a & t & -> & Ha) Hc Hd].
  - exists c, "". split; [done|]. lia.
  - exists a, (t +:+ String c ""). by rewrite sapp_cons.
Qed.
Lemma digits_nonneg s z : digits s z → (0 <= z)%Z.
Proof. induction 1; lia. Qed.
Lemma atoi_spells t z : atoi_opt t = Some z ↔ spells t z.
Proof.
  assert (D : ∀ s y, Z.of_N <$> parse_nat s = Some y ↔ digits s y).
  { intros s y. split.
    - intros H. apply fmap_Some in H as (n & Hn & ->). by apply parse_digits_spec.
    - intros H. pose proof (digits_nonneg _ _ H). rewrite (proj2 (parse_digits_spec s (Z.to_N y))); [cbn; f_equal; lia|]. by rewrite Z2N.id. }
  assert (M : ∀ s y, (λ n, Z.opp (Z.of_N n)) <$> parse_nat s = Some y ↔ digits s (- y)%Z).
  { intros s y. rewrite <- D. destruct (parse_nat s) as [n|]; cbn; [|done]. split; intros [= H]; f_equal; lia. }
  unfold spells. destruct t as [|c t].
  - cbn. split; [done|]. intros [H|[(s & ? & _)|(s & ? & _)]]; try done. by apply digits_head in H as (? & ? & ? & _).
  - destruct (decide (c = "-"%char)) as [->|N1]; [|destruct (decide (c = "+"%char)) as [->|N2]].
    + cbn [atoi_opt]. rewrite M. split; [intros H; right; right; by exists t|].
      intros [H|[(s & ? & _)|(s & [= <-] & H)]]; [|done|done]. apply digits_head in H as (c & u & [= <- <-] & Hc). cbv in Hc. lia.
    + cbn [atoi_opt]. rewrite D. split; [intros H; right; left; by exists t|].
      intros [H|[(s & [= <-] & H)|(s & ? & _)]]; [|done|done]. apply digits_head in H as (c & u & [= <- <-] & Hc). cbv in Hc. lia.
    + assert (E : atoi_opt (String c t) = Z.of_N <$> parse_nat (String c t)).
      { unfold atoi_opt. destruct c as [[] [] [] [] [] [] [] []]; try done. }
      rewrite E, D. split; [by left|]. intros [H|[(s & H & _)|(s & H & _)]]; [done| |]; by injection H as -> ->.
Qed.
Lemma atoi64_spells t z : atoi64 t = Some z ↔ spells t z ∧ (- 2 ^ 63 <= z < 2 ^ 63)%Z.
Proof.
  unfold atoi64. rewrite <- atoi_spells. destruct (atoi_opt t) as [y|]; [|split; [done|intros [? _]; done]].
  destruct (decide (-9223372036854775808 <= y <= 9223372036854775807)%Z) as [H|H]; split.
  - intros [= <-]. split; [done|lia].
  - intros [[= <-] _]. done.
  - done.
  - intros [[= <-] ?]. exfalso. apply H. lia.
Qed.
Lemma names_nodup : NoDup status_names.*1.
Proof. apply (bool_decide_unpack _). by vm_compute. Qed.
Lemma names_no_number t : t ∈ status_names.*1 → atoi64 t = None.
Proof.
  assert (H : forallb (λ s, bool_decide (atoi64 s = None)) status_names.*1 = true) by (by vm_compute).
  rewrite forallb_forall in H. intros Ht. apply elem_of_list_In, H in Ht. by apply bool_decide_eq_true in Ht.
Qed.
(** C97a: a text states a status exactly if what is behind its last dot, without quotes around it all, is a name of net/http or a whole number. *)
Theorem C97_text_iff s z : map_status_code s = Some z ↔ states s z.
Proof.
  unfold states, map_status_code. set (t := match split_last "." (trim dquote s) with Some (_, r) => r | None => trim dquote s end).
  assert (R : (∃ m t', unquoted s m ∧ behind_dot m t' ∧ ((t', z) ∈ status_names ∨ spells t' z ∧ (- 2 ^ 63 <= z < 2 ^ 63)%Z)) ↔
              ((t, z) ∈ status_names ∨ spells t z ∧ (- 2 ^ 63 <= z < 2 ^ 63)%Z)).
  { split.
    - intros (m & t' & Hm & Ht & H). apply unquoted_trim in Hm. apply behind_dot_split in Ht. subst m. subst t'. exact H.
    - intros H. exists (trim dquote s), t. split; [by apply unquoted_trim|]. split; [by apply behind_dot_split|done]. }
  rewrite R. clear R. rewrite <- atoi64_spells. cbn zeta. fold t.
  destruct ((list_to_map status_names : gmap string Z) !! t) as [y|] eqn:E.
  - apply elem_of_list_to_map in E; [|apply names_nodup]. assert (Hn : atoi64 t = None). { apply names_no_number, elem_of_list_fmap. by exists (t, y). }
    rewrite Hn. split; [intros [= ->]; by left|]. intros [H|H]; [|done]. f_equal.
    assert (G : (list_to_map status_names : gmap string Z) !! t = Some y) by (by apply elem_of_list_to_map; [apply names_nodup|]).
    apply elem_of_list_to_map in H; [|apply names_nodup]. congruence.
  - split; [by right|]. intros [H|H]; [|done]. apply elem_of_list_to_map in H; [|apply names_nodup]. congruence.
Qed.
(** C97b: a name states a status of HTTP. *)
Theorem C97_named_range t z : (t, z) ∈ status_names → (100 <= z < 600)%Z ∧ has_prefix "Status" t = true.
Proof.
  assert (H : forallb (λ x : string * Z, bool_decide (100 <= x.2 < 600)%Z && has_prefix "Status" x.1) status_names = true) by (by vm_compute).
  rewrite forallb_forall in H. intros Ht. apply elem_of_list_In, H in Ht. apply andb_true_iff in Ht as [H1 H2]. by apply bool_decide_eq_true in H1.
Qed.
(** C97c: nothing else does: the number behind any dot counts, in any range. *)
Theorem C97_range_refuted : ∃ s z, map_status_code s = Some z ∧ ¬ (100 <= z < 600)%Z ∧ s = "1.5".
Proof. exists "1.5", 5%Z. split; [by vm_compute|]. split; [lia|done]. Qed.

(** ** Variables *)
Section vars.
  Context (info : sarg → string).
  Notation says := (is_status (λ a, map_status_code (info a))).
  Lemma says_iff v z : status_code_of_value (status_of info) v = Some z ↔ says v z.
  Proof. exact (status_spec (status_of info) (λ _ _, None) (λ _ _, None) "" v z). Qed.
  Lemma expand_values_spec vs : ∀ codes residue,
    NoDup codes →
    let r := expand_values info codes residue vs in
    NoDup r.1 ∧ (∀ z, z ∈ r.1 ↔ z ∈ codes ∨ ∃ v, v ∈ vs ∧ says v z) ∧ (r.2 = true ↔ residue = true ∨ ∃ v, v ∈ vs ∧ ∀ z, ¬ says v z).
  Proof.
    induction vs as [|v vs IH]; intros codes residue Hnd; cbn zeta.
    - cbn. split; [done|]. split.
      + intros z. split; [by left|]. intros [?|(v & Hv & _)]; [done|]. by apply elem_of_nil in Hv.
      + split; [by left|]. intros [?|(v & Hv & _)]; [done|]. by apply elem_of_nil in Hv.
    - cbn [expand_values]. destruct (status_code_of_value (status_of info) v) as [s|] eqn:E.
      + pose proof E as E'. apply says_iff in E.
        assert (U : ∀ z, says v z ↔ z = s). { intros z. split; [intros Hz; apply says_iff in Hz; congruence|by intros ->]. }
        assert (Hnd' : NoDup (if decide (s ∈ codes) then codes else codes ++ [s])).
        { destruct (decide (s ∈ codes)) as [|N]; [done|]. apply NoDup_app. split; [done|]. split; [|apply NoDup_singleton]. intros x Hx Hx'. apply elem_of_list_singleton in Hx' as ->. done. }
        destruct (IH _ residue Hnd') as (H1 & H2 & H3). split; [done|]. split.
        * intros z. rewrite H2. assert (Hc : z ∈ (if decide (s ∈ codes) then codes else codes ++ [s]) ↔ z ∈ codes ∨ z = s).
          { destruct (decide (s ∈ codes)) as [Hs|N]; [split; [by left|]; by intros [?| ->]|]. by rewrite elem_of_app, elem_of_list_singleton. }
          rewrite Hc. split.
          -- intros [[?| ->]|(u & Hu & Hz)]; [by left|right; exists v; split; [left|by apply U]|right; exists u; split; [by right|done]].
          -- intros [?|(u & Hu & Hz)]; [by left; left|]. apply elem_of_cons in Hu as [-> |Hu]; [left; right; by apply U|right; by exists u].
        * rewrite H3. split.
          -- intros [?|(u & Hu & Hz)]; [by left|right; exists u; split; [by right|done]].
          -- intros [?|(u & Hu & Hz)]; [by left|]. apply elem_of_cons in Hu as [-> |Hu]; [by destruct (Hz s)|right; by exists u].
      + assert (Hn : ∀ z, ¬ says v z). { intros z Hz. apply says_iff in Hz. congruence. }
        destruct (IH codes true Hnd) as (H1 & H2 & H3). split; [done|]. split.
        * intros z. rewrite H2. split.
          -- intros [?|(u & Hu & Hz)]; [by left|right; exists u; split; [by right|done]].
          -- intros [?|(u & Hu & Hz)]; [by left|]. apply elem_of_cons in Hu as [-> |Hu]; [by destruct (Hn z)|right; by exists u].
        * rewrite H3. split; [|by left]. intros _. right. exists v. split; [by left|done].
  Qed.
  (** C97d: a variable assigned at least twice can have exactly the statuses its values state, each once; others are known to be possible exactly if some value states none. *)
  Theorem C97_variable_iff vs :
    let r := expand_var info vs in
    NoDup r.1 ∧ (∀ z, z ∈ r.1 ↔ 2 ≤ length vs ∧ ∃ v, v ∈ vs ∧ says v z) ∧ (r.2 = true ↔ 2 ≤ length vs ∧ ∃ v, v ∈ vs ∧ ∀ z, ¬ says v z).
  Proof.
    cbn zeta. unfold expand_var. destruct (decide (length vs < 2)) as [L|L].
    - cbn. split; [apply NoDup_nil_2|]. split; [intros z; rewrite elem_of_nil|]; (split; [done|]); intros [? _]; lia.
    - destruct (expand_values_spec vs [] false (NoDup_nil_2)) as (H1 & H2 & H3). split; [done|]. split.
      + intros z. rewrite H2, elem_of_nil. split; [intros [?|?]; [done|split; [lia|done]]|]. intros [_ ?]. by right.
      + rewrite H3. split; [intros [?|?]; [done|split; [lia|done]]|]. intros [_ ?]. by right.
  Qed.
End vars.

(** ** Constructors *)
(** An element [field: p] of a literal, the value an identifier. *)
Definition binds (e : sarg) (field p : string) : Prop :=
  s_kind e = SKeyValue ∧ ∃ k v, s_x e = Some k ∧ s_fn e = Some v ∧ s_kind k = SIdent ∧ s_name k = field ∧ s_kind v = SIdent ∧ s_name v = p.
(** The first such element of a literal; the first of the returned literals that has one. *)
Definition first_binds (elts : list (option sarg)) (field p : string) : Prop :=
  ∃ j e, elts !! j = Some (Some e) ∧ binds e field p ∧ ∀ j' e' p', j' < j → elts !! j' = Some (Some e') → ¬ binds e' field p'.
Definition returns_field (rvs : list sarg) (field p : string) : Prop :=
  ∃ i rv lit, rvs !! i = Some rv ∧ literal rv lit ∧ first_binds (s_args lit) field p ∧
    ∀ i' rv' lit' p', i' < i → rvs !! i' = Some rv' → literal rv' lit' → ¬ first_binds (s_args lit') field p'.
(** The call of a function: the first at the position, or the first of all if none is there. *)
Definition the_call (es : list cedge) (func pkg pos : string) (e : cedge) : Prop :=
  let ok e := ce_name e = func ∧ (pkg = "" ∨ ce_pkg e = pkg) in
  let at_pos e := ok e ∧ pos ≠ "" ∧ ce_pos e = pos in
  ∃ i, es !! i = Some e ∧
    ((at_pos e ∧ ∀ j e', j < i → es !! j = Some e' → ¬ at_pos e') ∨
     (ok e ∧ (∀ e', e' ∈ es → ¬ at_pos e') ∧ ∀ j e', j < i → es !! j = Some e' → ¬ ok e')).

Lemma field_param_spec field elts p : field_param field elts = Some p ↔ first_binds elts field p.
Proof.
  assert (step : ∀ o elts, (∀ e p', o = Some e → ¬ binds e field p') → ∀ p, first_binds (o :: elts) field p ↔ first_binds elts field p).
  { intros o l Ho q. split.
    - intros ([|j] & e & Hj & Hb & Hf); [cbn in Hj; injection Hj as ->; by destruct (Ho e q eq_refl)|]. exists j, e. split; [done|]. split; [done|]. intros j' e' p' L. by apply (Hf (S j')); lia.
    - intros (j & e & Hj & Hb & Hf). exists (S j), e. split; [done|]. split; [done|]. intros [|j'] e' p' L Hl; [cbn in Hl; injection Hl as ->; by apply Ho|]. apply (Hf j'); [lia|done]. }
  induction elts as [|o elts IH].
  - cbn. split; [done|]. intros (j & e & Hj & _). done.
  - destruct o as [e|]; [|cbn [field_param]; rewrite IH; symmetry; by apply step].
    assert (D : (∃ q, binds e field q ∧ field_param field (Some e :: elts) = Some q) ∨ ((∀ q, ¬ binds e field q) ∧ field_param field (Some e :: elts) = field_param field elts)).
    { unfold binds. cbn [field_param]. destruct (s_kind e) eqn:Ek.
      all: try (right; split; [by intros q [? _]|done]).
      destruct (s_x e) as [k|] eqn:Ex; [|right; split; [intros q (_ & k & v & ? & _); done|done]].
      destruct (s_fn e) as [v|] eqn:Ef; [|right; split; [intros q (_ & k' & v & _ & ? & _); done|done]].
      destruct (decide (s_kind k = SIdent ∧ s_name k = field ∧ s_kind v = SIdent)) as [(H1 & H2 & H3)|N].
      - left. exists (s_name v). split; [|done]. split; [done|]. by exists k, v.
      - right. split; [|done]. intros q (_ & k' & v' & [= <-] & [= <-] & H1 & H2 & H3 & _). by apply N. }
    destruct D as [(q & Hq & ->)|(Hn & ->)].
    + split.
      * intros [= <-]. exists 0, e. split; [done|]. split; [done|]. intros j' e' p' L. lia.
      * intros ([|j] & e' & Hj & Hb & Hf).
        -- cbn in Hj. injection Hj as ->. destruct Hq as (_ & k & v & E1 & E2 & _ & _ & _ & <-), Hb as (_ & k' & v' & E3 & E4 & _ & _ & _ & <-). congruence.
        -- exfalso. apply (Hf 0 e q); [lia|done|done].
    + rewrite IH. symmetry. apply step. intros e' p' [= <-]. apply Hn.
Qed.
Lemma ctor_param_spec field rvs p : p ≠ "" → ctor_param field rvs = p ↔ returns_field rvs field p.
Proof.
  intros Hp. induction rvs as [|rv rvs IH].
  - cbn. split; [done|]. intros (i & ? & ? & Hi & _). done.
  - assert (skip : (∀ lit q, literal rv lit → ¬ first_binds (s_args lit) field q) → returns_field (rv :: rvs) field p ↔ returns_field rvs field p).
    { intros H. split.
      - intros ([|i] & rv' & lit & Hi & Hl & Hb & Hf); [cbn in Hi; injection Hi as ->; by destruct (H lit p Hl)|].
        exists i, rv', lit. split; [done|]. split; [done|]. split; [done|]. intros i' r l q L. apply (Hf (S i')); lia.
      - intros (i & rv' & lit & Hi & Hl & Hb & Hf). exists (S i), rv', lit. split; [done|]. split; [done|]. split; [done|].
        intros [|i'] r l q L Hr; [cbn in Hr; injection Hr as ->; apply H|]. apply (Hf i'); [lia|done]. }
    cbn [ctor_param]. destruct (composite_lit_of rv) as [lit|] eqn:El.
    + pose proof El as Hl. apply composite_spec in Hl.
      destruct (field_param field (s_args lit)) as [q|] eqn:Eq.
      * pose proof Eq as Hq. apply field_param_spec in Hq. split.
        -- intros ->. exists 0, rv, lit. split; [done|]. split; [done|]. split; [done|]. intros i' r l p' L. lia.
        -- intros ([|i] & rv' & lit' & Hi & Hl' & Hb & Hf).
           ++ cbn in Hi. injection Hi as ->. apply composite_spec in Hl'. assert (lit' = lit) as -> by congruence. apply field_param_spec in Hb. congruence.
           ++ exfalso. by apply (Hf 0 rv lit q); [lia|..].
      * rewrite skip; [done|]. intros l q Hl' Hb. apply composite_spec in Hl'. assert (l = lit) as -> by congruence. apply field_param_spec in Hb. congruence.
    + rewrite skip; [done|]. intros l q Hl'. apply composite_none with (l := l) in El. done.
Qed.
Lemma call_edge_spec func pkg pos es : ∀ first e,
  call_edge func pkg pos first es = Some e ↔
  (let ok e := ce_name e = func ∧ (pkg = "" ∨ ce_pkg e = pkg) in
   let at_pos e := ok e ∧ pos ≠ "" ∧ ce_pos e = pos in
   (∃ i, es !! i = Some e ∧ at_pos e ∧ ∀ j e', j < i → es !! j = Some e' → ¬ at_pos e') ∨
   ((∀ e', e' ∈ es → ¬ at_pos e') ∧
    (first = Some e ∨ first = None ∧ ∃ i, es !! i = Some e ∧ ok e ∧ ∀ j e', j < i → es !! j = Some e' → ¬ ok e'))).
Proof.
  cbn zeta. set (ok := λ e, ce_name e = func ∧ (pkg = "" ∨ ce_pkg e = pkg)). set (at_pos := λ e, ok e ∧ pos ≠ "" ∧ ce_pos e = pos).
  change (∀ first e, call_edge func pkg pos first es = Some e ↔
    (∃ i, es !! i = Some e ∧ at_pos e ∧ ∀ j e', j < i → es !! j = Some e' → ¬ at_pos e') ∨
    ((∀ e', e' ∈ es → ¬ at_pos e') ∧ (first = Some e ∨ first = None ∧ ∃ i, es !! i = Some e ∧ ok e ∧ ∀ j e', j < i → es !! j = Some e' → ¬ ok e'))).
  induction es as [|x es IH]; intros first e.
  - cbn. split.
    + intros ->. right. split; [intros e' H; by apply elem_of_nil in H|by left].
    + intros [(i & Hi & _)|(_ & [->|(_ & i & Hi & _)])]; done.
  - cbn [call_edge].
    destruct (decide (ce_name x = func ∧ (pkg = "" ∨ ce_pkg x = pkg))) as [O|O]; [destruct (decide (pos ≠ "" ∧ ce_pos x = pos)) as [P|P]|].
    + assert (X : at_pos x) by (by split). split.
      * intros [= <-]. left. exists 0. split; [done|]. split; [done|]. intros j e' L. lia.
      * intros [([|i] & Hi & _ & Hf)|(H & _)].
        -- cbn in Hi. congruence.
        -- by destruct (Hf 0 x); [lia|..].
        -- by destruct (H x); [left|].
    + assert (X : ¬ at_pos x) by (by intros [_ ?]). rewrite IH. split.
      * intros [(i & Hi & Ha & Hf)|(H & Hr)].
        -- left. exists (S i). split; [done|]. split; [done|]. intros [|j] e' L Hj; [cbn in Hj; injection Hj as <-; assumption|]. apply (Hf j); [lia|done].
        -- right. split; [intros e' He'; apply elem_of_cons in He' as [->|He']; [done|by apply H]|]. destruct first as [f|].
           ++ left. by destruct Hr as [?|[? _]].
           ++ right. split; [done|]. destruct Hr as [[= <-]|[? _]]; [|done]. exists 0. split; [done|]. split; [done|]. intros j e' L. lia.
      * intros [([|i] & Hi & Ha & Hf)|(H & Hr)].
        -- cbn in Hi. congruence.
        -- left. exists i. split; [done|]. split; [done|]. intros j e' L Hj. apply (Hf (S j)); [lia|done].
        -- right. split; [intros e' He'; apply H; by right|]. left. destruct Hr as [->|(-> & [|i] & Hi & Ho & Hf)]; [done| |].
           ++ cbn in Hi. done.
           ++ exfalso. by apply (Hf 0 x); [lia|..].
    + assert (X : ¬ at_pos x) by (by intros [? _]). rewrite IH. split.
      * intros [(i & Hi & Ha & Hf)|(H & Hr)].
        -- left. exists (S i). split; [done|]. split; [done|]. intros [|j] e' L Hj; [cbn in Hj; injection Hj as <-; assumption|]. apply (Hf j); [lia|done].
        -- right. split; [intros e' He'; apply elem_of_cons in He' as [->|He']; [done|by apply H]|]. destruct Hr as [?|(? & i & Hi & Ho & Hf)]; [by left|right]. split; [done|].
           exists (S i). split; [done|]. split; [done|]. intros [|j] e' L Hj; [cbn in Hj; injection Hj as <-; assumption|]. apply (Hf j); [lia|done].
      * intros [([|i] & Hi & Ha & Hf)|(H & Hr)].
        -- cbn in Hi. congruence.
        -- left. exists i. split; [done|]. split; [done|]. intros j e' L Hj. apply (Hf (S j)); [lia|done].
        -- right. split; [intros e' He'; apply H; by right|]. destruct Hr as [?|(? & [|i] & Hi & Ho & Hf)]; [by left| |].
           ++ cbn in Hi. injection Hi as ->. done.
           ++ right. split; [done|]. exists i. split; [done|]. split; [done|]. intros j e' L Hj. apply (Hf (S j)); [lia|done].
Qed.
Lemma the_call_spec es func pkg pos e : call_edge func pkg pos None es = Some e ↔ the_call es func pkg pos e.
Proof.
  rewrite call_edge_spec. unfold the_call. cbn zeta. split.
  - intros [(i & Hi & Ha & Hf)|(H & [?|(_ & i & Hi & Ho & Hf)])]; [exists i; split; [done|by left]|done|exists i; split; [done|right; done]].
  - intros (i & Hi & [(Ha & Hf)|(Ho & H & Hf)]); [left; by exists i|right]. split; [done|]. right. split; [done|]. by exists i.
Qed.

Section ctors.
  Context (info : sarg → string) (ctor : string → string → option (list sarg)) (base_of : sarg → option (sarg * csite)).
  (** The argument behind a field of what a call returned: the call, the parameter its literal binds to the field, the argument at the call. *)
  Definition field_argument (es : list cedge) (func pkg pos field : string) (v : sarg) : Prop :=
    ∃ e params rvs p, the_call es func pkg pos e ∧ ce_params e = Some params ∧ ctor (ce_pkg e) func = Some rvs ∧ returns_field rvs field p ∧ p ≠ "" ∧ params !! p = Some v.
  Lemma ctor_arg_spec es func pkg pos field v : ctor_arg ctor es func pkg pos field = Some v ↔ field_argument es func pkg pos field v.
  Proof.
    unfold ctor_arg, field_argument. split.
    - destruct (call_edge func pkg pos None es) as [e|] eqn:Ee; cbn [mbind option_bind]; [|done]. destruct (ce_params e) as [params|] eqn:Ep; cbn [mbind option_bind]; [|done].
      destruct (ctor (ce_pkg e) func) as [rvs|] eqn:Ec; cbn [mbind option_bind]; [|done]. destruct (decide (ctor_param field rvs = "")) as [|N]; [done|]. intros H.
      exists e, params, rvs, (ctor_param field rvs). split; [by apply the_call_spec|]. split_and!; try done. by apply ctor_param_spec.
    - intros (e & params & rvs & p & He & Ep & Ec & Hp & N & Hv). apply the_call_spec in He. rewrite He. cbn [mbind option_bind]. rewrite Ep. cbn [mbind option_bind]. rewrite Ec. cbn [mbind option_bind].
      apply ctor_param_spec in Hp; [|done]. rewrite Hp, decide_False; done.
  Qed.
  (** C97e: a field of a variable states a status exactly if the variable's last value is a call whose literal binds the field to a parameter, and the argument there states it. *)
  Theorem C97_constructor_iff a z :
    ctor_status info ctor base_of a = Some z ↔
    ∃ x sel b site asn v, s_kind a = SSelector ∧ s_x a = Some x ∧ s_sel a = Some sel ∧ s_name sel ≠ "" ∧ s_kind x = SIdent ∧
      base_of x = Some (b, site) ∧ s_kind b = SIdent ∧ last (cs_assigned site (s_name b)) = Some asn ∧ s_kind (cn_value asn) = SCall ∧ cn_func asn ≠ "" ∧
      field_argument (cs_edges site) (cn_func asn) (cn_pkg asn) (cn_pos asn) (s_name sel) v ∧ states (info v) z.
  Proof.
    unfold ctor_status. split.
    - destruct (s_kind a); try done. destruct (s_x a) as [x|]; [|done]. destruct (s_sel a) as [sel|]; [|done].
      destruct (decide (s_name sel = "" ∨ s_kind x ≠ SIdent)) as [|N]; [done|]. assert (N1 : s_name sel ≠ "") by tauto. assert (N2 : s_kind x = SIdent) by (apply dec_stable; tauto).
      destruct (base_of x) as [[b site]|] eqn:Eb; cbn [mbind option_bind fst snd]; [|done]. destruct (decide (s_kind b = SIdent)) as [Kb|]; [|done].
      destruct (last (cs_assigned site (s_name b))) as [asn|] eqn:Ea; cbn [mbind option_bind]; [|done].
      destruct (decide (s_kind (cn_value asn) = SCall ∧ cn_func asn ≠ "")) as [[K1 K2]|]; [|done].
      destruct (ctor_arg ctor (cs_edges site) (cn_func asn) (cn_pkg asn) (cn_pos asn) (s_name sel)) as [v|] eqn:Ev; cbn [mbind option_bind]; [|done].
      intros H. exists x, sel, b, site, asn, v. do 10 (split; [done|]). split; [by apply ctor_arg_spec|by apply C97_text_iff].
    - intros (x & sel & b & site & asn & v & -> & -> & -> & N & Kx & Hb & Kb & Ha & K1 & K2 & Hv & Hz).
      rewrite decide_False; [|intros [?|?]; done]. rewrite Hb. cbn [mbind option_bind fst snd]. rewrite decide_True by done. rewrite Ha. cbn [mbind option_bind]. rewrite decide_True by done.
      apply ctor_arg_spec in Hv. rewrite Hv. cbn [mbind option_bind]. by apply C97_text_iff.
  Qed.
  (** C97f: a field has the statuses of the variable passed for it, where the call is or is the variable's last value. *)
  Theorem C97_branches (pos_of : sarg → string) a z :
    z ∈ (ctor_statuses info ctor pos_of base_of a).1 ↔
    ∃ x sel b site scope func pos v, s_kind a = SSelector ∧ s_x a = Some x ∧ s_sel a = Some sel ∧ s_name sel ≠ "" ∧ base_of x = Some (b, site) ∧ cs_scope site = Some scope ∧
      (s_kind b = SCall ∧ func = callee_name_of (s_fn b) ∧ pos = pos_of b ∨
       ∃ asn, s_kind b = SIdent ∧ last (cs_assigned site (s_name b)) = Some asn ∧ s_kind (cn_value asn) = SCall ∧ func = cn_func asn ∧ pos = cn_pos asn) ∧
      func ≠ "" ∧ field_argument (cs_edges site) func "" pos (s_name sel) v ∧ s_kind v = SIdent ∧
      2 ≤ length (scope (s_name v)) ∧ ∃ u, u ∈ scope (s_name v) ∧ is_status (λ a, map_status_code (info a)) u z.
  Proof.
    unfold ctor_statuses. split.
    - destruct (s_kind a); try (intros H; by apply elem_of_nil in H). destruct (s_x a) as [x|]; [|intros H; by apply elem_of_nil in H]. destruct (s_sel a) as [sel|]; [|intros H; by apply elem_of_nil in H].
      destruct (decide (s_name sel = "")) as [|N]; [intros H; by apply elem_of_nil in H|]. destruct (base_of x) as [[b site]|] eqn:Eb; cbn [mbind option_bind fst snd]; [|intros H; by apply elem_of_nil in H].
      destruct (cs_scope site) as [scope|] eqn:Es; cbn [mbind option_bind]; [|intros H; by apply elem_of_nil in H].
      set (fp := match s_kind b with SCall => Some (callee_name_of (s_fn b), pos_of b)
        | SIdent => asn ← last (cs_assigned site (s_name b)); if decide (s_kind (cn_value asn) = SCall) then Some (cn_func asn, cn_pos asn) else None | _ => None end).
      destruct fp as [[func pos]|] eqn:Ef; cbn [mbind option_bind fst snd]; [|intros H; by apply elem_of_nil in H].
      destruct (decide (func = "")) as [|Nf]; [intros H; by apply elem_of_nil in H|].
      destruct (ctor_arg ctor (cs_edges site) func "" pos (s_name sel)) as [v|] eqn:Ev; cbn [mbind option_bind]; [|intros H; by apply elem_of_nil in H].
      destruct (decide (s_kind v = SIdent)) as [Kv|]; [|intros H; by apply elem_of_nil in H]. intros H. change (default ([], false) (Some (expand_var info (scope (s_name v))))) with (expand_var info (scope (s_name v))) in H.
      apply C97_variable_iff in H as [L H]. exists x, sel, b, site, scope, func, pos, v. split_and!; try done; [|by apply ctor_arg_spec].
      unfold fp in Ef. destruct (s_kind b) eqn:Kb; try done.
      + left. injection Ef as <- <-. done.
      + right. destruct (last (cs_assigned site (s_name b))) as [asn|]; cbn [mbind option_bind] in Ef; [|done]. exists asn. destruct (decide (s_kind (cn_value asn) = SCall)); [|done]. injection Ef as <- <-. done.
    - intros (x & sel & b & site & scope & func & pos & v & -> & -> & -> & N & Hb & Hs & Hf & Nf & Hv & Kv & L & Hu). rewrite decide_False by done. rewrite Hb. cbn [mbind option_bind fst snd]. rewrite Hs. cbn [mbind option_bind].
      apply ctor_arg_spec in Hv.
      assert (E : match s_kind b with SCall => Some (callee_name_of (s_fn b), pos_of b)
        | SIdent => asn ← last (cs_assigned site (s_name b)); if decide (s_kind (cn_value asn) = SCall) then Some (cn_func asn, cn_pos asn) else None | _ => None end = Some (func, pos)).
      { destruct Hf as [(-> & -> & ->)|(asn & -> & -> & Ka & -> & ->)]; [done|]. cbn [mbind option_bind]. by rewrite decide_True. }
      rewrite E. cbn [mbind option_bind fst snd]. rewrite decide_False by done. rewrite Hv. cbn [mbind option_bind]. rewrite decide_True by done.
      change (default ([], false) (Some (expand_var info (scope (s_name v))))) with (expand_var info (scope (s_name v))). by apply C97_variable_iff.
  Qed.
End ctors.

(** [return &APIError{Message: message, Code: code}] and [e := NewAPIError("no", http.StatusUnauthorized)]. *)
Definition c_ident (n : string) : sarg := SArg SIdent n None None None [].
Definition c_kv (k v : string) : option sarg := Some (SArg SKeyValue "" (Some (c_ident k)) None (Some (c_ident v)) []).
Definition c_returned : sarg := SArg SUnary "" (Some (SArg SComposite "" None None None [c_kv "Message" "message"; c_kv "Code" "code"])) None None [].
Definition c_call : sarg := SArg SCall "" None None (Some (c_ident "NewAPIError")) [].
Definition c_status : sarg := SArg SOther "http.StatusUnauthorized" None None None [].
Definition c_site : csite := CSite (λ n, if decide (n = "e") then [CAssign c_call "NewAPIError" "app" "main.go:3"] else [])
  [CEdge "NewAPIError" "app" "main.go:3" (Some {["message" := SArg SOther "no" None None None []; "code" := c_status]})] None.
Example C97_unauthorized :
  ctor_status s_name (λ _ _, Some [c_returned]) (λ _, Some (c_ident "e", c_site)) (SArg SSelector "" (Some (c_ident "err")) (Some (c_ident "Code")) None []) = Some 401%Z.
Proof. by vm_compute. Qed.
Example C97_texts : (map_status_code <$> ["http.StatusOK"; "404"; "int"; "StatusTeapots"]) = [Some 200; Some 404; None; None]%Z.
Proof. by vm_compute. Qed.
Example C97_two : expand_var s_name [c_ident "http.StatusNotFound"; c_ident "int"; c_ident "500"; c_ident "404"] = ([404; 500]%Z, true).
Proof. by vm_compute. Qed.
Print Assumptions C97_text_iff. Print Assumptions C97_named_range. Print Assumptions C97_range_refuted. Print Assumptions C97_variable_iff. Print Assumptions C97_constructor_iff. Print Assumptions C97_branches.
