(** * Proofs about reading validation tags. *)
From Coq Require Import Ascii.
From stdpp Require Import base numbers list strings.
From Verif Require Import StrLib StrSplit StrSub DecLib PathModel PathProofs2 VerbProofs ScanModel ScanProps TypeModel FieldModel FieldProofs NameProps ConModel ConSpec.

(** ** Bytes *)
Definition solid (c : ascii) : bool := negb (mem_byte c separators).
Definition inner_byte (c : ascii) : bool := solid c || bool_decide (c = " "%char).
Lemma ident_solid c : ident_char c = true → solid c = true.
Proof. destruct c as [[] [] [] [] [] [] [] []]; by vm_compute. Qed.
Lemma solid_inner c : solid c = true → inner_byte c = true.
Proof. unfold inner_byte. by intros ->. Qed.
Lemma inner_not c : inner_byte c = true → c ≠ ","%char ∧ c ≠ "{"%char ∧ c ≠ "}"%char ∧ c ≠ ":"%char ∧ c ≠ dq.
Proof. destruct c as [[] [] [] [] [] [] [] []]; vm_compute; intros H; try discriminate H; repeat split; discriminate. Qed.
Lemma solid_not_space c : solid c = true → mem_byte c spaces = false ∧ mem_byte c ", " = false.
Proof. destruct c as [[] [] [] [] [] [] [] []]; vm_compute; intros H; try discriminate H; done. Qed.
Lemma start_ident c : ident_start c = true → ident_char c = true.
Proof. unfold ident_char. by intros ->. Qed.
Lemma digit_solid c : is_digit c = true ∨ c = "-"%char → solid c = true.
Proof. destruct c as [[] [] [] [] [] [] [] []]; vm_compute; intros [H|H]; try discriminate H; done. Qed.
Lemma all_bytes_contains f c s : all_bytes f s = true → f c = false → contains_byte c s = false.
Proof.
  intros H Hc. induction s as [|a s IH]; [done|]. rewrite all_bytes_cons in H. apply andb_prop in H as [Ha Hs].
  rewrite contains_byte_cons, IH by done. rewrite orb_false_r. apply bool_decide_eq_false. congruence.
Qed.
Lemma all_digits_bytes s : all_digits s = true → all_bytes is_digit s = true.
Proof. induction s as [|c s IH]; [done|]. rewrite all_bytes_cons. cbn [all_digits]. intros [-> H]%andb_prop. by rewrite IH. Qed.
Lemma itoa_solid z : all_bytes solid (itoa z) = true.
Proof.
  destruct (decide (0 ≤ z)%Z) as [H|H].
  - rewrite itoa_nonneg by done. apply (all_bytes_weaken is_digit); [intros c Hc; apply digit_solid; by left|apply all_digits_bytes, all_digits_pretty].
  - rewrite itoa_neg by lia. rewrite all_bytes_cons. apply andb_true_intro. split; [done|].
    apply (all_bytes_weaken is_digit); [intros c Hc; apply digit_solid; by left|apply all_digits_bytes, all_digits_pretty].
Qed.
Lemma ident_bytes n : is_ident n = true → all_bytes ident_char n = true.
Proof.
  destruct n as [|c s]; [done|]. cbn [is_ident]. intros [Hc Hs]%andb_prop. rewrite all_bytes_cons, (start_ident _ Hc). exact Hs.
Qed.
Lemma ident_solid_all n : is_ident n = true → all_bytes solid n = true.
Proof. intros H. apply (all_bytes_weaken ident_char); [apply ident_solid|by apply ident_bytes]. Qed.
Lemma join_inner ws : Forall (λ w, w ≠ "" ∧ plain_word w = true) ws → all_bytes inner_byte (str_join " " ws) = true.
Proof.
  induction 1 as [|w ws [_ Hw] HF IH]; [done|]. assert (all_bytes inner_byte w = true) as Hw' by (apply (all_bytes_weaken solid); [apply solid_inner|exact Hw]).
  destruct ws as [|w' ws]; [exact Hw'|]. rewrite str_join_cons2, !all_bytes_app, Hw', IH. done.
Qed.

(** ** The text of a rule *)
Definition first_solid (s : string) : Prop := ∃ c t, s = String c t ∧ solid c = true.
Definition last_solid (s : string) : Prop := ∃ t c, s = t +:+ String c "" ∧ solid c = true.
Lemma last_solid_app a b : last_solid b → last_solid (a +:+ b).
Proof. intros (t & c & -> & H). exists (a +:+ t), c. by rewrite sapp_assoc. Qed.
Lemma first_solid_app a b : first_solid a → first_solid (a +:+ b).
Proof. intros (c & t & -> & H). exists c, (t +:+ b). by rewrite sapp_cons. Qed.
Lemma solid_ends s : s ≠ "" → all_bytes solid s = true → first_solid s ∧ last_solid s.
Proof.
  intros Hn H. split.
  - destruct s as [|c s]; [done|]. rewrite all_bytes_cons in H. apply andb_prop in H as [Hc _]. by exists c, s.
  - induction s as [|c s IH]; [done|]. rewrite all_bytes_cons in H. apply andb_prop in H as [Hc H]. destruct s as [|d s].
    + by exists "", c.
    + destruct IH as (t & e & E & He); [done|done|]. exists (String c t), e. by rewrite E.
Qed.
Lemma join_last ws : ws ≠ [] → Forall (λ w, w ≠ "" ∧ plain_word w = true) ws → last_solid (str_join " " ws).
Proof.
  intros Hn. induction 1 as [|w ws [Hw1 Hw2] HF IH]; [done|]. destruct ws as [|w' ws]; [by apply solid_ends|].
  rewrite str_join_cons2. apply last_solid_app, last_solid_app, IH. done.
Qed.
Lemma firm_of s : first_solid s → last_solid s → firm spaces s ∧ firm ", " s.
Proof.
  intros (c & t & E & Hc) (t' & c' & E' & Hc'). apply solid_not_space in Hc as [H1 H2], Hc' as [H3 H4]. split; (split; [by exists c, t|by exists t', c']).
Qed.
Lemma trim_spaces_id s : first_solid s → last_solid s → trim_space s = s.
Proof.
  intros H1 H2. destruct (firm_of s H1 H2) as [H _]. pose proof (trim_any_firm spaces "" s "" (all_of_nil _) (all_of_nil _) H) as E.
  rewrite sapp_nil in E. exact E.
Qed.
Lemma trim_commas_id s : first_solid s → last_solid s → trim_any ", " s = s.
Proof.
  intros H1 H2. destruct (firm_of s H1 H2) as [_ H]. pose proof (trim_any_firm ", " "" s "" (all_of_nil _) (all_of_nil _) H) as E.
  rewrite sapp_nil in E. exact E.
Qed.

Definition parts_ok (p : string * option string) : Prop :=
  is_ident p.1 = true ∧ match p.2 with None => p.1 ≠ "dive" | Some v => all_bytes inner_byte v = true ∧ (v = "" ∨ last_solid v) end.
Lemma rule_parts_ok r : rule_ok r → parts_ok (rule_parts r).
Proof.
  assert (∀ z, all_bytes inner_byte (itoa z) = true ∧ (itoa z = "" ∨ last_solid (itoa z))) as Hz.
  { intros z. split; [apply (all_bytes_weaken solid); [apply solid_inner|apply itoa_solid]|].
    destruct (decide (itoa z = "")) as [E|E]; [by left|right]. apply solid_ends; [done|apply itoa_solid]. }
  destruct r as [|k|k|k|ws|f|n|n v]; cbn [rule_ok rule_parts parts_ok fst snd]; intros H; try (split; [done|apply Hz]).
  - done.
  - destruct H as [H1 H2]. split; [done|]. split; [by apply join_inner|right; by apply join_last].
  - by destruct f.
  - destruct H as (H1 & _ & H2 & _). done.
  - destruct H as (H1 & H2 & _). split; [done|]. split; [apply (all_bytes_weaken solid); [apply solid_inner|done]|].
    destruct (decide (v = "")) as [E|E]; [by left|right]. by apply solid_ends.
Qed.
Lemma text_inner p : parts_ok p → all_bytes inner_byte (parts_text p) = true.
Proof.
  destruct p as [n [v|]]; intros [H1 H2]; cbn [fst snd parts_text] in *.
  - rewrite all_bytes_app, all_bytes_cons. destruct H2 as [-> _].
    rewrite (all_bytes_weaken solid inner_byte n solid_inner (ident_solid_all n H1)). done.
  - by apply (all_bytes_weaken solid inner_byte n solid_inner), ident_solid_all.
Qed.
Lemma text_first p : parts_ok p → first_solid (parts_text p).
Proof.
  destruct p as [n v]; intros [H1 _]; cbn [fst] in *. assert (first_solid n) as H.
  { apply solid_ends; [by destruct n|by apply ident_solid_all]. }
  destruct v; [by apply first_solid_app|done].
Qed.
Lemma text_last p : parts_ok p → last_solid (parts_text p).
Proof.
  destruct p as [n [v|]]; intros [H1 H2]; cbn [fst snd parts_text] in *.
  - apply last_solid_app. destruct H2 as [_ [-> | H]]; [by exists "", "="%char|]. change (String "=" v) with ("=" +:+ v). by apply last_solid_app.
  - apply solid_ends; [by destruct n|by apply ident_solid_all].
Qed.
Lemma text_not_dive p : parts_ok p → trim_space (parts_text p) ≠ "dive".
Proof.
  intros Hp. rewrite trim_spaces_id by (by apply text_first || by apply text_last). destruct p as [n [v|]]; destruct Hp as [H1 H2]; cbn [fst snd parts_text] in *; [|done].
  intros E. assert (contains_byte "=" (n +:+ String "=" v) = true) as H; [|by rewrite E in H].
  apply contains_byte_spec. by exists n, v.
Qed.

(** ** The scanner finds the rules *)
Lemma scan_value_stop v rest : all_bytes inner_byte v = true → (rest = "" ∨ ∃ t, rest = String "," t) → scan_value false (v +:+ rest) = (v, rest).
Proof.
  intros Hv Hr. induction v as [|c v IH].
  - change ("" +:+ rest) with rest. by destruct Hr as [-> | [t ->]].
  - rewrite all_bytes_cons in Hv. apply andb_prop in Hv as [Hc Hv]. apply inner_not in Hc as (N1 & N2 & N3 & _).
    rewrite sapp_cons. cbn [scan_value]. rewrite (bool_decide_eq_false_2 _ N1), (bool_decide_eq_false_2 _ N3), (bool_decide_eq_false_2 _ N2). cbn [orb].
    by rewrite IH.
Qed.
Lemma take_ident n rest : all_bytes ident_char n = true → (rest = "" ∨ ∃ c t, rest = String c t ∧ ident_char c = false) →
  take_until (λ c, negb (ident_char c)) (n +:+ rest) = n.
Proof.
  intros Hn Hr. induction n as [|c n IH].
  - change ("" +:+ rest) with rest. destruct Hr as [-> | (c & t & -> & Hc)]; [done|]. cbn [take_until]. by rewrite Hc.
  - rewrite all_bytes_cons in Hn. apply andb_prop in Hn as [Hc Hn]. rewrite sapp_cons. cbn [take_until]. rewrite Hc. cbn [negb]. by rewrite IH.
Qed.
Lemma scan_one p rest n : parts_ok p → (rest = "" ∨ ∃ t, rest = String "," t) →
  scan_rules (S n) (parts_text p +:+ rest) = parts_text p :: (if decide (rest = "") then [] else scan_rules n rest).
Proof.
  intros [H1 H2] Hr. assert (rest = "" → scan_rules n rest = []) as Hnil by (intros ->; by destruct n).
  destruct p as [nm v]. cbn [fst snd] in *. pose proof (ident_bytes nm H1) as Hb.
  assert (∃ c t, nm = String c t ∧ ident_start c = true) as (c & t & En & Hc).
  { destruct nm as [|c t]; [done|]. cbn [is_ident] in H1. apply andb_prop in H1 as [H1 _]. by exists c, t. }
  destruct v as [v|]; cbn [parts_text].
  - destruct H2 as [Hv _]. rewrite sapp_assoc. change (String "=" v +:+ rest) with (String "=" (v +:+ rest)).
    assert (take_until (λ c, negb (ident_char c)) (nm +:+ String "=" (v +:+ rest)) = nm) as Et.
    { apply take_ident; [done|]. right. by eexists _, _. }
    assert (str_drop (String.length nm) (nm +:+ String "=" (v +:+ rest)) = String "=" (v +:+ rest)) as Ed by apply str_drop_app.
    revert Et Ed. generalize (nm +:+ String "=" (v +:+ rest)) at 1 2 3 as s. intros s.
    destruct s as [|c' s'].
    { intros Et _. cbn in Et. rewrite <- Et in En. done. }
    intros Et Ed. cbn [scan_rules]. cbn [take_until] in Et.
    destruct (ident_start c') eqn:Hc'.
    2: { exfalso. rewrite En in Et. destruct (negb (ident_char c')) eqn:Hi; [done|]. injection Et as -> _. congruence. }
    cbn [take_until]. rewrite Et, Ed. rewrite decide_True by done. rewrite scan_value_stop by done. f_equal.
    destruct (decide (rest = "")) as [E|E]; [by apply Hnil|done].
  - assert (take_until (λ c, negb (ident_char c)) (nm +:+ rest) = nm) as Et.
    { apply take_ident; [done|]. destruct Hr as [-> | [u ->]]; [by left|right; by exists ","%char, u]. }
    assert (str_drop (String.length nm) (nm +:+ rest) = rest) as Ed by apply str_drop_app.
    revert Et Ed. generalize (nm +:+ rest) as s. intros s. destruct s as [|c' s'].
    { intros Et _. cbn in Et. rewrite <- Et in En. done. }
    intros Et Ed. cbn [scan_rules]. cbn [take_until] in Et.
    destruct (ident_start c') eqn:Hc'.
    2: { exfalso. rewrite En in Et. destruct (negb (ident_char c')) eqn:Hi; [done|]. injection Et as -> _. congruence. }
    cbn [take_until]. rewrite Et, Ed. destruct Hr as [-> | [u ->]]; [done|]. rewrite decide_False by done. f_equal.
Qed.
Lemma scan_all ps : Forall parts_ok ps → ∀ n, String.length (str_join "," (parts_text <$> ps)) ≤ n → scan_rules n (str_join "," (parts_text <$> ps)) = parts_text <$> ps.
Proof.
  induction 1 as [|p ps Hp HF IH]; intros n Hn; [by destruct n|]. destruct (text_first p Hp) as (c & t & E & _).
  assert (0 < String.length (parts_text p)) as Hl by (rewrite E; cbn; lia).
  destruct ps as [|q ps].
  - change (str_join "," (parts_text <$> [p])) with (parts_text p) in *. destruct n as [|n]; [lia|].
    pose proof (scan_one p "" n Hp (or_introl eq_refl)) as Es. by rewrite sapp_nil in Es.
  - change (parts_text <$> p :: q :: ps) with (parts_text p :: parts_text q :: (parts_text <$> ps)) in *. rewrite str_join_cons2 in *.
    change (parts_text q :: (parts_text <$> ps)) with (parts_text <$> q :: ps) in *. rewrite !sapp_length in Hn. change (String.length ",") with 1 in Hn.
    destruct n as [|n]; [lia|]. change ("," +:+ str_join "," (parts_text <$> q :: ps)) with (String "," (str_join "," (parts_text <$> q :: ps))).
    rewrite scan_one; [|done|right; by eexists]. rewrite decide_False by done. f_equal.
    destruct n as [|n].
    + exfalso. inversion HF as [|? ? Hq _]; subst. destruct (text_first q Hq) as (c' & t' & E' & _). lia.
    + change (scan_rules (S n) (String "," ?s)) with (scan_rules n s). apply IH. lia.
Qed.

(** ** A rule is read *)
Definition step (c : constraints) (r : rule) : constraints :=
  let '(Constraints nl xl n x d f p e q) := c in
  match r with
  | Required => Constraints nl xl n x d f p e true
  | Min k => Constraints nl xl (Some k) x d f p e q
  | Max k => Constraints nl xl n (Some k) d f p e q
  | Len k => Constraints (Some k) (Some k) n x d f p e q
  | Oneof ws => Constraints nl xl n x d f p (e ++ ws) q
  | Fmt g => Constraints nl xl n x d (fmt_name g) p e q
  | Other _ | OtherArg _ _ => c
  end.
Lemma atoi_opt_itoa z : atoi_opt (itoa z) = Some z.
Proof.
  pose proof (atoi_itoa z) as H. unfold atoi in H. destruct (decide (0 ≤ z)%Z) as [Hz|Hz].
  - rewrite itoa_nonneg in * by done. rewrite atoi_opt_digits by apply all_digits_pretty. rewrite parse_nat_pretty. cbn. f_equal. lia.
  - destruct (atoi_opt (itoa z)) as [z'|] eqn:E; cbn in H; [congruence|lia].
Qed.
Lemma atoi64_itoa z : exact_number z → atoi64 (itoa z) = Some z.
Proof. intros [H1 H2]. unfold atoi64. rewrite atoi_opt_itoa. rewrite decide_True; [done|lia]. Qed.
Lemma table_none k l : k ∉ l.*1 → table k l = None.
Proof.
  induction l as [|[a b] l IH]; [done|]. cbn [fmap list_fmap fst table]. intros H. rewrite decide_False; [apply IH; intros E; apply H; by right|intros ->; apply H; by left]. 
Qed.
Lemma prefix_eq p n v : contains_byte "=" p = false → contains_byte "=" n = false → has_prefix (p +:+ "=") (n +:+ String "=" v) = true → n = p.
Proof.
  intros Hp Hn H. apply has_prefix_spec in H as [t E]. rewrite sapp_assoc in E. change ("=" +:+ t) with (String "=" t) in E.
  revert n Hn E. induction p as [|a p IH]; intros n Hn E.
  - destruct n as [|b n]; [done|]. injection E as -> _. by rewrite contains_byte_cons, bool_decide_eq_true_2 in Hn.
  - rewrite contains_byte_cons in Hp. apply orb_false_iff in Hp as [Ha Hp]. destruct n as [|b n].
    + injection E as <- _. by rewrite bool_decide_eq_true_2 in Ha.
    + rewrite !sapp_cons in E. injection E as -> E. rewrite contains_byte_cons in Hn. apply orb_false_iff in Hn as [_ Hn]. f_equal. by apply IH.
Qed.
Lemma no_prefix p n : contains_byte "=" n = false → has_prefix (p +:+ "=") n = false.
Proof.
  intros H. destruct (has_prefix _ n) eqn:E; [|done]. apply has_prefix_spec in E as [t ->]. rewrite !contains_byte_app in H.
  change (contains_byte "=" "=") with true in H. by rewrite orb_true_r in H.
Qed.
Lemma ident_no_eq n : is_ident n = true → contains_byte "=" n = false.
Proof. intros H. by apply (all_bytes_contains ident_char), eq_refl; apply ident_bytes. Qed.
Lemma table_no_eq k l : contains_byte "=" k = true → Forall (λ kv, contains_byte "=" kv.1 = false) l → table k l = None.
Proof. intros Hk HF. apply table_none. intros H. apply elem_of_list_fmap in H as (kv & -> & Hkv). rewrite Forall_forall in HF. rewrite HF in Hk; done. Qed.
Lemma formats_no_eq : Forall (λ kv : string * string, contains_byte "=" kv.1 = false) rule_formats.
Proof. repeat (apply Forall_cons; split; [reflexivity|]). apply Forall_nil_2. Qed.
Lemma patterns_no_eq : Forall (λ kv : string * string, contains_byte "=" kv.1 = false) rule_patterns.
Proof. repeat (apply Forall_cons; split; [reflexivity|]). apply Forall_nil_2. Qed.
Lemma add_rule_text c r : rule_ok r → add_rule c (rule_text r) = step c r.
Proof.
  intros Hr. pose proof (rule_parts_ok r Hr) as Hp. unfold add_rule. rewrite trim_spaces_id by (by apply text_first || by apply text_last).
  destruct c as [nl xl n x d f p e q]. destruct r as [|k|k|k|ws|g|nm|nm v]; cbn [rule_ok] in Hr.
  - reflexivity.
  - change (rule_text (Min k)) with ("min=" +:+ itoa k). rewrite decide_False by done. change (has_prefix "min=" ("min=" +:+ itoa k)) with true. cbv iota.
    change (str_drop 4 ("min=" +:+ itoa k)) with (itoa k). by rewrite atoi64_itoa.
  - change (rule_text (Max k)) with ("max=" +:+ itoa k). rewrite decide_False by done. change (has_prefix "min=" ("max=" +:+ itoa k)) with false.
    change (has_prefix "max=" ("max=" +:+ itoa k)) with true. cbv iota. change (str_drop 4 ("max=" +:+ itoa k)) with (itoa k). by rewrite atoi64_itoa.
  - change (rule_text (Len k)) with ("len=" +:+ itoa k). rewrite decide_False by done. change (has_prefix "min=" ("len=" +:+ itoa k)) with false.
    change (has_prefix "max=" ("len=" +:+ itoa k)) with false. change (has_prefix "len=" ("len=" +:+ itoa k)) with true.
    cbv iota. change (str_drop 4 ("len=" +:+ itoa k)) with (itoa k). by rewrite atoi64_itoa.
  - change (rule_text (Oneof ws)) with ("oneof=" +:+ str_join " " ws). rewrite decide_False by done.
    change (has_prefix "min=" ("oneof=" +:+ str_join " " ws)) with false. change (has_prefix "max=" ("oneof=" +:+ str_join " " ws)) with false.
    change (has_prefix "len=" ("oneof=" +:+ str_join " " ws)) with false. change (has_prefix "minlen=" ("oneof=" +:+ str_join " " ws)) with false.
    change (has_prefix "maxlen=" ("oneof=" +:+ str_join " " ws)) with false. change (has_prefix "regexp=" ("oneof=" +:+ str_join " " ws)) with false.
    change (has_prefix "oneof=" ("oneof=" +:+ str_join " " ws)) with true. cbv iota.
    change (str_drop 6 ("oneof=" +:+ str_join " " ws)) with (str_join " " ws). cbn [step]. destruct Hr as [Hn HF].
    rewrite split_join; [|done|].
    2: { eapply Forall_impl; [exact HF|]. intros w [_ Hw]. by apply (all_bytes_contains solid). }
    f_equal. f_equal. clear Hn Hp. induction HF as [|w ws [H1 H2] HF IH]; [done|]. cbn [fmap list_fmap]. f_equal; [|exact IH].
    destruct (solid_ends w H1 H2) as [Ha Hb]. by apply trim_spaces_id.
  - by destruct g.
  - change (rule_text (Other nm)) with nm. destruct Hr as (H1 & H2 & _ & H3 & H4). rewrite decide_False by done. apply ident_no_eq in H1.
    rewrite (no_prefix "min" nm H1 : has_prefix "min=" nm = false).
    rewrite (no_prefix "max" nm H1 : has_prefix "max=" nm = false).
    rewrite (no_prefix "len" nm H1 : has_prefix "len=" nm = false).
    rewrite (no_prefix "minlen" nm H1 : has_prefix "minlen=" nm = false).
    rewrite (no_prefix "maxlen" nm H1 : has_prefix "maxlen=" nm = false).
    rewrite (no_prefix "regexp" nm H1 : has_prefix "regexp=" nm = false).
    rewrite (no_prefix "oneof" nm H1 : has_prefix "oneof=" nm = false).
    rewrite (table_none nm rule_formats H3), (table_none nm rule_patterns H4). done.
  - change (rule_text (OtherArg nm v)) with (nm +:+ String "=" v). destruct Hr as (H1 & _ & H3). apply ident_no_eq in H1.
    assert (contains_byte "=" (nm +:+ String "=" v) = true) as He by (apply contains_byte_spec; by exists nm, v).
    rewrite decide_False by (intros E; by rewrite E in He).
    assert (∀ w, contains_byte "=" w = false → w ∈ ["min"; "max"; "len"; "minlen"; "maxlen"; "regexp"; "oneof"] → has_prefix (w +:+ "=") (nm +:+ String "=" v) = false) as Hno.
    { intros w Hw Hin. destruct (has_prefix _ _) eqn:E; [|done]. apply prefix_eq in E; [|done|done]. by subst. }
    rewrite (Hno "min" eq_refl ltac:(by apply (bool_decide_unpack _)) : has_prefix "min=" _ = false).
    rewrite (Hno "max" eq_refl ltac:(by apply (bool_decide_unpack _)) : has_prefix "max=" _ = false).
    rewrite (Hno "len" eq_refl ltac:(by apply (bool_decide_unpack _)) : has_prefix "len=" _ = false).
    rewrite (Hno "minlen" eq_refl ltac:(by apply (bool_decide_unpack _)) : has_prefix "minlen=" _ = false).
    rewrite (Hno "maxlen" eq_refl ltac:(by apply (bool_decide_unpack _)) : has_prefix "maxlen=" _ = false).
    rewrite (Hno "regexp" eq_refl ltac:(by apply (bool_decide_unpack _)) : has_prefix "regexp=" _ = false).
    rewrite (Hno "oneof" eq_refl ltac:(by apply (bool_decide_unpack _)) : has_prefix "oneof=" _ = false).
    rewrite (table_no_eq _ rule_formats He formats_no_eq), (table_no_eq _ rule_patterns He patterns_no_eq). done.
Qed.

(** ** The whole tag *)
Definition read_level (dive : option constraints) (l : list rule) : option constraints :=
  let c := foldl step (only_dive dive) l in if is_empty c then None else Some c.
Fixpoint read (levels : list (list rule)) : option constraints :=
  match levels with [] => None | l :: ls => read_level (read ls) l end.
Lemma words_ok levels : all_ok levels → Forall (λ w, all_bytes inner_byte w = true ∧ first_solid w ∧ last_solid w) (words levels).
Proof.
  induction 1 as [|l ls Hl HF IH]; [apply Forall_nil_2|].
  assert (Forall (λ w, all_bytes inner_byte w = true ∧ first_solid w ∧ last_solid w) (rule_text <$> l)) as H.
  { apply Forall_fmap. eapply Forall_impl; [exact Hl|]. intros r Hr. apply rule_parts_ok in Hr. cbn. split; [by apply text_inner|split; [by apply text_first|by apply text_last]]. }
  destruct ls as [|l' ls]; [done|]. change (words (l :: l' :: ls)) with ((rule_text <$> l) ++ "dive" :: words (l' :: ls)).
  apply Forall_app. split; [done|]. apply Forall_cons. split; [|done]. split; [done|]. by apply solid_ends.
Qed.
Lemma join_ends ws : ws ≠ [] → Forall (λ w, all_bytes inner_byte w = true ∧ first_solid w ∧ last_solid w) ws →
  first_solid (str_join "," ws) ∧ last_solid (str_join "," ws).
Proof.
  intros Hn. induction 1 as [|w ws (_ & H1 & H2) HF IH]; [done|]. destruct ws as [|w' ws]; [done|]. rewrite str_join_cons2. split; [by apply first_solid_app|].
  apply last_solid_app, last_solid_app, IH. done.
Qed.
Definition body_byte (c : ascii) : bool := negb (bool_decide (c = dq)) && negb (bool_decide (c = ":"%char)).
Lemma inner_body c : inner_byte c = true → body_byte c = true.
Proof. intros (_ & _ & _ & H1 & H2)%inner_not. unfold body_byte. by rewrite !bool_decide_eq_false_2. Qed.
Lemma join_body ws : Forall (λ w, all_bytes inner_byte w = true ∧ first_solid w ∧ last_solid w) ws → all_bytes body_byte (str_join "," ws) = true.
Proof.
  induction 1 as [|w ws (H & _) HF IH]; [done|]. assert (all_bytes body_byte w = true) as Hw by (by apply (all_bytes_weaken inner_byte), H; apply inner_body).
  destruct ws as [|w' ws]; [done|]. by rewrite str_join_cons2, !all_bytes_app, Hw, IH.
Qed.
Lemma no_key k s : contains_byte ":" k = true → contains_byte ":" s = false → str_contains k s = false.
Proof.
  intros Hk Hs. destruct (str_contains k s) eqn:E; [|done]. apply str_contains_spec in E as (a & b & ->). rewrite !contains_byte_app, Hk in Hs.
  by rewrite orb_true_r in Hs.
Qed.
Lemma dive_words l ls : all_ok (l :: ls) →
  at_dive [] (split_byte "," (str_join "," (words (l :: ls)))) =
  match ls with [] => None | _ => Some (rule_text <$> l, words ls) end.
Proof.
  intros H. pose proof (words_ok _ H) as Hw. inversion H as [|? ? Hl _]; subst.
  assert (∀ w, w ∈ rule_text <$> l → trim_space w ≠ "dive") as Hnd.
  { intros w (r & -> & Hr)%elem_of_list_fmap. rewrite Forall_forall in Hl. apply text_not_dive, rule_parts_ok, Hl, Hr. }
  assert (∀ before rest, at_dive before ((rule_text <$> l) ++ rest) = at_dive (before ++ (rule_text <$> l)) rest) as Hskip.
  { intros before rest. revert before Hnd. generalize (rule_text <$> l) as ws. induction ws as [|w ws IH]; intros before Hnd; [by rewrite app_nil_r|].
    cbn [app at_dive]. rewrite decide_False by (apply Hnd; by left). rewrite IH by (intros; apply Hnd; by right). by rewrite <- app_assoc. }
  assert (∀ ws, ws ≠ [] → Forall (λ w, all_bytes inner_byte w = true ∧ first_solid w ∧ last_solid w) ws → split_byte "," (str_join "," ws) = ws) as Hsplit.
  { intros ws Hn HF. apply split_join; [done|]. eapply Forall_impl; [exact HF|]. intros w (Hi & _). by apply (all_bytes_contains inner_byte). }
  destruct ls as [|l' ls].
  - change (words [l]) with (rule_text <$> l) in *. destruct (decide (rule_text <$> l = [])) as [E|E]; [by rewrite E|].
    rewrite Hsplit by done. pose proof (Hskip [] []) as Hs. rewrite app_nil_r in Hs. by rewrite Hs.
  - change (words (l :: l' :: ls)) with ((rule_text <$> l) ++ "dive" :: words (l' :: ls)) in *. rewrite Hsplit; [|by intros [_ ?]%app_eq_nil|done].
    rewrite Hskip. reflexivity.
Qed.
Lemma add_no_keys pf tag c : (∀ k, k ∈ ["min:"; "max:"; "regexp:"; "enum:"] → str_contains k tag = false) → add_keys pf tag c = c.
Proof.
  intros H. destruct c as [nl xl n x d f p e q]. unfold add_keys, after_key.
  rewrite (cut_none "min:"), (cut_none "max:"), (cut_none "regexp:"), (cut_none "enum:"); [done| | | | | | | |]; try done; apply H; by apply (bool_decide_unpack _).
Qed.
Lemma tag_colon earlier levels : all_ok levels → earlier_ok earlier →
  (∀ k, k ∈ ["min:"; "max:"; "regexp:"; "enum:"] → str_contains k (tag_with earlier levels) = false) ∧
  ∃ e, cut "validate:" (tag_with earlier levels) = Some (e, String dq (str_join "," (words levels) +:+ String dq "")).
Proof.
  intros Hok He. pose proof (join_body _ (words_ok _ Hok)) as Hb. set (body := str_join "," (words levels)) in *.
  assert (contains_byte ":" body = false) as Hc by (by apply (all_bytes_contains body_byte)).
  assert (∀ k, k ∈ ["min:"; "max:"; "regexp:"; "enum:"] → str_contains k (validate_text levels) = false) as Hv.
  { intros k Hk. unfold validate_text. fold body.
    assert (str_contains k (String dq (body +:+ String dq "")) = false) as Hin.
    { apply no_key; [|by rewrite contains_byte_cons, contains_byte_app, Hc]. rewrite !elem_of_cons, elem_of_nil in Hk. by destruct Hk as [->|[->|[->|[->|[]]]]]. }
    rewrite !elem_of_cons, elem_of_nil in Hk. destruct Hk as [->|[->|[->|[->|[]]]]]; exact Hin. }
  destruct earlier as [e|]; cbn [tag_with].
  - split.
    + intros k Hk. rewrite str_contains_split.
      * rewrite (He e k eq_refl ltac:(by right)), (Hv k Hk). done.
      * rewrite !elem_of_cons, elem_of_nil in Hk. by destruct Hk as [->|[->|[->|[->|[]]]]].
      * rewrite !elem_of_cons, elem_of_nil in Hk. by destruct Hk as [->|[->|[->|[->|[]]]]].
    + rewrite cut_skip; [|done|done|apply (He e); [done|by left]]. unfold validate_text. rewrite cut_here. by eexists.
  - split; [done|]. unfold validate_text. rewrite cut_here. by eexists.
Qed.
Lemma extract_tag pf levels : all_ok levels → levels ≠ [] → ∀ earlier n, earlier_ok earlier → String.length (tag_with earlier levels) < n →
  extract pf n (tag_with earlier levels) = read levels.
Proof.
  intros Hok Hne. induction levels as [|l ls IH]; [done|]. intros earlier n He Hn. destruct n as [|n]; [lia|].
  destruct (tag_colon earlier (l :: ls) Hok He) as [Hk (e & Hcut)]. cbn [extract].
  rewrite decide_False by (intros E; by rewrite E in Hcut). rewrite (add_no_keys pf _ _ Hk).
  unfold after_key. rewrite Hcut. pose proof (words_ok _ Hok) as Hw. pose proof (join_body _ Hw) as Hb.
  assert (contains_byte ":" (String dq (str_join "," (words (l :: ls)) +:+ String dq "")) = false) as Hc.
  { rewrite contains_byte_cons, contains_byte_app. by rewrite (all_bytes_contains body_byte). }
  rewrite (cut_none "validate:"); [|done|by apply no_key].
  rewrite trim_dq by (by apply (all_bytes_contains body_byte)). unfold split_on_dive. rewrite dive_words by done.
  assert (∀ c n, n = String.length (str_join "," (rule_text <$> l)) → foldl add_rule c (scan_rules n (str_join "," (rule_text <$> l))) = foldl step c l) as Hfold.
  { intros c m ->. inversion Hok as [|? ? Hl _]; subst. replace (rule_text <$> l) with (parts_text <$> (rule_parts <$> l)) by (rewrite <- list_fmap_compose; done).
    rewrite scan_all; [|apply Forall_fmap; eapply Forall_impl; [exact Hl|apply rule_parts_ok]|done]. rewrite <- list_fmap_compose.
    revert c. clear -Hl. induction Hl as [|r l Hr Hl IH]; intros c; [done|]. cbn [fmap list_fmap foldl]. rewrite <- IH. f_equal. by apply add_rule_text. }
  cbn [read]. unfold read_level. destruct ls as [|l' ls].
  - cbn [andb]. rewrite Hfold by done. done.
  - rewrite Hfold by done. cbn [andb].
    assert ((if bool_decide (trim_any ", " (str_join "," (words (l' :: ls))) ≠ "") then extract pf n (validate_prefix +:+ trim_any ", " (str_join "," (words (l' :: ls))) +:+ String dq "") else None) = read (l' :: ls)) as ->; [|done].
    inversion Hok as [|? ? _ Hok']; subst. pose proof (words_ok _ Hok') as Hw'.
    destruct (decide (words (l' :: ls) = [])) as [E|E].
    + rewrite E. destruct ls as [|l'' ls].
      * change (words [l']) with (rule_text <$> l') in E. apply fmap_nil_inv in E. by subst.
      * change (words (l' :: l'' :: ls)) with ((rule_text <$> l') ++ "dive" :: words (l'' :: ls)) in E. by apply app_eq_nil in E as [_ ?].
    + destruct (join_ends _ E Hw') as [H1 H2]. rewrite trim_commas_id by done.
      rewrite bool_decide_eq_true_2 by (intros E'; destruct H1 as (? & ? & E'' & _); by rewrite E' in E'').
      change (validate_prefix +:+ ?s) with ("validate:" +:+ String dq s). 
      change ("validate:" +:+ String dq (str_join "," (words (l' :: ls)) +:+ String dq "")) with (tag_with None (l' :: ls)).
      apply IH; [done|done|by intros ? ? ?|]. cbn [tag_with].
      assert (String.length (validate_text (l' :: ls)) < String.length (validate_text (l :: l' :: ls))) as Hlt.
      { unfold validate_text. rewrite !sapp_length. cbn [String.length]. rewrite !sapp_length.
        assert (String.length (str_join "," (words (l' :: ls))) < String.length (str_join "," (words (l :: l' :: ls)))); [|lia].
        change (words (l :: l' :: ls)) with ((rule_text <$> l) ++ "dive" :: words (l' :: ls)). generalize (rule_text <$> l) as pre. intros pre.
        destruct (words (l' :: ls)) as [|w ws] eqn:Ew; [done|]. induction pre as [|a pre IHp].
        - change ([] ++ "dive" :: w :: ws) with ("dive" :: w :: ws). rewrite str_join_cons2, !sapp_length. cbn [String.length]. lia.
        - change ((a :: pre) ++ "dive" :: w :: ws) with (a :: (pre ++ "dive" :: w :: ws)). destruct (pre ++ "dive" :: w :: ws) as [|b rest] eqn:Er; [by destruct pre|].
          rewrite str_join_cons2, !sapp_length. lia. }
      destruct earlier as [e0|]; cbn [tag_with] in Hn; [|lia]. rewrite sapp_length in Hn. cbn [String.length] in Hn. lia.
Qed.
