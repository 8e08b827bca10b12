(** * Proofs about enum values. *)
From Coq Require Import Ascii.
From stdpp Require Import sorting.
From stdpp Require Import base list strings gmap.
From Verif Require Import StrLib StrSplit StrOrder DecLib LitModel EnumModel.

(** ** Specification *)

(** sort.Slice by text: some sorted rearrangement. *)
Definition by_text (a b : evalue) : Prop := string_le (show a) (show b).
Definition sorts_by_text (sort : list evalue → list evalue) : Prop := ∀ l, sort l ≡ₚ l ∧ StronglySorted by_text (sort l).
(** The sources of a package: per file, the declarations in order. *)
Definition source := gmap string (list cdecl).
Definition recorded (p : source) : gmap string (gmap string variable) := file_variables <$> p.
(** [c] is the value of a constant of Go type [T] in [p]. *)
Definition const_of (p : source) (T : string) (c : cval) : Prop :=
  ∃ f ds d s, p !! f = Some ds ∧ d ∈ ds ∧ cd_const d = true ∧ s ∈ cd_specs d ∧ cs_gotype s = T ∧ cs_value s = Some c.
(** The text of a type that is not [T] under another spelling: no alias of it, no pointer to it
    and no type of the same name from elsewhere. *)
Definition other_type (resolve : string → string) (T t : string) : Prop :=
  t ≠ T ∧ resolve t ≠ T ∧ has_prefix "*" t = false ∧ ∀ q, t ≠ q +:+ String "." T.
(** A package in which every constant of type [T] says so in its declaration, or repeats a
    declaration of its block that does, and nothing else in such a block is untyped. *)
Record declares (resolve : string → string) (p : source) (T : string) : Prop := {
  dc_name : T ≠ "" ∧ has_prefix "*" T = false ∧ contains_byte "." T = false;
  dc_distinct : ∀ f ds, p !! f = Some ds → NoDup (cs_name <$> (ds ≫= cd_specs));
  dc_empty : other_type resolve T "";
  dc_types : ∀ f ds d s, p !! f = Some ds → d ∈ ds → cd_const d = true → s ∈ cd_specs d →
    (cs_type s = T ∨ other_type resolve T (cs_type s)) ∧ (cs_type s = "" → other_type resolve T (cs_under s)) ∧
    (cs_gotype s = T ↔ cs_type s = T ∨ (cs_type s = "" ∧ ∃ s', s' ∈ cd_specs d ∧ cs_type s' = T))
}.
(** Text of ordinary printable characters, at most 70 bytes of it. *)
Definition plain_char (c : ascii) : Prop := c ≠ dquote ∧ c ≠ "\"%char ∧ (128 ≤ nat_of_ascii c ∨ 32 ≤ nat_of_ascii c < 127).
Fixpoint plain_text (s : string) : Prop := match s with "" => True | String c s => plain_char c ∧ plain_text s end.
Definition in_int64 (z : Z) : Prop := (- 2 ^ 63 ≤ z < 2 ^ 63)%Z.

(** ** Sorting and deduplication *)
Lemma dedup_from_spec l : ∀ last, StronglySorted by_text l → (∀ x, x ∈ l → string_le (show last) (show x)) →
  let r := dedup_from last l in
  (∀ x, x ∈ r → x ∈ l) ∧ StronglySorted string_le (show <$> r) ∧ NoDup (show <$> r) ∧ show last ∉ show <$> r ∧
  (∀ x, x ∈ l → show x = show last ∨ ∃ y, y ∈ r ∧ show y = show x).
Proof.
  induction l as [|v l IH]; intros last Hs Hl r.
  { unfold r. cbn. split; [done|]. split; [constructor|]. split; [constructor|]. split; [apply not_elem_of_nil|]. intros x Hx. by apply elem_of_nil in Hx. }
  apply StronglySorted_inv in Hs as [Hs Hv]. rewrite Forall_forall in Hv. unfold r. cbn [dedup_from]. destruct (decide (show last = show v)) as [E|E].
  - destruct (IH last Hs) as (H1 & H2 & H3 & H4 & H5); [intros x Hx; apply Hl; by right|]. split; [intros x Hx; right; by apply H1|].
    split; [done|]. split; [done|]. split; [done|]. intros x [->|Hx]%elem_of_cons; [by left|]. by apply H5.
  - destruct (IH v Hs) as (H1 & H2 & H3 & H4 & H5); [intros x Hx; by apply Hv|].
    assert (∀ x, x ∈ l → show x ≠ show last) as Hne.
    { intros x Hx Hxe. apply E. apply (anti_symm string_le).
      - apply Hl. left.
      - rewrite <- Hxe. by apply Hv. }
    split; [intros x [->|Hx]%elem_of_cons; [left|right; by apply H1]|]. rewrite fmap_cons. split; [|split; [|split]].
    + constructor; [done|]. rewrite Forall_forall. intros t (x & -> & Hx)%elem_of_list_fmap. apply Hv. by apply H1.
    + by constructor.
    + rewrite not_elem_of_cons. split; [done|]. intros (x & Hxe & Hx)%elem_of_list_fmap. apply (Hne x); [by apply H1|done].
    + intros x [->|Hx]%elem_of_cons.
      * right. exists v. split; [left|done].
      * destruct (H5 x Hx) as [Hx'|(y & Hy & Hye)]; right; [exists v; split; [left|done]|exists y; split; [by right|done]].
Qed.
Lemma dedup_spec l : StronglySorted by_text l →
  let r := dedup l in
  (∀ x, x ∈ r → x ∈ l) ∧ StronglySorted string_le (show <$> r) ∧ NoDup (show <$> r) ∧ (∀ x, x ∈ l → ∃ y, y ∈ r ∧ show y = show x).
Proof.
  destruct l as [|v l]; intros Hs r; unfold r; cbn.
  { split; [done|]. split; [constructor|]. split; [constructor|]. intros x Hx. by apply elem_of_nil in Hx. }
  apply StronglySorted_inv in Hs as [Hs Hv]. rewrite Forall_forall in Hv. destruct (dedup_from_spec l v Hs) as (H1 & H2 & H3 & H4 & H5); [intros x Hx; by apply Hv|].
  split; [intros x [->|Hx]%elem_of_cons; [left|right; by apply H1]|]. split; [|split].
  - constructor; [done|]. rewrite Forall_forall. intros t (x & -> & Hx)%elem_of_list_fmap. apply Hv. by apply H1.
  - by constructor.
  - intros x [->|Hx]%elem_of_cons; [exists v; split; [left|done]|]. destruct (H5 x Hx) as [Hx'|(y & Hy & Hye)]; [exists v; split; [left|done]|exists y; split; [by right|done]].
Qed.
Lemma sorted_set_eq (l1 l2 : list string) : StronglySorted string_le l1 → StronglySorted string_le l2 → NoDup l1 → NoDup l2 →
  (∀ x, x ∈ l1 ↔ x ∈ l2) → l1 = l2.
Proof. intros S1 S2 N1 N2 H. apply (StronglySorted_unique string_le); [done|done|]. by apply NoDup_Permutation. Qed.

Section values.
  Context (sort : list evalue → list evalue) (finite : string → bool) (float_text : string → string).
  Hypothesis Hsort : sorts_by_text sort.
  Notation ext := (extract_value finite float_text).
  Lemma enum_spec cs :
    let out := enum_values sort finite float_text cs in
    (∀ v, v ∈ out → ∃ c, Some c ∈ cs ∧ v = ext c) ∧ StronglySorted string_le (show <$> out) ∧ NoDup (show <$> out) ∧
    (∀ c, Some c ∈ cs → ∃ v, v ∈ out ∧ show v = show (ext c)).
  Proof.
    intros out. unfold out, enum_values. destruct (Hsort (ext <$> omap id cs)) as [Hp Hs]. destruct (dedup_spec _ Hs) as (H1 & H2 & H3 & H4).
    split; [|split; [done|split; [done|]]].
    - intros v Hv%H1. rewrite Hp in Hv. apply elem_of_list_fmap in Hv as (c & -> & Hc). apply elem_of_list_omap in Hc as (o & Ho & Hoc). exists c. split; [|done]. unfold id in Hoc. by subst.
    - intros c Hc. apply H4. rewrite Hp. apply elem_of_list_fmap. exists c. split; [done|]. apply elem_of_list_omap. by exists (Some c).
  Qed.
  Lemma enum_one c : enum_values sort finite float_text [Some c] = [ext c].
  Proof. unfold enum_values. cbn. destruct (Hsort [ext c]) as [Hp _]. apply Permutation_singleton_r in Hp. by rewrite Hp. Qed.
  Lemma enum_none : enum_values sort finite float_text [] = [].
  Proof. unfold enum_values. cbn. destruct (Hsort []) as [Hp _]. apply Permutation_nil_r in Hp. by rewrite Hp. Qed.
End values.

(** ** Extracted values *)
Lemma quote_plain s : plain_text s → quote_body s = s.
Proof.
  induction s as [|c s IH]; [done|]. intros [(H1 & H2 & H3) H]. cbn. rewrite (IH H). unfold quote_char. rewrite !bool_decide_eq_false_2 by done. cbn.
  rewrite decide_True by lia. done.
Qed.
Lemma rune_count_app s t : rune_count (s +:+ t) = rune_count s + rune_count t.
Proof. induction s as [|c s IH]; [done|]. rewrite sapp_cons. cbn. rewrite IH. lia. Qed.
Lemma rune_count_le s : rune_count s ≤ String.length s.
Proof. induction s as [|c s IH]; [done|]. cbn. destruct (starts_rune c); lia. Qed.
Lemma get_last s c : String.get (String.length s) (s +:+ String c "") = Some c.
Proof. induction s as [|d s IH]; [done|]. rewrite sapp_cons. cbn. done. Qed.
Lemma extract_plain finite float_text s : plain_text s → String.length s ≤ 70 → extract_value finite float_text (CStr s) = VText s.
Proof.
  intros Hp Hl. unfold extract_value, const_text. unfold quote. rewrite (quote_plain s Hp).
  assert (String.length (s +:+ String dquote "") = S (String.length s)) as E by (rewrite sapp_length; cbn; lia).
  rewrite decide_False.
  - cbn [String.length]. rewrite E. rewrite (bool_decide_eq_true_2 (2 ≤ _)) by lia.
    rewrite (bool_decide_eq_true_2 (String.get 0 _ = _)) by done. rewrite (bool_decide_eq_true_2 (String.get _ _ = _)).
    + cbn [andb str_drop]. replace (S (S (String.length s)) - 2) with (String.length s) by lia. by rewrite str_take_app.
    + replace (S (S (String.length s)) - 1) with (S (String.length s)) by lia. cbn [String.get]. apply get_last.
  - cbn [rune_count]. rewrite rune_count_app. pose proof (rune_count_le s). change (rune_count (String dquote "")) with 1. change (if starts_rune dquote then 1 else 0) with 1. lia.
Qed.
Lemma atoi_opt_itoa z : atoi_opt (itoa z) = Some z.
Proof.
  destruct (decide (0 ≤ z)%Z) as [Hz|Hz].
  - rewrite itoa_nonneg by done. rewrite atoi_opt_digits by apply all_digits_pretty. rewrite parse_nat_pretty. cbn. f_equal. lia.
  - rewrite itoa_neg by lia. unfold atoi_opt. cbn. pose proof (parse_nat_pretty (Z.to_N (- z))) as H. rewrite H. cbn. f_equal. lia.
Qed.
Lemma itoa_get z : String.get 0 (itoa z) ≠ Some dquote.
Proof.
  pose proof (contains_itoa dquote z eq_refl) as H. destruct (itoa z) as [|c s] eqn:E; [done|]. cbn. intros [= ->].
  assert (contains_byte dquote (String dquote s) = false) as H' by (apply H; done). cbn in H'. by rewrite bool_decide_eq_true_2 in H'.
Qed.
Lemma extract_int finite float_text z : in_int64 z → extract_value finite float_text (CInt z) = VInt z.
Proof.
  intros Hz. unfold extract_value, const_text. rewrite (bool_decide_eq_false_2 (String.get 0 _ = _)) by apply itoa_get.
  rewrite andb_false_r. cbn [andb]. unfold parse_int. rewrite atoi_opt_itoa, bool_decide_eq_true_2 by done. by rewrite atoi_itoa.
Qed.

(** ** Type matching *)
Lemma last_part_dot t T : contains_byte "." t = true → last_part t = T → ∃ q, t = q +:+ String "." T.
Proof.
  intros Hc HT. unfold last_part in HT. pose proof (str_join_split "."%char t) as E.
  destruct (split_byte "." t) as [|x l] eqn:Es using rev_ind; [by destruct (split_byte_nonnil "."%char t)|]. clear IHl.
  rewrite last_snoc in HT. cbn in HT. subst x. destruct l as [|y l'].
  - cbn in E. subst t. exfalso. assert (T ∈ split_byte "." T) as Hin by (rewrite Es; left). apply split_byte_parts in Hin. congruence.
  - exists (str_join "." (y :: l')). rewrite <- E. clear E Es Hc. revert y. induction l' as [|z l' IH]; intros y; [done|].
    change ((y :: z :: l') ++ [T]) with (y :: z :: (l' ++ [T])). rewrite !str_join_cons2. change (z :: l' ++ [T]) with ((z :: l') ++ [T]). rewrite IH.
    by rewrite !sapp_assoc.
Qed.
Lemma matches_iff resolve T t : T ≠ "" → has_prefix "*" T = false → contains_byte "." T = false →
  t = T ∨ other_type resolve T t → type_matches resolve t T = true ↔ t = T.
Proof.
  intros HT1 HT2 HT3 Ht. split; [|intros ->; unfold type_matches; by rewrite bool_decide_eq_true_2].
  destruct Ht as [?|(H1 & H2 & H3 & H4)]; [done|]. intros H. exfalso. unfold type_matches in H. rewrite (bool_decide_eq_false_2 (t = T)) in H by done.
  rewrite HT2, H3 in H. rewrite (bool_decide_eq_false_2 (resolve t = T)) in H by done. rewrite andb_false_r, HT3 in H. cbn in H. rewrite andb_false_r in H.
  destruct (contains_byte "." t) eqn:Ec; [|done]. apply bool_decide_eq_true in H. apply last_part_dot in H as [q Hq]; [|done]. by apply (H4 q).
Qed.

(** ** Recorded variables *)
Definition rec_var (d : cdecl) (group : nat) (s : cspec) : variable :=
  if cd_const d then MkVar true (cs_type s) (cs_under s) (cs_value s) group else MkVar false (cs_type s) "" None group.
Definition group_of (ds : list cdecl) (i : nat) : nat := length (filter (λ d, cd_const d = true) (take (S i) ds)).
Lemma fold_specs d g specs : ∀ m n v, NoDup (cs_name <$> specs) →
  foldl (record_spec d g) m specs !! n = Some v ↔ (∃ s, s ∈ specs ∧ cs_name s = n ∧ v = rec_var d g s) ∨ (n ∉ cs_name <$> specs ∧ m !! n = Some v).
Proof.
  induction specs as [|s specs IH] using rev_ind; intros m n v Hn.
  - cbn. split; [intros H; right; split; [apply not_elem_of_nil|done]|]. intros [(s & Hs & _)|[_ H]]; [by apply elem_of_nil in Hs|done].
  - rewrite foldl_app. cbn. unfold record_spec at 1. change (if cd_const d then _ else _) with (rec_var d g s). rewrite fmap_app in Hn. apply NoDup_app in Hn as (Hn1 & Hn2 & _).
    assert (cs_name s ∉ cs_name <$> specs) as Hs.
    { intros H. apply (Hn2 _ H). left. }
    rewrite fmap_app. destruct (decide (n = cs_name s)) as [->|Hne].
    + rewrite lookup_insert. split.
      * intros [= <-]. left. exists s. split; [apply elem_of_app; right; left|done].
      * intros [(s' & Hs' & Hname & ->)|[H _]].
        -- apply elem_of_app in Hs' as [Hs'|Hs']; [|apply elem_of_list_singleton in Hs'; by subst]. exfalso. apply Hs. apply elem_of_list_fmap. by exists s'.
        -- exfalso. apply H. apply elem_of_app. right. left.
    + rewrite lookup_insert_ne by done. rewrite (IH m n v Hn1). split.
      * intros [(s' & Hs' & H)|[H1 H2]]; [left; exists s'; split; [apply elem_of_app; by left|done]|right; split; [|done]]. rewrite not_elem_of_app. split; [done|]. cbn. by rewrite elem_of_list_singleton.
      * intros [(s' & Hs' & Hname & Hv)|[H1 H2]].
        -- apply elem_of_app in Hs' as [Hs'|Hs']; [left; by exists s'|]. apply elem_of_list_singleton in Hs'. subst. done.
        -- right. split; [|done]. intros H. apply H1. apply elem_of_app. by left.
Qed.
Lemma fv_count ds : (foldl record_decl (0, ∅) ds).1 = length (filter (λ d, cd_const d = true) ds).
Proof.
  induction ds as [|d ds IH] using rev_ind; [done|]. rewrite foldl_app, filter_app, app_length, filter_cons, filter_nil. cbn [foldl]. unfold record_decl at 1. cbn [fst]. rewrite IH. destruct (cd_const d); [rewrite decide_True by done|rewrite decide_False by done]; cbn [length]; lia.
Qed.
Lemma fv_lookup ds n v : NoDup (cs_name <$> (ds ≫= cd_specs)) →
  file_variables ds !! n = Some v ↔ ∃ i d s, ds !! i = Some d ∧ s ∈ cd_specs d ∧ cs_name s = n ∧ v = rec_var d (group_of ds i) s.
Proof.
  revert n v. induction ds as [|d ds IH] using rev_ind; intros n v Hn.
  { change (file_variables []) with (∅ : gmap string variable). split; [by rewrite lookup_empty|]. intros (i & ? & ? & H & _). by rewrite lookup_nil in H. }
  rewrite bind_app, fmap_app in Hn. apply NoDup_app in Hn as (Hn1 & Hn2 & Hn3). cbn in Hn2, Hn3. rewrite app_nil_r in Hn2, Hn3.
  unfold file_variables. rewrite foldl_app. cbn [foldl record_decl snd].
  assert ((if cd_const d then S (foldl record_decl (0, ∅) ds).1 else (foldl record_decl (0, ∅) ds).1) = group_of (ds ++ [d]) (length ds)) as ->.
  { rewrite fv_count. unfold group_of. rewrite take_ge by (rewrite app_length; cbn; lia). rewrite filter_app, app_length, filter_cons, filter_nil. destruct (cd_const d); [rewrite decide_True by done|rewrite decide_False by done]; cbn [length]; lia. }
  rewrite fold_specs by done. change ((foldl record_decl (0, ∅) ds).2) with (file_variables ds).
  assert (∀ i, i < length ds → group_of (ds ++ [d]) i = group_of ds i) as Hg.
  { intros i Hi. unfold group_of. by rewrite take_app_le by lia. }
  split.
  - intros [(s & Hs & Hname & Hv)|[H1 H2]].
    + exists (length ds), d, s. split; [by rewrite lookup_app_r, Nat.sub_diag|done].
    + apply IH in H2 as (i & d' & s & Hi & Hs & Hname & Hv); [|done]. exists i, d', s. split; [by apply lookup_app_l_Some|]. split; [done|]. split; [done|].
      rewrite Hg; [done|]. by apply lookup_lt_Some in Hi.
  - intros (i & d' & s & Hi & Hs & Hname & Hv). apply lookup_app_Some in Hi as [Hi|[Hi1 Hi2]].
    + right. assert (n ∈ cs_name <$> (ds ≫= cd_specs)) as Hin.
      { apply elem_of_list_fmap. exists s. split; [done|]. apply elem_of_list_bind. exists d'. split; [done|]. by apply elem_of_list_lookup_2 in Hi. }
      split; [by apply Hn2|]. apply IH; [done|]. exists i, d', s. split; [done|]. split; [done|]. split; [done|]. rewrite Hv, Hg; [done|]. by apply lookup_lt_Some in Hi.
    + left. apply list_lookup_singleton_Some in Hi2 as [Hi2 ->]. exists s. split; [done|]. split; [done|]. rewrite Hv. do 2 f_equal. lia.
Qed.
Lemma group_mono ds i j d : i < j → ds !! j = Some d → cd_const d = true → group_of ds i < group_of ds j.
Proof.
  intros Hij Hj Hd. unfold group_of. rewrite (take_S_r ds j d Hj). rewrite filter_app, app_length, filter_cons, filter_nil, decide_True by done.
  replace (take j ds) with (take (S i) ds ++ drop (S i) (take j ds)); [rewrite filter_app, app_length; cbn; lia|].
  rewrite <- (take_drop (S i) (take j ds)) at 2. f_equal. rewrite take_take. f_equal. lia.
Qed.
Lemma group_inj ds i j d d' : ds !! i = Some d → ds !! j = Some d' → cd_const d = true → cd_const d' = true → group_of ds i = group_of ds j → i = j.
Proof.
  intros Hi Hj Hd Hd' E. destruct (lt_eq_lt_dec i j) as [[H|H]|H]; [|done|].
  - pose proof (group_mono ds i j d' H Hj Hd'). lia.
  - pose proof (group_mono ds j i d H Hi Hd). lia.
Qed.

(** ** Collected constants *)
Lemma elem_sorted_files {A} (files : gmap string A) x : x ∈ sorted_files files ↔ ∃ f, files !! f = Some x.
Proof.
  unfold sorted_files. rewrite elem_of_list_omap. split.
  - intros (n & _ & H). by exists n.
  - intros (f & H). exists f. split; [|done]. rewrite elem_of_ssort. apply elem_of_list_fmap. exists (f, x). split; [done|]. by apply elem_of_map_to_list.
Qed.
Section collect.
  Context (resolve : string → string) (p : source) (T : string).
  Hypothesis H : declares resolve p T.
  Lemma matches_T t : t = T ∨ other_type resolve T t → type_matches resolve t T = true ↔ t = T.
  Proof. destruct (dc_name _ _ _ H) as (H1 & H2 & H3). by apply matches_iff. Qed.
  Lemma same_group_spec f ds i d : p !! f = Some ds → ds !! i = Some d → cd_const d = true →
    same_group resolve (group_of ds i) T (file_variables ds) = true ↔ ∃ s, s ∈ cd_specs d ∧ cs_type s = T.
  Proof.
    intros Hf Hi Hd. unfold same_group. rewrite existsb_exists. split.
    - intros (v & Hv & Hm). rewrite <- elem_of_list_In in Hv. apply elem_of_list_fmap in Hv as ([n v'] & -> & Hv). apply elem_of_map_to_list in Hv.
      apply fv_lookup in Hv as (j & d' & s & Hj & Hs & _ & ->); [|by apply (dc_distinct _ _ _ H f)]. cbn in Hm. unfold rec_var in Hm.
      destruct (cd_const d') eqn:Ed'; [|done]. cbn in Hm. apply andb_true_iff in Hm as [Hg Hm]. apply bool_decide_eq_true in Hg.
      assert (i = j) as -> by by apply (group_inj ds i j d d'). assert (d' = d) as -> by congruence. exists s. split; [done|].
      apply matches_T in Hm; [done|]. destruct (dc_types _ _ _ H f ds d s Hf) as (H1 & _); [by eapply elem_of_list_lookup_2|done|done|done].
    - intros (s & Hs & HT). exists (rec_var d (group_of ds i) s). split.
      + rewrite <- elem_of_list_In. apply elem_of_list_fmap. exists (cs_name s, rec_var d (group_of ds i) s). split; [done|]. apply elem_of_map_to_list.
        apply fv_lookup; [by apply (dc_distinct _ _ _ H f)|]. by exists i, d, s.
      + unfold rec_var. rewrite Hd. cbn. rewrite bool_decide_eq_true_2 by done. cbn. apply matches_T; [by left|done].
  Qed.
  Lemma collect_spec f ds i d s : p !! f = Some ds → ds !! i = Some d → s ∈ cd_specs d →
    collect resolve T (file_variables ds) (rec_var d (group_of ds i) s) =
      if decide (cd_const d = true ∧ cs_gotype s = T) then Some (T, group_of ds i, cs_value s) else None.
  Proof.
    intros Hf Hi Hs. unfold collect. assert (va_const (rec_var d (group_of ds i) s) = cd_const d) as -> by (unfold rec_var; by destruct (cd_const d)).
    destruct (cd_const d) eqn:Ed; [|rewrite decide_False; [done|by intros [? _]]]. unfold rec_var. rewrite Ed. cbn [va_type va_resolved va_group va_value].
    destruct (dc_types _ _ _ H f ds d s Hf) as (H1 & H2 & H3); [by eapply elem_of_list_lookup_2|done|done|].
    pose proof (same_group_spec f ds i d Hf Hi Ed) as Hsame. destruct (dc_name _ _ _ H) as (HT & _).
    destruct (decide (cs_type s = "")) as [Ee|Ee].
    - rewrite (bool_decide_eq_true_2 (cs_type s = "")) by done. cbn [andb]. assert (type_matches resolve (cs_under s) T = false) as ->.
      { apply not_true_iff_false. rewrite matches_T by (right; by apply H2). destruct (H2 Ee) as (? & _). done. }
      cbn [orb]. destruct (same_group resolve (group_of ds i) T (file_variables ds)) eqn:Es.
      + rewrite decide_True; [done|]. split; [done|]. apply H3. right. split; [done|]. by apply Hsame.
      + rewrite decide_False; [done|]. intros [_ Hg]. apply H3 in Hg as [Hg|[_ Hg]]; [congruence|]. apply Hsame in Hg. congruence.
    - rewrite (bool_decide_eq_false_2 (cs_type s = "")) by done. cbn [andb]. rewrite orb_false_r. destruct (type_matches resolve (cs_type s) T) eqn:Em.
      + apply matches_T in Em; [|done]. rewrite decide_True; [by rewrite Em|]. split; [done|]. apply H3. by left.
      + rewrite decide_False; [done|]. intros [_ Hg]. apply H3 in Hg as [Hg|[Hg _]]; [|done]. rewrite Hg in Em. rewrite (proj2 (matches_T T ltac:(by left)) eq_refl) in Em. done.
  Qed.
  Lemma collected_spec x : x ∈ collected resolve T (recorded p) ↔
    ∃ f ds i d s, p !! f = Some ds ∧ ds !! i = Some d ∧ cd_const d = true ∧ s ∈ cd_specs d ∧ cs_gotype s = T ∧ x = (T, group_of ds i, cs_value s).
  Proof.
    unfold collected. rewrite elem_of_list_bind. split.
    - intros (vars & Hx & Hv). apply elem_sorted_files in Hv as (f & Hf). unfold recorded in Hf. apply lookup_fmap_Some in Hf as (ds & <- & Ef).
      apply elem_of_list_omap in Hx as (v & Hv & Hc). unfold sorted_variables in Hv. apply elem_sorted_files in Hv as (n & Hn).
      apply fv_lookup in Hn as (i & d & s & Hi & Hs & _ & ->); [|by apply (dc_distinct _ _ _ H f)]. rewrite (collect_spec f) in Hc by done.
      destruct (decide _) as [[H1 H2]|]; [|done]. injection Hc as <-. by exists f, ds, i, d, s.
    - intros (f & ds & i & d & s & Hf & Hi & Hd & Hs & HT & ->). exists (file_variables ds). split.
      + apply elem_of_list_omap. exists (rec_var d (group_of ds i) s). split.
        * apply elem_sorted_files. exists (cs_name s). apply fv_lookup; [by apply (dc_distinct _ _ _ H f)|]. by exists i, d, s.
        * rewrite (collect_spec f) by done. by rewrite decide_True.
      + apply elem_sorted_files. exists f. unfold recorded. apply lookup_fmap_Some. by exists ds.
  Qed.
End collect.
Lemma grouped_elem (found : list (string * nat * option cval)) c :
  c ∈ (g ← nsort (remove_dups (found.*1.*2)); (λ x : string * nat * option cval, x.2) <$> filter (λ x, x.1.2 = g) found) ↔ ∃ x, x ∈ found ∧ x.2 = c.
Proof.
  rewrite elem_of_list_bind. split.
  - intros (g & Hc & _). apply elem_of_list_fmap in Hc as (x & -> & Hx). apply elem_of_list_filter in Hx as [_ Hx]. by exists x.
  - intros (x & Hx & <-). exists (x.1.2). split.
    + apply elem_of_list_fmap. exists x. split; [done|]. by apply elem_of_list_filter.
    + rewrite (nsort_perm _), elem_of_remove_dups. apply elem_of_list_fmap. exists (x.1). split; [done|]. apply elem_of_list_fmap. by exists x.
Qed.
Lemma detect_spec sort finite float_text resolve p T : sorts_by_text sort → declares resolve p T →
  let out := detect_enum sort finite float_text resolve T (recorded p) in
  (∀ v, v ∈ out → ∃ c, const_of p T c ∧ v = extract_value finite float_text c) ∧
  (∀ c, const_of p T c → ∃ v, v ∈ out ∧ show v = show (extract_value finite float_text c)) ∧
  StronglySorted string_le (show <$> out) ∧ NoDup (show <$> out).
Proof.
  intros Hsort H out. unfold out, detect_enum. cbv zeta. set (found := collected resolve T (recorded p)).
  assert (∀ t, t ∈ found.*1.*1 → t = T) as HT.
  { intros t Ht. apply elem_of_list_fmap in Ht as (y & -> & Hy). apply elem_of_list_fmap in Hy as (x & -> & Hx). apply (collected_spec resolve p T H) in Hx.
    by destruct Hx as (f & ds & i & d & s & _ & _ & _ & _ & _ & ->). }
  rewrite decide_False.
  - destruct (enum_spec sort finite float_text Hsort (g ← nsort (remove_dups (found.*1.*2)); (λ x : string * nat * option cval, x.2) <$> filter (λ x, x.1.2 = g) found)) as (H1 & H2 & H3 & H4).
    split; [|split; [|done]].
    + intros v Hv. apply H1 in Hv as (c & Hc & ->). exists c. split; [|done]. apply grouped_elem in Hc as (x & Hx & Hc). apply (collected_spec resolve p T H) in Hx as (f & ds & i & d & s & Hf & Hi & Hd & Hs & HTs & ->).
      exists f, ds, d, s. split_and!; try done. by eapply elem_of_list_lookup_2.
    + intros c (f & ds & d & s & Hf & Hd & Hc & Hs & HTs & Hv). apply H4. apply grouped_elem. apply elem_of_list_lookup_1 in Hd as [i Hi]. exists (T, group_of ds i, cs_value s). split; [|done].
      apply (collected_spec resolve p T H). by exists f, ds, i, d, s.
  - intros Hl. pose proof (NoDup_remove_dups (found.*1.*1)) as Hn. destruct (remove_dups (found.*1.*1)) as [|a [|b l]] eqn:E; cbn in Hl; [lia|lia|].
    assert (a = T) by (apply HT, elem_of_remove_dups; rewrite E; left). assert (b = T) by (apply HT, elem_of_remove_dups; rewrite E; right; left). subst a b. apply NoDup_cons in Hn as [Hn _].
    apply Hn. left.
Qed.
