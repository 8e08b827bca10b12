(** * C114: the keys of anonymous structs. *)
From Coq Require Import Ascii Lia NArith.
From stdpp Require Import sorting.
From stdpp Require Import base numbers list strings gmap pretty.
From Verif Require Import StrLib StrSplit StrSub StrOrder DecLib PairModel PairProofs GlobProofs CompProps WireModel AnonModel.

(** ** Specification *)
(** A letter, a digit or an underscore. *)
Definition name_byte (c : ascii) : Prop := c = "_"%char ∨ (97 ≤ N_of_ascii c ≤ 122 ∨ 65 ≤ N_of_ascii c ≤ 90 ∨ 48 ≤ N_of_ascii c ≤ 57)%N.
Definition name_text (s : string) : Prop := ∀ c, contains_byte c s = true → name_byte c.
(** A file: a directory and a name, or a name alone. *)
Definition file_named (file base : string) : Prop := contains_byte "/" base = false ∧ (file = base ∨ ∃ dir, file = dir +:+ "/" +:+ base).
(** The checksum a key ends with: FNV-1a of 32 bits over the package, a zero byte and the file name. *)
Definition checksum (pkg base : string) : N := fnv (pkg +:+ String "000" base).

(** ** Lemmas *)
Lemma alnum_spec c : alnum c = true ↔ (97 ≤ N_of_ascii c ≤ 122 ∨ 65 ≤ N_of_ascii c ≤ 90 ∨ 48 ≤ N_of_ascii c ≤ 57)%N.
Proof. unfold alnum. rewrite !orb_true_iff, !andb_true_iff, !N.leb_le. tauto. Qed.
Lemma name_text_app s t : name_text s → name_text t → name_text (s +:+ t).
Proof. intros H1 H2 c. rewrite contains_app, orb_true_iff. intros [?|?]; auto. Qed.
Lemma name_text_cons c s : name_byte c → name_text s → name_text (String c s).
Proof. intros H1 H2 d. rewrite contains_cons, orb_true_iff, bool_decide_eq_true. intros [<-|?]; auto. Qed.
Lemma sanitize_text s : name_text (sanitize s).
Proof.
  induction s as [|c s IH]; [done|]. cbn [sanitize]. destruct (alnum c) eqn:A; [apply name_text_cons; [right; by apply alnum_spec|done]|]. destruct (continues c); [done|]. apply name_text_cons; [by left|done].
Qed.
Lemma digits_text s : all_digits s = true → name_text s.
Proof.
  induction s as [|c s IH]; [done|]. cbn [all_digits]. intros [Hc Hs]%andb_true_iff. apply name_text_cons; [|by apply IH]. right. unfold is_digit in Hc. apply bool_decide_eq_true in Hc. clear -Hc. destruct c as [[] [] [] [] [] [] [] []]; first [vm_compute in Hc; by destruct Hc|vm_compute; intuition congruence].
Qed.
Lemma hex_digit_inv n : (n < 16)%N → (if (N_of_ascii (hex_digit n) <? 58)%N then N_of_ascii (hex_digit n) - 48 else N_of_ascii (hex_digit n) - 87)%N = n ∧ name_byte (hex_digit n) ∧ hex_digit n ≠ "_"%char.
Proof.
  intros H. assert (n ∈ (N.of_nat <$> seq 0 16)) as Hin. { apply elem_of_list_fmap. exists (N.to_nat n). split; [by rewrite N2Nat.id|]. apply elem_of_seq. lia. }
  clear H. repeat (apply elem_of_cons in Hin as [->|Hin]; [split; [by vm_compute|split; [right; vm_compute; intuition congruence|done]]|]). by apply elem_of_nil in Hin.
Qed.
Lemma hex_text w n : name_text (hex w n) ∧ contains_byte "_" (hex w n) = false.
Proof.
  revert n. induction w as [|w IH]; intros n; [done|]. cbn [hex]. destruct (hex_digit_inv (n mod 16)) as (_ & H1 & H2); [by apply N.mod_lt|]. destruct (IH (n / 16)%N) as [I1 I2]. split.
  - apply name_text_app; [done|]. by apply name_text_cons.
  - rewrite contains_app, I2, contains_cons, bool_decide_false by done. done.
Qed.
Lemma hex_inj w : ∀ a b, (a < 16 ^ N.of_nat w)%N → (b < 16 ^ N.of_nat w)%N → hex w a = hex w b → a = b.
Proof.
  induction w as [|w IH]; intros a b Ha Hb H; [cbn in *; lia|]. cbn [hex] in H. apply sapp_snoc_inj in H as [H1 H2]. rewrite Nat2N.inj_succ, N.pow_succ_r' in Ha, Hb.
  assert (a / 16 = b / 16)%N as E1 by (apply IH; [apply N.div_lt_upper_bound; lia|apply N.div_lt_upper_bound; lia|done]).
  assert (a mod 16 = b mod 16)%N as E2. { destruct (hex_digit_inv (a mod 16)) as [Ea _]; [by apply N.mod_lt|]. destruct (hex_digit_inv (b mod 16)) as [Eb _]; [by apply N.mod_lt|]. rewrite H2 in Ea. congruence. }
  rewrite (N.div_mod a 16), (N.div_mod b 16) by done. congruence.
Qed.
Lemma fnv_bound s : (fnv s < 16 ^ N.of_nat 8)%N.
Proof.
  unfold fnv. assert (∀ h, (h < 4294967296)%N → (fnv_from h s < 4294967296)%N) as K; [|by apply K].
  induction s as [|c s IH]; intros h Hh; [done|]. cbn [fnv_from]. apply IH. unfold fnv_step. by apply N.mod_lt.
Qed.
Lemma itoa_plain n : contains_byte "_" (itoa_nat n) = false.
Proof. apply all_digits_contains; [apply all_digits_pretty|done]. Qed.
Lemma base_spec file base : file_named file base → base_of file = base.
Proof.
  intros [Hb [->|(dir & ->)]]; unfold base_of.
  - by rewrite split_byte_none.
  - change ("/" +:+ base) with (String "/" base). by rewrite split_byte_app, (split_byte_none "/" base Hb), last_app.
Qed.
Lemma split_inj a b x y : contains_byte "_" b = false → contains_byte "_" y = false → a +:+ "_" +:+ b = x +:+ "_" +:+ y → a = x ∧ b = y.
Proof.
  intros Hb Hy H. change ("_" +:+ b) with (String "_" b) in H. change ("_" +:+ y) with (String "_" y) in H. apply (f_equal (split_last "_")) in H. rewrite !split_last_app in H by done. by injection H as -> ->.
Qed.

(** ** Theorems *)
(** C114a: two keys are the same only for the same line and column, the same checksum, and packages and files that differ in other bytes than letters and digits only. *)
Theorem C114_key p f l c b p' f' l' c' b' : file_named f b → file_named f' b' → anon_key p f l c = anon_key p' f' l' c' ↔
  l = l' ∧ c = c' ∧ checksum p b = checksum p' b' ∧ sanitize p +:+ "_" +:+ sanitize b = sanitize p' +:+ "_" +:+ sanitize b'.
Proof.
  intros Hb Hb'. unfold anon_key. rewrite (base_spec _ _ Hb), (base_spec _ _ Hb'). unfold checksum. split.
  - intros H. apply sapp_inj_l in H.
    assert (∀ s b l c h : string, s +:+ "_" +:+ b +:+ "_" +:+ l +:+ "_" +:+ c +:+ "_" +:+ h = (((s +:+ "_" +:+ b) +:+ "_" +:+ l) +:+ "_" +:+ c) +:+ "_" +:+ h) as E by (intros; by rewrite !sapp_assoc).
    rewrite !E in H. apply split_inj in H as [H Hh]; [|apply hex_text|apply hex_text]. apply split_inj in H as [H Hc]; [|apply itoa_plain|apply itoa_plain]. apply split_inj in H as [H Hl]; [|apply itoa_plain|apply itoa_plain].
    split_and!; [by apply itoa_nat_inj|by apply itoa_nat_inj|apply (hex_inj 8); [apply fnv_bound|apply fnv_bound|done]|done].
  - intros (-> & -> & Hh & Hs). rewrite Hh. f_equal. assert (∀ s b t : string, s +:+ "_" +:+ b +:+ t = (s +:+ "_" +:+ b) +:+ t) as E by (intros; by rewrite !sapp_assoc). by rewrite (E (sanitize p)), (E (sanitize p')), Hs.
Qed.
(** C114b: so the structs of a file have different keys; and the directory of the file does not matter. *)
Theorem C114_positions p f l c l' c' b : file_named f b → anon_key p f l c = anon_key p f l' c' → l = l' ∧ c = c'.
Proof. intros Hb H. apply (C114_key p f l c b p f l' c' b Hb Hb) in H as (? & ? & _). done. Qed.
Theorem C114_directory p b dir l c : contains_byte "/" b = false → anon_key p (dir +:+ "/" +:+ b) l c = anon_key p b l c.
Proof. intros H. unfold anon_key. rewrite (base_spec (dir +:+ "/" +:+ b) b), (base_spec b b); [done|split; [done|by left]|split; [done|right; by exists dir]]. Qed.
(** C114c: a key is of letters, digits and underscores, is told from other names by its prefix, and is never referred to. *)
Theorem C114_bytes p f l c : name_text (anon_key p f l c).
Proof.
  unfold anon_key. assert (name_text "_") as U by (apply name_text_cons; [by left|done]). assert (∀ n, name_text (itoa_nat n)) as D by (intros n; apply digits_text, all_digits_pretty).
  assert (name_text anon_prefix) as Pf. { unfold anon_prefix. repeat (apply name_text_cons; [first [by left|right; vm_compute; intuition congruence]|]). done. }
  do 9 (apply name_text_app; [first [exact Pf|exact U|apply sanitize_text|apply D]|]). apply hex_text.
Qed.
Lemma str_contains_prefix p s : str_contains p (p +:+ s) = true.
Proof. apply str_contains_spec. by exists "", s. Qed.
Theorem C114_marked p f l c : is_anon (anon_key p f l c) = true ∧ can_ref (anon_key p f l c) = false.
Proof.
  assert (is_anon (anon_key p f l c) = true) as H by (unfold is_anon, anon_key; apply str_contains_prefix). split; [done|]. unfold can_ref. unfold is_anon, anon_prefix in H. rewrite H. cbn [negb]. by rewrite andb_false_r.
Qed.
(** C114d: what is registered, and the order, do not depend on the order of the variables. *)
Lemma sort_unique {A} (l l' : list (string * A)) : l ≡ₚ l' → NoDup l.*1 → merge_sort key_le l = merge_sort key_le l'.
Proof.
  assert (Total (key_le (A := A))) as T by (intros [a x] [b y]; apply (total string_le a b)). assert (Transitive (key_le (A := A))) as Tr by (intros [a x] [b y] [c z]; unfold key_le; cbn; intros; by transitivity b).
  intros Hp Nd. pose proof (merge_sort_Permutation key_le l) as P1. pose proof (merge_sort_Permutation key_le l') as P2. pose proof (Sorted_StronglySorted _ _ (Sorted_merge_sort key_le l)) as S1. pose proof (Sorted_StronglySorted _ _ (Sorted_merge_sort key_le l')) as S2.
  assert (merge_sort key_le l ≡ₚ merge_sort key_le l') as Pm by (by rewrite P1, P2). assert (NoDup (merge_sort key_le l).*1) as Nd' by (by rewrite P1). revert Pm S1 S2 Nd'. generalize (merge_sort key_le l), (merge_sort key_le l'). clear.
  induction l as [|a l IH]; intros l' Pm S1 S2 Nd; [symmetry; by apply Permutation_nil|]. destruct l' as [|b l']; [by apply Permutation_sym, Permutation_nil in Pm|].
  apply StronglySorted_inv in S1 as [S1 F1], S2 as [S2 F2]. rewrite fmap_cons in Nd. apply NoDup_cons in Nd as [N1 Nd]. rewrite Forall_forall in F1, F2.
  assert (a = b) as ->.
  { assert (a ∈ b :: l') as Ha by (rewrite <- Pm; by left). assert (b ∈ a :: l) as Hb by (rewrite Pm; by left). apply elem_of_cons in Ha as [?|Ha]; [done|]. apply elem_of_cons in Hb as [?|Hb]; [done|].
    exfalso. apply N1. assert (a.1 = b.1) as ->; [|by apply elem_of_list_fmap_1]. apply (anti_symm string_le); [apply F1; done|apply F2; done]. }
  f_equal. apply IH; try done. by apply Permutation_cons_inv in Pm.
Qed.
Theorem C114_order {A} (types : gmap string A) vars vars' : vars ≡ₚ vars' → NoDup vars.*1 → register types vars = register types vars'.
Proof. intros H N. unfold register. by rewrite (sort_unique vars vars'). Qed.
(** C114e: each variable whose key is new is registered under it, those there are stay, and the keys are registered in increasing order. *)
Theorem C114_registered {A} (types : gmap string A) vars : NoDup vars.*1 →
  (∀ k x, (register types vars).1 !! k = Some x ↔ types !! k = Some x ∨ types !! k = None ∧ (k, x) ∈ vars) ∧
  StronglySorted string_le (register types vars).2 ∧ ∀ k, k ∈ (register types vars).2 ↔ types !! k = None ∧ k ∈ vars.*1.
Proof.
  intros Nd. unfold register. pose proof (merge_sort_Permutation key_le vars) as P1.
  assert (Total (key_le (A := A))) as T by (intros [a x] [b y]; apply (total string_le a b)). assert (Transitive (key_le (A := A))) as Tr by (intros [a x] [b y] [c z]; unfold key_le; cbn; intros; by transitivity b).
  pose proof (Sorted_StronglySorted _ _ (Sorted_merge_sort key_le vars)) as S1. set (l := merge_sort key_le vars) in *. assert (NoDup l.*1) as Nl by (by rewrite P1).
  assert (∀ (l : list (string * A)) (st : gmap string A * list string), NoDup l.*1 → (∀ k, k ∈ st.2 → is_Some (st.1 !! k)) → StronglySorted key_le l → StronglySorted string_le st.2 → (∀ a k, a ∈ l → k ∈ st.2 → string_le k a.1) →
    (∀ k x, (fold_left register_step l st).1 !! k = Some x ↔ st.1 !! k = Some x ∨ st.1 !! k = None ∧ (k, x) ∈ l) ∧ StronglySorted string_le (fold_left register_step l st).2 ∧ ∀ k, k ∈ (fold_left register_step l st).2 ↔ k ∈ st.2 ∨ st.1 !! k = None ∧ k ∈ l.*1) as K.
  { clear. induction l as [|[a v] l IH]; intros st Nd Hs S1 S2 Hle; cbn [fold_left].
    - split_and!; [|done|]; intros; set_solver.
    - rewrite fmap_cons in Nd. cbn in Nd. apply NoDup_cons in Nd as [N1 N2]. apply StronglySorted_inv in S1 as [S1 F1]. rewrite Forall_forall in F1. unfold register_step at 2 4 6. cbn [fst snd]. destruct (st.1 !! a) as [w|] eqn:E.
      + destruct (IH st) as (I1 & I2 & I3); try done; [intros b k Hb Hk; apply Hle; [by right|done]|]. split_and!; [|done|].
        * intros k x. rewrite I1, elem_of_cons. split; [intros [?|[? ?]]; auto|]. intros [?|[? [X|?]]]; [by left| |by right]. injection X as -> ->. congruence.
        * intros k. rewrite I3, fmap_cons, elem_of_cons. cbn. split; [intros [?|[? ?]]; auto|]. intros [?|[? [->|?]]]; [by left|congruence|by right].
      + destruct (IH (<[a := v]> st.1, st.2 ++ [a])) as (I1 & I2 & I3); try done; cbn [fst snd].
        * intros k [Hk| ->%elem_of_list_singleton]%elem_of_app; [|by rewrite lookup_insert]. destruct (decide (k = a)) as [->|]; [by rewrite lookup_insert|rewrite lookup_insert_ne by done; by apply Hs].
        * clear -S2 Hle. assert (∀ k, k ∈ st.2 → string_le k a) as H by (intros k Hk; apply (Hle (a, v)); [by left|done]). revert S2 H. generalize st.2. induction l0 as [|y l0 IHl]; intros S2 H; cbn [app]; [by repeat constructor|]. apply StronglySorted_inv in S2 as [S2 F]. constructor; [apply IHl; [done|intros; apply H; by right]|]. apply Forall_app. split; [done|]. constructor; [apply H; by left|done].
        * intros b k Hb [Hk| ->%elem_of_list_singleton]%elem_of_app; [apply Hle; [by right|done]|by apply (F1 b)].
        * cbn [fst snd] in I1, I2, I3. split_and!; [|done|].
          -- intros k x. rewrite I1, elem_of_cons. destruct (decide (k = a)) as [->|Ne]; [rewrite lookup_insert|rewrite lookup_insert_ne by done]; split.
             ++ intros [X|[X _]]; [|done]. injection X as ->. right. split; [done|by left].
             ++ intros [X|[_ [X|X]]]; [congruence|injection X as ->; by left|]. exfalso. apply N1. apply elem_of_list_fmap. by exists (a, x).
             ++ intros [?|[? ?]]; auto.
             ++ intros [?|[? [X|?]]]; [by left|congruence|by right].
          -- intros k. rewrite I3, elem_of_app, elem_of_list_singleton, fmap_cons, elem_of_cons. cbn. destruct (decide (k = a)) as [->|Ne]; [rewrite lookup_insert|rewrite lookup_insert_ne by done]; split.
             ++ intros _. right. split; [done|by left].
             ++ intros _. left. by right.
             ++ intros [[?|?]|[? ?]]; [by left|done|right; split; [done|by right]].
             ++ intros [?|[? [?|?]]]; [left; by left|done|by right]. }
  destruct (K l (types, [])) as (K1 & K2 & K3); try done; [intros k X; by apply elem_of_nil in X|constructor|intros a k _ X; by apply elem_of_nil in X|]. cbn [fst snd] in *. split_and!; [|done|].
  - intros k x. rewrite K1. by rewrite P1.
  - intros k. rewrite K3. rewrite P1. rewrite elem_of_nil. tauto.
Qed.
Print Assumptions C114_key. Print Assumptions C114_positions. Print Assumptions C114_directory. Print Assumptions C114_bytes. Print Assumptions C114_marked. Print Assumptions C114_order. Print Assumptions C114_registered.

(** ** Cases *)
Example C114_case : anon_key "ex.com/my-app" "/home/u/my-app/main.go" 12 6 = "_apispec_anonstruct_ex_com_my_app_main_go_12_6_" +:+ hex 8 (checksum "ex.com/my-app" "main.go") ∧ file_named "/home/u/my-app/main.go" "main.go".
Proof. split; [by vm_compute|]. split; [done|]. right. by exists "/home/u/my-app". Qed.
Example C114_fnv_case : fnv "" = 2166136261%N ∧ hex 8 (fnv "a") = "e40c292c" ∧ hex 8 (fnv "foobar") = "bf9cf968".
Proof. by vm_compute. Qed.
Example C114_register_case : (register {["T" := 0]} [("b", 1); ("T", 2); ("a", 3)]).2 = ["a"; "b"] ∧ (register {["T" := 0]} [("b", 1); ("T", 2); ("a", 3)]).1 !! "T" = Some 0.
Proof. by vm_compute. Qed.
(** C114f: keys of different packages can be the same. *)
Theorem C114_collision_refuted : ∃ p p', p ≠ p' ∧ anon_key p "/src/a/h.go" 10 6 = anon_key p' "/src/b/h.go" 10 6.
Proof. exists "g/a-b_c~d-e_f.g-h.i~j", "g/a-b.c~d~e~f.g_h.i_j". split; [done|]. by vm_compute. Qed.
Print Assumptions C114_collision_refuted.
