(** * Type spellings: C11, C57. *)
From Coq Require Import Ascii.
From stdpp Require Import base list strings.
From Verif Require Import StrLib StrSplit StrSub PathModel PathSpec PathProofs2 PairModel PairProofs VerbProofs ScanModel ScanProps ExtProps TypeModel TypeSpec TypeProofs.

(** ** Lemmas on all texts *)
Lemma squeeze_app a b : squeeze (a +:+ b) = squeeze a +:+ squeeze b.
Proof. induction a as [|c a IH]; [done|]. rewrite sapp_cons. cbn [squeeze]. destruct (mem_byte c spaces); [exact IH|]. by rewrite IH, sapp_cons. Qed.
Lemma squeeze_all q : all_of spaces q → squeeze q = "".
Proof. intros H. induction q as [|c q IH]; [done|]. apply all_of_cons in H as [Hc H]. cbn [squeeze]. rewrite Hc. by apply IH. Qed.
Lemma squeeze_trim s : squeeze (trim_space s) = squeeze s.
Proof. destruct (trim_any_dec spaces s) as (a & b & E & Ha & Hb). rewrite E at 2. rewrite !squeeze_app, (squeeze_all a), (squeeze_all b) by done. unfold trim_space. change ("" +:+ ?x) with x. by rewrite sapp_nil. Qed.
Lemma squeeze_join l : squeeze (str_join "," l) = str_join "," (squeeze <$> l).
Proof. induction l as [|a l IH]; [done|]. destruct l as [|b l]; [done|]. rewrite str_join_cons2, !squeeze_app, IH. rewrite !fmap_cons, str_join_cons2. done. Qed.
Lemma squeeze_join_space l : squeeze (str_join ", " l) = str_join "," (squeeze <$> l).
Proof. induction l as [|a l IH]; [done|]. destruct l as [|b l]; [done|]. rewrite str_join_cons2, !squeeze_app, IH. rewrite !fmap_cons, str_join_cons2. done. Qed.
Lemma trim_length s : String.length (trim_space s) ≤ String.length s.
Proof. destruct (trim_any_dec spaces s) as (a & b & E & _). rewrite E at 2. rewrite !sapp_length. unfold trim_space. lia. Qed.
Lemma close_at_some s : ∀ d a b, close_at d s = Some (a, b) → s = a +:+ "]" +:+ b.
Proof.
  induction s as [|c s IH]; intros d a b; cbn [close_at]; [done|]. destruct (decide (c = "]"%char)) as [->|H1].
  - destruct d as [|d]; [by intros [= <- <-]|]. destruct (close_at d s) as [[x y]|] eqn:E; [|done]. intros [= <- <-]. rewrite sapp_cons. by rewrite <- (IH d x y).
  - destruct (decide (c = "["%char)) as [->|H2].
    + destruct (close_at (S d) s) as [[x y]|] eqn:E; [|done]. intros [= <- <-]. rewrite sapp_cons. by rewrite <- (IH (S d) x y).
    + destruct (close_at d s) as [[x y]|] eqn:E; [|done]. intros [= <- <-]. rewrite sapp_cons. by rewrite <- (IH d x y).
Qed.
Lemma split_last_some c s a b : split_last c s = Some (a, b) → s = a +:+ String c b.
Proof.
  revert a. induction s as [|x s IH]; intros a; cbn [split_last]; [done|]. destruct (split_last c s) as [[y z]|] eqn:E.
  - intros [= <- <-]. rewrite sapp_cons. by rewrite <- (IH y).
  - destruct (decide (x = c)) as [->|]; [|done]. intros [= <- <-]. done.
Qed.
Lemma take_until_rest f s : str_any f s = true → ∃ c t, s = take_until f s +:+ String c t ∧ f c = true.
Proof. induction s as [|c s IH]; cbn [str_any take_until]; [done|]. destruct (f c) eqn:E; [intros _; by exists c, s|]. cbn. intros (d & t & Es & Hd)%IH. exists d, t. split; [|done]. rewrite sapp_cons. by rewrite <- Es. Qed.
Lemma peel_cases s : peel_args s = (s, []) ∨ ∃ base inner, s = base +:+ "[" +:+ inner +:+ "]" ∧ base ≠ "" ∧ peel_args s = (base, split_args inner).
Proof.
  destruct (contains_byte "[" s) eqn:E1. 2:{ left. unfold peel_args. by rewrite E1. }
  destruct (take_until_rest _ s E1) as (c & t & Es & Hc). apply bool_decide_eq_true in Hc as ->. set (base := take_until (λ b, bool_decide (b = "["%char)) s) in *.
  destruct (decide (base = "")) as [E2|E2]. { left. unfold peel_args. fold base. rewrite E1, bool_decide_eq_true_2 by done. done. }
  destruct (has_suffix "]" s) eqn:E3. 2:{ left. unfold peel_args. fold base. rewrite E1, E3, andb_false_r. done. }
  right. apply has_suffix_spec in E3 as [x E3].
  (* the closing bracket comes after the opening one *)
  assert (∃ inner, t = inner +:+ "]") as [inner ->].
  { destruct (decide (t = "")) as [->|Ht].
    - exfalso. rewrite Es in E3. assert (String "[" "" = "]") as [=]. eapply proj2. eapply sapp_inj_len; [|exact E3]. apply (f_equal String.length) in E3. rewrite !sapp_length in E3. cbn in E3. lia.
    - destruct (last_char t Ht) as (t' & c & ->). exists t'. rewrite Es in E3. rewrite <- sapp_cons, <- sapp_assoc in E3. apply sapp_inj_len in E3 as [_ [= ->]]; [done|].
      apply (f_equal String.length) in E3. rewrite !sapp_length in E3. cbn in E3. rewrite !sapp_length. cbn. lia. }
  exists base, inner. split; [done|]. split; [done|]. unfold peel_args. fold base. rewrite E1, bool_decide_eq_false_2 by done. assert (has_suffix "]" s = true) as -> by (apply has_suffix_spec; by exists x). cbn [negb andb].
  rewrite Es. f_equal. f_equal. assert (str_drop (S (String.length base)) (base +:+ String "[" (inner +:+ "]")) = inner +:+ "]") as ->.
  { replace (S (String.length base)) with (String.length (base +:+ "[")) by (rewrite sapp_length; cbn; lia). replace (base +:+ String "[" (inner +:+ "]")) with ((base +:+ "[") +:+ inner +:+ "]") by (by rewrite sapp_assoc). apply str_drop_app. }
  replace (String.length (base +:+ String "[" (inner +:+ "]")) - 1 - S (String.length base)) with (String.length inner) by (rewrite !sapp_length; cbn; rewrite sapp_length; cbn; lia). apply str_take_app.
Qed.
Lemma join_infix sep p l : p ∈ l → ∃ x y, str_join sep l = x +:+ p +:+ y ∧ (y = "" ∨ ∃ z, y = sep +:+ z).
Proof.
  induction l as [|a l IH]; [by intros ?%elem_of_nil|]. intros [->|H]%elem_of_cons.
  - destruct l as [|b l]; [exists "", ""; split; [|by left]; cbn; by rewrite sapp_nil|]. exists "", (sep +:+ str_join sep (b :: l)). rewrite str_join_cons2. split; [done|right; by eexists].
  - destruct l as [|b l]; [by apply elem_of_nil in H|]. destruct (IH H) as (x & y & E & Hy). exists (a +:+ sep +:+ x), y. rewrite str_join_cons2, E. split; [by rewrite !sapp_assoc|done].
Qed.
Lemma split_args_pieces s a : a ∈ split_args s → ∃ x y, s = x +:+ a +:+ y.
Proof.
  destruct (C46_args_rejoin s) as (pieces & lst & -> & H). intros (p & -> & Hp)%elem_of_list_fmap.
  assert (∃ x y, s = x +:+ p +:+ y) as (x & y & ->).
  { destruct H as [->|[_ ->]]; [destruct (join_infix "," p pieces Hp) as (x & y & E & _)|destruct (join_infix "," p (pieces ++ [lst])) as (x & y & E & _); [apply elem_of_app; by left|]]; eauto. }
  destruct (trim_any_dec spaces p) as (u & v & E & _). fold (trim_space p) in E. exists (x +:+ u), (v +:+ y). rewrite E at 1. by rewrite !sapp_assoc.
Qed.
Lemma cut_arrow_spec s a b : cut_arrow s = Some (a, b) → s = a +:+ arrow +:+ b.
Proof.
  revert a b. induction s as [|c s IH]; intros a b; cbn [cut_arrow]; [done|]. destruct (has_prefix arrow (String c s)) eqn:E.
  - apply has_prefix_spec in E as [t E]. rewrite E. change (str_drop 3 (arrow +:+ t)) with (str_drop 0 t). intros [= <- <-]. by destruct t.
  - destruct (cut_arrow s) as [[x y]|] eqn:E'; [|done]. intros [= <- <-]. rewrite sapp_cons. by rewrite <- (IH x y).
Qed.
Lemma split_arrow_length n s : Forall (λ x, String.length x ≤ String.length s) (split_arrow n s).
Proof.
  revert s. induction n as [|n IH]; intros s; cbn [split_arrow]; [repeat constructor|]. destruct (cut_arrow s) as [[a b]|] eqn:E; [|repeat constructor]. apply cut_arrow_spec in E as ->. constructor; [rewrite sapp_length; lia|].
  eapply Forall_impl; [apply IH|]. cbn. intros x Hx. rewrite !sapp_length. lia.
Qed.
Lemma Forall_tail {A} (P : A → Prop) l : Forall P l → Forall P (tail l).
Proof. intros [|x l' H1 H2]; [constructor|done]. Qed.
Lemma parse_arg_ext f g s : f s = g s → parse_arg f s = parse_arg g s.
Proof. intros H. unfold parse_arg. by destruct (decl_arg s) as [[]|]. Qed.
Lemma parse_named_ext f g s : (∀ x, String.length x < String.length s → f x = g x) → parse_named f s = parse_named g s.
Proof.
  intros H. unfold parse_named. destruct (peel_args s) as [base parts] eqn:E.
  assert (String.length base ≤ String.length s ∧ Forall (λ x, String.length x < String.length s) parts) as [Hb Hp].
  { destruct (peel_cases s) as [E'|(bs & inner & Es & Hne & E')]; rewrite E' in E; injection E as <- <-; [by split|]. split; [rewrite Es, sapp_length; lia|].
    apply Forall_forall. intros x (u & v & Ex)%split_args_pieces. rewrite Es, Ex. rewrite !sapp_length. cbn. lia. }
  assert (parse_arg f <$> parts = parse_arg g <$> parts) as ->.
  { apply list_fmap_ext. intros i x Hx%elem_of_list_lookup_2. rewrite Forall_forall in Hp. by apply parse_arg_ext, H, Hp. }
  destruct (cut_arrow base) as [[pkg rest]|] eqn:Ec; [|done]. apply cut_arrow_spec in Ec as ->. rewrite !sapp_length in Hb. cbn in Hb.
  assert (parse_arg f <$> tail (split_arrow (String.length rest) rest) = parse_arg g <$> tail (split_arrow (String.length rest) rest)) as ->; [|done].
  apply list_fmap_ext. intros i x Hx%elem_of_list_lookup_2. apply parse_arg_ext, H. pose proof (Forall_tail _ _ (split_arrow_length (String.length rest) rest)) as Hl. rewrite Forall_forall in Hl. specialize (Hl x Hx). cbn in Hl. lia.
Qed.
Lemma drop_shorter k n s : s ≠ "" → 0 < k → String.length s < S n → String.length (str_drop k s) < n.
Proof. intros H1 H2 H3. rewrite str_drop_length. destruct s; [done|]. cbn in *. lia. Qed.
(** The bound on the recursion is never reached. *)
Lemma parse_fuel n : ∀ m s, String.length s < n → String.length s < m → parse n s = parse m s.
Proof.
  induction n as [|n IH]; intros m s Hn Hm; [lia|]. destruct m as [|m]; [lia|]. cbn [parse]. destruct (decide (s = "")) as [|Hs]; [done|].
  assert (parse_named (parse n) s = parse_named (parse m) s) as -> by (apply parse_named_ext; intros x Hx; apply IH; lia).
  assert (∀ k, 0 < k → parse n (str_drop k s) = parse m (str_drop k s)) as Hd by (intros k Hk; apply IH; by apply drop_shorter).
  rewrite !Hd by lia.
  assert (∀ k a b, 0 < k → close_at 0 (str_drop k s) = Some (a, b) → parse n a = parse m a ∧ parse n b = parse m b) as Hc.
  { intros k a b Hk E%close_at_some. pose proof (drop_shorter k n s Hs Hk Hn) as H1. pose proof (drop_shorter k m s Hs Hk Hm) as H2. rewrite E, !sapp_length in H1, H2. cbn in H1, H2. split; apply IH; lia. }
  destruct (close_at 0 (str_drop 4 s)) as [[a b]|] eqn:E4; [destruct (Hc 4 a b) as [-> ->]; [lia|done|]|]; (destruct (close_at 0 (str_drop 1 s)) as [[a' b']|] eqn:E1; [destruct (Hc 1 a' b') as [_ ->]; [lia|done|]|]); done.
Qed.

(** ** Text kept *)
Lemma render_dotted_named pkg name args : render Dotted (TNamed pkg name args "") =
  (if bool_decide (pkg = "") then name else pkg +:+ "." +:+ name) +:+ match args with [] => "" | _ => "[" +:+ str_join ", " (render Dotted <$> args) +:+ "]" end.
Proof. cbn [render is_simple andb arg_mode]. rewrite decide_True by done. destruct args; [by rewrite sapp_nil|done]. Qed.
Lemma render_parse_named rec s : str_contains arrow s = false → ∃ base parts, peel_args s = (base, parts) ∧
  render Dotted (parse_named rec s) = base +:+ match parts with [] => "" | _ => "[" +:+ str_join ", " (render Dotted <$> (parse_arg rec <$> parts)) +:+ "]" end.
Proof.
  intros Ha. destruct (peel_args s) as [base parts] eqn:E. exists base, parts. split; [done|]. unfold parse_named. rewrite E.
  assert (str_contains arrow base = false) as Hb.
  { destruct (peel_cases s) as [E'|(bs & inner & Es & _ & E')]; rewrite E' in E; injection E as <- <-; [done|]. rewrite Es in Ha. by apply not_contains_parts in Ha as [? _]. }
  rewrite cut_arrow_none by done.
  assert (∀ p n, (if bool_decide (p = "") then n else p +:+ "." +:+ n) = base → render Dotted (TNamed p n (parse_arg rec <$> parts) "") = base +:+ match parts with [] => "" | _ => "[" +:+ str_join ", " (render Dotted <$> (parse_arg rec <$> parts)) +:+ "]" end) as Hr.
  { intros p n Hp. rewrite render_dotted_named, Hp. by destruct parts. }
  destruct (split_last "." base) as [[p n]|] eqn:El; [|by apply Hr]. destruct (decide (p = "")) as [->|Hp]; [by apply Hr|]. apply Hr. rewrite bool_decide_eq_false_2 by done. by apply split_last_some in El.
Qed.
Lemma parse_verbatim n : ∀ s, String.length s < n → str_contains arrow s = false → contains_byte "[" s = false → render Dotted (parse n s) = s.
Proof.
  induction n as [|n IH]; intros s Hn Ha Hb; [lia|]. cbn [parse]. destruct (decide (s = "")) as [->|Hs]; [done|].
  assert (∀ p, has_prefix p s = true → p ≠ "" → p +:+ render Dotted (parse n (str_drop (String.length p) s)) = s) as Hpre.
  { intros p [t ->]%has_prefix_spec Hp. rewrite str_drop_app. rewrite IH; [done| | |].
    - rewrite sapp_length in Hn. destruct p; [done|]. cbn in Hn. lia.
    - by apply not_contains_parts in Ha as [_ ?].
    - destruct (contains_byte "[" t) eqn:E; [|done]. apply contains_byte_spec in E as (x & y & ->). assert (contains_byte "[" (p +:+ x +:+ String "[" y) = true) as H'; [|congruence]. apply contains_byte_spec. exists (p +:+ x), y. by rewrite sapp_assoc. }
  assert (∀ q r, q = q → has_prefix (q +:+ String "[" r) s = false) as Hno.
  { intros q r _. destruct (has_prefix _ s) eqn:E; [|done]. apply has_prefix_spec in E as [t E]. assert (contains_byte "[" s = true) as H'; [|congruence]. apply contains_byte_spec. exists q, (r +:+ t). by rewrite E, sapp_assoc. }
  assert (has_prefix "[]" s = false) as -> by (by apply (Hno "" "]")). assert (has_prefix "map[" s = false) as -> by (by apply (Hno "map" "")). assert (has_prefix "[" s = false) as -> by (by apply (Hno "" "")).
  destruct (has_prefix "*" s) eqn:E1; [by apply (Hpre "*")|]. destruct (has_prefix "chan<- " s) eqn:E2; [by apply (Hpre "chan<- ")|]. destruct (has_prefix "<-chan " s) eqn:E3; [by apply (Hpre "<-chan ")|].
  destruct (has_prefix "chan " s) eqn:E4; [by apply (Hpre "chan ")|].
  destruct (render_parse_named (parse n) s Ha) as (base & parts & E & ->). destruct (peel_cases s) as [E'|(bs & inner & Es & _ & _)].
  - rewrite E' in E. injection E as <- <-. by rewrite sapp_nil.
  - exfalso. assert (contains_byte "[" s = true) as H'; [|congruence]. apply contains_byte_spec. exists bs, (inner +:+ "]"). by rewrite Es.
Qed.
Lemma ea_infix x a y : (y = "" ∨ (∃ z, y = String "," z) ∨ ∃ z, y = String "]" z) → empty_argument a → empty_argument (x +:+ a +:+ y).
Proof.
  unfold empty_argument. intros Hy [H|[H|[H|H]]].
  - left. by apply contains_app_r, contains_app_l.
  - right; left. by apply contains_app_r, contains_app_l.
  - right; right; left. by apply contains_app_r, contains_app_l.
  - apply has_suffix_spec in H as [t ->]. destruct Hy as [->|[[z ->]|[z ->]]].
    + do 3 right. apply has_suffix_spec. exists (x +:+ t). by rewrite sapp_nil, sapp_assoc.
    + do 2 right. left. apply str_contains_spec. exists (x +:+ t), z. by rewrite !sapp_assoc.
    + right. left. apply str_contains_spec. exists (x +:+ t), z. by rewrite !sapp_assoc.
Qed.
Lemma parse_kept n : ∀ s, String.length s < n → str_contains arrow s = false → ¬ empty_argument (squeeze s) → squeeze (render Dotted (parse n s)) = squeeze s.
Proof.
  induction n as [|n IH]; intros s Hn Ha He; [lia|]. cbn [parse]. destruct (decide (s = "")) as [->|Hs]; [done|].
  assert (∀ x a y, s = x +:+ a +:+ y → x +:+ y ≠ "" → (squeeze y = "" ∨ (∃ z, squeeze y = String "," z) ∨ ∃ z, squeeze y = String "]" z) → squeeze (render Dotted (parse n a)) = squeeze a) as Hsub.
  { intros x a y E Hxy Hy. apply IH.
    - rewrite E, !sapp_length in Hn. assert (String.length x + String.length y ≠ 0); [|lia]. destruct x, y; done.
    - rewrite E in Ha. apply not_contains_parts in Ha as [_ Ha]. by apply not_contains_parts in Ha as [? _].
    - intros H. apply He. rewrite E, !squeeze_app. by apply ea_infix. }
  assert (∀ p, has_prefix p s = true → p ≠ "" → squeeze (p +:+ render Dotted (parse n (str_drop (String.length p) s))) = squeeze s) as Hpre.
  { intros p [t E]%has_prefix_spec Hp. rewrite E at 1. rewrite str_drop_app. rewrite squeeze_app. rewrite (Hsub p t ""); [by rewrite E, squeeze_app|by rewrite sapp_nil|by rewrite sapp_nil|by left]. }
  assert (squeeze (render Dotted (parse_named (parse n) s)) = squeeze s) as Hnamed.
  { destruct (render_parse_named (parse n) s Ha) as (base & parts & E & ->). destruct (peel_cases s) as [E'|(bs & inner & Es & Hne & E')]; rewrite E' in E; injection E as <- <-; [by rewrite sapp_nil|].
    destruct (drop_blank_cases (cut_args 0 inner)) as [[Ed _]|(l & p & El & Hp & Ed)]; [apply cut_args_nonnil| |].
    - unfold split_args. rewrite Ed. pose proof (cut_args_join inner 0) as Hj. set (ps := cut_args 0 inner) in *.
      assert (ps ≠ []) as Hps by apply cut_args_nonnil.
      transitivity (squeeze (bs +:+ "[" +:+ str_join ", " (render Dotted <$> (parse_arg (parse n) <$> (trim_space <$> ps))) +:+ "]")); [by destruct ps|].
      rewrite Es, !squeeze_app. do 2 f_equal. f_equal. rewrite squeeze_join_space, <- Hj, squeeze_join. f_equal. rewrite <- !list_fmap_compose. apply list_fmap_ext. intros i p Hp%elem_of_list_lookup_2. cbn [compose].
      destruct (join_infix "," p ps Hp) as (x & y & Ej & Hy). rewrite Hj in Ej. destruct (trim_any_dec spaces p) as (u & v & Eu & Hu & Hv). fold (trim_space p) in Eu.
      rewrite <- (squeeze_trim p). unfold parse_arg. destruct (decl_arg (trim_space p)) as [[nm c]|] eqn:Ec.
      + unfold decl_arg in Ec. set (head := take_until (λ c, bool_decide (c = " "%char)) (trim_space p)) in *. destruct (decide (head = trim_space p)) as [|Hh]; [done|]. destruct (decide (head ∈ _)); [done|]. destruct (is_ident head); [|done]. apply (inj Some) in Ec. pose proof (f_equal fst Ec) as Ec1. pose proof (f_equal snd Ec) as Ec2. cbn [fst snd] in Ec1, Ec2. subst nm c. clear Ec.
        assert (∃ r, trim_space p = head +:+ String " " r) as [r Er].
        { destruct (str_any (λ c, bool_decide (c = " "%char)) (trim_space p)) eqn:Es'; [|exfalso; by apply Hh, take_until_none]. destruct (take_until_rest _ _ Es') as (d & t & Et & Hd). apply bool_decide_eq_true in Hd as ->. by exists t. }
        rewrite Er at 2. rewrite squeeze_app. change (squeeze (String " " r)) with (squeeze r).
        assert (str_drop (S (String.length head)) (trim_space p) = r) as ->.
        { rewrite Er. replace (S (String.length head)) with (String.length (head +:+ " ")) by (rewrite sapp_length; cbn; lia). replace (head +:+ String " " r) with ((head +:+ " ") +:+ r) by (by rewrite sapp_assoc). apply str_drop_app. }
        cbn [render is_simple andb]. rewrite (bool_decide_eq_true_2 ("" = "")) by done. destruct (decide (trim_space r = "")) as [E0|E0].
        * rewrite <- (squeeze_trim r), E0. cbn. by rewrite sapp_nil.
        * rewrite !squeeze_app. rewrite squeeze_trim. done.
      + apply (Hsub (bs +:+ "[" +:+ x +:+ u) (trim_space p) (v +:+ y +:+ "]")).
        * rewrite Es, Ej. rewrite Eu at 1. by rewrite !sapp_assoc.
        * intros E0. apply sapp_eq_nil in E0 as [E0 _]. by apply sapp_eq_nil in E0 as [E0 _].
        * rewrite !squeeze_app, (squeeze_all v) by done. destruct Hy as [->|[z ->]]; [right; right; by exists ""|right; left]. exists (squeeze z +:+ "]"). by rewrite squeeze_app, sapp_assoc.
    - exfalso. apply He. rewrite Es, !squeeze_app. rewrite <- (cut_args_join inner 0), El. assert (squeeze p = "") as Hsp by (by rewrite <- squeeze_trim, Hp). destruct l as [|q l].
      + cbn [app str_join]. rewrite Hsp. do 3 right. apply has_suffix_spec. by exists (squeeze bs).
      + left. apply str_contains_spec. exists (squeeze bs +:+ "[" +:+ squeeze (str_join "," (q :: l))), "". rewrite str_join_snoc by done. change (String "," p) with ("," +:+ p). rewrite !squeeze_app, Hsp. rewrite !sapp_assoc. done. }
  destruct (has_prefix "*" s) eqn:E1; [by apply (Hpre "*")|]. destruct (has_prefix "[]" s) eqn:E2; [by apply (Hpre "[]")|].
  destruct (has_prefix "map[" s) eqn:E3.
  { apply has_prefix_spec in E3 as [t Et]. assert (str_drop 4 s = t) as -> by (rewrite Et; apply (str_drop_app "map[")). destruct (close_at 0 t) as [[k e]|] eqn:Ec; [|done]. apply close_at_some in Ec. destruct (decide (e = "")); [done|].
    cbn [render]. rewrite !squeeze_app. rewrite (Hsub "map[" k ("]" +:+ e)); [|by rewrite Et, Ec|done|right; right; by exists (squeeze e)].
    rewrite (Hsub ("map[" +:+ k +:+ "]") e ""); [by rewrite Et, Ec, !squeeze_app| |by rewrite sapp_nil; intros ?|by left]. rewrite Et, Ec, sapp_nil, !sapp_assoc. done. }
  destruct (has_prefix "chan<- " s) eqn:E4; [by apply (Hpre "chan<- ")|]. destruct (has_prefix "<-chan " s) eqn:E5; [by apply (Hpre "<-chan ")|]. destruct (has_prefix "chan " s) eqn:E6; [by apply (Hpre "chan ")|].
  destruct (has_prefix "[" s) eqn:E7; [|done]. apply has_prefix_spec in E7 as [t Et]. assert (str_drop 1 s = t) as -> by (rewrite Et; apply (str_drop_app "[")). destruct (close_at 0 t) as [[k e]|] eqn:Ec; [|done]. apply close_at_some in Ec. destruct (decide _); [done|].
  cbn [render]. rewrite !squeeze_app. rewrite (Hsub ("[" +:+ k +:+ "]") e ""); [by rewrite Et, Ec, !squeeze_app| |by rewrite sapp_nil; intros ?|by left]. rewrite Et, Ec, sapp_nil, !sapp_assoc. done.
Qed.
Lemma infix_no_arrow s : str_contains arrow s = false → str_contains arrow (trim_space s) = false.
Proof. intros H. destruct (trim_any_dec spaces s) as (a & b & E & _). rewrite E in H. apply not_contains_parts in H as [_ H]. by apply not_contains_parts in H as [? _]. Qed.

(** ** The rendered views *)
Lemma shown_dotted t : shown Dotted t = t.
Proof.
  induction t as [pkg name args c IH|e IH|e IH|len e IH|k e IHk IHe|d e IH] using tref_ind'; cbn [shown is_simple andb arg_mode]; try congruence. f_equal. rewrite <- (list_fmap_id args) at 2. apply list_fmap_ext. intros i x Hx%elem_of_list_lookup_2. rewrite Forall_forall in IH. by apply IH.
Qed.
Lemma join_map_ext (f g : tref → string) (l : list tref) : Forall (λ x, f x = g x) l → f <$> l = g <$> l.
Proof. intros H. apply list_fmap_ext. intros i x Hx%elem_of_list_lookup_2. rewrite Forall_forall in H. by apply H. Qed.
Lemma render_shown t : (render Simple (shown Simple t) = render Simple t) ∧ render Internal (shown Internal t) = render Internal t.
Proof.
  assert (∀ nm, bool_decide (nm ∈ ["interface{}"; "interface {}"]) = true → (if bool_decide (nm = "interface{}") then "any" else nm) ∈ ["any"; "interface {}"]) as Hnm.
  { intros nm H%bool_decide_eq_true. rewrite !elem_of_cons, elem_of_nil in H |- *. case_bool_decide; [by left|]. destruct H as [?|[?|[]]]; [done|]. right; by left. }
  induction t as [pkg name args c IH|e IH|e IH|len e IH|k e IHk IHe|d e IH] using tref_ind'.
  - assert ((render Simple <$> (shown Simple <$> args)) = render Simple <$> args) as Hl.
    { rewrite <- list_fmap_compose. apply (join_map_ext (render Simple ∘ shown Simple) (render Simple)). eapply Forall_impl; [exact IH|]. intros x [H _]. done. }
    assert (∀ (A B : string), match shown Simple <$> args with [] => A | _ => B end = match args with [] => A | _ => B end) as Hm by (intros A B; by destruct args).
    split.
    + cbn [render shown is_simple andb arg_mode]. rewrite Hl, Hm. rewrite (bool_decide_eq_true_2 ("" = "")) by done.
      assert ((if bool_decide ((if bool_decide (name = "interface{}") then "any" else name) ∈ ["interface{}"; "interface {}"]) then "any" else (if bool_decide (name = "interface{}") then "any" else name)) =
              (if bool_decide (name ∈ ["interface{}"; "interface {}"]) then "any" else name)) as ->.
      { destruct (decide (name = "interface{}")) as [->|H1]; [done|]. rewrite (bool_decide_eq_false_2 (name = _)) by done. done. }
      by destruct (bool_decide (pkg = "")).
    + cbn [render shown is_simple andb arg_mode]. by rewrite Hl, Hm.
  - destruct IH as [H1 H2]. cbn. split; [by rewrite H1|by rewrite H2].
  - destruct IH as [H1 H2]. cbn. split; [by rewrite H1|by rewrite H2].
  - destruct IH as [H1 H2]. cbn. split; [by rewrite H1|by rewrite H2].
  - destruct IHk as [H1 H2], IHe as [H3 H4]. cbn. split; [by rewrite H1, H3|by rewrite H2, H4].
  - destruct IH as [H1 H2]. destruct d; cbn; (split; [by rewrite H1|by rewrite H2]).
Qed.
Lemma arrow_dot a b : str_contains arrow a = false → str_contains arrow b = false → str_contains arrow (a +:+ "." +:+ b) = false.
Proof.
  intros Ha Hb. destruct (str_contains arrow (a +:+ "." +:+ b)) eqn:E; [|done]. exfalso. apply str_contains_spec in E as (x & y & E). revert x E. induction a as [|c a IH]; intros x E.
  - destruct x as [|d x]; [done|]. change ("" +:+ "." +:+ b) with (String "." b) in E. rewrite sapp_cons in E. injection E as _ E. assert (str_contains arrow b = true) as H; [|congruence]. apply str_contains_spec. by exists x, y.
  - destruct x as [|d x].
    + change ("" +:+ arrow +:+ y) with (String "-" (String "-" (String ">" y))) in E. rewrite sapp_cons in E. injection E as -> E.
      destruct a as [|d a]; [done|]. rewrite sapp_cons in E. injection E as -> E. destruct a as [|e a]; [done|]. rewrite sapp_cons in E. injection E as -> E.
      assert (str_contains arrow (String "-" (String "-" (String ">" a))) = true) as H'; [|congruence]. apply str_contains_spec. by exists "", a.
    + rewrite !sapp_cons in E. injection E as -> E. apply (IH) with x; [|done]. by apply (not_contains_parts arrow (String d "") a) in Ha as [_ Ha].
Qed.
Lemma name_ok_pkg p q name : name_ok p name → plain q → str_contains arrow q = false → name_ok q name.
Proof. intros H Hq Ha. pose proof (name_ok_arrows _ _ H) as [_ Hn]. destruct H as (_ & H2 & H3 & H4 & H5 & _). split_and!; try done. by apply arrow_dot. Qed.
Lemma wf_shown t : ∀ a m, well_formed a t → well_formed a (shown m t).
Proof.
  induction t as [pkg name args c IH|e IH|e IH|len e IH|k e IHk IHe|d e IH] using tref_ind'; intros a m; cbn [well_formed shown].
  - intros [(-> & Hn & Ha)|(-> & -> & -> & Hd)].
    + left. split; [done|]. apply args_forall in Ha. split.
      * fold (shown_name m name). pose proof (name_ok_shown m _ _ Hn) as (H1 & H2 & H3 & H4 & H5). pose proof (name_ok_arrows _ _ Hn) as [Hp _]. destruct Hn as (Hpl & _). split_and!; try done.
        -- destruct (is_simple m); [apply plain_nil|done].
        -- apply arrow_dot; [by destruct (is_simple m)|done].
      * apply args_forall, Forall_fmap. apply Forall_forall. intros x Hx. rewrite Forall_forall in IH, Ha. by apply (IH x Hx), Ha.
    + right. split; [done|]. split; [by destruct (is_simple m)|]. split; [done|]. rewrite bool_decide_eq_false_2; [by rewrite andb_false_r|]. intros ->. by destruct Hd as (? & _).
  - apply IH.
  - apply IH.
  - intros (H1 & H2 & H3). split; [done|]. split; [done|]. by apply IH.
  - intros (H1 & H2). split; [by apply IHk|by apply IHe].
  - apply IH.
Qed.
Lemma wf_core t : wf t → wf (core t).
Proof. induction t as [pkg name args c IH|e IH|e IH|len e IH|k e IHk IHe|d e IH] using tref_ind'; cbn [core]; try done. by intros (_ & _ & ?); apply IH. Qed.
Lemma core_shown m t : core (shown m t) = shown m (core t).
Proof. induction t as [pkg name args c IH|e IH|e IH|len e IH|k e IHk IHe|d e IH] using tref_ind'; cbn [core shown]; done. Qed.
Lemma wf_with_pkg p t pkg name args c : wf t → core t = TNamed pkg name args c → name_ok p name → wf (with_core_pkg p t) ∧ core (with_core_pkg p t) = TNamed p name args c.
Proof.
  intros H Hc Hp. induction t as [pkg' name' args' c' IH|e IH|e IH|len e IH|k e IHk IHe|d e IH] using tref_ind'; cbn [core with_core_pkg well_formed] in *; try by apply IH.
  - injection Hc as -> -> -> ->. split; [|done]. destruct H as [(-> & _ & Ha)|(? & _)]; [|done]. by left.
  - destruct H as (H1 & H2 & H3). destruct (IH H3 Hc) as [H4 H5]. done.
  - done.
Qed.
Lemma suffix_app p a b : has_suffix p b = true → has_suffix p (a +:+ b) = true.
Proof. rewrite !has_suffix_spec. intros [t ->]. exists (a +:+ t). by rewrite sapp_assoc. Qed.
Lemma byte_app c a b : contains_byte c b = true → contains_byte c (a +:+ b) = true.
Proof. rewrite !contains_byte_spec. intros (x & y & ->). exists (a +:+ x), y. by rewrite sapp_assoc. Qed.
Lemma render_brackets m t pkg name args c : wf t → core t = TNamed pkg name args c → args ≠ [] → contains_byte "[" (render m t) && has_suffix "]" (render m t) = true.
Proof.
  intros H Hc Ha. apply andb_true_iff. induction t as [pkg' name' args' c' IH|e IH|e IH|len e IH|k e IHk IHe|d e IH] using tref_ind'; cbn [core] in *.
  - injection Hc as -> -> -> ->. cbn [well_formed] in H. destruct H as [(-> & Hn & _)|(? & _)]; [|done]. rewrite render_named by done. destruct args as [|x args]; [done|]. set (j := str_join _ _). split.
    + apply contains_byte_spec. by exists (base_of m pkg name), (j +:+ "]").
    + apply has_suffix_spec. exists (base_of m pkg name +:+ "[" +:+ j). by rewrite !sapp_assoc.
  - destruct (IH H Hc) as [H1 H2]. cbn [render]. split; [by apply byte_app|by apply suffix_app].
  - destruct (IH H Hc) as [H1 H2]. cbn [render]. split; [by apply byte_app|by apply suffix_app].
  - destruct H as (_ & _ & H). destruct (IH H Hc) as [H1 H2]. cbn [render]. rewrite <- !sapp_assoc. rewrite (sapp_assoc _ len). split; [by apply byte_app|by apply suffix_app].
  - done.
  - destruct (IH H Hc) as [H1 H2]. cbn [render]. destruct d; (split; [by apply byte_app|by apply suffix_app]).
Qed.

Lemma filter_none (l : list string) : (∀ x, x ∈ l → ¬ x ≠ "") → filter (λ p, p ≠ "") l = [].
Proof. induction l as [|x l IH]; intros H; [done|]. rewrite filter_cons_False by (apply H; left). apply IH. intros y Hy. apply H. by right. Qed.

(** ** The properties *)

(** C11: reading back a rendered type gives what that encoding shows of it ([shown] in
    [TypeSpec]); the dotted encoding shows everything, whatever the nesting. *)
Theorem C11_round_trip t m : wf t → parse_type (render m t) = shown m t.
Proof. apply parse_type_render. Qed.
Theorem C11_dotted_round_trip t : wf t → parse_type (render Dotted t) = t.
Proof. intros H. by rewrite C11_round_trip, shown_dotted. Qed.
(** Distinct types have distinct dotted spellings. *)
Theorem C11_dotted_injective t u : wf t → wf u → render Dotted t = render Dotted u → t = u.
Proof. intros H1 H2 E. apply (f_equal parse_type) in E. by rewrite !C11_dotted_round_trip in E. Qed.
(** The bound on the recursion is the length of the text and is never reached. *)
Theorem C11_parse_total s n : String.length s < n → parse n s = parse (S (String.length s)) s.
Proof. intros H. apply parse_fuel; lia. Qed.
(** Any text without an argument list and without the arrow is given back verbatim. *)
Theorem C11_opaque_verbatim s : str_contains "-->" s = false → contains_byte "[" s = false → render Dotted (parse_type s) = trim_space s.
Proof.
  intros H1 H2. unfold parse_type. apply parse_verbatim; [lia|by apply infix_no_arrow|]. destruct (contains_byte "[" (trim_space s)) eqn:E; [|done]. apply contains_byte_spec in E as (x & y & E).
  destruct (trim_any_dec spaces s) as (a & b & Es & _). fold (trim_space s) in Es. assert (contains_byte "[" s = true) as H'; [|congruence]. apply contains_byte_spec. exists (a +:+ x), (y +:+ b). rewrite Es, E. by rewrite !sapp_assoc.
Qed.
(** Any text without the arrow and without an empty last argument keeps all its characters but blanks. *)
Theorem C11_text_kept s : str_contains "-->" s = false → ¬ empty_argument (squeeze s) → squeeze (render Dotted (parse_type s)) = squeeze s.
Proof. intros H1 H2. unfold parse_type. rewrite parse_kept; [apply squeeze_trim|lia|by apply infix_no_arrow|by rewrite squeeze_trim]. Qed.
(** Otherwise information is lost: an empty argument list, and a legacy argument next to a bracketed one. *)
Theorem C11_information_lost_refuted : ∃ s s', squeeze s ≠ squeeze s' ∧ parse_type s = parse_type s'.
Proof. exists "p-->T-->B[A]", "p-->T[A]". split; vm_compute; done. Qed.
Theorem C11_empty_list_lost_refuted : ∃ s, str_contains "-->" s = false ∧ squeeze (render Dotted (parse_type s)) ≠ squeeze s.
Proof. exists "Page[]". split; vm_compute; done. Qed.
(** An opaque type that mentions a qualified one is given a package, and its short name is cut. *)
Theorem C11_opaque_given_package_refuted : ∃ s, parse_type s = TNamed "func(http" "Handler) error" [] "" ∧ render Simple (parse_type s) = "Handler) error" ∧ s = "func(http.Handler) error".
Proof. exists "func(http.Handler) error". vm_compute. done. Qed.

(** C57: the component key of a generic instantiation does not depend on its encoding. *)
Theorem C57_key_of_qualified t pkg name args c : wf t → core t = TNamed pkg name args c → pkg ≠ "" → args ≠ [] →
  canonicalize (render Dotted t) = render Internal t ∧ canonicalize (render Internal t) = render Internal t.
Proof.
  intros H Hc Hp Ha. unfold canonicalize. rewrite !(render_brackets _ t pkg name args c) by done. rewrite !parse_type_render by done. rewrite shown_dotted, core_shown, Hc. cbn [shown is_simple andb arg_mode].
  destruct args as [|x args]; [done|]. cbn [fmap list_fmap]. rewrite !decide_False by done. split; [done|]. apply render_shown.
Qed.
(** An unqualified base takes the package of its first qualified argument. *)
Theorem C57_key_of_unqualified t name before a after c : wf t → core t = TNamed "" name (before ++ a :: after) c → pkg_of (core a) ≠ "" → Forall (λ b, pkg_of (core b) = "") before →
  canonicalize (render Dotted t) = render Internal (with_core_pkg (pkg_of (core a)) t).
Proof.
  intros H Hc Hp Hb. unfold canonicalize. rewrite (render_brackets _ t "" name (before ++ a :: after) c) by (done || by destruct before). rewrite parse_type_render by done. rewrite shown_dotted, Hc.
  assert (filter (λ p, p ≠ "") ((λ a, pkg_of (core a)) <$> (before ++ a :: after)) = pkg_of (core a) :: filter (λ p, p ≠ "") ((λ a, pkg_of (core a)) <$> after)) as E.
  { rewrite fmap_app, fmap_cons, filter_app, filter_cons_True by done. rewrite filter_none; [done|]. intros x (b & -> & Hx)%elem_of_list_fmap. rewrite Forall_forall in Hb. rewrite (Hb b Hx). auto. }
  destruct (before ++ a :: after) as [|x args] eqn:Ex; [by destruct before|]. rewrite decide_True by done. by rewrite E.
Qed.
(** Nothing to borrow: the text is the key. *)
Theorem C57_key_unchanged t name args c m : wf t → core t = TNamed "" name args c → Forall (λ b, pkg_of (core b) = "") args → canonicalize (render m t) = render m t.
Proof.
  intros H Hc Hb. unfold canonicalize. destruct (_ && _); [|done]. rewrite parse_type_render by done. rewrite core_shown, Hc. cbn [shown]. destruct args as [|x args]; [done|]. rewrite fmap_cons, <- fmap_cons. set (l := x :: args) in *.
  assert (filter (λ p, p ≠ "") ((λ a, pkg_of (core a)) <$> (shown (arg_mode m) <$> l)) = []) as E.
  { apply filter_none. intros p (b & -> & (b' & -> & Hb')%elem_of_list_fmap)%elem_of_list_fmap Hp. apply Hp. rewrite Forall_forall in Hb. specialize (Hb b' Hb'). rewrite core_shown. destruct (core b'); try done. cbn in *. by destruct (is_simple _). }
  destruct (shown (arg_mode m) <$> l) as [|y args'] eqn:El; [done|]. rewrite decide_True by (by destruct (is_simple m)). by rewrite E.
Qed.
(** Canonicalising twice is canonicalising once. *)
Theorem C57_idempotent t m : wf t → canonicalize (canonicalize (render m t)) = canonicalize (render m t).
Proof.
  intros H. assert (∀ s, canonicalize s = s → canonicalize (canonicalize s) = canonicalize s) as Hid by (intros s E; by rewrite E).
  pose proof (wf_shown t false m H) as Hw. pose proof (parse_type_render t m H) as Hr. set (u := shown m t) in *. set (s := render m t) in *.
  destruct (decide (canonicalize s = s)) as [E|E]; [by apply Hid|].
  assert (∃ u' p nm ars c, wf u' ∧ core u' = TNamed p nm ars c ∧ p ≠ "" ∧ ars ≠ [] ∧ canonicalize s = render Internal u') as (u' & p & nm & ars & c & H1 & H2 & H3 & H4 & ->).
  2:{ by apply (C57_key_of_qualified u' p nm ars c). }
  unfold canonicalize in *. destruct (_ && _); [|done]. rewrite Hr in *. pose proof (wf_core u Hw) as Hcw. destruct (core u) as [pkg nm [|x ars] c| | | | |] eqn:Ec; try done. destruct (decide (pkg = "")) as [->|Hp].
  - destruct (filter _ _) as [|p ps] eqn:Ef; [done|]. assert (p ∈ p :: ps) as Hin by left. rewrite <- Ef in Hin. apply elem_of_list_filter in Hin as [Hp (b & -> & Hb)%elem_of_list_fmap].
    cbn [well_formed] in Hcw. destruct Hcw as [(-> & Hn & Hargs)|(? & _)]; [|done]. apply args_forall in Hargs. rewrite Forall_forall in Hargs. specialize (Hargs b Hb).
    assert (name_ok (pkg_of (core b)) nm) as Hok.
    { assert (plain (pkg_of (core b)) ∧ str_contains arrow (pkg_of (core b)) = false) as [? ?]; [|by apply (name_ok_pkg "" _ nm)].
      assert (well_formed true (core b)) as Hwb.
      { clear -Hargs. destruct b as [pkg name args c|e|e|len e|k e|d e]; [done| | | |done|]; cbn [core well_formed] in *.
        all: assert (wf e) as Hwe by (first [done|by destruct Hargs as (_ & _ & ?)]); apply wf_core in Hwe; destruct (core e); try done; cbn [well_formed] in *; (destruct Hwe as [?|(? & _)]; [by left|done]). }
      destruct (core b) as [q nb ab cb| | | | |]; try done. cbn [pkg_of well_formed] in *. destruct Hwb as [(_ & Hnb & _)|(_ & -> & _)]; [|done]. pose proof (name_ok_arrows _ _ Hnb) as [? _]. by destruct Hnb as (? & _). }
    destruct (wf_with_pkg (pkg_of (core b)) u "" nm (x :: ars) "" Hw Ec Hok) as [Hw' Hc']. eexists _, _, _, _, _. split; [exact Hw'|]. split; [exact Hc'|]. done.
  - eexists _, _, _, _, _. split; [exact Hw|]. split; [exact Ec|]. done.
Qed.
Print Assumptions C11_round_trip.
Print Assumptions C11_dotted_round_trip.
Print Assumptions C11_dotted_injective.
Print Assumptions C11_parse_total.
Print Assumptions C11_opaque_verbatim.
Print Assumptions C11_text_kept.
Print Assumptions C11_information_lost_refuted.
Print Assumptions C11_empty_list_lost_refuted.
Print Assumptions C11_opaque_given_package_refuted.
Print Assumptions C57_key_of_qualified.
Print Assumptions C57_key_of_unqualified.
Print Assumptions C57_key_unchanged.
Print Assumptions C57_idempotent.

(** A nested generic type with a package path, an array, a map and channels. *)
Definition sample : tref :=
  TPtr (TNamed "github.com/acme/svc" "Page"
    [TMap (TNamed "" "string" [] "") (TSlice (TNamed "example.com/v2/user" "User" [] ""));
     TArr "len([3]int{})" (TChan RecvOnly (TNamed "" "interface{}" [] ""));
     TNamed "" "T" [] "comparable"] "").
Ltac plainly := apply plain_q; reflexivity.
Example sample_well_formed : wf sample.
Proof.
  assert (∀ p n, str_any (λ c, mem_byte c special) p = false → str_any (λ c, mem_byte c special) n = false → n ≠ "" → n ≠ "map" → contains_byte "." n = false → str_contains arrow (p +:+ "." +:+ n) = false → name_ok p n) as Hn.
  { intros p n H1 H2 H3 H4 H5 H6. split_and!; try done; by apply plain_q. }
  cbn [sample well_formed foldr]. left. split; [done|]. split; [by apply Hn|]. split; [|split; [|split; [|done]]].
  - split; [left; split; [done|]; split; [by apply Hn|done]|left; split; [done|]; split; [by apply Hn|done]].
  - split; [done|]. split.
    + do 3 (apply bal_char; [done|]). apply (bal_round "[3]int{}" ""); [|constructor]. apply (bal_square "3" "int{}"); by apply balanced_lit.
    + left. split; [done|]. split; [by apply Hn|done].
  - right. split; [done|]. split; [done|]. split; [done|]. split; [done|]. split; [by apply (bool_decide_unpack _)|]. split; [apply plain_firm; [plainly|done]|]. split; [by apply balanced_lit|by apply arg_lit].
Qed.
Example C11_example :
  render Dotted sample = "*github.com/acme/svc.Page[map[string][]example.com/v2/user.User, [len([3]int{})]<-chan interface{}, T comparable]" ∧
  render Internal sample = "*github.com/acme/svc-->Page[map[string][]User, [len([3]int{})]<-chan any, T comparable]" ∧
  parse_type (render Dotted sample) = sample.
Proof. split; [reflexivity|]. split; [reflexivity|]. apply C11_dotted_round_trip, sample_well_formed. Qed.
Example C57_example :
  canonicalize "svc.Page[svc.User]" = "svc-->Page[User]" ∧ canonicalize "svc-->Page[User]" = "svc-->Page[User]" ∧
  canonicalize "Page[github.com/acme/svc.User]" = "github.com/acme/svc-->Page[User]" ∧ canonicalize "Container[T]" = "Container[T]".
Proof. vm_compute. done. Qed.
