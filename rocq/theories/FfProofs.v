(** * Proofs about functions stored in fields. *)
From Coq Require Import Ascii.
From stdpp Require Import sorting.
From stdpp Require Import base list strings gmap.
From Verif Require Import StrLib StrOrder StrSplit DecLib ScanModel PairModel SecProps WrapProofs2 FfModel FfSpec.

Lemma is_func_type_spec t : is_func_type t = true ↔ function_type t.
Proof.
  unfold is_func_type, function_type. rewrite orb_true_iff, bool_decide_eq_true, has_prefix_spec. split.
  - intros H. exists (trim_prefix "*" t). split; [|done]. destruct (has_prefix "*" t) eqn:E.
    + apply has_prefix_spec in E as [r ->]. right. by rewrite trim_prefix_app.
    + left. unfold trim_prefix. by rewrite E.
  - intros (f & [-> | ->] & Hf).
    + assert (trim_prefix "*" f = f) as ->; [|done]. unfold trim_prefix. destruct Hf as [->|[r ->]]; done.
    + by rewrite trim_prefix_app.
Qed.
Lemma field_type_some fs f t : field_is fs f t → field_type fs f = t.
Proof.
  intros (l1 & l2 & -> & Hn). unfold field_type. rewrite filter_app, filter_cons_True by done.
  assert (filter (λ p : string * string, p.1 = f) l2 = []) as ->.
  { clear -Hn. induction l2 as [|[g u] l2 IH]; [done|]. cbn in Hn. apply not_elem_of_cons in Hn as [H1 H2]. rewrite filter_cons_False by (cbn; congruence). by apply IH. }
  by rewrite last_snoc.
Qed.
Lemma field_is_dec fs f : (∃ t, field_is fs f t) ∨ f ∉ fs.*1.
Proof.
  induction fs as [|[g u] fs [[t (l1 & l2 & -> & H)]|IH]]; [right; apply not_elem_of_nil| |].
  - left. exists t, ((g, u) :: l1), l2. done.
  - destruct (decide (f = g)) as [->|Hne]; [left; by exists u, [], fs|]. right. cbn. by apply not_elem_of_cons.
Qed.
Lemma field_type_none fs f : f ∉ fs.*1 → field_type fs f = "".
Proof.
  intros Hn. unfold field_type. assert (filter (λ p : string * string, p.1 = f) fs = []) as ->; [|done].
  induction fs as [|[g u] fs IH]; [done|]. cbn in Hn. apply not_elem_of_cons in Hn as [H1 H2]. rewrite filter_cons_False by (cbn; congruence). by apply IH.
Qed.
Lemma field_is_in fs f t : field_is fs f t → f ∈ fs.*1.
Proof. intros (l1 & l2 & -> & _). rewrite fmap_app. apply elem_of_app. right. left. Qed.
Lemma field_type_is fs f t : t ≠ "" → field_type fs f = t → field_is fs f t.
Proof.
  intros Ht H. destruct (field_is_dec fs f) as [[t' H']|Hn]; [|by rewrite field_type_none in H]. apply field_type_some in H' as E. congruence.
Qed.
Lemma not_func_empty : ¬ function_type "".
Proof. intros (f & [E|E] & Hf); [|done]. subst f. by destruct Hf as [?|[r ?]]. Qed.

Section dispatch.
Context (known : string → bool) (fields_of : string → string → list (string * string)) (entrypoint : string → string → bool).
Notation names_function := (names_function known).
Notation value_names := (value_names known).
Notation below := (below fields_of).
Notation holds := (holds fields_of).
Notation followed := (followed fields_of entrypoint).
Notation walk := (walk known fields_of entrypoint).

Lemma key_from_name_spec pkg name key : key_from_name known pkg name = Some key ↔ names_function pkg name key.
Proof.
  unfold key_from_name, FfSpec.names_function. destruct (decide (name = "")) as [->|Hn]; [split; [done|]; by intros [? _]|].
  rewrite bool_decide_eq_false_2 by done. destruct (known name) eqn:E.
  - split; [intros [= <-]; split; [done|]; split; [done|by left]|]. intros (_ & _ & [->|[? _]]); done.
  - destruct (decide (pkg = "")) as [->|Hp].
    + rewrite bool_decide_eq_true_2 by done. split; [done|]. intros (_ & Hk & [->|(_ & ? & _)]); [congruence|done].
    + rewrite bool_decide_eq_false_2 by done. cbv zeta. split.
      * destruct (known (pkg +:+ "." +:+ name)) eqn:E'; [|done]. intros [= <-]. split; [done|]. split; [done|]. by right.
      * intros (_ & Hk & [->|(_ & _ & ->)]); [congruence|]. by rewrite Hk.
Qed.
Lemma bare_empty : bare_type_name "" = "".
Proof. by vm_compute. Qed.
Lemma own_or_eq ctx pkg : (if bool_decide (pkg = "") then ctx else pkg) = own_or ctx pkg.
Proof. unfold own_or. by case_bool_decide; case_decide. Qed.
Lemma key_of_value_spec v ctx key : key_of_value known v ctx = Some key ↔ value_names ctx v key.
Proof.
  unfold key_of_value. destruct (f_kind v) eqn:Ek.
  - rewrite own_or_eq, key_from_name_spec. split; [by apply value_ident|]. intros H. by inversion H; subst; try congruence.
  - rewrite key_from_name_spec. split; [by apply value_literal|]. intros H. by inversion H; subst; try congruence.
  - destruct (f_sel v) as [s|] eqn:Es; [|split; [done|]; intros H; inversion H; subst; congruence].
    destruct (decide (f_name s = "")) as [Hn|Hn].
    { rewrite bool_decide_eq_true_2 by done. split; [done|]. intros H. inversion H as [? ? K|? ? K|? s' r ? K S N|? s' ? K S N]; subst; try congruence.
      all: assert (s' = s) as -> by congruence; try done. by destruct N as (N & _). }
    rewrite bool_decide_eq_false_2 by done. rewrite own_or_eq. set (pkg := own_or ctx (f_pkg s)).
    set (recv := match f_recv v with Some r => r | None => _ end).
    assert (∀ r, receiver_text v r → r = recv) as Hu.
    { intros r [H|(H & x & Hx & Hr)]; subst recv; rewrite H; [done|]. by rewrite Hx, Hr. }
    assert (recv = "" ∨ receiver_text v recv) as Hrecv.
    { subst recv. destruct (f_recv v) as [r|] eqn:Er; [right; by left|]. destruct (f_x v) as [x|] eqn:Ex; [|by left].
      destruct (f_type x) as [r|] eqn:Et; [|by left]. right. right. split; [done|]. by exists x. }
    cbv zeta. destruct (decide (bare_type_name recv = "")) as [Hb|Hb].
    { rewrite bool_decide_eq_false_2 by (by intros ?). cbn [andb]. rewrite key_from_name_spec. split.
      - intros H. apply (value_selector _ _ v s); [done|done|done|]. intros r Hr Hbr. apply Hu in Hr as ->. done.
      - intros H. inversion H as [? ? K|? ? K|? s' r ? K S N R B|? s' ? K S N]; subst; try congruence.
        + apply Hu in R as ->. done.
        + by assert (s' = s) as -> by congruence. }
    assert (receiver_text v recv) as HR. { destruct Hrecv as [E|?]; [|done]. rewrite E in Hb. by rewrite bare_empty in Hb. }
    rewrite bool_decide_eq_true_2 by done. cbn [andb]. destruct (known (pkg +:+ "." +:+ bare_type_name recv +:+ "." +:+ f_name s)) eqn:E.
    + split.
      * intros [= <-]. by apply (value_method _ _ v s recv).
      * intros H. inversion H as [? ? K|? ? K|? s' r ? K S N R B|? s' ? K S N R]; subst; try congruence.
        -- assert (s' = s) as -> by congruence. by apply Hu in R as ->.
        -- assert (s' = s) as -> by congruence. rewrite R in E; done.
    + rewrite key_from_name_spec. split.
      * intros H. apply (value_selector _ _ v s); [done|done|done|]. intros r Hr _. by apply Hu in Hr as ->.
      * intros H. inversion H as [? ? K|? ? K|? s' r ? K S N R B|? s' ? K S N R]; subst; try congruence.
        all: assert (s' = s) as -> by congruence; try done. apply Hu in R as ->. subst pkg. congruence.
  - split; [done|]. intros H. inversion H; congruence.
  - split; [done|]. intros H. inversion H; congruence.
  - split; [done|]. intros H. inversion H; congruence.
  - split; [done|]. intros H. inversion H; congruence.
  - split; [done|]. intros H. inversion H; congruence.
Qed.

(** A function that the field of a literal holds. *)
Definition event (ctx pkg ty f : string) (v : farg) (s : stored) : Prop :=
  followed pkg ty f ∧ ∃ key, value_names ctx v key ∧ s = Stored (pkg +:+ "." +:+ ty +:+ "." +:+ f) key (entrypoint (pkg +:+ "." +:+ ty) f).
Lemma followed_spec pkg ty f :
  entrypoint (pkg +:+ "." +:+ ty) f || is_func_type (field_type (fields_of pkg ty) f) = true ↔ followed pkg ty f.
Proof.
  unfold FfSpec.followed. rewrite orb_true_iff, is_func_type_spec. split; (intros [?|H]; [by left|right]).
  - exists (field_type (fields_of pkg ty) f). split; [|done]. apply field_type_is; [|done]. intros E. rewrite E in H. by apply not_func_empty.
  - destruct H as (t & H & Ht). by rewrite (field_type_some _ _ _ H).
Qed.
Lemma record_spec pkg ty f v ctx s : s ∈ record_field known entrypoint pkg ty (fields_of pkg ty) f (Some v) ctx ↔ event ctx pkg ty f v s.
Proof.
  unfold record_field, event, FfSpec.followed. set (en := entrypoint (pkg +:+ "." +:+ ty) f).
  assert (en || is_func_type (field_type (fields_of pkg ty) f) = true ↔ en = true ∨ ∃ t, field_is (fields_of pkg ty) f t ∧ function_type t) as Hf.
  { rewrite orb_true_iff, is_func_type_spec. split; (intros [?|H]; [by left|right]).
    - exists (field_type (fields_of pkg ty) f). split; [|done]. apply field_type_is; [|done]. intros E. rewrite E in H. by apply not_func_empty.
    - destruct H as (t & H & Ht). by rewrite (field_type_some _ _ _ H). }
  destruct (en || _) eqn:E.
  - destruct (key_of_value known v ctx) as [key|] eqn:Ek.
    + rewrite elem_of_list_singleton. split.
      * intros ->. split; [by apply Hf|]. exists key. split; [by apply key_of_value_spec|done].
      * intros (_ & key' & Hk & ->). apply key_of_value_spec in Hk. congruence.
    + rewrite elem_of_nil. split; [done|]. intros (_ & key' & Hk & _). apply key_of_value_spec in Hk. congruence.
  - rewrite elem_of_nil. split; [done|]. intros [H _]. apply Hf in H. congruence.
Qed.

Lemma elem_of_concat_imap {A B} (g : nat → A → list B) (l : list A) y : y ∈ concat (imap g l) ↔ ∃ i x, l !! i = Some x ∧ y ∈ g i x.
Proof.
  rewrite elem_of_concat. split.
  - intros (z & Hz & Hy). apply elem_of_lookup_imap in Hz as (i & x & -> & Hx). by exists i, x.
  - intros (i & x & Hx & Hy). exists (g i x). split; [|done]. apply elem_of_lookup_imap. by exists i, x.
Qed.

Theorem walk_spec ctx s n : ∀ a t, s ∈ walk n ctx (Some a) t ↔ ∃ d pkg ty f v, d < n ∧ holds ctx t a d pkg ty f v ∧ event ctx pkg ty f v s.
Proof.
  induction n as [|n IH]; intros a t.
  { cbn [FfModel.walk]. rewrite elem_of_nil. split; [done|]. intros (d & ? & ? & ? & ? & ? & _). lia. }
  assert (∀ b t', s ∈ walk n ctx b t' ↔ ∃ b', b = Some b' ∧ ∃ d pkg ty f v, d < n ∧ holds ctx t' b' d pkg ty f v ∧ event ctx pkg ty f v s) as IH'.
  { intros [b|] t'.
    - rewrite IH. split; [intros H; by exists b|]. by intros (b' & [= <-] & H).
    - split; [|by intros (b' & ? & _)]. destruct n; cbn; by intros ?%elem_of_nil. }
  assert (∀ t' b, below ctx t a t' b → (∃ d pkg ty f v, d < n ∧ holds ctx t' b d pkg ty f v ∧ event ctx pkg ty f v s) →
    ∃ d pkg ty f v, d < S n ∧ holds ctx t a d pkg ty f v ∧ event ctx pkg ty f v s) as Hdown.
  { intros t' b Hb (d & pkg & ty & f & v & Hd & Hh & He). exists (S d), pkg, ty, f, v. split; [lia|]. split; [by apply (holds_below _ ctx t a t' b)|done]. }
  cbn [FfModel.walk]. destruct (decide (f_kind a = FComposite)) as [Hk|Hk].
  - rewrite bool_decide_eq_true_2 by done. destruct (literal_type ctx a t) as [pkg ty] eqn:El. rewrite elem_of_concat_imap. split.
    + intros (i & [e|] & Hi & Hs); [|by apply elem_of_nil in Hs]. assert (Some e ∈ f_args a) as Hin by (by eapply elem_of_list_lookup_2).
      destruct (decide (f_kind e = FKeyValue)) as [He|He].
      * rewrite bool_decide_eq_true_2 in Hs by done. apply elem_of_app in Hs as [Hs|Hs].
        -- destruct (decide ((match f_x e with Some x => f_name x | None => "" end) = "")) as [Hn|Hn]; [rewrite bool_decide_eq_false_2 in Hs by (by intros ?); by apply elem_of_nil in Hs|].
           rewrite bool_decide_eq_true_2 in Hs by done. destruct (f_x e) as [x|] eqn:Ex; [|done].
           destruct (f_fun e) as [v|] eqn:Ef; [|unfold record_field in Hs; destruct (_ || _) in Hs; by apply elem_of_nil in Hs].
           apply record_spec in Hs. exists 0, pkg, (bare_type_name ty), (f_name x), v. split; [lia|]. split; [|done]. by apply (holds_keyed _ ctx t a pkg ty e x v).
        -- apply IH' in Hs as (v & Hv & Hs). set (fs := fields_of pkg (bare_type_name ty)) in *.
           set (fld := match f_x e with Some x => f_name x | None => "" end) in *.
           assert (default "" (f_name <$> f_x e) = fld) as Hfld by (subst fld; by destruct (f_x e)).
           destruct (decide (field_type fs fld = "")) as [Ht|Ht].
           ++ rewrite bool_decide_eq_true_2 in Hs by done. apply (Hdown (pkg, element_type_name ty) v); [|done].
              apply (below_entry _ ctx t a pkg ty e (f_x e)); [done|done|done|done|done|done|]. rewrite Hfld. intros tf H. apply field_type_some in H. fold fs in H. congruence.
           ++ rewrite bool_decide_eq_false_2 in Hs by done. apply (Hdown (pkg, field_type fs fld) v); [|done].
              apply (below_value _ ctx t a pkg ty e (f_x e)); [done|done|done|done|done|done| |done]. rewrite Hfld. by apply field_type_is.
      * rewrite bool_decide_eq_false_2 in Hs by done. destruct (fields_of pkg (bare_type_name ty) !! i) as [[f tf]|] eqn:Ef.
        -- destruct (decide (element_type_name ty = "")) as [Het|Het].
           ++ rewrite bool_decide_eq_true_2 in Hs by done. apply elem_of_app in Hs as [Hs|Hs].
              ** apply record_spec in Hs. exists 0, pkg, (bare_type_name ty), f, e. split; [lia|]. split; [|done]. by apply (holds_position _ ctx t a pkg ty i e f tf).
              ** apply IH' in Hs as (v & [= <-] & Hs). apply (Hdown (pkg, field_type (fields_of pkg (bare_type_name ty)) f) e); [|done].
                 apply (below_position _ ctx t a pkg ty i e f _ tf); [done|done|done|done|done|done|].
                 destruct (field_is_dec (fields_of pkg (bare_type_name ty)) f) as [[t' H]|Hn]; [by rewrite (field_type_some _ _ _ H)|].
                 destruct Hn. apply elem_of_list_fmap. exists (f, tf). split; [done|]. by eapply elem_of_list_lookup_2.
           ++ rewrite bool_decide_eq_false_2 in Hs by done. apply IH' in Hs as (v & [= <-] & Hs). apply (Hdown (pkg, element_type_name ty) e); [|done].
              apply (below_element _ ctx t a pkg ty i e); [done|done|done|done|by left].
        -- apply IH' in Hs as (v & [= <-] & Hs). apply (Hdown (pkg, element_type_name ty) e); [|done].
           apply (below_element _ ctx t a pkg ty i e); [done|done|done|done|by right].
    + intros (d & pkg' & ty' & f & v & Hd & Hh & He).
      inversion Hh as [? ? ? ? e x ? H1 H2 H3 H4 H5 H6 H7|? ? ? ? i e ? tf H1 H2 H3 H4 H5 H6|? ? t' b d' ? ? ? ? Hb Hh']; subst.
      * assert (pkg' = pkg ∧ ty0 = ty) as [-> ->] by (by apply pair_equal_spec; congruence).
        apply elem_of_list_lookup in H3 as [i Hi]. exists i, (Some e). split; [done|]. rewrite bool_decide_eq_true_2 by done. apply elem_of_app. left.
        rewrite H5. rewrite bool_decide_eq_true_2 by done. rewrite H7. by apply record_spec.
      * assert (pkg' = pkg ∧ ty0 = ty) as [-> ->] by (by apply pair_equal_spec; congruence).
        exists i, (Some v). split; [done|]. rewrite bool_decide_eq_false_2 by done. rewrite H6, H5. rewrite bool_decide_eq_true_2 by done. apply elem_of_app. left. by apply record_spec.
      * assert (∃ d pkg ty f v, d < n ∧ holds ctx t' b d pkg ty f v ∧ event ctx pkg ty f v s) as Hrec.
        { exists d', pkg', ty', f, v. split; [lia|done]. }
        clear Hh He Hd Hh'. inversion Hb as [? ? ? G1|? ? ? G1|? ? p1 ty1 e x v1 tf G1 G2 G3 G4 G5 G6 G7 G8|? ? p1 ty1 e x v1 G1 G2 G3 G4 G5 G6 G7|? ? p1 ty1 i e f1 tf tf' G1 G2 G3 G4 G5 G6 G7|? ? p1 ty1 i e G1 G2 G3 G4 G5]; subst; try congruence.
        -- assert (p1 = pkg ∧ ty1 = ty) as [-> ->] by (by apply pair_equal_spec; congruence).
           apply elem_of_list_lookup in G3 as [i Hi]. exists i, (Some e). split; [done|]. rewrite bool_decide_eq_true_2 by done. apply elem_of_app. right.
           assert ((match f_x e with Some x => f_name x | None => "" end) = default "" (f_name <$> f_x e)) as -> by (by destruct (f_x e)).
           apply field_type_some in G7. rewrite G7. rewrite bool_decide_eq_false_2 by done. apply IH'. by exists b.
        -- assert (p1 = pkg ∧ ty1 = ty) as [-> ->] by (by apply pair_equal_spec; congruence).
           apply elem_of_list_lookup in G3 as [i Hi]. exists i, (Some e). split; [done|]. rewrite bool_decide_eq_true_2 by done. apply elem_of_app. right.
           assert ((match f_x e with Some x => f_name x | None => "" end) = default "" (f_name <$> f_x e)) as -> by (by destruct (f_x e)).
           assert (field_type (fields_of pkg (bare_type_name ty)) (default "" (f_name <$> f_x e)) = "") as ->.
           { destruct (field_is_dec (fields_of pkg (bare_type_name ty)) (default "" (f_name <$> f_x e))) as [[tf H]|Hn]; [|by apply field_type_none].
             rewrite (field_type_some _ _ _ H). by apply G7. }
           rewrite bool_decide_eq_true_2 by done. apply IH'. by exists b.
        -- assert (p1 = pkg ∧ ty1 = ty) as [-> ->] by (by apply pair_equal_spec; congruence).
           exists i, (Some b). split; [done|]. rewrite bool_decide_eq_false_2 by done. rewrite G6, G5. rewrite bool_decide_eq_true_2 by done. apply elem_of_app. right.
           rewrite (field_type_some _ _ _ G7). apply IH'. by exists b.
        -- assert (p1 = pkg ∧ ty1 = ty) as [-> ->] by (by apply pair_equal_spec; congruence).
           exists i, (Some b). split; [done|]. rewrite bool_decide_eq_false_2 by done. destruct (fields_of pkg (bare_type_name ty) !! i) as [[f2 tf2]|] eqn:Ef.
           ++ destruct G5 as [G5|?]; [|done]. rewrite bool_decide_eq_false_2 by done. apply IH'. by exists b.
           ++ apply IH'. by exists b.
  - rewrite bool_decide_eq_false_2 by done. rewrite !elem_of_app, elem_of_concat. split.
    + intros [Hs|[Hs|[Hs|(l & Hl & Hs)]]].
      * apply IH' in Hs as (b & Eb & Hs). apply (Hdown t b); [|done]. apply below_part; [done|by left].
      * apply IH' in Hs as (b & Eb & Hs). apply (Hdown t b); [|done]. apply below_part; [done|by right; left].
      * apply IH' in Hs as (b & Eb & Hs). apply (Hdown t b); [|done]. apply below_part; [done|by right; right].
      * apply elem_of_list_fmap in Hl as (c & -> & Hc). apply IH' in Hs as (b & -> & Hs). apply (Hdown ("", "") b); [|done]. by apply below_arg.
    + intros (d & pkg' & ty' & f & v & Hd & Hh & He).
      inversion Hh as [? ? ? ? e x ? H1 H2 H3 H4 H5 H6 H7|? ? ? ? i e ? tf H1 H2 H3 H4 H5 H6|? ? t' b d' ? ? ? ? Hb Hh']; subst; [done|done|].
      assert (∃ d pkg ty f v, d < n ∧ holds ctx t' b d pkg ty f v ∧ event ctx pkg ty f v s) as Hrec.
      { exists d', pkg', ty', f, v. split; [lia|done]. }
      clear Hh He Hd Hh'. inversion Hb as [? ? ? G1 G2|? ? ? G1 G2| | | |]; subst; try congruence.
      * destruct G2 as [G2|[G2|G2]]; [left|right; left|right; right; left]; apply IH'; by exists b.
      * right. right. right. exists (walk n ctx (Some b) ("", "")). split; [|by apply IH]. apply elem_of_list_fmap. by exists (Some b).
Qed.

(** ** Rendered values *)
Lemma is_major_spec s : is_major s = true ↔ major s.
Proof.
  unfold is_major, major. destruct s as [|c [|d r]]; [split; [done|by intros (? & ? & ? & _)]|split; [done|by intros (? & ? & ? & _)]|].
  rewrite andb_true_iff, bool_decide_eq_true. split; [intros [-> H]; by exists d, r|]. by intros (d' & r' & [= -> -> ->] & H).
Qed.
Lemma answers_spec imp q : bool_decide (imp.1 = q) || tail_matches imp.2 q = true ↔ answers imp q.
Proof.
  unfold answers, tail_matches. rewrite orb_true_iff, bool_decide_eq_true. apply or_iff_compat_l.
  destruct (decide (imp.2 = "")) as [H2|H2]; [rewrite bool_decide_eq_true_2 by done; split; [done|by intros (_ & ? & _)]|].
  destruct (decide (q = "")) as [Hq|Hq]; [rewrite (bool_decide_eq_true_2 (q = "")), orb_true_r by done; split; [done|by intros (? & _)]|].
  rewrite !bool_decide_eq_false_2 by done. cbn [orb].
  assert (∀ l, reverse (split_byte "/" imp.2) = l → split_byte "/" imp.2 = reverse l) as Hrev by (intros l <-; by rewrite reverse_involutive).
  destruct (reverse (split_byte "/" imp.2)) as [|x l] eqn:E; pose proof (Hrev _ eq_refl) as ER; rewrite ER.
  { split; [done|]. intros (_ & _ & l' & [H|(v & _ & H)]); apply (f_equal length) in H; rewrite app_length in H; cbn in H; lia. }
  rewrite reverse_cons. split.
  - destruct (decide (x = q)) as [->|Hx]; [intros _; split; [done|]; split; [done|]; exists (reverse l); by left|].
    rewrite bool_decide_eq_false_2 by done. destruct l as [|y l]; [done|]. rewrite andb_true_iff, is_major_spec, bool_decide_eq_true. intros [Hm ->].
    split; [done|]. split; [done|]. exists (reverse l). right. exists x. split; [done|]. rewrite reverse_cons. by rewrite <- app_assoc.
  - intros (_ & _ & l' & [H|(v & Hm & H)]).
    + apply app_inj_tail in H as [_ ->]. by rewrite bool_decide_eq_true_2.
    + replace (l' ++ [q; v]) with ((l' ++ [q]) ++ [v]) in H by (by rewrite <- app_assoc). apply app_inj_tail in H as [H ->].
      destruct (bool_decide (v = q)); [done|]. destruct l as [|y l]; [by destruct l'|]. rewrite reverse_cons in H. apply app_inj_tail in H as [_ ->].
      apply is_major_spec in Hm. rewrite Hm. by rewrite bool_decide_eq_true_2.
Qed.
Lemma cut_dot_spec s q r : cut_dot s = Some (q, r) ↔ s = q +:+ "." +:+ r ∧ contains_byte "." q = false.
Proof.
  revert q. induction s as [|c s IH]; intros q; cbn [cut_dot].
  - split; [done|]. intros [H _]. by destruct q.
  - destruct (decide (c = "."%char)) as [->|Hc].
    + rewrite bool_decide_eq_true_2 by done. split; [by intros [= <- <-]|]. intros [H Hq]. destruct q as [|c q]; [cbn in H; by injection H as ->|].
      cbn in H. injection H as <- H. by cbn in Hq.
    + rewrite bool_decide_eq_false_2 by done. split.
      * destruct (cut_dot s) as [[q' r']|] eqn:E; [|done]. intros [= <- <-]. destruct (proj1 (IH q') eq_refl) as [-> Hq]. split; [done|]. unfold contains_byte in *. cbn. rewrite Hq.
        by rewrite bool_decide_eq_false_2.
      * intros [H Hq]. destruct q as [|c' q]; [cbn in H; injection H as -> _; done|]. cbn in H. injection H as <- H. cbn in Hq. apply orb_false_iff in Hq as [_ Hq].
        rewrite (proj2 (IH q)) by done. done.
Qed.
End dispatch.
