(** * C85: bytes written to the response; C86: map literals. *)
From Coq Require Import Ascii ZArith.
From stdpp Require Import base list strings gmap.
From Verif Require Import StrLib FieldModel SpcModel SpcProps SinkModel.

(** ** What the program says *)
(** The expression under operators, stars and parentheses. *)
Inductive under_ops : carg → carg → Prop :=
  | ops_here a : ca_kind a ∉ [AKUnary; AKStar; AKParen] → under_ops a a
  | ops_step a x b : ca_kind a ∈ [AKUnary; AKStar; AKParen] → ca_x a = Some x → under_ops x b → under_ops a b.
(** An expression accepts a text: empty, or it compiles and matches. *)
Definition accepts (regex : string → option (string → bool)) (re s : string) : Prop := re = "" ∨ ∃ m, regex re = Some m ∧ m s = true.
(** The first configured transform that accepts a call. *)
Definition transform_of (regex : string → option (string → bool)) (ts : list btrans) (func pkg : string) (t : btrans) : Prop :=
  func ≠ "" ∧ ∃ l1 l2, ts = l1 ++ t :: l2 ∧ accepts regex (bt_call t) func ∧ accepts regex (bt_pkg t) pkg ∧
    ∀ x, x ∈ l1 → ¬ (accepts regex (bt_call x) func ∧ accepts regex (bt_pkg x) pkg).
(** The payload of a call of a transform. *)
Definition payload (t : btrans) (call : carg) (v : carg) : Prop := (0 <= bt_arg t)%Z ∧ ca_args call !! Z.to_nat (bt_arg t) = Some (Some v).
(** A returned value is a transform of the variable [p]: the call itself, or a name assigned from it. *)
Definition serialises (regex : string → option (string → bool)) (ts : list btrans) (fn : wfunc) (rv : carg) (p : string) : Prop :=
  ∃ t v, ca_kind v = AKIdent ∧ ca_name v = p ∧
  ((∃ f, ca_kind rv = AKCall ∧ ca_fun rv = Some f ∧ transform_of regex ts (callee_name f) (ca_pkg f) t ∧ payload t rv v) ∨
   (∃ a, ca_kind rv = AKIdent ∧ a ∈ wf_assigns fn (ca_name rv) ∧ transform_of regex ts (wa_func a) (wa_pkg a) t ∧ ca_kind (wa_value a) = AKCall ∧ payload t (wa_value a) v)).
(** A value returned by a function. *)
Definition returned (fn : wfunc) (rv : carg) : Prop := (∃ r, r ∈ wf_returns fn ∧ rv ∈ r) ∨ rv ∈ wf_vars fn.
Definition sane (ts : list btrans) : Prop := ∀ t, t ∈ ts → (0 <= bt_arg t)%Z.

(** ** Proofs *)
Lemma strip_sink_spec a b : strip_sink a = Some b ↔ under_ops a b.
Proof.
  split.
  - revert b. induction a as [k n p t v x f s l IH] using carg_x_ind. intros b.
    assert (k ∉ [AKUnary; AKStar; AKParen] → under_ops (CArg k n p t v x f s l) (CArg k n p t v x f s l)) as Hh by (intros ?; by apply ops_here).
    assert (∀ y, x = Some y → k ∈ [AKUnary; AKStar; AKParen] → strip_sink y = Some b → under_ops (CArg k n p t v x f s l) b) as Hs.
    { intros y Hy Hk H. eapply ops_step; [done|done|]. by apply IH. }
    destruct k; cbn [strip_sink]; try (intros [= <-]; apply Hh; intros H; repeat (apply elem_of_cons in H as [H|H]; [done|]); by apply elem_of_nil in H).
    + destruct x as [y|]; [|done]. apply Hs; [done|left].
    + destruct x as [y|]; [|done]. apply Hs; [done|right; left].
    + destruct x as [y|]; [|done]. apply Hs; [done|right; right; left].
  - induction 1 as [a Hk|a x b Hk Hx Hu IH].
    + destruct a as [k n p t v x f s l]. cbn in Hk. destruct k; try done; exfalso; apply Hk; [left|right; left|right; right; left].
    + destruct a as [k n p t v x' f s l]. cbn in Hk, Hx. subst x'. destruct k; try done; exfalso; repeat (apply elem_of_cons in Hk as [Hk|Hk]; [done|]); by apply elem_of_nil in Hk.
Qed.
Lemma re_accepts_spec regex re s : re_accepts regex re s = true ↔ accepts regex re s.
Proof.
  unfold re_accepts, accepts. destruct (decide (re = "")) as [->|Hne]; [split; [by left|done]|]. destruct (regex re) as [m|].
  - split; [intros ?; right; by exists m|]. intros [?|(m' & [= <-] & ?)]; done.
  - split; [done|]. intros [?|(m' & ? & _)]; done.
Qed.
Lemma head_filter_spec {A} (f : A → bool) l x : head (filter (λ y, f y) l) = Some x ↔ ∃ l1 l2, l = l1 ++ x :: l2 ∧ f x = true ∧ ∀ y, y ∈ l1 → f y = false.
Proof.
  induction l as [|a l IH].
  - split; [done|]. intros (l1 & l2 & H & _). by destruct l1.
  - destruct (f a) eqn:E.
    + rewrite filter_cons_True by (apply Is_true_true; exact E). cbn [head]. split.
      * intros [= <-]. exists [], l. split; [done|]. split; [done|]. by intros ? ?%elem_of_nil.
      * intros ([|b l1] & l2 & Heq & Hx & Hn); cbn in Heq; [by injection Heq as -> _|]. injection Heq as <- _. specialize (Hn a (elem_of_list_here _ _)). congruence.
    + rewrite filter_cons_False by (intros H%Is_true_true; congruence). rewrite IH. split.
      * intros (l1 & l2 & -> & Hx & Hn). exists (a :: l1), l2. split; [done|]. split; [done|]. intros y [->|?]%elem_of_cons; [done|by apply Hn].
      * intros ([|b l1] & l2 & Heq & Hx & Hn); cbn in Heq; [injection Heq as -> _; congruence|]. injection Heq as <- ->. exists l1, l2. split; [done|]. split; [done|]. intros y ?. apply Hn. by right.
Qed.
Lemma match_transform_spec regex ts func pkg i : match_transform regex ts func pkg = Some i ↔ ∃ t, transform_of regex ts func pkg t ∧ bt_arg t = i.
Proof.
  unfold match_transform, transform_of. destruct (decide (func = "")) as [->|Hf]; [split; [done|]; by intros (? & [? _] & _)|].
  assert (∀ t, re_accepts regex (bt_call t) func && re_accepts regex (bt_pkg t) pkg = true ↔ accepts regex (bt_call t) func ∧ accepts regex (bt_pkg t) pkg) as Hacc.
  { intros t. by rewrite andb_true_iff, !re_accepts_spec. }
  rewrite fmap_Some. setoid_rewrite head_filter_spec. split.
  - intros (t & (l1 & l2 & -> & Ht & Hn) & ->). exists t. split; [|done]. split; [done|]. exists l1, l2. apply Hacc in Ht as [? ?]. split; [done|]. split; [done|]. split; [done|].
    intros x Hx Hax. apply Hacc in Hax. specialize (Hn x Hx). congruence.
  - intros (t & (_ & l1 & l2 & -> & H1 & H2 & Hn) & <-). exists t. split; [|done]. exists l1, l2. split; [done|]. split; [by apply Hacc|].
    intros y Hy. destruct (_ && _) eqn:E; [|done]. apply Hacc in E. by destruct (Hn y Hy).
Qed.
Lemma transform_in regex ts func pkg t : transform_of regex ts func pkg t → t ∈ ts.
Proof. intros (_ & l1 & l2 & -> & _). apply elem_of_app. right. left. Qed.
Lemma transform_fun regex ts func pkg t t' : transform_of regex ts func pkg t → transform_of regex ts func pkg t' → bt_arg t = bt_arg t'.
Proof.
  intros H1 H2. assert (match_transform regex ts func pkg = Some (bt_arg t)) by (apply match_transform_spec; by exists t).
  assert (match_transform regex ts func pkg = Some (bt_arg t')) by (apply match_transform_spec; by exists t'). congruence.
Qed.
Lemma payload_at_spec args i : (0 <= i)%Z → payload_at args i = Some (args !! Z.to_nat i).
Proof.
  intros Hi. unfold payload_at. destruct (decide (i < _)%Z) as [H|H]; [by rewrite decide_False by lia|]. f_equal. symmetry. apply lookup_ge_None. lia.
Qed.
Lemma payload_default (args : list (option carg)) (i : nat) v : default None (args !! i) = Some v ↔ args !! i = Some (Some v).
Proof. destruct (args !! i) as [[w|]|]; cbn; split; intros H; congruence. Qed.

Section helper.
  Context (regex : string → option (string → bool)) (ts : list btrans) (Hs : sane ts).
  Notation mt := (match_transform regex ts).
  Lemma serialized_by_spec assigns : ∃ p, serialized_by regex ts assigns = Some p ∧
    (p ≠ "" → ∃ a t v, a ∈ assigns ∧ transform_of regex ts (wa_func a) (wa_pkg a) t ∧ ca_kind (wa_value a) = AKCall ∧ payload t (wa_value a) v ∧ ca_kind v = AKIdent ∧ ca_name v = p) ∧
    (p = "" → ∀ a t v, a ∈ assigns → transform_of regex ts (wa_func a) (wa_pkg a) t → ca_kind (wa_value a) = AKCall → payload t (wa_value a) v → ca_kind v = AKIdent →
      ∃ a' t' v', a' ∈ assigns ∧ transform_of regex ts (wa_func a') (wa_pkg a') t' ∧ ca_kind (wa_value a') = AKCall ∧ payload t' (wa_value a') v' ∧ ca_kind v' = AKIdent ∧ ca_name v' = "").
  Proof.
    induction assigns as [|a assigns (p & Hp & H1 & H2)].
    - exists "". split; [done|]. split; [done|]. by intros _ ? ? ? ?%elem_of_nil.
    - cbn [serialized_by].
      assert ((∀ t v, transform_of regex ts (wa_func a) (wa_pkg a) t → ca_kind (wa_value a) = AKCall → payload t (wa_value a) v → ca_kind v = AKIdent → False) →
        ∃ p0, serialized_by regex ts assigns = Some p0 ∧
        (p0 ≠ "" → ∃ a0 t v, a0 ∈ a :: assigns ∧ transform_of regex ts (wa_func a0) (wa_pkg a0) t ∧ ca_kind (wa_value a0) = AKCall ∧ payload t (wa_value a0) v ∧ ca_kind v = AKIdent ∧ ca_name v = p0) ∧
        (p0 = "" → ∀ a0 t v, a0 ∈ a :: assigns → transform_of regex ts (wa_func a0) (wa_pkg a0) t → ca_kind (wa_value a0) = AKCall → payload t (wa_value a0) v → ca_kind v = AKIdent →
          ∃ a' t' v', a' ∈ a :: assigns ∧ transform_of regex ts (wa_func a') (wa_pkg a') t' ∧ ca_kind (wa_value a') = AKCall ∧ payload t' (wa_value a') v' ∧ ca_kind v' = AKIdent ∧ ca_name v' = "")) as Hskip.
      { intros Hno. exists p. split; [done|]. split.
        - intros Hne. destruct (H1 Hne) as (a0 & t & v & ? & Hr). exists a0, t, v. split; [by right|done].
        - intros -> a0 t v [->|Hin]%elem_of_cons Ht Hk Hpl Hv; [by destruct (Hno t v)|]. destruct (H2 eq_refl a0 t v Hin Ht Hk Hpl Hv) as (a' & t' & v' & ? & Hr). exists a', t', v'. split; [by right|done]. }
      destruct (mt (wa_func a) (wa_pkg a)) as [i|] eqn:Em; cycle 1.
      { apply Hskip. intros t v Ht _ _ _. assert (mt (wa_func a) (wa_pkg a) = Some (bt_arg t)) by (apply match_transform_spec; by exists t). congruence. }
      apply match_transform_spec in Em as (t & Ht & <-). destruct (decide (ca_kind (wa_value a) = AKCall)) as [Hk|Hk]; cycle 1.
      { apply Hskip. by intros. }
      rewrite payload_at_spec by (apply Hs; by eapply transform_in).
      destruct (ca_args (wa_value a) !! Z.to_nat (bt_arg t)) as [[v|]|] eqn:Ea.
      + destruct (decide (ca_kind v = AKIdent)) as [Hv|Hv]; cycle 1.
        { apply Hskip. intros t' v' Ht' _ [_ Hpl] Hv'. rewrite (transform_fun _ _ _ _ _ _ Ht' Ht) in Hpl. congruence. }
        assert (payload t (wa_value a) v) as Hpl by (split; [apply Hs; by eapply transform_in|done]).
        exists (ca_name v). split; [done|]. split.
        * intros _. exists a, t, v. split; [left|done].
        * intros He _ _ _ _ _ _ _ _. exists a, t, v. split; [left|done].
      + apply Hskip. intros t' v' Ht' _ [_ Hpl] Hv'. rewrite (transform_fun _ _ _ _ _ _ Ht' Ht) in Hpl. congruence.
      + apply Hskip. intros t' v' Ht' _ [_ Hpl] Hv'. rewrite (transform_fun _ _ _ _ _ _ Ht' Ht) in Hpl. congruence.
  Qed.
  Lemma consider_spec fn rv : ∃ p, consider regex ts fn rv = Some p ∧ (p ≠ "" → serialises regex ts fn rv p) ∧
    (p = "" → ∀ q, serialises regex ts fn rv q → serialises regex ts fn rv "").
  Proof.
    unfold consider. destruct (ca_kind rv) eqn:Ek.
    all: try (exists ""; split; [done|]; split; [done|]; intros _ q (t & v & _ & _ & [(f & ? & _)|(a & ? & _)]); congruence).
    - destruct (serialized_by_spec (wf_assigns fn (ca_name rv))) as (p & Hp & H1 & H2). assert (ca_kind rv = AKIdent) as Ek' by done.
      exists p. split; [done|]. split.
      + intros Hne. destruct (H1 Hne) as (a & t & v & ? & ? & ? & ? & ? & ?). exists t, v. split; [done|]. split; [done|]. right. by exists a.
      + intros He q (t & v & Hv & _ & [(f & ? & _)|(a & _ & Ha & Ht & Hk & Hpl)]); [congruence|].
        destruct (H2 He a t v Ha Ht Hk Hpl Hv) as (a' & t' & v' & ? & ? & ? & ? & ? & ?). exists t', v'. split; [done|]. split; [done|]. right. by exists a'.
    - destruct (ca_fun rv) as [f|] eqn:Ef; cycle 1.
      { exists "". split; [done|]. split; [done|]. intros _ q (t & v & _ & _ & [(f & _ & ? & _)|(a & ? & _)]); congruence. }
      destruct (mt (callee_name f) (ca_pkg f)) as [i|] eqn:Em; cycle 1.
      { exists "". split; [done|]. split; [done|]. intros _ q (t & v & _ & _ & [(f' & _ & ? & Ht & _)|(a & ? & _)]); [|congruence]. assert (f' = f) as -> by congruence.
        assert (mt (callee_name f) (ca_pkg f) = Some (bt_arg t)) by (apply match_transform_spec; by exists t). congruence. }
      apply match_transform_spec in Em as (t & Ht & <-). rewrite payload_at_spec by (apply Hs; by eapply transform_in).
      assert (∀ v q, default None (ca_args rv !! Z.to_nat (bt_arg t)) = Some v → ca_kind v = AKIdent → ca_name v = q → serialises regex ts fn rv q) as Hin.
      { intros v q Hv Hki <-. apply payload_default in Hv. exists t, v. split; [done|]. split; [done|]. left. exists f. split; [done|]. split; [done|]. split; [done|]. split; [apply Hs; by eapply transform_in|done]. }
      assert (∀ q, serialises regex ts fn rv q → ∃ v, default None (ca_args rv !! Z.to_nat (bt_arg t)) = Some v ∧ ca_kind v = AKIdent ∧ ca_name v = q) as Hout.
      { intros q (t' & v & Hv & <- & [(f' & _ & ? & Ht' & [_ Hpl])|(a & ? & _)]); [|congruence]. assert (f' = f) as -> by congruence.
        rewrite (transform_fun _ _ _ _ _ _ Ht' Ht) in Hpl. exists v. by rewrite Hpl. }
      eexists. split; [reflexivity|]. unfold ident_name. destruct (default None _) as [v|]; cycle 1.
      { split; [done|]. intros _ q Hq. by destruct (Hout q Hq) as (v & ? & _). }
      destruct (decide (ca_kind v = AKIdent)) as [Hv|Hv].
      + split; [intros _; by eapply Hin|]. intros He q _. by eapply Hin.
      + split; [done|]. intros _ q Hq. by destruct (Hout q Hq) as (v' & [= <-] & ? & _).
  Qed.
  Lemma first_considered_spec fn rvs : ∃ p, first_considered regex ts fn rvs = Some p ∧ (p ≠ "" → ∃ rv, rv ∈ rvs ∧ serialises regex ts fn rv p) ∧
    (p = "" → ∀ rv q, rv ∈ rvs → serialises regex ts fn rv q → serialises regex ts fn rv "").
  Proof.
    induction rvs as [|rv rvs (p & Hp & H1 & H2)]; cbn [first_considered].
    - exists "". split; [done|]. split; [done|]. by intros _ ? ? ?%elem_of_nil.
    - destruct (consider_spec fn rv) as (q & -> & G1 & G2). destruct (decide (q = "")) as [->|Hq].
      + exists p. split; [done|]. split.
        * intros Hne. destruct (H1 Hne) as (rv' & ? & ?). exists rv'. split; [by right|done].
        * intros He rv' q' [->|?]%elem_of_cons Hq'; [by apply (G2 eq_refl q')|by apply (H2 He rv' q')].
      + exists q. split; [done|]. split; [|done]. intros _. exists rv. split; [left|by apply G1].
  Qed.
  Lemma returned_spec fn rv : rv ∈ concat (wf_returns fn) ++ wf_vars fn ↔ returned fn rv.
  Proof.
    unfold returned. rewrite elem_of_app. f_equiv. rewrite elem_of_list_In, in_concat. split; intros (r & H1 & H2); exists r; rewrite ?elem_of_list_In in *; done.
  Qed.
End helper.
Lemma param_index_spec params p i : param_index params p = Some i ↔ params !! i = Some (Some p) ∧ ∀ j, j < i → params !! j ≠ Some (Some p).
Proof.
  revert i. induction params as [|q params IH]; intros i; cbn [param_index].
  - split; [done|]. by intros [? _].
  - destruct (decide (q = Some p)) as [->|Hne].
    + split; [intros [= <-]; split; [done|lia]|]. intros [_ H]. destruct i; [done|]. destruct (H 0); [lia|done].
    + rewrite fmap_Some. setoid_rewrite IH. split.
      * intros (j & [H1 H2] & ->). split; [done|]. intros [|k] Hk; [cbn; congruence|]. apply H2. lia.
      * intros [H1 H2]. destruct i as [|i]; [cbn in H1; congruence|]. exists i. split; [|done]. split; [done|]. intros j Hj. apply (H2 (S j)). lia.
Qed.

(** ** Theorems on the sink *)
(** With payload positions that are not negative, no write makes the walk fail. *)
Theorem C85_no_panic (regex : string → option (string → bool)) (ts : list btrans) (find_function : string → string → option wfunc) (assigns_at : string → list wassign) (caller_pkg : string) (arg : carg) :
  sane ts → is_Some (unwrap_sink regex ts find_function assigns_at caller_pkg arg).
Proof.
  intros Hs. unfold unwrap_sink. destruct (decide (ts = [])); [by eexists|]. destruct (strip_sink arg) as [b|]; [|by eexists].
  destruct (decide (ca_kind b = AKIdent)).
  - destruct (last _) as [a|]; [|by eexists]. destruct (match_transform _ _ _ _) as [i|] eqn:Em; [|by eexists]. apply match_transform_spec in Em as (t & Ht & <-).
    destruct (decide (ca_kind (wa_value a) = AKCall)); [|by eexists]. rewrite payload_at_spec by (apply Hs; by eapply transform_in). by eexists.
  - destruct (decide (ca_kind b = AKCall)); [|by eexists]. unfold unwrap_helper. destruct (ca_fun b) as [f|]; [|by eexists]. destruct (decide (callee_name f = "")); [by eexists|].
    destruct (find_function _ _) as [fn|]; [|by eexists]. unfold serialized_param. destruct (first_considered_spec regex ts Hs fn (concat (wf_returns fn) ++ wf_vars fn)) as (p & -> & _).
    destruct (decide (p = "")); by eexists.
Qed.
(** Writing a variable documents a value exactly when the variable's last assignment is a call of a
    transform with that value as its payload. *)
Theorem C85_variable (regex : string → option (string → bool)) (ts : list btrans) (find_function : string → string → option wfunc) (assigns_at : string → list wassign) (caller_pkg : string) (arg b v : carg) :
  sane ts → under_ops arg b → ca_kind b = AKIdent →
  unwrap_sink regex ts find_function assigns_at caller_pkg arg = Some (Some v) ↔
  ∃ before a t, assigns_at (ca_name b) = before ++ [a] ∧ transform_of regex ts (wa_func a) (wa_pkg a) t ∧ ca_kind (wa_value a) = AKCall ∧ payload t (wa_value a) v.
Proof.
  intros Hs Hu Hk. apply strip_sink_spec in Hu. unfold unwrap_sink. rewrite Hu. destruct (decide (ts = [])) as [->|_].
  { split; [done|]. intros (? & ? & t & _ & Ht & _). by apply transform_in, elem_of_nil in Ht. }
  rewrite decide_True by done. split.
  - destruct (last _) as [a|] eqn:El; [|done]. apply last_Some in El as [before El]. destruct (match_transform _ _ _ _) as [i|] eqn:Em; [|done]. apply match_transform_spec in Em as (t & Ht & <-).
    assert (0 <= bt_arg t)%Z as H0 by (apply Hs; by eapply transform_in). destruct (decide (ca_kind (wa_value a) = AKCall)) as [Hc|]; [|done]. rewrite payload_at_spec by done.
    intros Hv. exists before, a, t. split; [done|]. split; [done|]. split; [done|]. split; [done|]. apply payload_default. by injection Hv.
  - intros (before & a & t & -> & Ht & Hc & H0 & Hp). rewrite last_snoc. assert (match_transform regex ts (wa_func a) (wa_pkg a) = Some (bt_arg t)) as -> by (apply match_transform_spec; by exists t).
    rewrite decide_True by done. rewrite payload_at_spec by done. by rewrite Hp.
Qed.
(** Writing the result of a helper documents an argument of this call only when the helper returns a
    transform of the parameter it is passed for. *)
Theorem C85_helper_sound (regex : string → option (string → bool)) (ts : list btrans) (find_function : string → string → option wfunc) (assigns_at : string → list wassign) (caller_pkg : string) (arg b v : carg) :
  sane ts → under_ops arg b → ca_kind b ≠ AKIdent →
  unwrap_sink regex ts find_function assigns_at caller_pkg arg = Some (Some v) →
  ca_kind b = AKCall ∧ ∃ f fn rv p i, ca_fun b = Some f ∧ callee_name f ≠ "" ∧
    find_function (if decide (ca_pkg f = "") then caller_pkg else ca_pkg f) (callee_name f) = Some fn ∧ returned fn rv ∧ p ≠ "" ∧ serialises regex ts fn rv p ∧
    wf_params fn !! i = Some (Some p) ∧ (∀ j, j < i → wf_params fn !! j ≠ Some (Some p)) ∧ ca_args b !! i = Some (Some v).
Proof.
  intros Hs Hu Hk. apply strip_sink_spec in Hu. unfold unwrap_sink. rewrite Hu. destruct (decide (ts = [])); [done|]. rewrite decide_False by done.
  destruct (decide (ca_kind b = AKCall)) as [Hc|]; [|done]. unfold unwrap_helper. destruct (ca_fun b) as [f|] eqn:Ef; [|done]. destruct (decide (callee_name f = "")) as [|Hn]; [done|].
  destruct (find_function _ _) as [fn|] eqn:Efn; [|done]. unfold serialized_param. destruct (first_considered_spec regex ts Hs fn (concat (wf_returns fn) ++ wf_vars fn)) as (p & -> & H1 & _).
  destruct (decide (p = "")) as [|Hp]; [done|]. intros [= H]. destruct (param_index (wf_params fn) p) as [i|] eqn:Ei; [|done]. cbn in H. apply payload_default in H. apply param_index_spec in Ei as [Hi1 Hi2].
  destruct (H1 Hp) as (rv & Hrv & Hser). apply returned_spec in Hrv. split; [done|]. exists f, fn, rv, p, i. done.
Qed.
(** A helper that serialises one parameter and nothing else always documents the argument passed for it.
    Missing from the full statement: helpers with several serialised names (see the refutation). *)
Theorem C85_helper_complete_partial (regex : string → option (string → bool)) (ts : list btrans) (find_function : string → string → option wfunc) (assigns_at : string → list wassign) (caller_pkg : string)
    (arg b f rv v : carg) (fn : wfunc) (p : string) (i : nat) :
  sane ts → under_ops arg b → ca_kind b = AKCall → ca_fun b = Some f → callee_name f ≠ "" →
  find_function (if decide (ca_pkg f = "") then caller_pkg else ca_pkg f) (callee_name f) = Some fn →
  returned fn rv → p ≠ "" → serialises regex ts fn rv p → (∀ rv' q, returned fn rv' → serialises regex ts fn rv' q → q = p) →
  wf_params fn !! i = Some (Some p) → (∀ j, j < i → wf_params fn !! j ≠ Some (Some p)) → ca_args b !! i = Some (Some v) →
  unwrap_sink regex ts find_function assigns_at caller_pkg arg = Some (Some v).
Proof.
  intros Hs Hu Hc Hf Hn Hfn Hrv Hp Hser Hone Hi1 Hi2 Hv. apply strip_sink_spec in Hu. unfold unwrap_sink. rewrite Hu. rewrite decide_False; cycle 1.
  { intros ->. destruct Hser as (t & ? & _ & _ & [(? & _ & _ & Ht & _)|(? & _ & _ & Ht & _)]); by apply transform_in, elem_of_nil in Ht. }
  rewrite decide_False by congruence. rewrite decide_True by done. unfold unwrap_helper. rewrite Hf. rewrite decide_False by done. rewrite Hfn. unfold serialized_param.
  destruct (first_considered_spec regex ts Hs fn (concat (wf_returns fn) ++ wf_vars fn)) as (q & -> & H1 & H2). destruct (decide (q = "")) as [->|Hq].
  - destruct Hp. symmetry. apply (Hone rv ""); [done|]. apply (H2 eq_refl rv p); [by apply returned_spec|done].
  - destruct (H1 Hq) as (rv' & Hrv' & Hser'). apply returned_spec in Hrv'. rewrite (Hone rv' q Hrv' Hser').
    assert (param_index (wf_params fn) p = Some i) as -> by (apply param_index_spec; done). cbn. by rewrite Hv.
Qed.
Print Assumptions C85_no_panic.
Print Assumptions C85_variable.
Print Assumptions C85_helper_sound.
Print Assumptions C85_helper_complete_partial.

(** ** Cases *)
Definition ex_regex (re : string) : option (string → bool) := if decide (re = "(") then None else Some (λ s, bool_decide (s = re)).
Definition ex_transforms : list btrans := [BTrans "(" "" 3; BTrans "Marshal" "encoding/json" 0].
Definition call_of (pkg name : string) (args : list carg) : carg :=
  CArg AKCall "" "" "" "" None (Some (CArg AKSelector "" pkg "" "" None None (Some (ident name "")) [])) None (Some <$> args).
Definition marshal (v : string) : carg := call_of "encoding/json" "Marshal" [ident v ""].
Definition from_marshal (v : string) : wassign := WAssign "Marshal" "encoding/json" (marshal v).
(** [func encode(w, e) []byte { b, _ := json.Marshal(e); return b }]. *)
Definition ex_encode : wfunc := WFunc [Some "w"; Some "e"] (λ n, if decide (n = "b") then [from_marshal "e"] else []) [[ident "b" "[]byte"]] [ident "b" "[]byte"].
Definition ex_helpers (pkg name : string) : option wfunc := if decide (pkg = "m" ∧ name = "encode") then Some ex_encode else None.
Definition ex_assigns (n : string) : list wassign := if decide (n = "b") then [from_marshal "old"; from_marshal "user"] else [].
Example C85_example :
  unwrap_sink ex_regex ex_transforms ex_helpers ex_assigns "m" (CArg AKUnary "" "" "" "" (Some (ident "b" "")) None None []) = Some (Some (ident "user" "")) ∧
  unwrap_sink ex_regex ex_transforms ex_helpers ex_assigns "m" (call_of "" "encode" [ident "w" ""; ident "order" ""]) = Some (Some (ident "order" "")) ∧
  unwrap_sink ex_regex ex_transforms ex_helpers ex_assigns "m" (ident "raw" "") = Some None ∧
  unwrap_sink ex_regex ex_transforms ex_helpers ex_assigns "m" (call_of "fmt" "encode" [ident "order" ""]) = Some None.
Proof. by vm_compute. Qed.
Lemma ex_sane : sane ex_transforms.
Proof. intros t [->|[->|?%elem_of_nil]%elem_of_cons]%elem_of_cons; done. Qed.

(** Full statement, false: no configuration makes the walk fail. A negative payload position passes the
    guard [len(args) > idx]. *)
Theorem C85_negative_refuted : ∃ ts a, unwrap_sink ex_regex ts ex_helpers ex_assigns "m" a = None.
Proof. exists [BTrans "Marshal" "" (-1)], (ident "b" ""). by vm_compute. Qed.
(** Full statement, false: an argument serialised on some return is found. A return of other serialised
    bytes that comes first hides it. *)
Theorem C85_hidden_refuted : ∃ fn call p i v, returned fn (marshal p) ∧ serialises ex_regex ex_transforms fn (marshal p) p ∧ wf_params fn !! i = Some (Some p) ∧ ca_args call !! i = Some (Some v) ∧
  unwrap_sink ex_regex ex_transforms (λ _ _, Some fn) ex_assigns "m" call = Some None.
Proof.
  exists (WFunc [Some "e"] (λ _, []) [[marshal "failure"]; [marshal "e"]] []), (call_of "m" "encode" [ident "order" ""]), "e", 0, (ident "order" "").
  split; [left; exists [marshal "e"]; split; [right; left|left]|]. split; [|done].
  exists (BTrans "Marshal" "encoding/json" 0), (ident "e" ""). split; [done|]. split; [done|]. left. eexists. split; [done|]. split; [done|]. split; [|by split].
  split; [done|]. exists [BTrans "(" "" 3], []. split; [done|]. split; [right; eexists; split; [done|by vm_compute]|]. split; [right; eexists; split; [done|by vm_compute]|].
  intros x ->%elem_of_list_singleton [[?|(m & Hm & _)] _]; done.
Qed.
(** Full statement, false: the value documented is the one in the variable when it is returned. In a
    helper the first assignment counts, at the sink itself the last. *)
Theorem C85_first_refuted : ∃ fn call, wf_assigns fn "b" = [from_marshal "x"; from_marshal "y"] ∧ wf_returns fn = [[ident "b" ""]] ∧
  unwrap_sink ex_regex ex_transforms (λ _ _, Some fn) ex_assigns "m" call = Some (Some (ident "first" "")) ∧ wf_params fn = [Some "x"; Some "y"] ∧ ca_args call = [Some (ident "first" ""); Some (ident "last" "")].
Proof.
  exists (WFunc [Some "x"; Some "y"] (λ _, [from_marshal "x"; from_marshal "y"]) [[ident "b" ""]] []), (call_of "m" "encode" [ident "first" ""; ident "last" ""]). by vm_compute.
Qed.
Print Assumptions C85_negative_refuted.
Print Assumptions C85_hidden_refuted.
Print Assumptions C85_first_refuted.
