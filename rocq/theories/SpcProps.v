(** * C84: response wrappers specialised at the call. *)
From Coq Require Import Ascii ZArith.
From stdpp Require Import base list strings gmap.
From Verif Require Import StrLib StrSplit PathModel ScanModel FieldModel GenModel SccSpec SpcModel EmbedProofs.

(** ** What the literal says *)
(** The expression under address-of signs and parentheses. *)
Inductive under : carg → carg → Prop :=
  | under_here a : ca_kind a ∉ [AKUnary; AKParen] → under a a
  | under_step a x b : ca_kind a ∈ [AKUnary; AKParen] → ca_x a = Some x → under x b → under a b.
(** An element [field: param] that sets a field to a named parameter. *)
Definition sets (params : list (option string)) (elt : option carg) (f p : string) : Prop :=
  ∃ e k v, elt = Some e ∧ ca_kind e = AKKeyValue ∧ ca_x e = Some k ∧ ca_fun e = Some v ∧
    ca_kind k = AKIdent ∧ ca_kind v = AKIdent ∧ ca_name k = f ∧ ca_name v = p ∧ f ≠ "" ∧ p ≠ "" ∧ Some p ∈ params.
(** The first field of a struct with a name. *)
Definition declares (fields : list field) (name : string) (fd : field) : Prop :=
  ∃ l1 l2, fields = l1 ++ fd :: l2 ∧ fl_name fd = name ∧ ∀ x, x ∈ l1 → fl_name x ≠ name.
(** A field declared with the empty interface, or a pointer to it. *)
Definition generic_field (fd : field) : Prop := fl_type fd ∈ ["interface{}"; "any"; "*interface{}"; "*any"].
(** The name of a field in JSON as the code reads it off the tag. *)
Definition json_of (fd : field) : string := if decide (extract_json_name (fl_tag fd) = "") then fl_name fd else extract_json_name (fl_tag fd).

(** ** Proofs *)
Lemma carg_x_ind (P : carg → Prop) : (∀ k n p t v x f s l, (∀ y, x = Some y → P y) → P (CArg k n p t v x f s l)) → ∀ a, P a.
Proof.
  intros H. fix IH 1. intros [k n p t v x f s l]. apply H. destruct x as [z|]; intros y E; [|discriminate E].
  exact (eq_ind z P (IH z) y (f_equal (λ o, match o with Some w => w | None => z end) E)).
Qed.
Lemma strip_wrap_under a : ∀ b, strip_wrap a = Some b → under a b.
Proof.
  induction a as [k n p t v x f s l IH] using carg_x_ind. intros b.
  assert (k ∉ [AKUnary; AKParen] → under (CArg k n p t v x f s l) (CArg k n p t v x f s l)) as Hh by (intros ?; by apply under_here).
  assert (∀ y, x = Some y → k ∈ [AKUnary; AKParen] → strip_wrap y = Some b → under (CArg k n p t v x f s l) b) as Hs.
  { intros y Hy Hk H. eapply under_step; [done|done|]. by apply IH. }
  destruct k; cbn [strip_wrap]; try (intros [= <-]; apply Hh; intros H; apply elem_of_cons in H as [H|H]; [done|]; apply elem_of_list_singleton in H; done).
  - destruct x as [y|]; [|done]. apply Hs; [done|left].
  - destruct x as [y|]; [|done]. apply Hs; [done|right; left].
Qed.
Lemma strip_wrap_spec a b : strip_wrap a = Some b ↔ under a b.
Proof.
  split; [apply strip_wrap_under|]. induction 1 as [a Hk|a x b Hk Hx Hu IH].
  - destruct a as [k n p t v x f s l]. cbn in Hk. destruct k; try done; exfalso; apply Hk; [left|right; left].
  - destruct a as [k n p t v x' f s l]. cbn in Hk, Hx. subst x'. destruct k; try (by repeat (apply elem_of_cons in Hk as [?|Hk]); try done; apply elem_of_nil in Hk); done.
Qed.
Lemma field_param_spec params elt f p : field_param params elt = Some (f, p) ↔ sets params elt f p.
Proof.
  unfold field_param, sets. destruct elt as [e|]; cbn; [|split; [done|intros (? & ? & ? & ? & _); done]].
  assert (∀ q, q ≠ "" → q ∈ param_names params ↔ Some q ∈ params) as Hp.
  { intros q Hq. unfold param_names. rewrite elem_of_list_fmap. split; [|intros ?; by exists (Some q)]. intros ([y|] & -> & ?); done. }
  destruct (decide (ca_kind e = AKKeyValue)) as [H1|H1]; [|split; [done|intros (? & ? & ? & [= <-] & ? & _); done]].
  destruct (ca_x e) as [k|] eqn:Ek; cbn; [|split; [done|intros (? & ? & ? & [= <-] & ? & ? & _); congruence]].
  destruct (ca_fun e) as [v|] eqn:Ev; cbn; [|split; [done|intros (? & ? & ? & [= <-] & ? & ? & ? & _); congruence]].
  destruct (decide _) as [[H2 H3]|H2]; cycle 1.
  { split; [done|]. intros (? & ? & ? & [= <-] & ? & Hx & Hf & ? & ? & _). rewrite Ek in Hx. rewrite Ev in Hf. injection Hx as <-. injection Hf as <-. by destruct H2. }
  destruct (decide _) as [H4|H4]; cycle 1.
  - destruct (decide (ca_name v ∈ _)) as [H5|H5].
    + split.
      * intros [= <- <-]. exists e, k, v. repeat (split; [done|]). split; [by intros ?; apply H4; left|]. split; [by intros ?; apply H4; right|].
        apply Hp; [by intros ?; apply H4; right|done].
      * intros (? & ? & ? & [= <-] & ? & Hx & Hf & ? & ? & <- & <- & _). rewrite Ek in Hx. rewrite Ev in Hf. by simplify_eq.
    + split; [done|]. intros (? & ? & ? & [= <-] & ? & Hx & Hf & ? & ? & <- & <- & ? & ? & Hin). rewrite Ek in Hx. rewrite Ev in Hf. injection Hx as <-. injection Hf as <-. destruct H5. by apply Hp.
  - split; [done|]. intros (? & ? & ? & [= <-] & ? & Hx & Hf & ? & ? & <- & <- & ? & ? & _). rewrite Ek in Hx. rewrite Ev in Hf. injection Hx as <-. injection Hf as <-. by destruct H4.
Qed.
Lemma foldl_bind params (l : list (option carg)) : ∀ (m : gmap string string) f p,
  foldl (λ m elt, match field_param params elt with Some (f, p) => <[f := p]> m | None => m end) m l !! f = Some p ↔
  (∃ l1 e l2, l = l1 ++ e :: l2 ∧ sets params e f p ∧ ∀ e' p', e' ∈ l2 → ¬ sets params e' f p') ∨
  (m !! f = Some p ∧ ∀ e p', e ∈ l → ¬ sets params e f p').
Proof.
  induction l as [|e l IH] using rev_ind; intros m f p.
  - cbn. split; [intros ?; right; split; [done|]; by intros ? ? ?%elem_of_nil|]. intros [(l1 & e & l2 & H & _)|[? _]]; [by destruct l1|done].
  - rewrite foldl_app. cbn [foldl]. specialize (IH m f p). revert IH. set (m' := foldl _ m l). intros IH.
    assert ((∃ l1 e0 l2, l ++ [e] = l1 ++ e0 :: l2 ∧ sets params e0 f p ∧ ∀ e' p', e' ∈ l2 → ¬ sets params e' f p') ↔
      sets params e f p ∨ (∀ p', ¬ sets params e f p') ∧ ∃ l1 e0 l2, l = l1 ++ e0 :: l2 ∧ sets params e0 f p ∧ ∀ e' p', e' ∈ l2 → ¬ sets params e' f p') as Hsplit.
    { split.
      - intros (l1 & e0 & l2 & Heq & Hs & Hn). destruct l2 as [|z l2' _] using rev_ind.
        + apply app_inj_tail in Heq as [_ ->]. by left.
        + right. rewrite app_comm_cons, app_assoc in Heq. apply app_inj_tail in Heq as [-> <-]. split; [intros p'; apply Hn; apply elem_of_app; right; left|].
          exists l1, e0, l2'. split; [done|]. split; [done|]. intros e' p' ?. apply Hn. apply elem_of_app. by left.
      - intros [Hs|[Hne (l1 & e0 & l2 & -> & Hs & Hn)]].
        + exists l, e, []. split; [done|]. split; [done|]. by intros ? ? ?%elem_of_nil.
        + exists l1, e0, (l2 ++ [e]). split; [by rewrite <- app_assoc|]. split; [done|]. intros e' p' [?| ->%elem_of_list_singleton]%elem_of_app; [by apply Hn|apply Hne]. }
    rewrite Hsplit. clear Hsplit. destruct (field_param params e) as [[f0 p0]|] eqn:E.
    + apply field_param_spec in E. assert (∀ f1 p1, sets params e f1 p1 → f1 = f0 ∧ p1 = p0) as Hfun.
      { intros f1 p1 H. apply field_param_spec in E, H. by simplify_eq. }
      destruct (decide (f = f0)) as [->|Hne].
      * rewrite lookup_insert. split.
        -- intros [= <-]. by left; left.
        -- intros [[Hs|[Hn _]]|[_ Hn]]; [by destruct (Hfun _ _ Hs) as [_ ->]|by destruct (Hn p0)|]. destruct (Hn e p0); [|done]. apply elem_of_app. right. left.
      * rewrite lookup_insert_ne by done. rewrite IH. assert (∀ p', ¬ sets params e f p') as Hno by (intros p' H; by destruct (Hfun _ _ H)). split.
        -- intros [H|[H1 H2]]; [left; by right|right]. split; [done|]. intros e' p' [?| ->%elem_of_list_singleton]%elem_of_app; [by apply H2|apply Hno].
        -- intros [[H|[_ H]]|[H1 H2]]; [by destruct (Hno p)|by left|right]. split; [done|]. intros e' p' ?. apply H2. apply elem_of_app. by left.
    + assert (∀ f' p', ¬ sets params e f' p') as Hno by (intros f' p' H; apply field_param_spec in H; congruence). rewrite IH. split.
      * intros [H|[H1 H2]]; [left; by right; split|right]. split; [done|]. intros e' p' [?| ->%elem_of_list_singleton]%elem_of_app; [by apply H2|apply Hno].
      * intros [[H|[_ H]]|[H1 H2]]; [by destruct (Hno f p)|by left|right]. split; [done|]. intros e' p' ?. apply H2. apply elem_of_app. by left.
Qed.
Lemma arg_of_param_spec args names p c : arg_of_param args names p = Some c ↔
  ∃ i, names !! i = Some p ∧ (∀ j, j < i → names !! j ≠ Some p) ∧ args !! i = Some (Some c).
Proof.
  revert args. induction names as [|n names IH]; intros [|a args]; cbn [arg_of_param].
  - split; [done|]. by intros (i & ? & _).
  - split; [done|]. by intros (i & ? & _).
  - split; [done|]. by intros (i & _ & _ & ?).
  - destruct (decide (n = p)) as [->|Hne].
    + split.
      * intros ->. exists 0. split; [done|]. split; [lia|done].
      * intros ([|i] & H1 & H2 & H3); [by injection H3|]. destruct (H2 0); [lia|done].
    + rewrite (IH args). split.
      * intros (i & H1 & H2 & H3). exists (S i). split; [done|]. split; [|done]. intros [|j] Hj; [cbn; congruence|]. cbn. apply H2. lia.
      * intros ([|i] & H1 & H2 & H3); [cbn in H1; congruence|]. exists i. split; [done|]. split; [|done]. intros j Hj. apply (H2 (S j)). lia.
Qed.
Lemma clean_override_spec s t : clean_override s = t → t ≠ "" →
  t ∉ ["interface{}"; "any"] ∧ has_prefix "untyped " t = false ∧ trim_space s ∈ [t; "*" +:+ t; "&" +:+ t; "&" +:+ "*" +:+ t].
Proof.
  unfold clean_override. set (u := trim_prefix "*" _). intros H Ht. destruct (decide _) as [?|Hd]; [congruence|]. destruct (has_prefix "untyped " u) eqn:E; [congruence|].
  destruct (_ && _); [congruence|]. subst t. split; [|split; [done|]].
  - intros [H|H%elem_of_list_singleton]%elem_of_cons; apply Hd; [right; left; exact H|right; right; exact H].
  - subst u. set (w := trim_space s). destruct (trim_prefix_cases "&" w) as [E1|E1]; destruct (trim_prefix_cases "*" (trim_prefix "&" w)) as [E2|E2].
    + apply elem_of_cons. left. congruence.
    + apply elem_of_cons. right. apply elem_of_cons. left. congruence.
    + do 2 (apply elem_of_cons; right). apply elem_of_cons. left. congruence.
    + do 3 (apply elem_of_cons; right). apply elem_of_cons. left. congruence.
Qed.
Lemma declares_fun fields n a b : declares fields n a → declares fields n b → a = b.
Proof.
  intros (l1 & l2 & -> & Ha & Hn1) (m1 & m2 & Heq & Hb & Hn2). revert m1 Heq Hn2. induction l1 as [|x l1 IH]; intros [|y m1] Heq Hn2; cbn in Heq.
  - by injection Heq.
  - injection Heq as -> _. destruct (Hn2 y); [left|done].
  - injection Heq as -> _. destruct (Hn1 b); [left|done].
  - injection Heq as -> Heq. eapply IH; [|exact Heq|]; intros ? ?; [apply Hn1|apply Hn2]; by right.
Qed.
Lemma generic_trim t : trim_prefix "*" t ∈ ["interface{}"; "any"] ↔ t ∈ ["interface{}"; "any"; "*interface{}"; "*any"].
Proof.
  split.
  - intros H. destruct (trim_prefix_cases "*" t) as [E|E].
    + rewrite E in H. apply elem_of_cons in H as [->|H%elem_of_list_singleton]; [left|subst; right; left].
    + rewrite E. apply elem_of_cons in H as [->|H%elem_of_list_singleton]; [right; right; left|rewrite H; right; right; right; left].
  - intros H. repeat (apply elem_of_cons in H as [->|H]; [vm_compute; first [left; done | right; left; done | left | right; left]|]). by apply elem_of_nil in H.
Qed.
Lemma field_is_generic_spec fields n : field_is_generic fields n = true ↔ ∃ fd, declares fields n fd ∧ generic_field fd.
Proof.
  induction fields as [|f fields IH]; cbn [field_is_generic].
  - split; [done|]. intros (fd & (l1 & l2 & H & _) & _). by destruct l1.
  - destruct (decide (fl_name f = n)) as [E|E].
    + rewrite bool_decide_eq_true, generic_trim. split.
      * intros H. exists f. split; [|done]. exists [], fields. split; [done|]. split; [done|]. by intros ? ?%elem_of_nil.
      * intros (fd & Hd & Hg). assert (declares (f :: fields) n f) as Hf by (exists [], fields; split; [done|]; split; [done|]; by intros ? ?%elem_of_nil).
        by rewrite (declares_fun _ _ _ _ Hf Hd).
    + rewrite IH. split; intros (fd & (l1 & l2 & Heq & Hn & Hl) & Hg); exists fd; (split; [|done]).
      * exists (f :: l1), l2. split; [by rewrite Heq|]. split; [done|]. intros x [->|?]%elem_of_cons; [done|by apply Hl].
      * destruct l1 as [|y l1]; [by injection Heq as -> _|]. injection Heq as -> Heq. exists l1, l2. split; [done|]. split; [done|]. intros x ?. apply Hl. by right.
Qed.
Lemma json_name_for_spec fields n fd : declares fields n fd → json_name_for fields n = json_of fd.
Proof.
  intros (l1 & l2 & -> & Hn & Hl). induction l1 as [|x l1 IH]; cbn [app json_name_for].
  - rewrite decide_True by done. unfold json_of. cbn zeta. by destruct (decide _).
  - rewrite decide_False by (apply Hl; left). apply IH. intros y ?. apply Hl. by right.
Qed.

(** ** Theorems *)
(** The bindings of a constructor are exactly the fields its literal sets to named parameters. *)
Theorem C84_bindings (params : list (option string)) (rv : carg) (f p : string) :
  bindings_of params rv !! f = Some p ↔
  ∃ cl l1 e l2, under rv cl ∧ ca_kind cl = AKComposite ∧ ca_args cl = l1 ++ e :: l2 ∧ sets params e f p ∧ ∀ e' p', e' ∈ l2 → ¬ sets params e' f p'.
Proof.
  unfold bindings_of. split.
  - destruct (strip_wrap rv) as [cl|] eqn:E; [|done]. destruct (decide _) as [Hk|Hk]; [|done]. intros H. apply foldl_bind in H as [(l1 & e & l2 & H)|[? _]]; [|done].
    exists cl, l1, e, l2. split; [by apply strip_wrap_spec|]. split; [done|]. exact H.
  - intros (cl & l1 & e & l2 & Hu & Hk & H). apply strip_wrap_spec in Hu. rewrite Hu, decide_True by done. apply foldl_bind. left. exists l1, e, l2. exact H.
Qed.
(** An override is exactly a bound field whose parameter's argument, in the last assignment, has a
    usable type; its type is that of the argument the caller passed, else that of the argument itself.
    Every field occurs once, and map order changes nothing but the order of the list. *)
Theorem C84_overrides (arg_info : carg → string) (find_function : string → string → option sfunc) (iter : list (string * string) → list (string * string))
    (assigns : list sassign) (parent : gmap string carg) :
  is_order iter →
  (∀ f t, (f, t) ∈ collect_overrides arg_info find_function iter assigns parent ↔
    ∃ before a ctor rv p i c, assigns = before ++ [a] ∧ sa_func a ≠ "" ∧ sa_pkg a ≠ "" ∧ find_function (sa_pkg a) (sa_func a) = Some ctor ∧
      (0 <= sa_index a)%Z ∧ sf_returns ctor !! Z.to_nat (sa_index a) = Some rv ∧ bindings_of (sf_params ctor) rv !! f = Some p ∧
      param_names (sf_params ctor) !! i = Some p ∧ (∀ j, j < i → param_names (sf_params ctor) !! j ≠ Some p) ∧ sa_args a !! i = Some (Some c) ∧
      t = override_type arg_info parent c ∧ t ≠ "") ∧
  NoDup (collect_overrides arg_info find_function iter assigns parent).*1 ∧
  ∀ iter2, is_order iter2 → collect_overrides arg_info find_function iter assigns parent ≡ₚ collect_overrides arg_info find_function iter2 assigns parent.
Proof.
  intros Hi. unfold collect_overrides. split; [|split].
  - intros f t. split.
    + destruct (last assigns) as [a|] eqn:Ea; [|by intros ?%elem_of_nil]. destruct (decide (sa_func a = "" ∨ sa_pkg a = "")) as [Hd|Hd]; [by intros ?%elem_of_nil|].
      destruct (find_function _ _) as [ctor|] eqn:Ef; [|by intros ?%elem_of_nil]. destruct (decide (sa_index a < 0)%Z) as [Hz|Hz]; [by intros ?%elem_of_nil|].
      destruct (sf_returns ctor !! _) as [rv|] eqn:Er; [|by intros ?%elem_of_nil]. intros ([f' p] & Hin & H)%elem_of_list_omap.
      rewrite Hi in Hin. apply elem_of_map_to_list in Hin. destruct (arg_of_param _ _ p) as [c|] eqn:Ec; cbn in H; [|done]. destruct (decide _) as [?|Ht]; [done|].
      injection H as -> <-. apply arg_of_param_spec in Ec as (i & H1 & H2 & H3). apply last_Some in Ea as [before ->].
      exists before, a, ctor, rv, p, i, c. split; [done|]. split; [by intros ?; apply Hd; left|]. split; [by intros ?; apply Hd; right|]. split; [done|]. split; [lia|]. done.
    + intros (before & a & ctor & rv & p & i & c & -> & H1 & H2 & Hf & Hz & Hr & Hb & Hp1 & Hp2 & Ha & -> & Ht). rewrite last_snoc.
      rewrite decide_False by (by intros [?|?]). rewrite Hf. rewrite decide_False by lia. rewrite Hr. apply elem_of_list_omap. exists (f, p).
      split; [rewrite Hi; by apply elem_of_map_to_list|]. assert (arg_of_param (sa_args a) (param_names (sf_params ctor)) p = Some c) as -> by (apply arg_of_param_spec; by exists i).
      cbn. by rewrite decide_False.
  - destruct (last assigns) as [a|]; [|constructor]. destruct (decide (sa_func a = "" ∨ sa_pkg a = "")); [constructor|]. destruct (find_function _ _) as [ctor|]; [|constructor].
    destruct (decide (sa_index a < 0)%Z); [constructor|]. destruct (sf_returns ctor !! _) as [rv|]; [|constructor].
    set (g := λ '(f, p), _). assert (NoDup (iter (map_to_list (bindings_of (sf_params ctor) rv))).*1) as Hn by (rewrite Hi; apply NoDup_fst_map_to_list).
    revert Hn. generalize (iter (map_to_list (bindings_of (sf_params ctor) rv))). intros l. induction l as [|[f p] l IH]; [constructor|]. cbn [fmap list_fmap fst]. rewrite NoDup_cons. intros [Hf Hn].
    cbn [omap list_omap]. assert (∀ y, g (f, p) = Some y → y.1 = f) as Hg.
    { intros y. cbn. destruct (arg_of_param _ _ p); cbn; [|done]. destruct (decide _); [done|]. by intros [= <-]. }
    destruct (g (f, p)) as [y|] eqn:Ey; [|by apply IH]. cbn [fmap list_fmap]. apply NoDup_cons. split; [|by apply IH]. rewrite (Hg y eq_refl). intros Hin. apply Hf.
    apply elem_of_list_fmap in Hin as ([f2 t2] & -> & Hin). apply elem_of_list_omap in Hin as ([f3 p3] & Hin & H3). cbn in H3. destruct (arg_of_param _ _ p3); cbn in H3; [|done].
    destruct (decide _); [done|]. injection H3 as -> _. apply elem_of_list_fmap. exists (f2, p3). done.
  - intros iter2 Hi2. destruct (last assigns) as [a|]; [|done]. destruct (decide (sa_func a = "" ∨ sa_pkg a = "")); [done|]. destruct (find_function _ _) as [ctor|]; [|done].
    destruct (decide (sa_index a < 0)%Z); [done|]. destruct (sf_returns ctor !! _) as [rv|]; [|done].
    assert (iter (map_to_list (bindings_of (sf_params ctor) rv)) ≡ₚ iter2 (map_to_list (bindings_of (sf_params ctor) rv))) as H by (by rewrite (Hi _), (Hi2 _)). by rewrite H.
Qed.
(** The type of an override is never empty, an empty interface or an untyped constant, and is the type of
    the argument or of what the caller passed for it, but for white space, an ampersand and a star. *)
Theorem C84_type (arg_info : carg → string) (parent : gmap string carg) (a : carg) (t : string) :
  override_type arg_info parent a = t → t ≠ "" →
  t ∉ ["interface{}"; "any"] ∧ has_prefix "untyped " t = false ∧
  ∃ s, (s = ca_type a ∨ ∃ c, ca_kind a = AKIdent ∧ parent !! ca_name a = Some c ∧ s = (if decide (ca_type c = "") then arg_info c else ca_type c)) ∧
    trim_space s ∈ [t; "*" +:+ t; "&" +:+ t; "&" +:+ "*" +:+ t].
Proof.
  unfold override_type. intros H Ht. destruct (decide (ca_kind a = AKIdent)) as [Hk|Hk].
  - destruct (parent !! ca_name a) as [c|] eqn:Ec.
    + destruct (decide _) as [E|E].
      * destruct (clean_override_spec _ _ H Ht) as (? & ? & ?). split; [done|]. split; [done|]. exists (ca_type a). split; [by left|done].
      * destruct (clean_override_spec _ _ H Ht) as (? & ? & ?). split; [done|]. split; [done|]. eexists. split; [right; exists c; done|done].
    + rewrite decide_True in H by done. destruct (clean_override_spec _ _ H Ht) as (? & ? & ?). split; [done|]. split; [done|]. exists (ca_type a). split; [by left|done].
  - rewrite decide_True in H by done. destruct (clean_override_spec _ _ H Ht) as (? & ? & ?). split; [done|]. split; [done|]. exists (ca_type a). split; [by left|done].
Qed.
Print Assumptions C84_bindings.
Print Assumptions C84_overrides.
Print Assumptions C84_type.

(** Only properties of fields declared with the empty interface are laid over the base, and each comes
    from an override of that field; without any the base stays alone. *)
Theorem C84_overlay_sound {U S : Type} (map_type : U → string → U * option S) (is_ref : bool) (wrapper : option (list field)) (u : U) (os : list (string * string)) (props : gmap string S) :
  (specialise map_type is_ref wrapper u os).2 = Some props →
  is_ref = true ∧ props ≠ ∅ ∧ ∃ fields, wrapper = Some fields ∧
  ∀ k s, props !! k = Some s → k ≠ "" ∧ ∃ f t fd u', (f, t) ∈ os ∧ declares fields f fd ∧ generic_field fd ∧ k = json_of fd ∧ (map_type u' t).2 = Some s.
Proof.
  unfold specialise. destruct is_ref; [|done]. cbn [negb]. destruct wrapper as [fields|]; [|done]. destruct (foldl _ _ os) as [u2 ps] eqn:E. cbn. destruct (decide _) as [?|Hne]; [done|].
  intros [= <-]. split; [done|]. split; [done|]. exists fields. split; [done|].
  assert (∀ os' u0 (p0 : gmap string S), (∀ o, o ∈ os' → o ∈ os) →
    (∀ k s, p0 !! k = Some s → k ≠ "" ∧ ∃ f t fd u', (f, t) ∈ os ∧ declares fields f fd ∧ generic_field fd ∧ k = json_of fd ∧ (map_type u' t).2 = Some s) →
    ∀ k s, (foldl (overlay_step map_type fields) (u0, p0) os').2 !! k = Some s → k ≠ "" ∧ ∃ f t fd u', (f, t) ∈ os ∧ declares fields f fd ∧ generic_field fd ∧ k = json_of fd ∧ (map_type u' t).2 = Some s) as H.
  { induction os' as [|[f t] os' IH]; intros u0 p0 Hsub Hp k s; cbn [foldl]; [apply Hp|].
    assert (∀ u1 p1, overlay_step map_type fields (u0, p0) (f, t) = (u1, p1) → ∀ k s, p1 !! k = Some s → k ≠ "" ∧ ∃ f t fd u', (f, t) ∈ os ∧ declares fields f fd ∧ generic_field fd ∧ k = json_of fd ∧ (map_type u' t).2 = Some s) as Hstep.
    { intros u1 p1. cbn [overlay_step]. destruct (field_is_generic fields f) eqn:Eg; [|intros [= <- <-]; apply Hp].
      destruct (decide _) as [?|Hj]; [intros [= <- <-]; apply Hp|]. destruct (map_type u0 t) as [u' [s'|]] eqn:Em; intros [= <- <-]; [|apply Hp].
      intros k' s2. destruct (decide (k' = json_name_for fields f)) as [->|Hne'].
      - rewrite lookup_insert. intros [= <-]. split; [done|]. apply field_is_generic_spec in Eg as (fd & Hd & Hg). exists f, t, fd, u0. rewrite Em.
        split; [apply Hsub; left|]. split; [done|]. split; [done|]. split; [by apply json_name_for_spec|done].
      - rewrite lookup_insert_ne by done. apply Hp. }
    destruct (overlay_step map_type fields (u0, p0) (f, t)) as [u1 p1]. apply IH; [intros o ?; apply Hsub; by right|]. eapply Hstep; done. }
  intros k s Hk. apply (H os u ∅); [done|done|]. by rewrite E.
Qed.
(** When the schema of a type does not depend on what was mapped before and the fields overridden have
    distinct JSON names, the overlay is exact and independent of the order of the overrides. *)
Theorem C84_overlay_exact {U S : Type} (map_type : U → string → U * option S) (sch : string → option S) (fields : list field) (u : U) (os : list (string * string)) :
  (∀ u t, (map_type u t).2 = sch t) → NoDup os.*1 →
  (∀ f g fd gd, f ∈ os.*1 → g ∈ os.*1 → declares fields f fd → declares fields g gd → json_of fd = json_of gd → f = g) →
  (∀ f fd, f ∈ os.*1 → declares fields f fd → json_of fd ≠ "") →
  ∀ k s, default ∅ (specialise map_type true (Some fields) u os).2 !! k = Some s ↔
    ∃ f t fd, (f, t) ∈ os ∧ declares fields f fd ∧ generic_field fd ∧ k = json_of fd ∧ sch t = Some s.
Proof.
  intros Hm Hn Hj He. unfold specialise. cbn [negb].
  assert (∀ os' u0, (∀ o, o ∈ os' → o ∈ os) → NoDup os'.*1 → ∀ k s, (foldl (overlay_step map_type fields) (u0, ∅) os').2 !! k = Some s ↔
    ∃ f t fd, (f, t) ∈ os' ∧ declares fields f fd ∧ generic_field fd ∧ k = json_of fd ∧ sch t = Some s) as H.
  { induction os' as [|[f t] os' IH] using rev_ind; intros u0 Hsub Hnd k s.
    - cbn. rewrite lookup_empty. split; [done|]. by intros (? & ? & ? & ?%elem_of_nil & _).
    - rewrite foldl_app. cbn [foldl]. rewrite fmap_app in Hnd. apply NoDup_app in Hnd as (Hnd & Hnf & _).
      assert (f ∈ os.*1) as Hf by (apply elem_of_list_fmap; exists (f, t); split; [done|]; apply Hsub, elem_of_app; right; left).
      specialize (IH u0 (λ o Ho, Hsub o (proj2 (elem_of_app _ _ _) (or_introl Ho))) Hnd). destruct (foldl _ _ os') as [u1 p1]. cbn [snd] in IH.
      assert (∀ g t', (g, t') ∈ os' → g ∈ os.*1 ∧ g ≠ f) as Hg.
      { intros g t' Hin. split; [apply elem_of_list_fmap; exists (g, t'); split; [done|]; apply Hsub, elem_of_app; by left|]. intros ->. apply (Hnf f); [apply elem_of_list_fmap; by exists (f, t')|left]. }
      assert ((∃ f0 t0 fd, (f0, t0) ∈ os' ++ [(f, t)] ∧ declares fields f0 fd ∧ generic_field fd ∧ k = json_of fd ∧ sch t0 = Some s) ↔
        (∃ f0 t0 fd, (f0, t0) ∈ os' ∧ declares fields f0 fd ∧ generic_field fd ∧ k = json_of fd ∧ sch t0 = Some s) ∨ ∃ fd, declares fields f fd ∧ generic_field fd ∧ k = json_of fd ∧ sch t = Some s) as ->.
      { split.
        - intros (f0 & t0 & fd & [Hin|[= -> ->]%elem_of_list_singleton]%elem_of_app & Hr); [left; by exists f0, t0, fd|right; by exists fd].
        - intros [(f0 & t0 & fd & Hin & Hr)|(fd & Hr)]; [exists f0, t0, fd|exists f, t, fd]; (split; [apply elem_of_app|done]); [by left|right; left]. }
      cbn [overlay_step]. destruct (field_is_generic fields f) eqn:Eg; cycle 1.
      { cbn [snd]. rewrite IH. split; [by left|]. intros [?|(fd & Hd & Hgf & _)]; [done|]. assert (field_is_generic fields f = true) by (apply field_is_generic_spec; by exists fd). congruence. }
      apply field_is_generic_spec in Eg as (fd & Hd & Hgf). rewrite (json_name_for_spec _ _ _ Hd). rewrite decide_False by (by eapply He).
      assert (∀ gd, declares fields f gd → gd = fd) as Hu by (intros gd ?; by eapply declares_fun).
      pose proof (Hm u1 t) as Hmt. destruct (map_type u1 t) as [u2 [s'|]]; cbn [snd] in Hmt |- *.
      + destruct (decide (k = json_of fd)) as [->|Hne].
        * rewrite lookup_insert. split; [intros [= ->]; right; by exists fd|]. intros [(g & t' & gd & Hin & Hdg & _ & Hk & _)|(gd & Hdg & _ & _ & Hs)].
          -- destruct (Hg g t' Hin) as [Hgo Hgne]. destruct Hgne. by eapply Hj.
          -- congruence.
        * rewrite lookup_insert_ne by done. rewrite IH. split; [by left|]. intros [?|(gd & Hdg & _ & -> & _)]; [done|]. by rewrite (Hu gd Hdg) in Hne.
      + rewrite IH. split; [by left|]. intros [?|(gd & _ & _ & _ & Hs)]; [done|congruence]. }
  intros k s. specialize (H os u (λ o Ho, Ho) Hn k s). destruct (foldl _ _ os) as [u2 ps]. cbn [snd] in H. rewrite <- H. destruct (decide (ps = ∅)) as [->|?]; done.
Qed.
(** Laying overrides over a wrapper in another order gives the same properties. *)
Corollary C84_order {U S : Type} (map_type : U → string → U * option S) (sch : string → option S) (fields : list field) (u : U) (os os2 : list (string * string)) :
  (∀ u t, (map_type u t).2 = sch t) → NoDup os.*1 → os ≡ₚ os2 →
  (∀ f g fd gd, f ∈ os.*1 → g ∈ os.*1 → declares fields f fd → declares fields g gd → json_of fd = json_of gd → f = g) →
  (∀ f fd, f ∈ os.*1 → declares fields f fd → json_of fd ≠ "") →
  default ∅ (specialise map_type true (Some fields) u os).2 = default ∅ (specialise map_type true (Some fields) u os2).2.
Proof.
  intros Hm Hn Hp Hj He. apply map_eq. intros k. apply option_eq. intros s. rewrite (C84_overlay_exact map_type sch) by done.
  rewrite (C84_overlay_exact map_type sch fields u os2); [by setoid_rewrite Hp|done|by rewrite <- Hp| |].
  - intros f g fd gd. rewrite <- Hp. apply Hj.
  - intros f fd. rewrite <- Hp. apply He.
Qed.
Print Assumptions C84_overlay_sound.
Print Assumptions C84_overlay_exact.
Print Assumptions C84_order.

(** ** Cases *)
Definition ident (n t : string) : carg := CArg AKIdent n "" t "" None None None [].
Definition kv (k v : string) : option carg := Some (CArg AKKeyValue "" "" "" "" (Some (ident k "")) (Some (ident v "")) None []).
(** [return &Envelope{Message: msg, Data: data, Code: 200}]. *)
Definition ex_ctor : sfunc := SFunc [Some "msg"; Some "data"; None]
  [CArg AKUnary "" "" "" "" (Some (CArg AKComposite "" "" "" "" None None None [kv "Message" "msg"; kv "Data" "data"; kv "Code" "code"])) None None []].
Definition ex_find (pkg name : string) : option sfunc := if decide (pkg = "m" ∧ name = "NewEnvelope") then Some ex_ctor else None.
(** [response := NewEnvelope(msg, data, code)] in a helper called with a pointer to an order. *)
Definition ex_assign : sassign := SAssign "m" "NewEnvelope" 0 [Some (ident "msg" "string"); Some (ident "data" "any"); Some (ident "code" "int")].
Definition ex_parent : gmap string carg := {["data" := ident "order" "*m.Order"; "msg" := CArg AKLiteral "" "" "untyped string" "" None None None []]}.
Definition ex_fields : list field := [Field "Message" "string" "json:""message"""; Field "Data" "interface{}" "json:""data,omitempty"""].
Definition ex_map (u : list string) (t : string) : list string * option string := (t :: u, Some ("#/components/schemas/" +:+ t)).
Example C84_example :
  map_to_list (bindings_of (sf_params ex_ctor) (default (ident "" "") (head (sf_returns ex_ctor)))) ≡ₚ [("Message", "msg"); ("Data", "data")] ∧
  collect_overrides (λ _, "") ex_find id [ex_assign] ex_parent ≡ₚ [("Data", "m.Order"); ("Message", "string")] ∧
  specialise ex_map true (Some ex_fields) [] (collect_overrides (λ _, "") ex_find id [ex_assign] ex_parent) = (["m.Order"], Some {["data" := "#/components/schemas/m.Order"]}) ∧
  specialise ex_map true (Some ex_fields) [] [("Message", "m.Order")] = ([], None).
Proof.
  split; [apply (bool_decide_unpack _); by vm_compute|]. split; [apply (bool_decide_unpack _); by vm_compute|]. by vm_compute.
Qed.
Example C84_exact_case : default ∅ (specialise ex_map true (Some ex_fields) [] [("Data", "m.Order")]).2 !! "data" = Some "#/components/schemas/m.Order".
Proof.
  assert (declares ex_fields "Data" (Field "Data" "interface{}" "json:""data,omitempty""")) as Hd.
  { exists [Field "Message" "string" "json:""message"""], []. split; [done|]. split; [done|]. by intros x ->%elem_of_list_singleton. }
  apply (C84_overlay_exact ex_map (λ t, Some ("#/components/schemas/" +:+ t))); [done|apply NoDup_singleton| | |].
  - intros f g fd gd ->%elem_of_list_singleton ->%elem_of_list_singleton. done.
  - intros f fd ->%elem_of_list_singleton Hd2. cbn [fst] in Hd2. by rewrite (declares_fun _ _ _ _ Hd2 Hd).
  - eexists "Data", "m.Order", _. split; [left|]. split; [exact Hd|]. split; [left|]. by split.
Qed.
(** Full statement, false: the overlay names only fields that are in the JSON of the wrapper. A field
    with the tag "-" is never written, yet gets a property under its Go name. *)
Theorem C84_omitted_refuted : ∃ fields os, specialise ex_map true (Some fields) [] os = (["m.Order"], Some {["Secret" := "#/components/schemas/m.Order"]}) ∧
  ∀ fd, fd ∈ fields → fl_name fd = "Secret" → fl_tag fd = "json:""-""" ∧ json_omitted Some (fl_tag fd) = true.
Proof.
  exists [Field "Secret" "any" "json:""-"""; Field "Data" "string" ""], [("Secret", "m.Order")]. split; [by vm_compute|].
  intros fd [->|[->|?%elem_of_nil]%elem_of_cons]%elem_of_cons; done.
Qed.
(** Full statement, false: the document does not depend on map order. Two fields with one JSON name
    take the type of the field that the map yields last. *)
Theorem C84_order_refuted : ∃ fields os os2, os ≡ₚ os2 ∧ NoDup os.*1 ∧
  (specialise ex_map true (Some fields) [] os).2 ≠ (specialise ex_map true (Some fields) [] os2).2.
Proof.
  exists [Field "A" "any" "json:""x"""; Field "B" "any" "json:""x"""], [("A", "m.A"); ("B", "m.B")], [("B", "m.B"); ("A", "m.A")].
  split; [apply Permutation_swap|]. split; [apply (bool_decide_unpack _); by vm_compute|]. by vm_compute.
Qed.
(** Full statement, false: overrides carry concrete types only. A pointer to a pointer to the empty
    interface, and a function type that names a package, are kept. *)
Theorem C84_concrete_refuted : clean_override "**any" = "*any" ∧ clean_override "func(http.ResponseWriter)" = "func(http.ResponseWriter)" ∧
  clean_override "load" = "" ∧ clean_override " &*m.T" = "m.T".
Proof. by vm_compute. Qed.
Print Assumptions C84_omitted_refuted.
Print Assumptions C84_order_refuted.
Print Assumptions C84_concrete_refuted.
