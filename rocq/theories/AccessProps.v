(** * C99: path variables read from a map. *)
From Coq Require Import Ascii.
From stdpp Require Import sorting.
From stdpp Require Import base list strings gmap relations.
From Verif Require Import StrOrder StrLib RouteModel SecProps PathModel PathSpec PathProofs PathProofs2 VerbProofs SccModel SccSpec ReachModel ReachSpec ReachProps OriginModel AccessModel.

(** ** Specification *)
(** The first pattern that is an accessor. *)
Definition first_accessor (ps : list accessor) (a : accessor) : Prop := ∃ l l', ps = l ++ a :: l' ∧ ac_mapkey a = true ∧ ∀ b, b ∈ l → ac_mapkey b = false.
(** A parameter of the path. *)
Definition declared (params : list prm) (n : string) : Prop := ∃ p, p ∈ params ∧ pr_in p = "path" ∧ pr_name p = n.
(** A part of an expression. *)
Inductive part : aexp → aexp → Prop :=
| part_self e : part e e
| part_x e e' c : x_x e = Some c → part e' c → part e' e
| part_fn e e' c : x_fn e = Some c → part e' c → part e' e
| part_sel e e' c : x_sel e = Some c → part e' c → part e' e
| part_arg e e' c : Some c ∈ x_args e → part e' c → part e' e.
(** A literal without its quotes. *)
Definition bare (value key : string) : Prop := firm key_quotes key ∧ ∃ a b, value = a +:+ key +:+ b ∧ all_of key_quotes a ∧ all_of key_quotes b.
Section spec.
  Context (call recv : string → bool) (am : gmap string (list aasn)).
  (** Name and package a call is made under. *)
  Definition called (x : aexp) (name pkg : string) : Prop :=
    x_kind x = ACall ∧ ∃ f, x_fn x = Some f ∧
      ((∃ s, x_kind f = ASelector ∧ x_sel f = Some s ∧ name = x_name s ∧ (x_pkg f = "" ∧ pkg = x_pkg s ∨ x_pkg f ≠ "" ∧ pkg = x_pkg f)) ∨
       (x_kind f ≠ ASelector ∨ x_sel f = None) ∧ name = x_name f ∧ pkg = x_pkg f).
  (** A variable some assignment of the function gives the accessor's answer. *)
  Definition holds_vars (n : string) : Prop :=
    ∃ asns a, am !! n = Some asns ∧ a ∈ asns ∧ an_func a ≠ "" ∧ call (an_func a) = true ∧ recv (an_pkg a) = true.
  (** [x[key]], with [x] such a variable or the accessor's call. *)
  Definition reads (e : aexp) (key : string) : Prop :=
    x_kind e = AIndex ∧ ∃ l x, x_fn e = Some l ∧ x_kind l = ALiteral ∧ x_x e = Some x ∧ bare (x_value l) key ∧
      (x_kind x = AIdent ∧ holds_vars (x_name x) ∨ ∃ name pkg, called x name pkg ∧ call name = true ∧ recv pkg = true).
End spec.

(** ** Proofs *)
Lemma first_accessor_spec ps a : map_key_accessor ps = Some a ↔ first_accessor ps a.
Proof.
  unfold map_key_accessor, first_accessor. induction ps as [|p ps IH].
  - cbn. split; [done|]. intros (l & l' & E & _). by destruct l.
  - destruct (ac_mapkey p) eqn:Ep.
    + rewrite filter_cons_True by done. cbn [head]. split.
      * intros [= <-]. exists [], ps. split; [done|]. split; [done|]. intros b Hb. by apply elem_of_nil in Hb.
      * intros ([|q l] & l' & E & Ha & Hl); [cbn in E; congruence|]. cbn in E. injection E as -> ->. rewrite (Hl q) in Ep; [done|by left].
    + rewrite filter_cons_False by (by rewrite Ep). rewrite IH. split.
      * intros (l & l' & -> & Ha & Hl). exists (p :: l), l'. split; [done|]. split; [done|]. intros b Hb. apply elem_of_cons in Hb as [->|Hb]; [done|by apply Hl].
      * intros ([|q l] & l' & E & Ha & Hl); [cbn in E; injection E as -> ->; congruence|]. cbn in E. injection E as -> ->. exists l, l'. split; [done|]. split; [done|]. intros b Hb. apply Hl. by right.
Qed.
(** C99a: the placeholders of a path are the names in braces. *)
Theorem C99_placeholders ps n : well_formed ps → n ∈ path_placeholders (show ps) ↔ n ≠ "" ∧ ∃ r, Brace n r ∈ ps.
Proof.
  intros H. unfold path_placeholders. rewrite elem_of_list_filter, (each_show ps H). apply and_iff_compat_l. clear H. unfold braces. split.
  - intros Hn. apply elem_of_list_fmap in Hn as ([m r] & -> & Hn). apply elem_of_list_omap in Hn as (p & Hp & E). destruct p as [s|m'|m' r']; [done|done|]. exists r'. cbn [fst]. assert (m' = m) as <- by congruence. done.
  - intros [r Hr]. apply elem_of_list_fmap. exists (n, default "" r). split; [done|]. apply elem_of_list_omap. exists (Brace n r). done.
Qed.
(** C99b: what is added to a route are exactly its placeholders no parameter declares, if the handler reaches the accessor; with the constraint the path states, after the others, which stay. *)
Theorem C99_params_iff ps reaches path params :
  ∃ added, complete_params ps reaches path params = params ++ added ∧ (pr_name <$> added) `sublist_of` path_placeholders path ∧
    ∀ q, q ∈ added ↔ ∃ a n, first_accessor ps a ∧ reaches a = true ∧ n ∈ path_placeholders path ∧ ¬ declared params n ∧
      pr_name q = n ∧ pr_in q = ac_in a ∧ (pr_required q = true ↔ ac_in a = "path") ∧ pr_schema q = Some (PSch (default "" (path_param_patterns path !! n)) "string") ∧ pr_ref q = "".
Proof.
  unfold complete_params. destruct (map_key_accessor ps) as [a|] eqn:Ea.
  2:{ exists []. split; [by rewrite app_nil_r|]. split; [apply sublist_nil_l|]. intros q. split; [intros H; by apply elem_of_nil in H|]. intros (a & n & Ha & _). apply first_accessor_spec in Ha. congruence. }
  pose proof Ea as Fa. apply first_accessor_spec in Fa.
  set (covered := pr_name <$> filter (λ p, pr_in p = "path") params). set (missing := filter (λ n, n ∉ covered) (path_placeholders path)).
  assert (C : ∀ n, n ∈ covered ↔ declared params n).
  { intros n. unfold covered, declared. rewrite elem_of_list_fmap. split.
    - intros (p & -> & Hp). apply elem_of_list_filter in Hp as [Hi Hp]. by exists p.
    - intros (p & Hp & Hi & <-). exists p. split; [done|]. by apply elem_of_list_filter. }
  assert (M : ∀ n, n ∈ missing ↔ n ∈ path_placeholders path ∧ ¬ declared params n). { intros n. unfold missing. rewrite elem_of_list_filter, C. tauto. }
  assert (S0 : missing `sublist_of` path_placeholders path) by (unfold missing; generalize (path_placeholders path); intros l; induction l as [|x l IHl]; [done|]; rewrite filter_cons; destruct (decide _); [by apply sublist_skip|by apply sublist_cons]).
  clearbody missing. clear C covered. cbn zeta. destruct (decide (missing = [])) as [->|N].
  { exists []. split; [by rewrite app_nil_r|]. split; [apply sublist_nil_l|]. intros q. split; [intros H; by apply elem_of_nil in H|]. intros (b & n & _ & _ & Hn & Hd & _). assert (n ∈ @nil string) as H by (by apply M). by apply elem_of_nil in H. }
  destruct (reaches a) eqn:R.
  - eexists. split; [reflexivity|]. split; [rewrite <- list_fmap_compose, (list_fmap_ext _ id missing), list_fmap_id; done|]. intros q. rewrite elem_of_list_fmap. split.
    + intros (n & -> & Hn). apply M in Hn as [Hn Hd]. exists a, n. split; [done|]. split; [done|]. split; [done|]. split; [done|]. cbn. split; [done|]. split; [done|]. split; [apply bool_decide_eq_true|done].
    + intros (b & n & Hb & _ & Hn & Hd & Q1 & Q2 & Q3 & Q4 & Q5). apply first_accessor_spec in Hb. assert (b = a) as -> by congruence. exists n. split; [|by apply M].
      destruct q as [qn qi qr qs qf]. cbn in *. subst. f_equal. destruct (decide (ac_in a = "path")) as [E|E].
      * rewrite bool_decide_eq_true_2 by done. by apply Q3.
      * rewrite bool_decide_eq_false_2 by done. apply not_true_is_false. intros H. by apply E, Q3.
  - exists []. split; [by rewrite app_nil_r|]. split; [apply sublist_nil_l|]. intros q. split; [intros H; by apply elem_of_nil in H|]. intros (b & n & Hb & Rb & _). apply first_accessor_spec in Hb. congruence.
Qed.

Section proofs.
  Context (rx : string → option (string → bool)).
  (** A call of the accessor: both expressions that are not empty compile and match. *)
  Definition is_access (p : accessor) (e : aedge) : Prop :=
    (ac_call p = "" ∨ ∃ m, rx (ac_call p) = Some m ∧ m (ae_callee e) = true) ∧
    (ac_recv p = "" ∨ ∃ m, rx (ac_recv p) = Some m ∧ m (qualify_owner (ae_callee_pkg e) (ae_recv e)) = true).
  Lemma edge_matches_spec p e : edge_matches rx p e = true ↔ is_access p e.
  Proof.
    unfold edge_matches, is_access. rewrite andb_true_iff.
    assert (G : ∀ t s, (if decide (t = "") then true else match rx t with Some m => m s | None => false end) = true ↔ t = "" ∨ ∃ m, rx t = Some m ∧ m s = true).
    { intros t s. destruct (decide (t = "")) as [->|N]; [split; [by left|done]|]. destruct (rx t) as [m|].
      - split; [intros H; right; by exists m|]. intros [?|(m' & [= <-] & H)]; done.
      - split; [done|]. intros [?|(m' & ? & _)]; done. }
    by rewrite !G.
  Qed.
  (** One function calls another. *)
  Definition goes (es : list aedge) (f g : string) : Prop := ∃ e, e ∈ es ∧ ae_base e = f ∧ ae_callee_base e = g.
  Lemma to_cg_elem es c : c ∈ to_cg es ↔ ∃ i e, es !! i = Some e ∧ c = CgEdge (ae_base e) (ae_callee_base e) None i.
  Proof.
    unfold to_cg. split.
    - intros H. apply elem_of_lookup_imap in H as (i & e & -> & H). by exists i, e.
    - intros (i & e & H & ->). apply elem_of_lookup_imap. by exists i, e.
  Qed.
  Lemma pairs_goes es f g : (∀ e, e ∈ es → ae_base e ≠ "" ∧ ae_callee_base e ≠ "") → calls (edge_pairs (to_cg es)) f g ↔ goes es f g.
  Proof.
    intros Hne. unfold calls, goes, edge_pairs. split.
    - intros (H & _ & _). apply elem_of_list_fmap in H as (c & E & H). apply to_cg_elem in H as (i & e & He & ->). cbn in E. injection E as -> ->. exists e. split; [by eapply elem_of_list_lookup_2|done].
    - intros (e & He & <- & <-). split; [|by apply Hne]. apply elem_of_list_lookup in He as [i Hi]. apply elem_of_list_fmap. exists (CgEdge (ae_base e) (ae_callee_base e) None i). split; [done|]. apply to_cg_elem. by exists i, e.
  Qed.
  (** C99c: a handler reaches the accessor exactly if one of the functions with its name and package leads, in any number of calls, to one that calls it. *)
  Theorem C99_reach_iff iter itern es p key r : is_order iter → is_order itern → (∀ e, e ∈ es → ae_base e ≠ "" ∧ ae_callee_base e ≠ "") →
    ∃ s c, reach_set iter itern (to_cg es) ∅ key (cg_match rx p es) = Some (s, c) ∧
      (handler_reaches es s r = true ↔
       rt_func r ≠ "" ∧ ∃ e g e', e ∈ es ∧ ae_name e = bare_func r ∧ (rt_pkg r = "" ∨ ae_pkg e = rt_pkg r) ∧
         rtc (goes es) (ae_base e) g ∧ e' ∈ es ∧ ae_base e' = g ∧ is_access p e').
  Proof.
    intros Hi Hn Hne. destruct (C04_reach_answers_exact iter itern (to_cg es) [(key, cg_match rx p es)] Hi Hn) as (ss & Hss & HF).
    { intros [|i] [|j] k q q'; cbn; intros Hq Hq'; try done. intros e _. by simplify_eq. }
    cbn [reach_calls] in Hss. destruct (reach_set iter itern (to_cg es) ∅ key (cg_match rx p es)) as [[s c]|] eqn:E; cbn [mbind option_bind] in Hss; [|done]. injection Hss as <-.
    exists s, c. split; [done|]. apply Forall2_cons in HF as [HF _]. cbn [snd] in HF.
    assert (R : ∀ e, e ∈ es → ae_base e ∈ s ↔ ∃ g e', rtc (goes es) (ae_base e) g ∧ e' ∈ es ∧ ae_base e' = g ∧ is_access p e').
    { intros e He. rewrite HF. unfold reaches_match, can_call. split.
      - intros (_ & g & ce & Hr & Hce & <- & Hm). apply to_cg_elem in Hce as (i & e' & He' & ->). unfold cg_match in Hm. cbn in Hm. rewrite He' in Hm. exists (ae_base e'), e'.
        split; [|split; [by eapply elem_of_list_lookup_2|split; [done|by apply edge_matches_spec]]]. cbn in Hr. eapply rtc_subrel; [|exact Hr]. intros x y. by apply pairs_goes.
      - intros (g & e' & Hr & He' & <- & Hm). split.
        + exists (ae_callee_base e). left. apply pairs_goes; [done|]. by exists e.
        + apply elem_of_list_lookup in He' as [i Hi']. exists (ae_base e'), (CgEdge (ae_base e') (ae_callee_base e') None i).
          split; [eapply rtc_subrel; [|exact Hr]; intros x y; by apply pairs_goes|]. split; [apply to_cg_elem; by exists i, e'|]. split; [done|]. unfold cg_match. cbn. rewrite Hi'. by apply edge_matches_spec. }
    unfold handler_reaches. rewrite andb_true_iff, bool_decide_eq_true, existsb_exists. apply and_iff_compat_l. split.
    - intros (e & He & H). apply elem_of_list_In in He. rewrite !andb_true_iff, orb_true_iff, !bool_decide_eq_true in H. destruct H as ((H1 & H2) & H3). apply R in H3 as (g & e' & Hr & He' & Hg & Ha); [|done]. exists e, g, e'. done.
    - intros (e & g & e' & He & H1 & H2 & Hr & He' & Hg & Ha). exists e. split; [by apply elem_of_list_In|]. rewrite !andb_true_iff, orb_true_iff, !bool_decide_eq_true. split; [done|]. apply R; [done|]. by exists g, e'.
  Qed.

  Lemma bare_trim value key : key ≠ "" → trim_any key_quotes value = key ↔ bare value key.
  Proof.
    intros N. unfold bare. split.
    - intros <-. split; [|apply trim_any_dec]. revert N. unfold trim_any, firm. generalize key_quotes as cs. intros cs.
      assert (L : ∀ s, trim_left_any cs s = "" ∨ ∃ c t, trim_left_any cs s = String c t ∧ mem_byte c cs = false).
      { induction s as [|c s IH]; [by left|]. cbn. destruct (mem_byte c cs) eqn:E; [done|right; by exists c, s]. }
      assert (R : ∀ s, trim_right_any cs s = "" ∨ ∃ t c, trim_right_any cs s = t +:+ String c "" ∧ mem_byte c cs = false).
      { induction s as [|c s IH]; [by left|]. cbn. destruct (trim_right_any cs s) as [|d u] eqn:Eu.
        - destruct (mem_byte c cs) eqn:E; [by left|right; by exists "", c].
        - right. destruct IH as [?|(t & c' & Et & Ec)]; [done|]. exists (String c t), c'. rewrite sapp_cons, <- Et. done. }
      intros N. split; [|by destruct (R (trim_left_any cs value))].
      destruct (L value) as [E|(c & t & E & Ec)]; [by rewrite E in N|]. rewrite E in N |- *. cbn in N |- *. exists c. destruct (trim_right_any cs t) as [|d u]; [|by exists (String d u)]. rewrite Ec. by exists "".
    - intros (Hf & a & b & -> & Ha & Hb). by apply trim_any_firm.
  Qed.
  Lemma bare_nonempty value key : bare value key → key ≠ "".
  Proof. intros (((c & t & -> & _) & _) & _). done. Qed.

  Section keys.
    Context (call recv : string → bool) (am : gmap string (list aasn)).
    Lemma accessor_vars_spec n : accessor_vars call recv am n = true ↔ holds_vars call recv am n.
    Proof.
      unfold accessor_vars, holds_vars. destruct (am !! n) as [asns|]; [|split; [done|intros (? & ? & ? & _); done]]. rewrite existsb_exists. split.
      - intros (a & Ha & H). apply elem_of_list_In in Ha. rewrite !andb_true_iff, bool_decide_eq_true in H. destruct H as ((H1 & H2) & H3). by exists asns, a.
      - intros (asns' & a & [= <-] & Ha & H1 & H2 & H3). exists a. split; [by apply elem_of_list_In|]. rewrite !andb_true_iff, bool_decide_eq_true. done.
    Qed.
    Lemma accessor_call_spec x : accessor_call call recv x = true ↔ ∃ name pkg, called x name pkg ∧ call name = true ∧ recv pkg = true.
    Proof.
      unfold accessor_call, called. destruct (x_kind x) eqn:Kx; try (split; [done|intros (? & ? & (? & _) & _); done]). destruct (x_fn x) as [f|]; [|split; [done|intros (? & ? & (_ & ? & ? & _) & _); done]].
      destruct (decide (x_kind f = ASelector ∧ is_Some (x_sel f))) as [[Kf [s Es]]|N].
      - rewrite Kf, Es, andb_true_iff. split.
        + intros [H1 H2]. exists (x_name s), (if decide (x_pkg f = "") then x_pkg s else x_pkg f). split; [|done]. split; [done|]. exists f. split; [done|]. left. exists s. split; [done|]. split; [done|]. split; [done|]. destruct (decide (x_pkg f = "")); [by left|by right].
        + intros (name & pkg & (_ & f' & [= <-] & [(s' & _ & Es' & -> & Hp)|([?|?] & _)]) & H1 & H2); [|done|congruence]. assert (s' = s) as -> by congruence. split; [done|]. destruct Hp as [[-> ->]|[Np ->]]; [by rewrite decide_True|by rewrite decide_False].
      - assert (E : (match x_kind f, x_sel f with ASelector, Some s => (x_name s, if decide (x_pkg f = "") then x_pkg s else x_pkg f) | _, _ => (x_name f, x_pkg f) end) = (x_name f, x_pkg f)).
        { destruct (x_kind f); try done. destruct (x_sel f); [|done]. exfalso. apply N. by split. }
        rewrite E, andb_true_iff. split.
        + intros [H1 H2]. exists (x_name f), (x_pkg f). split; [|done]. split; [done|]. exists f. split; [done|]. right. split; [|done]. destruct (decide (x_kind f = ASelector)) as [Kf|]; [right|by left]. destruct (x_sel f); [|done]. exfalso. apply N. by split.
        + intros (name & pkg & (_ & f' & [= <-] & [(s' & Kf & Es' & _)|(_ & -> & ->)]) & H1 & H2); [|done]. exfalso. apply N. split; [done|by exists s'].
    Qed.
    Lemma key_here_spec e key : key ∈ key_here (accessor_vars call recv am) call recv e ↔ reads call recv am e key.
    Proof.
      unfold key_here, reads. destruct (x_kind e) eqn:K; try (split; [intros H; by apply elem_of_nil in H|intros (? & _); done]).
      destruct (x_fn e) as [l|]; [|split; [intros H; by apply elem_of_nil in H|intros (_ & ? & ? & ? & _); done]]. destruct (x_x e) as [x|]; [|split; [intros H; by apply elem_of_nil in H|intros (_ & ? & ? & _ & _ & ? & _); done]].
      destruct (decide (x_kind l = ALiteral)) as [Kl|Kl]; [|split; [intros H; by apply elem_of_nil in H|intros (_ & l' & x' & [= <-] & ? & _); done]].
      set (D := (bool_decide (x_kind x = AIdent) && accessor_vars call recv am (x_name x)) || accessor_call call recv x).
      assert (HD : D = true ↔ (x_kind x = AIdent ∧ holds_vars call recv am (x_name x) ∨ ∃ name pkg, called x name pkg ∧ call name = true ∧ recv pkg = true)).
      { unfold D. rewrite orb_true_iff, andb_true_iff, bool_decide_eq_true, accessor_vars_spec, accessor_call_spec. done. }
      destruct D.
      - cbn zeta. split.
        + destruct (decide (trim_any key_quotes (x_value l) = "")) as [|N]; [intros H; by apply elem_of_nil in H|]. intros H. apply elem_of_list_singleton in H as ->. split; [done|]. exists l, x. split; [done|]. split; [done|]. split; [done|]. split; [by apply bare_trim|by apply HD].
        + intros (_ & l' & x' & [= <-] & _ & [= <-] & Hb & _). pose proof (bare_nonempty _ _ Hb) as N. apply bare_trim in Hb; [|done]. rewrite Hb, decide_False by done. by apply elem_of_list_singleton.
      - split; [intros H; by apply elem_of_nil in H|]. intros (_ & l' & x' & [= <-] & _ & [= <-] & _ & H). apply HD in H. done.
    Qed.
  End keys.
  (** Induction over expressions. *)
  Lemma aexp_parts (P : aexp → Prop) :
    (∀ k n p v x f s args, (∀ e, x = Some e → P e) → (∀ e, f = Some e → P e) → (∀ e, s = Some e → P e) → (∀ e, Some e ∈ args → P e) → P (AExp k n p v x f s args)) → ∀ e, P e.
  Proof.
    intros H. fix IH 1. intros [k n p v x f s args]. apply H.
    - destruct x as [x|]; [|intros e E; discriminate E]. intros e E. pose proof (IH x) as Q. clear IH. assert (x = e) as <- by congruence. exact Q.
    - destruct f as [f|]; [|intros e E; discriminate E]. intros e E. pose proof (IH f) as Q. clear IH. assert (f = e) as <- by congruence. exact Q.
    - destruct s as [s|]; [|intros e E; discriminate E]. intros e E. pose proof (IH s) as Q. clear IH. assert (s = e) as <- by congruence. exact Q.
    - induction args as [|o args IHa]; intros e He; [clear IH; by apply elem_of_nil in He|]. destruct o as [o|].
      + pose proof (IH o) as Q. clear IH. apply elem_of_cons in He as [E|He]; [|exact (IHa e He)]. assert (o = e) as <- by congruence. exact Q.
      + clear IH. apply elem_of_cons in He as [E|He]; [discriminate E|exact (IHa e He)].
  Qed.
  Lemma collect_spec call recv am key : ∀ e, key ∈ collect_keys (accessor_vars call recv am) call recv e ↔ ∃ e', part e' e ∧ reads call recv am e' key.
  Proof.
    set (vars := accessor_vars call recv am). apply (aexp_parts (λ e, key ∈ collect_keys vars call recv e ↔ ∃ e', part e' e ∧ reads call recv am e' key)).
    intros k n p v x f s args Hx Hf Hs Ha. cbn [collect_keys]. rewrite !elem_of_app. unfold vars at 1. rewrite key_here_spec.
    assert (opt : ∀ o : option aexp, (∀ e, o = Some e → key ∈ collect_keys vars call recv e ↔ ∃ e', part e' e ∧ reads call recv am e' key) →
      key ∈ match o with Some e => collect_keys vars call recv e | None => [] end ↔ ∃ c e', o = Some c ∧ part e' c ∧ reads call recv am e' key).
    { intros [o|] Ho.
      - rewrite (Ho o eq_refl). split; [intros (e' & ? & ?); by exists o, e'|intros (c & e' & [= <-] & ? & ?); by exists e'].
      - rewrite elem_of_nil. split; [done|intros (? & ? & ? & _); done]. }
    rewrite (opt x Hx), (opt f Hf), (opt s Hs).
    assert (all : key ∈ (fix all (l : list (option aexp)) := match l with [] => [] | o :: l => match o with Some e => collect_keys vars call recv e | None => [] end ++ all l end) args ↔
      ∃ c e', Some c ∈ args ∧ part e' c ∧ reads call recv am e' key).
    { clear Hx Hf Hs. induction args as [|o args IHa]; [rewrite elem_of_nil; split; [done|intros (? & ? & H & _); by apply elem_of_nil in H]|]. rewrite elem_of_app, IHa by (intros e He; apply Ha; by right). rewrite (opt o) by (intros e ->; apply Ha; by left). split.
      - intros [(c & e' & -> & ? & ?)|(c & e' & Hc & ? & ?)]; exists c, e'; (split; [|done]); [by left|by right].
      - intros (c & e' & Hc & ? & ?). apply elem_of_cons in Hc as [<-|Hc]; [left; by exists c, e'|right; by exists c, e']. }
    rewrite all. clear opt all Hx Hf Hs Ha. split.
    - intros [H|[(c & e' & E & Hp & Hr)|[(c & e' & E & Hp & Hr)|[(c & e' & E & Hp & Hr)|(c & e' & E & Hp & Hr)]]]].
      + eexists. split; [apply part_self|done].
      + exists e'. split; [by apply (part_x _ _ c)|done].
      + exists e'. split; [by apply (part_fn _ _ c)|done].
      + exists e'. split; [by apply (part_sel _ _ c)|done].
      + exists e'. split; [by apply (part_arg _ _ c)|done].
    - intros (e' & Hp & Hr). inversion Hp as [|? ? c E Hc|? ? c E Hc|? ? c E Hc|? ? c E Hc]; subst.
      + by left.
      + right. left. by exists c, e'.
      + do 2 right. left. by exists c, e'.
      + do 3 right. left. by exists c, e'.
      + do 4 right. by exists c, e'.
  Qed.
  Context (find : string → string → option (gmap string (list aasn))).
  (** A handler reads a key: some part of a value it assigns does. *)
  Definition handler_reads (p : accessor) (r : aroute) (key : string) : Prop :=
    ∃ am call recv n asns a e, find (rt_pkg r) (bare_func r) = Some am ∧ rx (ac_call p) = Some call ∧ rx (ac_recv p) = Some recv ∧
      am !! n = Some asns ∧ a ∈ asns ∧ part e (an_value a) ∧ reads call recv am e key.
  (** C99d: the keys recovered are exactly those a handler reads in the values it assigns, from the accessor's call or a variable ever given its answer. *)
  Theorem C99_keys_iff p r key : key ∈ recover_keys rx find p r ↔ handler_reads p r key.
  Proof.
    unfold recover_keys, handler_reads. destruct (find (rt_pkg r) (bare_func r)) as [am|]; [|rewrite elem_of_empty; split; [done|intros (? & ? & ? & ? & ? & ? & ? & ? & _); done]].
    destruct (rx (ac_call p)) as [call|]; [|rewrite elem_of_empty; split; [done|intros (? & ? & ? & ? & ? & ? & ? & _ & ? & _); done]].
    destruct (rx (ac_recv p)) as [recv|]; [|rewrite elem_of_empty; split; [done|intros (? & ? & ? & ? & ? & ? & ? & _ & _ & ? & _); done]].
    rewrite elem_of_list_to_set, elem_of_concat. split.
    - intros (l & Hl & Hk). apply elem_of_list_fmap in Hl as ([n asns] & -> & Hl). apply elem_of_map_to_list in Hl. cbn [snd] in Hk. apply elem_of_concat in Hk as (l' & Hl' & Hk). apply elem_of_list_fmap in Hl' as (a & -> & Ha).
      apply collect_spec in Hk as (e & He & Hr). by exists am, call, recv, n, asns, a, e.
    - intros (am' & call' & recv' & n & asns & a & e & [= <-] & [= <-] & [= <-] & Hn & Ha & He & Hr).
      exists (concat ((λ a, collect_keys (accessor_vars call recv am) call recv (an_value a)) <$> asns)). split.
      + apply elem_of_list_fmap. exists (n, asns). split; [done|]. by apply elem_of_map_to_list.
      + apply elem_of_concat. exists (collect_keys (accessor_vars call recv am) call recv (an_value a)). split; [apply elem_of_list_fmap; by exists a|]. apply collect_spec. by exists e.
  Qed.

  (** The text a report is known by. *)
  Definition report_text (m : mismatch) : string := mm_method m +:+ " " +:+ mm_path m +:+ " " +:+ mm_key m.
  Definition report (r : aroute) (key : string) : mismatch := Mismatch (rt_method r) (convert_path (join_paths (rt_mount r) (rt_path r))) (rt_func r) key.
  Definition wrong_key (ps : list accessor) (r : aroute) (key : string) : Prop :=
    ∃ a, first_accessor ps a ∧ rt_func r ≠ "" ∧ handler_reads a r key ∧ key ∉ path_placeholders (rt_path r).
  Notation inv st := (NoDup (report_text <$> st.2) ∧ ∀ t, t ∈ st.1 ↔ t ∈ report_text <$> st.2).
  Lemma record_keys_spec r keys : ∀ st : gset string * list mismatch, inv st →
    let st' := foldl (record_one r) st keys in
    inv st' ∧ (∀ m, m ∈ st'.2 → m ∈ st.2 ∨ ∃ k, k ∈ keys ∧ k ∉ path_placeholders (rt_path r) ∧ m = report r k) ∧ (∀ m, m ∈ st.2 → m ∈ st'.2) ∧
    (∀ k, k ∈ keys → k ∉ path_placeholders (rt_path r) → report_text (report r k) ∈ report_text <$> st'.2).
  Proof.
    induction keys as [|k keys IH]; intros st Hinv; cbn zeta; cbn [foldl].
    - split; [done|]. split; [by left|]. split; [done|]. intros k Hk. by apply elem_of_nil in Hk.
    - assert (S1 : inv (record_one r st k) ∧ (∀ m, m ∈ (record_one r st k).2 → m ∈ st.2 ∨ k ∉ path_placeholders (rt_path r) ∧ m = report r k) ∧ (∀ m, m ∈ st.2 → m ∈ (record_one r st k).2) ∧
        (k ∉ path_placeholders (rt_path r) → report_text (report r k) ∈ report_text <$> (record_one r st k).2)).
      { unfold record_one. destruct (decide (k ∈ path_placeholders (rt_path r))) as [Hp|Hp]; [split; [done|]; split; [by left|]; done|]. cbn zeta.
        change (rt_method r +:+ " " +:+ convert_path (join_paths (rt_mount r) (rt_path r)) +:+ " " +:+ k) with (report_text (report r k)).
        change (Mismatch (rt_method r) (convert_path (join_paths (rt_mount r) (rt_path r))) (rt_func r) k) with (report r k).
        destruct Hinv as [Hnd Hin]. destruct (decide (report_text (report r k) ∈ st.1)) as [Ht|Ht].
        - split; [done|]. split; [by left|]. split; [done|]. intros _. by apply Hin.
        - cbn [fst snd]. rewrite fmap_app. split; [split|].
          + apply NoDup_app. split; [done|]. split; [|apply NoDup_singleton]. intros t Ht1 Ht2. apply elem_of_list_singleton in Ht2 as ->. by apply Ht, Hin.
          + intros t. rewrite elem_of_union, elem_of_singleton, elem_of_app, Hin. cbn [fmap list_fmap]. pose proof (elem_of_list_singleton t (report_text (report r k))). tauto.
          + split; [|split].
            * intros m Hm. apply elem_of_app in Hm as [Hm|Hm]; [by left|right]. by apply elem_of_list_singleton in Hm.
            * intros m Hm. apply elem_of_app. by left.
            * intros _. apply elem_of_app. right. by apply elem_of_list_singleton. }
      destruct S1 as (I1 & A1 & B1 & C1). destruct (IH (record_one r st k) I1) as (I2 & A2 & B2 & C2). split; [done|]. split; [|split].
      + intros m Hm. apply A2 in Hm as [Hm|(k' & Hk & Hp & ->)]; [apply A1 in Hm as [?|[? ->]]; [by left|right; exists k; split; [by left|done]]|right; exists k'; split; [by right|done]].
      + intros m Hm. by apply B2, B1.
      + intros k' Hk Hp. apply elem_of_cons in Hk as [->|Hk]; [|by apply C2]. specialize (C1 Hp). apply elem_of_list_fmap in C1 as (m & Em & Hm). apply elem_of_list_fmap. exists m. split; [done|by apply B2].
  Qed.
  Lemma record_spec ps r (st : gset string * list mismatch) : inv st →
    let st' := record_mismatches rx find ps st r in
    inv st' ∧ (∀ m, m ∈ st'.2 → m ∈ st.2 ∨ ∃ k, wrong_key ps r k ∧ m = report r k) ∧ (∀ m, m ∈ st.2 → m ∈ st'.2) ∧
    (∀ k, wrong_key ps r k → report_text (report r k) ∈ report_text <$> st'.2).
  Proof.
    intros Hinv. cbn zeta. unfold record_mismatches, wrong_key. destruct (map_key_accessor ps) as [a|] eqn:Ea.
    2:{ split; [done|]. split; [by left|]. split; [done|]. intros k (a & Ha & _). apply first_accessor_spec in Ha. congruence. }
    pose proof Ea as Fa. apply first_accessor_spec in Fa. destruct (decide (rt_func r = "")) as [E|N].
    { split; [done|]. split; [by left|]. split; [done|]. intros k (b & _ & ? & _). done. }
    destruct (record_keys_spec r (ssort (elements (recover_keys rx find a r))) st Hinv) as (I & A & B & C). split; [done|]. split; [|split; [done|]].
    - intros m Hm. apply A in Hm as [?|(k & Hk & Hp & ->)]; [by left|right]. exists k. split; [|done]. exists a. split; [done|]. split; [done|]. split; [|done]. apply elem_of_ssort, elem_of_elements in Hk. by apply C99_keys_iff.
    - intros k (b & Hb & _ & Hk & Hp). apply first_accessor_spec in Hb. assert (b = a) as -> by congruence. apply C; [|done]. apply elem_of_ssort, elem_of_elements. by apply C99_keys_iff.
  Qed.
  (** C99e: a report is made for exactly the keys handlers read that are no placeholder of the route's own path, once for each method, printed path and key. *)
  Theorem C99_reports ps rs : let ms := all_mismatches rx find ps rs in
    NoDup (report_text <$> ms) ∧ (∀ m, m ∈ ms → ∃ r k, r ∈ rs ∧ wrong_key ps r k ∧ m = report r k) ∧
    (∀ r k, r ∈ rs → wrong_key ps r k → ∃ m, m ∈ ms ∧ report_text m = report_text (report r k)).
  Proof.
    cbn zeta. unfold all_mismatches.
    assert (G : ∀ rs (st : gset string * list mismatch), inv st → let st' := foldl (record_mismatches rx find ps) st rs in
      inv st' ∧ (∀ m, m ∈ st'.2 → m ∈ st.2 ∨ ∃ r k, r ∈ rs ∧ wrong_key ps r k ∧ m = report r k) ∧ (∀ m, m ∈ st.2 → m ∈ st'.2) ∧
      (∀ r k, r ∈ rs → wrong_key ps r k → report_text (report r k) ∈ report_text <$> st'.2)).
    { clear rs. induction rs as [|r rs IH]; intros st Hinv; cbn zeta; cbn [foldl].
      - split; [done|]. split; [by left|]. split; [done|]. intros r k Hr. by apply elem_of_nil in Hr.
      - destruct (record_spec ps r st Hinv) as (I1 & A1 & B1 & C1). destruct (IH _ I1) as (I2 & A2 & B2 & C2). split; [done|]. split; [|split].
        + intros m Hm. apply A2 in Hm as [Hm|(r' & k & Hr & Hk & ->)]; [apply A1 in Hm as [?|(k & Hk & ->)]; [by left|right; exists r, k; split; [by left|done]]|right; exists r', k; split; [by right|done]].
        + intros m Hm. by apply B2, B1.
        + intros r' k Hr Hk. apply elem_of_cons in Hr as [->|Hr]; [|by apply C2]. apply C1, elem_of_list_fmap in Hk as (m & Em & Hm). apply elem_of_list_fmap. exists m. split; [done|by apply B2]. }
    destruct (G rs (∅, [])) as ((I1 & _) & A & _ & C). { cbn. split; [apply NoDup_nil_2|]. intros t. rewrite elem_of_empty, elem_of_nil. done. }
    split; [done|]. split.
    - intros m Hm. apply A in Hm as [Hm|?]; [by apply elem_of_nil in Hm|done].
    - intros r k Hr Hk. apply (C r k Hr), elem_of_list_fmap in Hk as (m & Em & Hm). by exists m.
  Qed.
  Lemma cut_inj c a a' b b' : contains_byte c a = false → contains_byte c a' = false → a +:+ String c b = a' +:+ String c b' → a = a' ∧ b = b'.
  Proof.
    unfold contains_byte. revert a'. induction a as [|x a IH]; intros a' Ha Ha' E.
    - destruct a' as [|y a']; [by injection E|]. rewrite sapp_cons in E. change ("" +:+ String c b) with (String c b) in E. injection E as -> E. cbn [str_any] in Ha'. by rewrite bool_decide_eq_true_2 in Ha'.
    - destruct a' as [|y a']; [rewrite sapp_cons in E; change ("" +:+ String c b') with (String c b') in E; injection E as -> E; cbn [str_any] in Ha; by rewrite bool_decide_eq_true_2 in Ha|].
      rewrite !sapp_cons in E. injection E as -> E. cbn [str_any] in Ha, Ha'. apply orb_false_iff in Ha as [_ Ha], Ha' as [_ Ha']. destruct (IH a' Ha Ha' E) as [-> ->]. done.
  Qed.
  (** C99f: where methods and paths have no spaces, no two reports have method, path and key in common, and none is missing. *)
  Theorem C99_complete ps rs r k : (∀ r', r' ∈ rs → contains_byte " " (rt_method r') = false ∧ contains_byte " " (convert_path (join_paths (rt_mount r') (rt_path r'))) = false) →
    r ∈ rs → wrong_key ps r k → ∃ m, m ∈ all_mismatches rx find ps rs ∧ mm_method m = rt_method r ∧ mm_path m = convert_path (join_paths (rt_mount r) (rt_path r)) ∧ mm_key m = k.
  Proof.
    intros Hs Hr Hk. destruct (C99_reports ps rs) as (_ & A & C). destruct (C r k Hr Hk) as (m & Hm & E). exists m. split; [done|]. destruct (A m Hm) as (r' & k' & Hr' & _ & ->). destruct (Hs r Hr) as [H1 H2], (Hs r' Hr') as [H1' H2'].
    unfold report_text, report in E. cbn [mm_method mm_path mm_key] in *. apply cut_inj in E as [E1 E]; [|done|done]. apply cut_inj in E as [E2 E3]; [|done|done]. done.
  Qed.
End proofs.

(** ** Examples: [vars := mux.Vars(r); id := vars["id"]] *)
Definition m_rx (s : string) : option (string → bool) := Some (λ t, bool_decide (t = s)).
Definition m_accessor : accessor := Accessor "Vars" "github.com/gorilla/mux" "path" true.
Definition m_ident (n : string) : aexp := AExp AIdent n "" "" None None None [].
Definition m_lit (v : string) : aexp := AExp ALiteral "" "" (String "034"%char (v +:+ String "034"%char "")) None None None [].
Definition m_index (x : aexp) (key : string) : aexp := AExp AIndex "" "" "" (Some x) (Some (m_lit key)) None [].
Definition m_vars : aasn := AAsn (AExp ACall "" "" "" None (Some (AExp ASelector "" "github.com/gorilla/mux" "" None None (Some (m_ident "Vars")) [])) None [Some (m_ident "r")]) "Vars" "github.com/gorilla/mux".
Definition m_get (key : string) : aasn := AAsn (m_index (m_ident "vars") key) "" "".
Definition m_find (am : gmap string (list aasn)) (pkg name : string) : option (gmap string (list aasn)) := if decide (name = "GetUser") then Some am else None.
Definition m_route (mount path : string) : aroute := ARoute "GET" path mount "app.GetUser" "app".
Example C99_reported : all_mismatches m_rx (m_find {["vars" := [m_vars]; "id" := [m_get "userId"]]}) [m_accessor] [m_route "" "/users/{id}"; m_route "" "/users/{id}"] = [Mismatch "GET" "/users/{id}" "app.GetUser" "userId"].
Proof. by vm_compute. Qed.
Example C99_accepted : all_mismatches m_rx (m_find {["vars" := [m_vars]; "id" := [m_get "id"]]}) [m_accessor] [m_route "" "/users/{id}"] = [].
Proof. by vm_compute. Qed.
Example C99_added : complete_params [m_accessor] (λ _, true) "/users/{id:[0-9]+}/{tab}" [Prm "tab" "path" true None ""] = [Prm "tab" "path" true None ""; Prm "id" "path" true (Some (PSch "[0-9]+" "string")) ""].
Proof. by vm_compute. Qed.
Definition m_edges : list aedge := [AEdge "GetUser" "app" "app.GetUser" "readID" "app" "" "app.readID"; AEdge "readID" "app" "app.readID" "Vars" "github.com/gorilla/mux" "" "github.com/gorilla/mux.Vars"].
Example C99_reaches : ∃ s, reach_set id id (to_cg m_edges) ∅ "k" (cg_match m_rx m_accessor m_edges) = Some s ∧ handler_reaches m_edges s.1 (m_route "" "/users/{id}") = true.
Proof. eexists. split; by vm_compute. Qed.
(** C99g: a key of the path a router is mounted at is reported, though the printed path has it. *)
Theorem C99_mount_refuted : ∃ find r m, m ∈ all_mismatches m_rx find [m_accessor] [r] ∧ placeholder (mm_path m) (mm_key m).
Proof.
  exists (m_find {["vars" := [m_vars]; "t" := [m_get "tenant"]]}), (m_route "/tenants/{tenant}" "/users/{id}"), (Mismatch "GET" "/tenants/{tenant}/users/{id}" "app.GetUser" "tenant").
  assert (E : all_mismatches m_rx (m_find {["vars" := [m_vars]; "t" := [m_get "tenant"]]}) [m_accessor] [m_route "/tenants/{tenant}" "/users/{id}"] = [Mismatch "GET" "/tenants/{tenant}/users/{id}" "app.GetUser" "tenant"]) by (by vm_compute).
  rewrite E. split; [by left|]. cbn. split; [by exists "t"%char, "enant"|]. by exists "/tenants/", "/users/{id}".
Qed.
(** C99h: a key read from a variable that holds something else by then is reported: [vars := mux.Vars(r); vars = prefs(); lang := vars["lang"]]. *)
Theorem C99_reassigned_refuted : ∃ am asns other, am !! "vars" = Some (asns ++ [other]) ∧ an_func other = "prefs" ∧ all_mismatches m_rx (m_find am) [m_accessor] [m_route "" "/users/{id}"] ≠ [].
Proof.
  exists {["vars" := [m_vars; AAsn (m_ident "prefs") "prefs" "app"]; "lang" := [m_get "lang"]]}, [m_vars], (AAsn (m_ident "prefs") "prefs" "app"). split; [by vm_compute|]. split; [done|]. by vm_compute.
Qed.
(** C99i: the name of a handler is what follows its package and a dot, and the whole where that is not how it begins. *)
Theorem C99_bare r f : bare_func r = f ↔ (rt_pkg r ≠ "" ∧ rt_func r = rt_pkg r +:+ "." +:+ f) ∨ ((rt_pkg r = "" ∨ ∀ g, rt_func r ≠ rt_pkg r +:+ "." +:+ g) ∧ f = rt_func r).
Proof.
  unfold bare_func. destruct (decide (rt_pkg r = "")) as [D|D]; [naive_solver|]. destruct (has_prefix _ _) eqn:E.
  - apply has_prefix_spec in E as [t E]. rewrite E, str_drop_app. assert (E' : rt_func r = rt_pkg r +:+ "." +:+ t) by (rewrite E; by rewrite <- sapp_assoc). rewrite <- E. split.
    + intros ->. left. done.
    + intros [[_ H]|[[?|H] _]]; [|done|by destruct (H t)]. rewrite E' in H. by repeat apply (inj (String.append _)) in H.
  - assert (N : ∀ g, rt_func r ≠ rt_pkg r +:+ "." +:+ g). { intros g Hg. assert (has_prefix (rt_pkg r +:+ ".") (rt_func r) = true); [|congruence]. apply has_prefix_spec. exists g. by rewrite Hg, sapp_assoc. }
    split; [intros <-; right; by split; [right|]|]. intros [[_ H]|[_ H]]; [by destruct (N f)|done].
Qed.
Example C99_bare_example : bare_func (ARoute "GET" "/" "" "app.GetUser" "app") = "GetUser" ∧ bare_func (ARoute "GET" "/" "" "apple" "app") = "apple".
Proof. by vm_compute. Qed.
Print Assumptions C99_bare.
Print Assumptions C99_placeholders. Print Assumptions C99_params_iff. Print Assumptions C99_reach_iff. Print Assumptions C99_keys_iff. Print Assumptions C99_reports. Print Assumptions C99_complete. Print Assumptions C99_mount_refuted. Print Assumptions C99_reassigned_refuted.
