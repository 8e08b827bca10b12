(** * C98: the statuses a response call is documented with. *)
From Coq Require Import Ascii ZArith.
From stdpp Require Import base list strings gmap.
From Verif Require Import StrLib StrSplit DecLib PairModel DetModel ConModel StatModel StatSpec StatProofs CodeModel CodeProps.

Local Opaque states map_status_code.
Section resp.
  Context (info : sarg → string) (ctor : string → string → option (list sarg)) (pos_of : sarg → string) (base_of : sarg → option (sarg * csite)).
  Context (through : sarg → option sarg) (mapper : sarg → list Z * bool) (body_of : sarg → string) (scope : option (string → list sarg)).
  Notation extract := (extract_response info ctor pos_of base_of through mapper body_of scope).
  Notation says := (is_status (λ a, map_status_code (info a))).

  (** ** The specification *)
  (** A field of what a call returned states a status: the right-hand side of [C97_constructor_iff]. *)
  Definition field_states (a : sarg) (z : Z) : Prop :=
    ∃ x sel b site asn v, s_kind a = SSelector ∧ s_x a = Some x ∧ s_sel a = Some sel ∧ s_name sel ≠ "" ∧ s_kind x = SIdent ∧
      base_of x = Some (b, site) ∧ s_kind b = SIdent ∧ last (cs_assigned site (s_name b)) = Some asn ∧ s_kind (cn_value asn) = SCall ∧ cn_func asn ≠ "" ∧
      field_argument ctor (cs_edges site) (cn_func asn) (cn_pkg asn) (cn_pos asn) (s_name sel) v ∧ states (info v) z.
  (** An argument states a status: its own text, or else what the caller passed, or else, if nothing was passed, the field it is. *)
  Definition arg_states (a : sarg) (z : Z) : Prop :=
    states (info a) z ∨ (∀ y, ¬ states (info a) y) ∧ ((∃ b, through a = Some b ∧ states (info b) z) ∨ through a = None ∧ field_states a z).
  (** The values of the variable an argument is, and of the variable passed for the field it is. *)
  Definition var_values (a : sarg) (vs : list sarg) : Prop := s_kind a = SIdent ∧ ∃ asg, scope = Some asg ∧ vs = asg (s_name a).
  Definition field_values (a : sarg) (vs : list sarg) : Prop :=
    ∃ x sel b site sc func pos v, s_kind a = SSelector ∧ s_x a = Some x ∧ s_sel a = Some sel ∧ s_name sel ≠ "" ∧ base_of x = Some (b, site) ∧ cs_scope site = Some sc ∧
      (s_kind b = SCall ∧ func = callee_name_of (s_fn b) ∧ pos = pos_of b ∨
       ∃ asn, s_kind b = SIdent ∧ last (cs_assigned site (s_name b)) = Some asn ∧ s_kind (cn_value asn) = SCall ∧ func = cn_func asn ∧ pos = cn_pos asn) ∧
      func ≠ "" ∧ field_argument ctor (cs_edges site) func "" pos (s_name sel) v ∧ s_kind v = SIdent ∧ vs = sc (s_name v).
  (** The statuses an argument can have over the branches: of the first of variable, field and mapper that knows of several values. *)
  Definition branches (a : sarg) (vs : list sarg) : Prop :=
    2 ≤ length vs ∧ (var_values a vs ∨ (∀ us, var_values a us → length us < 2) ∧ field_values a vs).
  Definition can (a : sarg) (z : Z) : Prop := (∃ vs v, branches a vs ∧ v ∈ vs ∧ says v z) ∨ (∀ vs, ¬ branches a vs) ∧ z ∈ (mapper a).1.
  Definition open (a : sarg) : Prop := (∃ vs v, branches a vs ∧ v ∈ vs ∧ ∀ z, ¬ says v z) ∨ (∀ vs, ¬ branches a vs) ∧ (mapper a).2 = true.
  Definition varies (a : sarg) : Prop := (∃ z z', can a z ∧ can a z' ∧ z ≠ z') ∨ (∃ z, can a z) ∧ open a.
  (** The arguments a pattern reads. *)
  Definition status_arg (p : cpat) (args : list sarg) (a : sarg) : Prop := cp_status p = true ∧ args !! cp_status_at p = Some a.
  Definition body_arg (p : cpat) (args : list sarg) (a : sarg) : Prop := cp_type p = true ∧ args !! cp_type_at p = Some a.
  Definition is_body (p : cpat) (args : list sarg) (b : string) : Prop := (∃ a, body_arg p args a ∧ b = body_of a) ∨ (∀ a, ¬ body_arg p args a) ∧ b = "".
  (** The status the pattern knows: stated by the argument, or the pattern's own. *)
  Definition known (p : cpat) (args : list sarg) (z : Z) : Prop :=
    (∃ a, status_arg p args a ∧ arg_states a z) ∨ (∀ a y, status_arg p args a → ¬ arg_states a y) ∧ (0 < cp_default p)%Z ∧ z = cp_default p.
  (** The lowest recorded HTTP status without a body. *)
  Definition waits (old : list (Z * string)) (z : Z) : Prop := (z, "") ∈ old ∧ (100 <= z < 600)%Z.
  Definition adopted (p : cpat) (args : list sarg) (old : list (Z * string)) (z : Z) : Prop :=
    cp_status p = false ∧ (∃ a, body_arg p args a) ∧ waits old z ∧ ∀ z', waits old z' → (z <= z')%Z.
  (** One below zero and every recorded status. *)
  Definition fresh (old : list (Z * string)) (z : Z) : Prop :=
    (z < 0)%Z ∧ (∀ r, r ∈ old → (z < r.1)%Z) ∧ (z = (-1)%Z ∨ ∃ r, r ∈ old ∧ r.1 = (z + 1)%Z).
  Definition single (p : cpat) (args : list sarg) (old : list (Z * string)) (z : Z) : Prop :=
    adopted p args old z ∨ (∀ y, ¬ adopted p args old y) ∧ (known p args z ∨ (∀ y, ¬ known p args y) ∧ fresh old z).
  Definition implicit_of (p : cpat) (args : list sarg) : Z → Prop := λ z,
    (∃ y, known p args y) ∧ z = 0%Z ∨ (∀ y, ¬ known p args y) ∧ (cp_status p = true ∧ z = 0%Z ∨ cp_status p = false ∧ z = cp_implicit p).

  (** ** Proofs *)
  Lemma ctor_status_states a z : ctor_status info ctor base_of a = Some z ↔ field_states a z.
  Proof. apply C97_constructor_iff. Qed.
  Lemma arg_status_spec a z : arg_status info ctor base_of through a = Some z ↔ arg_states a z.
  Proof.
    unfold arg_status, arg_states, status_of. destruct (map_status_code (info a)) as [s|] eqn:E.
    - split.
      + intros [= <-]. left. by apply C97_text_iff.
      + intros [H|[H _]]; [apply C97_text_iff in H; congruence|]. destruct (H s). by apply C97_text_iff.
    - assert (N : ∀ y, ¬ states (info a) y) by (intros y Hy; apply C97_text_iff in Hy; congruence). destruct (through a) as [b|] eqn:Et.
      + rewrite C97_text_iff. split; [intros H; right; split; [exact N|left; exists b; split; [reflexivity|exact H]]|].
        intros [H|[_ [(b' & Eb & H)|[Eb _]]]]; [destruct (N z H)|injection Eb as <-; exact H|discriminate Eb].
      + rewrite ctor_status_states. split; [intros H; right; split; [exact N|right; split; [reflexivity|exact H]]|].
        intros [H|[_ [(b' & Eb & H)|[_ H]]]]; [destruct (N z H)|discriminate Eb|exact H].
  Qed.
  Lemma expand_ident_none a : (∀ vs, ¬ var_values a vs) → expand_ident info a scope = ([], false).
  Proof.
    intros H. unfold expand_ident. destruct (s_kind a) eqn:K; try done. destruct scope as [asg|] eqn:S0; [|done]. destruct (H (asg (s_name a))). split; [done|]. rewrite S0. by exists asg.
  Qed.
  Lemma expand_ident_some a vs : var_values a vs → expand_ident info a scope = expand_var info vs.
  Proof. intros (K & asg & E & ->). unfold expand_ident. by rewrite K, E. Qed.
  Lemma ctor_statuses_some a vs : field_values a vs → ctor_statuses info ctor pos_of base_of a = expand_var info vs.
  Proof.
    intros (x & sel & b & site & sc & func & pos & v & Ka & Hx & Hsel & N & Hb & Hs & Hf & Nf & Hv & Kv & ->). unfold ctor_statuses. rewrite Ka, Hx, Hsel, decide_False by done. rewrite Hb. cbn [mbind option_bind fst snd]. rewrite Hs. cbn [mbind option_bind].
    apply ctor_arg_spec in Hv.
    assert (E : match s_kind b with SCall => Some (callee_name_of (s_fn b), pos_of b)
      | SIdent => asn ← last (cs_assigned site (s_name b)); if decide (s_kind (cn_value asn) = SCall) then Some (cn_func asn, cn_pos asn) else None | _ => None end = Some (func, pos)).
    { destruct Hf as [(-> & -> & ->)|(asn & -> & -> & Ks & -> & ->)]; [done|]. cbn [mbind option_bind]. by rewrite decide_True. }
    rewrite E. cbn [mbind option_bind fst snd]. rewrite decide_False by done. rewrite Hv. cbn [mbind option_bind]. by rewrite decide_True.
  Qed.
  Lemma ctor_statuses_none a : (∀ vs, ¬ field_values a vs) → ctor_statuses info ctor pos_of base_of a = ([], false).
  Proof.
    intros H. unfold ctor_statuses. destruct (s_kind a) eqn:Ka; try done. destruct (s_x a) as [x|] eqn:Ex; [|done]. destruct (s_sel a) as [sel|] eqn:Es; [|done].
    destruct (decide (s_name sel = "")) as [|N]; [done|]. destruct (base_of x) as [[b site]|] eqn:Eb; cbn [mbind option_bind fst snd]; [|done].
    destruct (cs_scope site) as [sc|] eqn:Ec; cbn [mbind option_bind]; [|done].
    set (fp := match s_kind b with SCall => Some (callee_name_of (s_fn b), pos_of b)
      | SIdent => asn ← last (cs_assigned site (s_name b)); if decide (s_kind (cn_value asn) = SCall) then Some (cn_func asn, cn_pos asn) else None | _ => None end).
    destruct fp as [[func pos]|] eqn:Ef; cbn [mbind option_bind fst snd]; [|done].
    destruct (decide (func = "")) as [|Nf]; [done|].
    destruct (ctor_arg ctor (cs_edges site) func "" pos (s_name sel)) as [v|] eqn:Ev; cbn [mbind option_bind]; [|done].
    destruct (decide (s_kind v = SIdent)) as [Kv|]; [|done]. exfalso. apply (H (sc (s_name v))). exists x, sel, b, site, sc, func, pos, v.
    do 6 (split; [done|]). split; [|split; [done|split; [by apply ctor_arg_spec|done]]].
    unfold fp in Ef. destruct (s_kind b) eqn:Kb; try done.
    + left. injection Ef as <- <-. done.
    + right. destruct (last (cs_assigned site (s_name b))) as [asn|]; cbn [mbind option_bind] in Ef; [|done]. exists asn. destruct (decide (s_kind (cn_value asn) = SCall)); [|done]. injection Ef as <- <-. done.
  Qed.
  Lemma field_values_dec a : (∃ vs, field_values a vs) ∨ ∀ vs, ¬ field_values a vs.
  Proof.
    destruct (s_kind a) eqn:Ka; try (right; intros vs (x & sel & b & site & sc & func & pos & v & K & _); congruence).
    destruct (s_x a) as [x|] eqn:Ex; [|right; intros vs (x & sel & b & site & sc & func & pos & v & _ & ? & _); congruence].
    destruct (s_sel a) as [sel|] eqn:Es; [|right; intros vs (? & sel & b & site & sc & func & pos & v & _ & _ & ? & _); congruence].
    destruct (decide (s_name sel = "")) as [En|N]; [right; intros vs (? & ? & b & site & sc & func & pos & v & _ & _ & ? & ? & _); congruence|].
    destruct (base_of x) as [[b site]|] eqn:Eb; [|right; intros vs (? & ? & b & site & sc & func & pos & v & _ & ? & _ & _ & ? & _); congruence].
    destruct (cs_scope site) as [sc|] eqn:Ec; [|right; intros vs (? & ? & ? & ? & sc & func & pos & v & _ & ? & _ & _ & ? & ? & _); congruence].
    set (fp := match s_kind b with SCall => Some (callee_name_of (s_fn b), pos_of b)
      | SIdent => asn ← last (cs_assigned site (s_name b)); if decide (s_kind (cn_value asn) = SCall) then Some (cn_func asn, cn_pos asn) else None | _ => None end).
    assert (F : ∀ func pos, (s_kind b = SCall ∧ func = callee_name_of (s_fn b) ∧ pos = pos_of b ∨
       ∃ asn, s_kind b = SIdent ∧ last (cs_assigned site (s_name b)) = Some asn ∧ s_kind (cn_value asn) = SCall ∧ func = cn_func asn ∧ pos = cn_pos asn) ↔ fp = Some (func, pos)).
    { intros func pos. unfold fp. split.
      - intros [(-> & -> & ->)|(asn & -> & -> & Ks & -> & ->)]; [done|]. cbn [mbind option_bind]. by rewrite decide_True.
      - destruct (s_kind b) eqn:Kb; try done.
        + intros [= <- <-]. by left.
        + destruct (last (cs_assigned site (s_name b))) as [asn|]; cbn [mbind option_bind]; [|done]. destruct (decide (s_kind (cn_value asn) = SCall)); [|done]. intros [= <- <-]. right. by exists asn. }
    destruct fp as [[func pos]|].
    2:{ right. intros vs (x' & sel' & b' & site' & sc' & func & pos & v & _ & Ex' & _ & _ & Eb' & _ & Hf & _).
        assert (x' = x) as -> by congruence. assert (b' = b) as -> by congruence. assert (site' = site) as -> by congruence. apply F in Hf. done. }
    destruct (decide (func = "")) as [->|Nf].
    { right. intros vs (x' & sel' & b' & site' & sc' & func & pos' & v & _ & Ex' & _ & _ & Eb' & _ & Hf & Nf & _).
      assert (x' = x) as -> by congruence. assert (b' = b) as -> by congruence. assert (site' = site) as -> by congruence. apply F in Hf. congruence. }
    destruct (ctor_arg ctor (cs_edges site) func "" pos (s_name sel)) as [v|] eqn:Ev.
    2:{ right. intros vs (x' & sel' & b' & site' & sc' & func' & pos' & v & _ & Ex' & Es' & _ & Eb' & _ & Hf & _ & Hv & _).
        assert (x' = x) as -> by congruence. assert (sel' = sel) as -> by congruence. assert (b' = b) as -> by congruence. assert (site' = site) as -> by congruence. apply F in Hf. assert (func' = func) as -> by congruence. assert (pos' = pos) as -> by congruence.
        apply ctor_arg_spec in Hv. congruence. }
    destruct (decide (s_kind v = SIdent)) as [Kv|Kv].
    - left. exists (sc (s_name v)), x, sel, b, site, sc, func, pos, v. do 6 (split; [done|]). split; [by apply F|]. split; [done|]. split; [by apply ctor_arg_spec|done].
    - right. intros vs (x' & sel' & b' & site' & sc' & func' & pos' & v' & _ & Ex' & Es' & _ & Eb' & _ & Hf & _ & Hv & Kv' & _).
      assert (x' = x) as -> by congruence. assert (sel' = sel) as -> by congruence. assert (b' = b) as -> by congruence. assert (site' = site) as -> by congruence. apply F in Hf. assert (func' = func) as -> by congruence. assert (pos' = pos) as -> by congruence.
      apply ctor_arg_spec in Hv. congruence.
  Qed.
  Lemma var_values_dec a : (∃ vs, var_values a vs) ∨ ∀ vs, ¬ var_values a vs.
  Proof.
    unfold var_values. destruct (decide (s_kind a = SIdent)) as [K|K]; [|right; by intros vs [? _]]. destruct scope as [asg|]; [|right; intros vs (_ & ? & ? & _); done].
    left. exists (asg (s_name a)). split; [done|]. by exists asg.
  Qed.
  Lemma var_values_fun a vs us : var_values a vs → var_values a us → vs = us.
  Proof. intros (_ & asg & E & ->) (_ & asg' & E' & ->). congruence. Qed.
  Lemma nothing_short vs : says_nothing (expand_var info vs) = true ↔ length vs < 2.
  Proof.
    destruct (C97_variable_iff info vs) as (_ & H2 & H3). split.
    - intros H. destruct (decide (length vs < 2)) as [|L]; [done|]. exfalso. destruct vs as [|v vs]; [cbn in L; lia|].
      destruct (status_code_of_value (status_of info) v) as [s|] eqn:E.
      + assert (M : s ∈ (expand_var info (v :: vs)).1). { apply H2. split; [lia|]. exists v. split; [by left|]. by apply says_iff. }
        destruct (expand_var info (v :: vs)) as [[|c cs] []]; try done. by apply elem_of_nil in M.
      + assert (M : (expand_var info (v :: vs)).2 = true). { apply H3. split; [lia|]. exists v. split; [by left|]. intros z Hz. apply says_iff in Hz. congruence. }
        destruct (expand_var info (v :: vs)) as [[|c cs] []]; done.
    - intros L. unfold expand_var. by rewrite decide_True.
  Qed.
  Lemma field_values_fun a vs us : field_values a vs → field_values a us → length vs < 2 ↔ length us < 2.
  Proof. intros H1 H2. apply ctor_statuses_some in H1, H2. rewrite <- !nothing_short. by rewrite <- H1, <- H2. Qed.
  Lemma status_set_spec a : (∀ a, NoDup (mapper a).1) →
    let r := status_set info ctor pos_of base_of mapper scope a in
    NoDup r.1 ∧ (∀ z, z ∈ r.1 ↔ can a z) ∧ (r.2 = true ↔ open a).
  Proof.
    intros Hm. cbn zeta. unfold status_set.
    (* which of the three *)
    assert (cases : (∃ vs, branches a vs ∧ status_set info ctor pos_of base_of mapper scope a = expand_var info vs ∧ ∀ us, branches a us → expand_var info us = expand_var info vs) ∨
                    ((∀ vs, ¬ branches a vs) ∧ status_set info ctor pos_of base_of mapper scope a = mapper a)).
    { unfold status_set.
      assert (field : (∀ us, var_values a us → length us < 2) → says_nothing (expand_ident info a scope) = true →
        let r := ctor_statuses info ctor pos_of base_of a in
        (∃ vs, branches a vs ∧ (if says_nothing r then mapper a else r) = expand_var info vs ∧ ∀ us, branches a us → expand_var info us = expand_var info vs) ∨
        ((∀ vs, ¬ branches a vs) ∧ (if says_nothing r then mapper a else r) = mapper a)).
      { intros Hv _. cbn zeta. destruct (field_values_dec a) as [[vs Hf]|Hn].
        - pose proof (ctor_statuses_some _ _ Hf) as Er. destruct (decide (length vs < 2)) as [L|L].
          + right. rewrite Er, (proj2 (nothing_short vs) L). split; [|done]. intros us [Lu [Hu|[_ Hu]]]; [specialize (Hv us Hu); lia|]. apply (field_values_fun a vs us Hf Hu) in L. lia.
          + left. exists vs. assert (Hs : says_nothing (expand_var info vs) = false) by (apply not_true_is_false; by rewrite nothing_short). rewrite Er, Hs. split; [split; [lia|by right]|]. split; [done|].
            intros us [Lu [Hu|[_ Hu]]]; [specialize (Hv us Hu); lia|]. apply ctor_statuses_some in Hu. congruence.
        - right. rewrite (ctor_statuses_none a Hn). split; [|done]. intros us [Lu [Hu|[_ Hu]]]; [specialize (Hv us Hu); lia|by apply (Hn us)]. }
      destruct (var_values_dec a) as [[vs Hf]|Hn].
      - pose proof (expand_ident_some _ _ Hf) as Er. destruct (decide (length vs < 2)) as [L|L].
        + rewrite Er, (proj2 (nothing_short vs) L). apply field; [|rewrite Er; by apply nothing_short]. intros us Hu. by rewrite <- (var_values_fun a vs us).
        + left. exists vs. assert (Hs : says_nothing (expand_var info vs) = false) by (apply not_true_is_false; by rewrite nothing_short). rewrite Er, Hs, Hs. split; [split; [lia|by left]|]. split; [done|].
          intros us [Lu [Hu|[Hu _]]]; [by rewrite (var_values_fun a vs us)|]. specialize (Hu vs Hf). lia.
      - rewrite (expand_ident_none a Hn). apply field; [|by rewrite expand_ident_none]. intros us Hu. by destruct (Hn us). }
    fold (status_set info ctor pos_of base_of mapper scope a). unfold can, open. destruct cases as [(vs & Hb & -> & Hu)|(Hn & ->)].
    - destruct (C97_variable_iff info vs) as (H1 & H2 & H3). pose proof (proj1 Hb) as L. split; [done|]. split.
      + intros z. split.
        * intros Hz. apply H2 in Hz as (_ & v & Hv & Hz). left. by exists vs, v.
        * intros [(us & v & Hb' & Hv & Hz)|[Hn _]]; [|by destruct (Hn vs)]. rewrite <- (Hu us Hb'). apply C97_variable_iff. split; [apply Hb'|by exists v].
      + split.
        * intros Hz. apply H3 in Hz as (_ & v & Hv & Hz). left. by exists vs, v.
        * intros [(us & v & Hb' & Hv & Hz)|[Hn _]]; [|by destruct (Hn vs)]. rewrite <- (Hu us Hb'). apply C97_variable_iff. split; [apply Hb'|by exists v].
    - split; [apply Hm|]. split; [intros z|]; (split; [intros H; right; done|]); (intros [(vs & v & Hb & _)|[_ H]]; [by destruct (Hn vs)|done]).
  Qed.
  Lemma foldl_least old m : let r := foldl (λ m (r : Z * string), if decide (r.1 < m)%Z then r.1 else m) m old in
    (r <= m)%Z ∧ (∀ x, x ∈ old → (r <= x.1)%Z) ∧ (r = m ∨ ∃ x, x ∈ old ∧ x.1 = r).
  Proof.
    revert m. induction old as [|x old IH]; intros m; cbn zeta; cbn [foldl].
    - split; [lia|]. split; [intros x Hx; by apply elem_of_nil in Hx|by left].
    - destruct (IH (if decide (x.1 < m)%Z then x.1 else m)) as (H1 & H2 & H3). destruct (decide (x.1 < m)%Z) as [L|L].
      + split; [lia|]. split; [intros y Hy; apply elem_of_cons in Hy as [->|Hy]; [lia|by apply H2]|]. right. destruct H3 as [H3|(y & Hy & E)]; [exists x; split; [by left|done]|exists y; split; [by right|done]].
      + split; [lia|]. split; [intros y Hy; apply elem_of_cons in Hy as [->|Hy]; [lia|by apply H2]|]. destruct H3 as [H3|(y & Hy & E)]; [by left|right; exists y; split; [by right|done]].
  Qed.
  Lemma bodyless_gen old : ∀ best, let r := foldl (λ best (r : Z * string), if decide (r.2 = "" ∧ 100 <= r.1 < 600)%Z then match best with Some b => if decide (r.1 < b)%Z then Some r.1 else Some b | None => Some r.1 end else best) best old in
    ∀ z, r = Some z ↔ (best = Some z ∨ waits old z) ∧ (∀ b, best = Some b → (z <= b)%Z) ∧ ∀ z', waits old z' → (z <= z')%Z.
  Proof.
    unfold waits. induction old as [|x old IH]; intros best; cbn zeta; cbn [foldl]; intros z.
    - split.
      + intros ->. split; [by left|]. split; [intros b [= ->]; lia|intros z' [Hz _]; by apply elem_of_nil in Hz].
      + intros ([?|[Hz _]] & _); [done|by apply elem_of_nil in Hz].
    - rewrite IH. destruct x as [y b]. cbn [fst snd]. destruct (decide (b = "" ∧ 100 <= y < 600)%Z) as [[-> Hy]|N].
      + assert (W : ∀ z, (z, "") ∈ (y, "") :: old ↔ z = y ∨ (z, "") ∈ old) by (intros u; rewrite elem_of_cons; split; intros [H|H]; try (by right); left; congruence).
        setoid_rewrite W. split.
        * intros (H1 & H2 & H3). destruct best as [c|].
          -- destruct (decide (y < c)%Z) as [L|L].
             ++ specialize (H2 y eq_refl). split; [destruct H1 as [[= <-]|[H1 H1']]; [right; split; [by left|done]|right; split; [by right|done]]|].
                split; [intros b' [= <-]; lia|]. intros z' [[->|Hz] Hz']; [lia|by apply H3].
             ++ specialize (H2 c eq_refl). split; [destruct H1 as [[= <-]|[H1 H1']]; [by left|right; split; [by right|done]]|].
                split; [intros b' [= <-]; lia|]. intros z' [[->|Hz] Hz']; [lia|by apply H3].
          -- specialize (H2 y eq_refl). split; [destruct H1 as [[= <-]|[H1 H1']]; [right; split; [by left|done]|right; split; [by right|done]]|].
             split; [intros b' [=]|]. intros z' [[->|Hz] Hz']; [lia|by apply H3].
        * intros (H1 & H2 & H3). assert (z <= y)%Z as Ly by (apply H3; split; [by left|done]). split.
          -- destruct H1 as [->|[[->|H1] H1']].
             ++ left. destruct (decide (y < z)%Z); [lia|done].
             ++ destruct best as [c|]; [|by left]. left. specialize (H2 c eq_refl). destruct (decide (y < c)%Z); [done|]. f_equal. lia.
             ++ by right.
          -- split.
             ++ intros b'. destruct best as [c|]; [specialize (H2 c eq_refl); destruct (decide (y < c)%Z); intros [= <-]; lia|intros [= <-]; lia].
             ++ intros z' [Hz Hz']. apply H3. split; [by right|done].
      + assert (W : ∀ z, ((z, "") ∈ (y, b) :: old ∧ (100 <= z < 600)%Z) ↔ (z, "") ∈ old ∧ (100 <= z < 600)%Z).
        { intros u. rewrite elem_of_cons. split; [intros [[H|H] ?]; [injection H as -> <-; by destruct N|done]|intros [? ?]; split; [by right|done]]. }
        setoid_rewrite W. done.
  Qed.
  Lemma bodyless_spec old z : bodyless old = Some z ↔ waits old z ∧ ∀ z', waits old z' → (z <= z')%Z.
  Proof.
    unfold bodyless. pose proof (bodyless_gen old None z) as H. cbn zeta in H. rewrite H. split.
    - intros ([?|?] & _ & ?); done.
    - intros [H1 H2]. split; [by right|]. split; [by intros b [=]|done].
  Qed.
  Lemma body_arg_dec p args : (∃ a, body_arg p args a) ∨ ∀ a, ¬ body_arg p args a.
  Proof. unfold body_arg. destruct (cp_type p); [|right; by intros a [? _]]. destruct (args !! cp_type_at p) as [a|]; [left; by exists a|right; by intros a [_ ?]]. Qed.

  (** The responses of a call are all and only those with the body of the body argument, and with the statuses the status argument has over the branches, or the one status. *)
  Definition documented (p : cpat) (args : list sarg) (old : list (Z * string)) (r : cresp) : Prop :=
    is_body p args (cr_body r) ∧
    ((∃ a, status_arg p args a ∧ varies a ∧ (can a (cr_status r) ∨ open a ∧ cr_status r = (-1)%Z) ∧ cr_implicit r = 0%Z ∧ cr_unresolved r = false) ∨
     (∀ a, status_arg p args a → ¬ varies a) ∧ single p args old (cr_status r) ∧ implicit_of p args (cr_implicit r) ∧
       ((cr_body r ≠ "" ∨ ∃ z, known p args z) ∧ cr_unresolved r = false ∨
        cr_body r = "" ∧ (∀ z, ¬ known p args z) ∧ cp_status p = true ∧ cr_unresolved r = true)).
  Lemma length_varies (codes : list Z) : NoDup codes → 1 < length codes ↔ ∃ z z', z ∈ codes ∧ z' ∈ codes ∧ z ≠ z'.
  Proof.
    intros Hnd. split.
    - destruct codes as [|x [|y l]]; cbn; [lia|lia|]. intros _. exists x, y. split; [by left|]. split; [right; by left|]. intros ->. apply NoDup_cons in Hnd as [H _]. apply H. by left.
    - intros (z & z' & Hz & Hz' & N). destruct codes as [|x [|y l]]; cbn; [by apply elem_of_nil in Hz| |lia]. apply elem_of_list_singleton in Hz, Hz'. congruence.
  Qed.
  (** C98a. *)
  Theorem C98_responses_iff p args old r : (∀ a, NoDup (mapper a).1) → r ∈ extract p args old ↔ documented p args old r.
  Proof.
    intros Hm. unfold documented, extract_response. cbn zeta.
    set (sa := if cp_status p then args !! cp_status_at p else None). set (ba := if cp_type p then args !! cp_type_at p else None).
    assert (Sa : ∀ a, status_arg p args a ↔ sa = Some a). { intros a. unfold status_arg, sa. destruct (cp_status p); [|split; [by intros [? _]|done]]. split; [by intros [_ ?]|done]. }
    assert (Ba : ∀ a, body_arg p args a ↔ ba = Some a). { intros a. unfold body_arg, ba. destruct (cp_type p); [|split; [by intros [? _]|done]]. split; [by intros [_ ?]|done]. }
    clearbody sa ba.
    set (resolved := match sa ≫= arg_status info ctor base_of through with Some s => Some s | None => if decide (0 < cp_default p)%Z then Some (cp_default p) else None end).
    assert (Kn : ∀ z, known p args z ↔ resolved = Some z).
    { intros z. unfold known, resolved.
      assert (K1 : (∃ a, status_arg p args a ∧ arg_states a z) ↔ ∃ a, sa = Some a ∧ arg_states a z). { split; intros (a & Ea & H); exists a; (split; [by apply Sa|exact H]). }
      assert (K2 : (∀ a y, status_arg p args a → ¬ arg_states a y) ↔ ∀ a y, sa = Some a → ¬ arg_states a y). { split; intros H a y Ha; apply H; by apply Sa. }
      rewrite K1, K2. clear K1 K2. pose proof arg_status_spec as As. revert As. generalize arg_states as ars. generalize (arg_status info ctor base_of through) as ast. intros ast ars As.
      clear Hm. destruct sa as [a|]; cbn [mbind option_bind].
      - destruct (ast a) as [s|] eqn:E.
        + apply As in E as E'. split.
          * intros [(a' & [= <-] & H)|[H _]]; [apply As in H; congruence|by destruct (H a s)].
          * intros [= <-]. left. by exists a.
        + assert (N : ∀ y, ¬ ars a y) by (intros y Hy; apply As in Hy; congruence). destruct (decide (0 < cp_default p)%Z) as [L|L]; split.
          * intros [(a' & [= <-] & H)|(_ & _ & ->)]; [by destruct (N z)|done].
          * intros [= <-]. right. split; [intros a' y [= <-]; apply N|done].
          * intros [(a' & [= <-] & H)|(_ & ? & _)]; [by destruct (N z)|done].
          * done.
      - destruct (decide (0 < cp_default p)%Z) as [L|L]; split.
        + intros [(a' & ? & H)|(_ & _ & ->)]; done.
        + intros [= <-]. right. done.
        + intros [(a' & ? & H)|(_ & ? & _)]; done.
        + done. }
    assert (Nk : (∀ z, ¬ known p args z) ↔ resolved = None). { split; [intros H|intros E z Hz; apply Kn in Hz; congruence]. destruct resolved as [s|]; [|reflexivity]. destruct (H s). by apply Kn. }
    assert (Ek : (∃ z, known p args z) ↔ ∃ z, resolved = Some z). { split; intros [z Hz]; exists z; by apply Kn. }
    clearbody resolved.
    set (least := foldl (λ m (r : Z * string), if decide (r.1 < m)%Z then r.1 else m) 0%Z old).
    assert (Fr : ∀ z, fresh old z ↔ z = (least - 1)%Z).
    { intros z. destruct (foldl_least old 0%Z) as (H1 & H2 & H3). fold least in H1, H2, H3. unfold fresh. split.
      - intros (F1 & F2 & F3). destruct H3 as [H3|(x & Hx & E)].
        + destruct F3 as [->|(r0 & Hr & E)]; [lia|]. specialize (H2 r0 Hr). lia.
        + specialize (F2 x Hx). destruct F3 as [->|(r0 & Hr & E')]; [lia|]. specialize (H2 r0 Hr). lia.
      - intros ->. split; [lia|]. split; [intros x Hx; specialize (H2 x Hx); lia|]. destruct H3 as [->|(x & Hx & E)]; [left; lia|right; exists x; split; [done|lia]]. }
    set (implicit := match resolved with None => if cp_status p then 0%Z else cp_implicit p | Some _ => 0%Z end).
    assert (Im : ∀ z, implicit_of p args z ↔ z = implicit).
    { intros z. unfold implicit_of. rewrite Nk, Ek. unfold implicit. destruct resolved as [s|].
      - split; [intros [[_ ->]|[? _]]; done|]. intros ->. left. split; [by exists s|done].
      - destruct (cp_status p); (split; [intros [[[? ?] _]|[_ [[? ?]|[? ?]]]]; done|]); intros ->; right; (split; [done|]); [by left|by right]. }
    set (status := default (least - 1)%Z resolved).
    set (sb := match ba with Some b => (match (if cp_status p then None else bodyless old) with Some s => s | None => status end, body_of b) | None => (status, "") end).
    assert (Bo : ∀ b, is_body p args b ↔ b = sb.2).
    { intros b. unfold is_body.
      assert (B1 : (∃ a, body_arg p args a ∧ b = body_of a) ↔ ∃ a, ba = Some a ∧ b = body_of a). { split; intros (a & Ea & H); exists a; (split; [by apply Ba|exact H]). }
      assert (B2 : (∀ a, ¬ body_arg p args a) ↔ ∀ a, ba ≠ Some a). { split; intros H a Ha; apply (H a); by apply Ba. }
      rewrite B1, B2. unfold sb. destruct ba as [a|]; cbn [fst snd]; split.
      - intros [(a' & [= <-] & ->)|[H _]]; [done|by destruct (H a)].
      - intros ->. left. by exists a.
      - intros [(a' & ? & _)|[_ ->]]; done.
      - intros ->. by right. }
    assert (Ad : ∀ z, adopted p args old z ↔ cp_status p = false ∧ (∃ a, ba = Some a) ∧ bodyless old = Some z).
    { intros z. unfold adopted. rewrite bodyless_spec. split; intros (H1 & [a Ha] & H2 & H3); (split; [exact H1|split; [exists a; by apply Ba|split; assumption]]). }
    assert (Si : ∀ z, single p args old z ↔ z = sb.1).
    { intros z. unfold single. rewrite Ad, Nk, Fr, Kn.
      assert (A2 : (∀ y, ¬ adopted p args old y) ↔ ∀ y, ¬ (cp_status p = false ∧ (∃ a, ba = Some a) ∧ bodyless old = Some y)). { split; intros H y Hy; apply (H y); by apply Ad. }
      rewrite A2. clear A2.
      assert (Rest : (resolved = Some z ∨ resolved = None ∧ z = (least - 1)%Z) ↔ z = status).
      { unfold status. destruct resolved as [s|]; [change (default (least - 1)%Z (Some s)) with s|change (default (least - 1)%Z None) with (least - 1)%Z].
        - split; [intros [[= <-]|[? _]]; done|intros ->; by left].
        - split; [intros [?|[_ ?]]; done|intros ->; by right]. }
      unfold sb. destruct ba as [a|]; cbn [fst snd].
      - destruct (cp_status p); cbn [fst snd].
        + rewrite Rest. split; [intros [[? _]|[_ ?]]; done|]. intros H. right. split; [by intros y [? _]|done].
        + destruct (bodyless old) as [s|].
          * split; [intros [(_ & _ & [= ->])|[H _]]; [done|destruct (H s); split; [done|split; [by exists a|done]]]|]. intros ->. left. split; [done|]. split; [by exists a|done].
          * rewrite Rest. split; [intros [(_ & _ & ?)|[_ ?]]; done|]. intros H. right. split; [by intros y (_ & _ & ?)|done].
      - rewrite Rest. split; [intros [(_ & (a & ?) & _)|[_ ?]]; done|]. intros H. right. split; [by intros y (_ & (a & ?) & _)|done]. }
    rewrite Bo, Si, Im, Nk, Ek.
    assert (S1 : ∀ P : sarg → Prop, (∃ a, status_arg p args a ∧ P a) ↔ ∃ a, sa = Some a ∧ P a). { intros P. split; intros (a & Ea & H); exists a; (split; [by apply Sa|exact H]). }
    assert (S2 : (∀ a, status_arg p args a → ¬ varies a) ↔ ∀ a, sa = Some a → ¬ varies a). { split; intros H a Ha; apply H; by apply Sa. }
    rewrite S1, S2. clear S1 S2. cbn zeta.
    destruct sb as [st body]. cbn [fst snd].
    set (cr := match sa with Some a => status_set info ctor pos_of base_of mapper scope a | None => ([], false) end).
    assert (Va : (∃ a, sa = Some a ∧ varies a) ↔ (1 < length cr.1 ∨ 1 ≤ length cr.1 ∧ cr.2 = true)).
    { unfold cr. destruct sa as [a|]; [|split; [intros (? & ? & _); done|cbn; intros [?|[? _]]; lia]].
      destruct (status_set_spec a Hm) as (H1 & H2 & H3). rewrite (length_varies _ H1), H3. unfold varies. split.
      - intros (a' & [= <-] & [(z & z' & Hz & Hz' & N)|[[z Hz] Ho]]); [left; exists z, z'; by rewrite !H2|right]. split; [|done]. apply H2 in Hz. destruct ((status_set info ctor pos_of base_of mapper scope a).1); [by apply elem_of_nil in Hz|cbn; lia].
      - intros H. exists a. split; [done|]. destruct H as [(z & z' & Hz & Hz' & N)|[L Ho]]; [left; exists z, z'; by rewrite <- !H2|right]. split; [|done].
        destruct ((status_set info ctor pos_of base_of mapper scope a).1) as [|x l] eqn:E; [cbn in L; lia|]. exists x. apply H2. rewrite ?E. by left. }
    assert (Cn : ∀ a, sa = Some a → (∀ z, z ∈ cr.1 ↔ can a z) ∧ (cr.2 = true ↔ open a)). { intros a E. unfold cr. rewrite E. by destruct (status_set_spec a Hm) as (_ & ? & ?). }
    clearbody cr. destruct cr as [codes residue]. cbn [fst snd] in Va, Cn.
    destruct r as [rs rb ri ru]. cbn [cr_status cr_body cr_implicit cr_unresolved].
    destruct (decide (1 < length codes ∨ 1 ≤ length codes ∧ residue = true)) as [V|V].
    - apply Va in V as (a & Ea & V). destruct (Cn a Ea) as [C1 C2]. rewrite elem_of_app, elem_of_list_fmap. split.
      + intros [(z & [= -> -> -> ->] & Hz)|H].
        * split; [done|]. left. exists a. split; [done|]. split; [done|]. split; [left; by apply C1|done].
        * destruct residue; [|by apply elem_of_nil in H]. apply elem_of_list_singleton in H as [= -> -> -> ->]. split; [done|]. left. exists a. split; [done|]. split; [done|]. split; [right; split; [by apply C2|done]|done].
      + intros (-> & [(a' & Ea' & _ & Hz & -> & ->)|(Hn & _)]).
        * assert (a' = a) as -> by congruence. destruct Hz as [Hz|[Ho ->]]; [left; exists rs; split; [done|by apply C1]|right]. apply C2 in Ho as ->. by apply elem_of_list_singleton.
        * by destruct (Hn a).
    - assert (Nv : ∀ a, sa = Some a → ¬ varies a). { intros a Ea Hv. apply V, Va. by exists a. }
      destruct (decide (resolved = None ∧ body = "")) as [[Er ->]|N].
      + destruct (cp_status p) eqn:Ep.
        * rewrite elem_of_list_singleton. split.
          -- intros [= -> -> -> ->]. split; [done|]. right. do 3 (split; [done|]). right. done.
          -- intros (-> & [(a & Ea & Hv & _)|(_ & -> & -> & [[[?|[z Hz]] _]|(_ & _ & _ & ->)])]); [by destruct (Nv a)|done|congruence|done].
        * rewrite elem_of_nil. split; [done|]. intros (-> & [(a & Ea & Hv & _)|(_ & _ & _ & [[[?|[z Hz]] _]|(_ & _ & ? & _)])]); [by destruct (Nv a)|done|congruence|done].
      + rewrite elem_of_list_singleton. split.
        * intros [= -> -> -> ->]. split; [done|]. right. do 3 (split; [done|]). left. split; [|done]. destruct (decide (body = "")) as [->|]; [right|by left].
          destruct resolved as [s|]; [by exists s|]. by destruct N.
        * intros (-> & [(a & Ea & Hv & _)|(_ & -> & -> & [[_ ->]|(-> & Er & _ & ->)])]); [by destruct (Nv a)|done|by destruct N].
  Qed.
  (** C98b: a call is documented with nothing at all exactly if its pattern reads no status and has none, and there is no body. *)
  Theorem C98_none_iff p args old : extract p args old = [] ↔ cp_status p = false ∧ (cp_default p <= 0)%Z ∧ is_body p args "".
  Proof.
    unfold is_body, body_arg. split.
    - unfold extract_response. destruct (cp_status p) eqn:Ep; cbn [mbind option_bind].
      + intros H. exfalso. revert H. set (sb := match _ with Some _ => _ | None => _ end). destruct sb as [st body]. destruct (match args !! cp_status_at p with Some a => _ | None => _ end) as [codes residue].
        match goal with |- context [decide (1 < length codes ∨ 1 ≤ length codes ∧ residue = true)] => destruct (decide (1 < length codes ∨ 1 ≤ length codes ∧ residue = true)) as [V|V] end.
        * destruct codes; [cbn in V; lia|done].
        * match goal with |- context [decide (?A ∧ ?B)] => destruct (decide (A ∧ B)) end; done.
      + change (decide (1 < length (@nil Z) ∨ 1 ≤ length (@nil Z) ∧ false = true)) with (decide (1 < 0 ∨ 1 ≤ 0 ∧ false = true)).
        destruct (decide (0 < cp_default p)%Z) as [L|L].
        * destruct (if cp_type p then args !! cp_type_at p else None) as [b|]; (rewrite decide_False by (cbn; intros [?|[? _]]; lia)); by rewrite decide_False by (intros [? _]; done).
        * intros H. split; [done|]. split; [lia|]. destruct (if cp_type p then args !! cp_type_at p else None) as [b|] eqn:Eb.
          -- rewrite decide_False in H by (cbn; intros [?|[? _]]; lia). left. exists b. destruct (cp_type p); [|done]. split; [done|].
             match type of H with context [decide (?A ∧ ?B)] => destruct (decide (A ∧ B)) as [[_ E]|] end; [done|done].
          -- right. split; [|done]. intros a [Ht Ha]. rewrite Ht in Eb. congruence.
    - intros (Ep & L & Hb). unfold extract_response. rewrite Ep. cbn [mbind option_bind]. rewrite (decide_False (P := (0 < cp_default p)%Z)) by lia.
      assert (E : ∀ st, ∃ st', match (if cp_type p then args !! cp_type_at p else None) with Some b => (match bodyless old with Some s => s | None => st end, body_of b) | None => (st, "") end = (st', "")).
      { intros st. destruct Hb as [(a & (-> & ->) & <-)|(Hn & _)]; [by eexists|]. destruct (cp_type p); [|by eexists]. destruct (args !! cp_type_at p) as [a|]; [by destruct (Hn a)|by eexists]. }
      cbn zeta. edestruct E as [st' ->]. rewrite decide_False by (cbn; cbn; intros [?|[? _]]; lia). by rewrite decide_True.
  Qed.
  (** C98c: the order in which the recorded responses are seen does not matter. *)
  Theorem C98_order_irrelevant p args old old' : (∀ a, NoDup (mapper a).1) → old ≡ₚ old' → ∀ r, r ∈ extract p args old ↔ r ∈ extract p args old'.
  Proof.
    intros Hm Hp r. rewrite !C98_responses_iff by done. assert (M : ∀ x, x ∈ old ↔ x ∈ old') by (intros x; by rewrite Hp).
    assert (W : ∀ z, waits old z ↔ waits old' z) by (intros z; unfold waits; by rewrite M).
    assert (A : ∀ z, adopted p args old z ↔ adopted p args old' z). { intros z. unfold adopted. rewrite W. setoid_rewrite W. done. }
    assert (F : ∀ z, fresh old z ↔ fresh old' z). { intros z. unfold fresh. by setoid_rewrite M. }
    unfold documented, single. setoid_rewrite A. rewrite F. done.
  Qed.
  (** C98d: a status the argument states itself is documented, unless it varies; a stated or a pattern's own status is never replaced by the implicit one. *)
  Theorem C98_stated p args old a z : (∀ a, NoDup (mapper a).1) → status_arg p args a → states (info a) z → ¬ varies a →
    ∃ b, is_body p args b ∧ extract p args old = [CResp z b 0 false].
  Proof.
    intros Hm Hs Hz Hv.
    assert (Kn : known p args z). { left. exists a. split; [done|]. by left. }
    assert (one : ∃ r, extract p args old = [r]).
    { destruct Hs as [Ep Ea]. unfold extract_response. rewrite Ep, Ea. cbn zeta. match goal with |- context [let '(_, _) := ?X in let '(_, _) := _ in _] => destruct X as [st body] end. destruct (status_set_spec a Hm) as (H1 & H2 & H3).
      destruct (status_set info ctor pos_of base_of mapper scope a) as [codes residue]. cbn [fst snd] in *. rewrite decide_False.
      - match goal with |- context [decide (?A ∧ ?B)] => destruct (decide (A ∧ B)) end; by eexists.
      - intros V. apply Hv. unfold varies. destruct V as [V|[V V']]; [left; apply (length_varies _ H1) in V as (y & y' & ? & ? & ?); exists y, y'; by rewrite <- !H2|right]. split; [|by apply H3].
        destruct codes as [|c cs]; [cbn in V; lia|]. exists c. apply H2. by left. }
    destruct one as [r Er]. exists (cr_body r). assert (D : documented p args old r). { apply C98_responses_iff; [done|]. rewrite Er. by left. }
    destruct D as (Hb & D). split; [done|]. rewrite Er. f_equal. destruct r as [rs rb ri ru]. cbn in *.
    destruct D as [(a' & Hs' & Hv' & _)|(_ & Hsi & Hi & Hu)].
    { destruct Hs as [_ E], Hs' as [_ E']. assert (a' = a) as -> by congruence. done. }
    assert (Uk : ∀ y, known p args y → y = z).
    { intros y [(a' & [_ E] & Hy)|(Hn & _)].
      - destruct Hs as [_ E']. assert (a' = a) as -> by congruence. destruct Hy as [Hy|[Hn _]]; [|by destruct (Hn z)]. apply C97_text_iff in Hy, Hz. congruence.
      - destruct (Hn a z Hs). by left. }
    assert (rs = z) as ->. { destruct Hsi as [[Ep _]|[_ [H|[H _]]]]; [destruct Hs; congruence|by apply Uk|by destruct (H z)]. }
    assert (ri = 0%Z) as ->. { destruct Hi as [[_ ?]|[H _]]; [done|by destruct (H z)]. }
    assert (ru = false) as ->. { destruct Hu as [[_ ?]|(_ & H & _)]; [done|by destruct (H z)]. } done.
  Qed.
End resp.

(** Examples and what goes wrong: a program without constructors, mappers and callers; the text of an argument is its name. *)
Definition r_extract (scope : option (string → list sarg)) := extract_response s_name (λ _ _, None) (λ _, "") (λ _, None) (λ _, None) (λ _, ([], false)) s_name scope.
Definition r_var (vs : list string) : option (string → list sarg) := Some (λ n, if decide (n = "status") then c_ident <$> vs else []).
(** [WriteHeader(status)]; [Encode(user)]. *)
Definition r_header : cpat := CPat true 0 0 false 0 200.
Definition r_encode : cpat := CPat false 0 0 true 0 200.
Definition r_json : cpat := CPat true 0 0 true 1 200.
Example C98_branches_example : r_extract (r_var ["404"; "500"]) r_json [c_ident "status"; c_ident "User"] [] = [CResp 404 "User" 0 false; CResp 500 "User" 0 false].
Proof. by vm_compute. Qed.
Example C98_adopted_example : r_extract None r_encode [c_ident "User"] [(404, "Error"); (202, ""); (201, "")]%Z = [CResp 201 "User" 200 false].
Proof. by vm_compute. Qed.
Example C98_implicit_example : r_extract None r_encode [c_ident "User"] [(404, "Error")]%Z = [CResp (-1) "User" 200 false].
Proof. by vm_compute. Qed.
Example C98_stated_example : states "http.StatusCreated" 201 ∧ r_extract None r_json [c_ident "http.StatusCreated"; c_ident "User"] [] = [CResp 201 "User" 0 false].
Proof. split; [apply C97_text_iff|]; by vm_compute. Qed.
Example C98_nothing_example : r_extract None r_encode [] [(201, "")]%Z = [].
Proof. by vm_compute. Qed.
(** C98e: the one value of a variable assigned once is not used: [status := 201; w.WriteHeader(status)] leaves the status open. *)
Theorem C98_once_refuted : ∃ scope a v, scope (s_name a) = [v] ∧ states (s_name v) 201 ∧ r_extract (Some scope) r_header [a] [] = [CResp (-1) "" 0 true].
Proof. exists (λ n, if decide (n = "status") then [c_ident "http.StatusCreated"] else []), (c_ident "status"), (c_ident "http.StatusCreated"). split; [done|]. split; [apply C97_text_iff|]; by vm_compute. Qed.
(** C98f: nor that of one assigned the same value in every branch. *)
Theorem C98_same_refuted : ∃ scope a vs, scope (s_name a) = vs ∧ length vs = 2 ∧ (∀ v, v ∈ vs → states (s_name v) 404) ∧ r_extract (Some scope) r_header [a] [] = [CResp (-1) "" 0 true].
Proof.
  exists (λ n, if decide (n = "status") then [c_ident "404"; c_ident "404"] else []), (c_ident "status"), [c_ident "404"; c_ident "404"]. split; [done|]. split; [done|]. split; [|by vm_compute].
  intros v Hv. apply elem_of_cons in Hv as [->|Hv]; [|apply elem_of_list_singleton in Hv as ->]; (apply C97_text_iff; by vm_compute).
Qed.
(** C98g: a status is documented that no HTTP response can have. *)
Theorem C98_range_refuted : ∃ a r, r ∈ r_extract None r_json [a; c_ident "User"] [] ∧ (0 <= cr_status r < 100)%Z.
Proof. exists (c_ident "3"), (CResp 3 "User" 0 false). split; [|cbn; lia]. assert (E : r_extract None r_json [c_ident "3"; c_ident "User"] [] = [CResp 3 "User" 0 false]) by (by vm_compute). rewrite E. by left. Qed.
(** C98h: two responses of one call can have one status: a branch that states the status of the open ones. *)
Theorem C98_minus_one_refuted : ∃ scope, ¬ NoDup (cr_status <$> r_extract scope r_json [c_ident "status"; c_ident "User"] []).
Proof. exists (r_var ["-1"; "int"]). apply (bool_decide_unpack _). by vm_compute. Qed.
(** C98i: a parameter the helper assigns in two branches loses the status the caller passes. *)
Theorem C98_passed_refuted : ∃ scope through a b, through a = Some b ∧ states (s_name b) 201 ∧
  ∀ r, r ∈ extract_response s_name (λ _ _, None) (λ _, "") (λ _, None) through (λ _, ([], false)) s_name scope r_json [a; c_ident "User"] [] → cr_status r ≠ 201%Z.
Proof.
  exists (r_var ["404"; "500"]), (λ _, Some (c_ident "http.StatusCreated")), (c_ident "status"), (c_ident "http.StatusCreated"). split; [done|]. split; [apply C97_text_iff; by vm_compute|]. intros r Hr.
  assert (E : extract_response s_name (λ _ _, None) (λ _, "") (λ _, None) (λ _, Some (c_ident "http.StatusCreated")) (λ _, ([], false)) s_name (r_var ["404"; "500"]) r_json [c_ident "status"; c_ident "User"] [] = [CResp 404 "User" 0 false; CResp 500 "User" 0 false]) by (by vm_compute).
  rewrite E in Hr. apply elem_of_cons in Hr as [->|Hr]; [done|]. by apply elem_of_list_singleton in Hr as ->.
Qed.
Print Assumptions C98_passed_refuted.
Print Assumptions C98_responses_iff. Print Assumptions C98_none_iff. Print Assumptions C98_order_irrelevant. Print Assumptions C98_stated. Print Assumptions C98_once_refuted. Print Assumptions C98_same_refuted. Print Assumptions C98_range_refuted. Print Assumptions C98_minus_one_refuted.
