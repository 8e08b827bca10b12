(** * Proofs about what constrained schemas accept. *)
From Coq Require Import Ascii.
From stdpp Require Import base numbers list strings.
From Verif Require Import StrLib StrSplit DecLib TypeModel FieldModel ConModel ConSpec ConProofs.

(** ** What the rules of a level leave *)
Record inv (d : option constraints) (l : list rule) (c : constraints) : Prop := Inv {
  i_dive : c_dive c = d;
  i_pattern : c_pattern c = "";
  i_required : c_required c = true ↔ Required ∈ l;
  i_min : ∀ k, c_min c = Some k → Min k ∈ l;
  i_max : ∀ k, c_max c = Some k → Max k ∈ l;
  i_min_length : ∀ k, c_min_length c = Some k → Len k ∈ l;
  i_max_length : ∀ k, c_max_length c = Some k → Len k ∈ l;
  i_format : c_format c ≠ "" → ∃ g, Fmt g ∈ l ∧ c_format c = fmt_name g;
  i_enum : c_enum c ≠ [] → ∃ ws, Oneof ws ∈ l ∧ ws ⊆ c_enum c;
  i_enum' : ∀ t, t ∈ c_enum c → ∃ ws, Oneof ws ∈ l ∧ t ∈ ws;
  j_min : ∀ k, Min k ∈ l → is_Some (c_min c);
  j_max : ∀ k, Max k ∈ l → is_Some (c_max c);
  j_len : ∀ k, Len k ∈ l → is_Some (c_min_length c) ∧ is_Some (c_max_length c);
  j_format : ∀ g, Fmt g ∈ l → c_format c ≠ "";
  j_enum : ∀ ws, Oneof ws ∈ l → ws ⊆ c_enum c;
}.
Lemma fold_inv d l : Forall rule_ok l → inv d l (foldl step (only_dive d) l).
Proof.
  induction l as [|r l IH] using rev_ind.
  - intros _. cbn [foldl]. unfold only_dive. constructor; cbn; try done; try (intros ? H; by apply elem_of_nil in H).
    + split; [done|]. intros H. by apply elem_of_nil in H.
  - intros HF. apply Forall_app in HF as [HF Hr]. apply Forall_singleton in Hr. specialize (IH HF). rewrite foldl_app. cbn [foldl].
    destruct (foldl step (only_dive d) l) as [nl xl n x d' f p e q]. destruct IH as [I1 I2 I3 I4 I5 I6 I7 I8 I9 I10 J1 J2 J3 J4 J5]. cbn in *.
    assert (∀ r', r' ∈ l → r' ∈ l ++ [r]) as Hl by (intros; apply elem_of_app; by left).
    assert (∀ r', r' ∈ l ++ [r] → r' ∈ l ∨ r' = r) as Hi by (intros r' [?|?%elem_of_list_singleton]%elem_of_app; auto).
    assert (r ∈ l ++ [r]) as Hr' by (apply elem_of_app; right; by left).
    assert (∀ d2 c2, c_dive c2 = d2 → d2 = d' → c_dive c2 = d) as _ by congruence.
    assert (∀ P Q : rule → Prop, (∃ a, P a ∧ a ∈ l) → ∃ a, P a ∧ a ∈ l ++ [r]) as _ by (intros P Q (a & ? & ?); exists a; auto).
    destruct r as [|k|k|k|ws|g|nm|nm v]; constructor; cbn; try done;
      try (intros ? [H|H]%Hi; [eauto|discriminate H || injection H as <-; eauto]; fail);
      try (intros ? H; apply Hl; eauto; fail);
      try (intros ? [= ->]; apply Hl; eauto; fail);
      try (intros ? [= ->]; exact Hr'; fail);
      try (split; [intros H; apply Hl; by apply I3|intros [H|H]%Hi; [by apply I3|discriminate H]]; fail);
      try (intros H; destruct (I8 H) as (g' & ? & ?); exists g'; auto; fail);
      try (intros H; destruct (I9 H) as (ws' & ? & ?); exists ws'; auto; fail);
      try (intros t H; destruct (I10 t H) as (ws' & ? & ?); exists ws'; auto; fail).
    + intros _. exists ws. split; [exact Hr'|]. intros t Ht. apply elem_of_app. by right.
    + intros t [H|H]%elem_of_app; [destruct (I10 t H) as (ws' & ? & ?); exists ws'; auto|by exists ws].
    + intros ws' [H|H]%Hi; [|injection H as ->]; intros t Ht; apply elem_of_app; [left; by apply (J5 ws')|by right].
    + intros _. by exists g.
    + intros g' _. by destruct g.
Qed.

(** ** Nothing to apply *)
Lemma is_empty_spec c : is_empty c = true → c = only_dive None.
Proof. destruct c as [[] [] [] [] [] [] [] [] []]; done. Qed.
Lemma apply_empty s : apply_constraints (only_dive None) s = s.
Proof.
  destruct s as [ty f p nl xl n x ni xi e i a]. cbn. f_equal; try (repeat destruct (bool_decide _); done). 
Qed.
Lemma constrain_level d l s : constrain (read_level d l) s = apply_constraints (foldl step (only_dive d) l) s.
Proof.
  unfold read_level. destruct (is_empty _) eqn:E; [|done]. cbn [constrain]. rewrite (is_empty_spec _ E). by rewrite apply_empty.
Qed.

Section accept.
  Context (chars : string → Z) (has_format matches : string → string → Prop) (other : string → value → Prop).
  Notation conforms := (conforms chars has_format matches).
  Notation valid := (valid chars has_format other).
  Notation accepts := (accepts chars has_format other).
  Open Scope Z_scope.

  Definition bound (a b : option Z) : Z := match a with Some v => v | None => default 0 b end.
  Lemma conforms_base k : ∀ v, typed k v → conforms (base k) v.
  Proof.
    assert (∀ x, lower 0 x) as L by (intros x Hx; by destruct Hx). assert (∀ x, upper x 0) as U by (intros x Hx; by destruct Hx).
    induction k as [| | |k IH]; intros v Ht; destruct v as [s|z|vs]; cbn in Ht; try (by destruct Ht); cbn [base ConSpec.conforms]; (split; [done|]); (split; [done || (by left) || (by right)|]);
      (split; [apply L|]); (try (split; [apply U|])); try apply U.
    eapply Forall_impl; [exact Ht|]. exact IH.
  Qed.
  Lemma apply_str c t : conforms (apply_constraints c (base KStr)) (VStr t) ↔
    (c_enum c ≠ [] → t ∈ c_enum c) ∧ lower (bound (c_min_length c) (c_min c)) (chars t) ∧ upper (chars t) (bound (c_max_length c) (c_max c)) ∧
    (c_format c ≠ "" → has_format (c_format c) t) ∧ (c_pattern c ≠ "" → matches (c_pattern c) t).
  Proof.
    destruct c as [nl xl n x d f p e q]. cbn [apply_constraints base c_enum c_min_length c_min c_max_length c_max c_format c_pattern].
    change (bool_decide ("string" = "string")) with true. change (bool_decide ("string" = "array")) with false. change (bool_decide ("string" = "object")) with false.
    change (bool_decide ("string" = "integer")) with false. change (bool_decide ("string" = "number")) with false. cbv iota.
    assert ((if decide (p = "") then "" else p) = p) as -> by (by destruct (decide (p = ""))).
    assert ((if decide (f = "") then "" else f) = f) as -> by (by destruct (decide (f = ""))).
    destruct (decide (e = [])) as [->|He]; cbn [conforms with_enum].
    - unfold bound. split; [intros (_ & _ & H); by split|intros (_ & H); split; [done|by split]].
    - split; [intros (H & _ & H'); split; [|done]; intros _; destruct (H He) as (t' & [= ->] & ?); done|].
      intros (H & H'). split; [|by split]. intros _. exists t. split; [done|by apply H].
  Qed.
  Lemma apply_int c z : conforms (apply_constraints c (base KInt)) (VInt z) ↔
    c_enum c = [] ∧ lower (bound (c_min_length c) (c_min c)) z ∧ upper z (bound (c_max_length c) (c_max c)).
  Proof.
    destruct c as [nl xl n x d f p e q]. cbn [apply_constraints base c_enum c_min_length c_min c_max_length c_max].
    change (bool_decide ("integer" = "string")) with false. change (bool_decide ("integer" = "array")) with false. change (bool_decide ("integer" = "object")) with false.
    change (bool_decide ("integer" = "integer")) with true. cbv iota.
    destruct (decide (e = [])) as [->|He]; cbn [conforms with_enum].
    - unfold bound. split; [intros (_ & _ & H); by split|intros (_ & H); split; [done|]; split; [by left|done]].
    - split; [|by intros [? _]]. intros (H & _). by destruct (H He) as (t & ? & _).
  Qed.
  Lemma apply_num c z : conforms (apply_constraints c (base KNum)) (VInt z) ↔
    c_enum c = [] ∧ lower (default 0 (c_min c)) z ∧ upper z (default 0 (c_max c)).
  Proof.
    destruct c as [nl xl n x d f p e q]. cbn [apply_constraints base c_enum c_min_length c_min c_max_length c_max].
    change (bool_decide ("number" = "string")) with false. change (bool_decide ("number" = "array")) with false. change (bool_decide ("number" = "object")) with false.
    change (bool_decide ("number" = "integer")) with false. change (bool_decide ("number" = "number")) with true. cbv iota.
    destruct (decide (e = [])) as [->|He]; cbn [conforms with_enum].
    - split; [intros (_ & _ & H); by split|intros (_ & H); split; [done|]; split; [by right|done]].
    - split; [|by intros [? _]]. intros (H & _). by destruct (H He) as (t & ? & _).
  Qed.
  Lemma apply_list c k vs : c_enum c = [] → conforms (apply_constraints c (base (KList k))) (VList vs) ↔
    lower (bound (c_min_length c) (c_min c)) (Z.of_nat (length vs)) ∧ upper (Z.of_nat (length vs)) (bound (c_max_length c) (c_max c)) ∧
    Forall (conforms (constrain (c_dive c) (base k))) vs.
  Proof.
    destruct c as [nl xl n x d f p e q]. cbn [c_enum c_min_length c_min c_max_length c_max c_dive]. intros ->. cbn [apply_constraints base].
    change (bool_decide ("array" = "string")) with false. change (bool_decide ("array" = "array")) with true.
    change (bool_decide ("array" = "integer")) with false. change (bool_decide ("array" = "number")) with false. cbv iota.
    change (decide (@nil string = [])) with (decide (@nil string = [])). rewrite decide_True by done. unfold bound.
    destruct d as [d|]; cbn [conforms constrain].
    - split; [intros (_ & _ & H); done|intros H; split; [done|by split]].
    - split; [intros (_ & _ & H); done|intros H; split; [done|by split]].
  Qed.

  (** ** Both directions, level by level *)
  Lemma level_sound d l c v (I : inv d l c) : Forall (λ r, accepts r v) l →
    lower (bound (c_min_length c) (c_min c)) (size chars v) ∧ upper (size chars v) (bound (c_max_length c) (c_max c)) ∧
    match v with VStr t => (c_enum c ≠ [] → t ∈ c_enum c) ∧ (c_format c ≠ "" → has_format (c_format c) t) | _ => True end ∧
    (match v with VList _ => c_enum c = [] | _ => True end).
  Proof.
    intros HF. rewrite Forall_forall in HF. split; [|split; [|split]].
    - unfold bound, lower. destruct (c_min_length c) as [k|] eqn:E; [|destruct (c_min c) as [k|] eqn:E'; cbn].
      + intros _. pose proof (HF _ (i_min_length _ _ _ I k E)) as H. cbn in H. lia.
      + intros _. exact (HF _ (i_min _ _ _ I k E')).
      + done.
    - unfold bound, upper. destruct (c_max_length c) as [k|] eqn:E; [|destruct (c_max c) as [k|] eqn:E'; cbn].
      + intros _. pose proof (HF _ (i_max_length _ _ _ I k E)) as H. cbn in H. lia.
      + intros _. exact (HF _ (i_max _ _ _ I k E')).
      + done.
    - destruct v as [t|z|vs]; [|done|done]. split.
      + intros He. destruct (i_enum _ _ _ I He) as (ws & Hws & Hsub). apply Hsub. exact (HF _ Hws).
      + intros Hf. destruct (i_format _ _ _ I Hf) as (g & Hg & ->). exact (HF _ Hg).
    - destruct v as [t|z|vs]; [done|done|]. destruct (decide (c_enum c = [])) as [E|E]; [done|].
      destruct (i_enum _ _ _ I E) as (ws & Hws & _). destruct (HF _ Hws).
  Qed.
  Lemma read_sound levels : all_ok levels → ∀ k v, oneof_on_text k levels → typed k v → valid levels v → conforms (constrain (read levels) (base k)) v.
  Proof.
    induction 1 as [|l ls Hl HF IH]; intros k v Ho Ht Hv; [by apply conforms_base|]. cbn [read]. rewrite constrain_level.
    pose proof (fold_inv (read ls) l Hl) as I. set (c := foldl step _ l) in *. cbn [ConSpec.valid] in Hv. destruct Hv as [Hr Hd].
    destruct (level_sound _ _ _ _ I Hr) as (L1 & L2 & L3 & L4). destruct Ho as [Ho1 Ho2].
    destruct k as [| | |k]; destruct v as [t|z|vs]; try done.
    - apply apply_str. rewrite (i_pattern _ _ _ I). by destruct L3.
    - apply apply_int. split; [|done]. destruct (decide (c_enum c = [])) as [E|E]; [done|].
      destruct (i_enum _ _ _ I E) as (ws & Hws & _). destruct (Ho1 (or_introl eq_refl) ws Hws).
    - apply apply_num. rewrite Forall_forall in Hr. split; [|split].
      + destruct (decide (c_enum c = [])) as [E|E]; [done|]. destruct (i_enum _ _ _ I E) as (ws & Hws & _). destruct (Ho1 (or_intror eq_refl) ws Hws).
      + destruct (c_min c) as [b|] eqn:E; [|intros H; by destruct H]. intros _. exact (Hr _ (i_min _ _ _ I b E)).
      + destruct (c_max c) as [b|] eqn:E; [|intros H; by destruct H]. intros _. exact (Hr _ (i_max _ _ _ I b E)).
    - apply apply_list; [done|]. split; [done|]. split; [done|]. rewrite (i_dive _ _ _ I). cbn in Ht. apply Forall_forall. intros v Hv. rewrite Forall_forall in Ht.
      destruct Hd as [-> | (vs' & [= <-] & Hd)]; [apply conforms_base, Ht, Hv|]. rewrite Forall_forall in Hd. apply IH; [by apply Ho2|by apply Ht|by apply Hd].
  Qed.

  Lemma clash_sym r r' : clash r r' → clash r' r.
  Proof. by destruct r, r'. Qed.
  Lemma alone_unique l r r' : alone l → r ∈ l → r' ∈ l → clash r r' → r = r'.
  Proof.
    induction l as [|a l IH]; intros Ha; [by intros ?%elem_of_nil|]. destruct Ha as [Ha Hl]. rewrite Forall_forall in Ha. rewrite !elem_of_cons.
    intros [-> | H1] [-> | H2] Hc; [done|by destruct (Ha _ H2)|apply clash_sym in Hc; by destruct (Ha _ H1)|by apply IH].
  Qed.
  Lemma bound_min d l c k (I : inv d l c) : Forall (fits k) l → alone l → ∀ x, lower (bound (c_min_length c) (c_min c)) x →
    (∀ b, Min b ∈ l → b ≤ x) ∧ (∀ b, Len b ∈ l → b ≤ x).
  Proof.
    intros Hf Ha x H. rewrite Forall_forall in Hf. split; intros b Hb; pose proof (Hf _ Hb) as Hz; cbn in Hz.
    - destruct (j_min _ _ _ I b Hb) as [b' Hb']. pose proof (i_min _ _ _ I b' Hb') as Hin.
      assert (Min b = Min b') as [= <-] by (by apply (alone_unique l)). unfold bound in H. destruct (c_min_length c) as [m|] eqn:Em.
      + pose proof (i_min_length _ _ _ I m Em) as Hm. assert (Min b = Len m) as E by (by apply (alone_unique l)). discriminate E.
      + rewrite Hb' in H. by apply H.
    - destruct (j_len _ _ _ I b Hb) as [[b' Hb'] _]. pose proof (i_min_length _ _ _ I b' Hb') as Hin.
      assert (Len b = Len b') as [= <-] by (by apply (alone_unique l)). unfold bound in H. rewrite Hb' in H. by apply H; destruct Hz.
  Qed.
  Lemma bound_max d l c k (I : inv d l c) : Forall (fits k) l → alone l → ∀ x, upper x (bound (c_max_length c) (c_max c)) →
    (∀ b, Max b ∈ l → x ≤ b) ∧ (∀ b, Len b ∈ l → x ≤ b).
  Proof.
    intros Hf Ha x H. rewrite Forall_forall in Hf. split; intros b Hb; pose proof (Hf _ Hb) as Hz; cbn in Hz.
    - destruct (j_max _ _ _ I b Hb) as [b' Hb']. pose proof (i_max _ _ _ I b' Hb') as Hin.
      assert (Max b = Max b') as [= <-] by (by apply (alone_unique l)). unfold bound in H. destruct (c_max_length c) as [m|] eqn:Em.
      + pose proof (i_max_length _ _ _ I m Em) as Hm. assert (Max b = Len m) as E by (by apply (alone_unique l)). discriminate E.
      + rewrite Hb' in H. by apply H.
    - destruct (j_len _ _ _ I b Hb) as [_ [b' Hb']]. pose proof (i_max_length _ _ _ I b' Hb') as Hin.
      assert (Len b = Len b') as [= <-] by (by apply (alone_unique l)). unfold bound in H. rewrite Hb' in H. by apply H; destruct Hz.
  Qed.
  Lemma level_exact d l c k v (I : inv d l c) : Forall (fits k) l → alone l → typed k v →
    lower (bound (c_min_length c) (c_min c)) (size chars v) → upper (size chars v) (bound (c_max_length c) (c_max c)) →
    match v with VStr t => (c_enum c ≠ [] → t ∈ c_enum c) ∧ (c_format c ≠ "" → has_format (c_format c) t) | _ => True end →
    Forall (λ r, rule_ok r) l → Forall (λ r, accepts r v) l.
  Proof.
    intros Hf Ha Ht H1 H2 H3 Hok. destruct (bound_min _ _ _ _ I Hf Ha _ H1) as [B1 B2]. destruct (bound_max _ _ _ _ I Hf Ha _ H2) as [B3 B4].
    rewrite Forall_forall in Hf. rewrite Forall_forall in Hok. apply Forall_forall. intros r Hr. pose proof (Hf r Hr) as Hfr. destruct r as [|b|b|b|ws|g|nm|nm a]; cbn [accepts fits] in *.
    - destruct Hfr as [k' ->]. by destruct v.
    - by apply B1.
    - by apply B3.
    - pose proof (B2 b Hr). pose proof (B4 b Hr). cbn. lia.
    - subst k. destruct v as [t| |]; [|done|done]. cbn. destruct H3 as [H3 _].
      assert (c_enum c ≠ []) as He. { destruct (Hok _ Hr) as [Hn _]. destruct ws as [|w ws]; [done|]. pose proof (j_enum _ _ _ I _ Hr w ltac:(by left)) as Hw. intros E. rewrite E in Hw. by apply elem_of_nil in Hw. }
      destruct (i_enum' _ _ _ I t (H3 He)) as (ws' & Hws' & Htw). assert (Oneof ws = Oneof ws') as [= ->] by (by apply (alone_unique l)). done.
    - subst k. destruct v as [t| |]; [|done|done]. cbn. destruct H3 as [_ H3]. pose proof (j_format _ _ _ I g Hr) as Hg.
      destruct (i_format _ _ _ I Hg) as (g' & Hg' & E). assert (Fmt g = Fmt g') as [= ->] by (by apply (alone_unique l)). rewrite <- E. by apply H3.
    - done.
    - done.
  Qed.
  Lemma fits_no_enum d l c k (I : inv d l c) : Forall (fits k) l → k ≠ KStr → c_enum c = [].
  Proof.
    intros Hf Hk. destruct (decide (c_enum c = [])) as [E|E]; [done|]. destruct (i_enum _ _ _ I E) as (ws & Hws & _).
    rewrite Forall_forall in Hf. by destruct Hk; apply (Hf _ Hws).
  Qed.
  Lemma read_exact levels : all_ok levels → ∀ k v, tidy k levels → typed k v → conforms (constrain (read levels) (base k)) v → valid levels v.
  Proof.
    induction 1 as [|l ls Hl HF IH]; intros k v Hy Ht Hv; [done|]. cbn [read] in Hv. rewrite constrain_level in Hv.
    pose proof (fold_inv (read ls) l Hl) as I. set (c := foldl step _ l) in *. cbn [ConSpec.valid tidy] in *. destruct Hy as (Hf & Ha & Hd).
    destruct k as [| | |k]; destruct v as [t|z|vs]; try done.
    - apply apply_str in Hv as (V1 & V2 & V3 & V4 & _). split; [by apply (level_exact _ _ _ KStr _ I)|]. destruct Hd as [-> | (k' & ? & _)]; [by left|done].
    - apply apply_int in Hv as (_ & V2 & V3). split; [by apply (level_exact _ _ _ KInt _ I)|]. destruct Hd as [-> | (k' & ? & _)]; [by left|done].
    - apply apply_num in Hv as (_ & V2 & V3). assert (∀ b, Len b ∉ l) as Hlen.
      { intros b Hb. rewrite Forall_forall in Hf. by destruct (Hf _ Hb). }
      assert (c_min_length c = None) as E1. { destruct (c_min_length c) as [b|] eqn:E; [|done]. destruct (Hlen b). by apply (i_min_length _ _ _ I). }
      assert (c_max_length c = None) as E2. { destruct (c_max_length c) as [b|] eqn:E; [|done]. destruct (Hlen b). by apply (i_max_length _ _ _ I). }
      split; [|destruct Hd as [-> | (k' & ? & _)]; [by left|done]]. apply (level_exact _ _ _ KNum _ I); [done|done|done|unfold bound; by rewrite E1|unfold bound; by rewrite E2|done|done].
    - apply apply_list in Hv as (V1 & V2 & V3); [|by apply (fits_no_enum _ _ _ _ I Hf)]. split; [by apply (level_exact _ _ _ (KList k) _ I)|].
      destruct Hd as [-> | (k' & [= <-] & Hd)]; [by left|]. right. exists vs. split; [done|]. rewrite (i_dive _ _ _ I) in V3. cbn in Ht.
      apply Forall_forall. intros v Hv. rewrite Forall_forall in V3. rewrite Forall_forall in Ht. apply (IH k); [done|by apply Ht|by apply V3].
  Qed.
  Lemma tidy_oneof levels : ∀ k, tidy k levels → oneof_on_text k levels.
  Proof.
    induction levels as [|l ls IH]; intros k Hy; [done|]. destruct Hy as (Hf & _ & Hd). split.
    - intros [-> | ->] ws Hws; rewrite Forall_forall in Hf; discriminate (Hf _ Hws).
    - intros k' ->. destruct Hd as [-> | (k'' & [= <-] & Hd)]; [done|by apply IH].
  Qed.
End accept.
Lemma read_required levels : all_ok levels → is_required (read levels) = true ↔ ∃ l ls, levels = l :: ls ∧ Required ∈ l.
Proof.
  intros H. destruct H as [|l ls Hl HF]; [split; [done|by intros (? & ? & ? & _)]|]. cbn [read]. unfold read_level.
  pose proof (i_required _ _ _ (fold_inv (read ls) l Hl)) as I. destruct (is_empty _) eqn:E.
  - rewrite (is_empty_spec _ E) in I. cbn in I |- *. split; [done|]. intros (l' & ls' & [= <- <-] & Hr). by apply I.
  - cbn [is_required]. rewrite I. split; [intros; by exists l, ls|]. by intros (l' & ls' & [= <- <-] & Hr).
Qed.
