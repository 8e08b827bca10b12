(** * C109 The components a document gets: the schemas. *)
From Coq Require Import Ascii ZArith Lia.
From stdpp Require Import sorting.
From stdpp Require Import base numbers list strings gmap relations.
From Verif Require Import StrLib StrSplit PathModel ScanModel NameModel GodocModel TvoProps CompModel CompProps.

Section comp.
  Context (e : cenv).
  (** The order of a range is some order of the map. *)
  Definition ranges : Prop := ∀ m, ce_range e m ≡ₚ map_to_list m.
  (** The kinds of used types. *)
  Definition found (t : string) : Prop := ∃ typ, find_types e t !! t = Some (Some typ).
  Definition configured_as (t : string) (s : csch) : Prop := (replace_sep t, s) ∈ ce_conf e.
  (** A type gets a schema of its own: configured, known and more than a primitive, or found. *)
  Definition proper (t : string) : Prop :=
    ce_anon e t = false ∧ ((∃ s, configured_as t s) ∨ (∃ s, ce_known e t = Some (Some s, false)) ∨ ce_known e t = None ∧ found t).

  (** ** An invariant of all writes *)
  Section writes.
    (** [ok k s]: the schema may be recorded for the type; [fits m]: what the components are to be. *)
    Context (ok : string → csch → Prop) (fits : ccomps → Prop).
    Definition ok_used (u : cused) : Prop := ∀ k s, u !! k = Some (Some s) → ok k s.
    Lemma mark_ok u t v : ok_used u → (∀ s k, v = Some s → brings t k → ok k s) → ok_used (mark u (t, v)).
    Proof.
      intros Hu Hv. unfold mark. assert (K : ∀ u k, ok_used u → brings t k → ok_used (<[k := v]> u)).
      { intros u0 k H0 B k' s [[-> E]|[_ E]]%lookup_insert_Some; [by apply Hv|by apply H0]. }
      assert (M : ok_used (match pointee t with Some d => match <[t := v]> u !! d with Some (Some _) => <[t := v]> u | _ => <[d := v]> (<[t := v]> u) end | None => <[t := v]> u end)).
      { assert (Ht : ok_used (<[t := v]> u)) by (apply K; [done|by left]). destruct (pointee t) as [d|] eqn:P; [|done]. apply pointee_spec in P. destruct (<[t := v]> u !! d) as [[|]|]; [done| |]; (apply K; [done|by right]). }
      destruct (u !! t) as [[|]|]; done.
    Qed.
    (** What the rest of the code gives may be recorded. *)
    Definition ok_env : Prop :=
      (∀ t s k, (replace_sep t, s) ∈ ce_conf e → brings t k ∨ trim_prefix "*" k = t → ok k s) ∧ (∀ t s p, ce_known e t = Some (Some s, p) → ok t s) ∧
      (∀ u k typ, ok_used u → let '(u', s, new) := ce_build e u k typ in ok_used u' ∧ (∀ s', s = Some s' → ∀ k', brings k k' → ok k' s') ∧ ∀ x, x ∈ new → ok x.1 x.2) ∧
      (∀ u k c rest, ok_used u → split_byte "-" k = c :: rest → ∀ c', head rest = Some c' → let '(u', s, new) := ce_map e u c' in ok_used u' ∧ (∀ s', s = Some s' → ok k s') ∧ ∀ x, x ∈ new → ok x.1 x.2).
    Context (OE : ok_env) (PF : ∀ m k s, ok k s → fits m → fits (put m (k, s))).
    (** The reference made for a type recorded already, with the schema recorded put after it. *)
    Context (RF : ∀ m k s, ok (trim_prefix "*" k) s → fits m → fits (put (put m (k, CRef (component_name (trim_prefix "*" (trim_prefix "*" k))))) (trim_prefix "*" k, s))).
    (** The placeholder. *)
    Context (K : string → Prop) (HF : ∀ m t, K t → m !! component_name t = None → fits m → fits (put m (t, CHolder t))).
    Lemma puts_fit new : (∀ x, x ∈ new → ok x.1 x.2) → ∀ m, fits m → fits (foldl put m new).
    Proof. induction new as [|[k s] new IH]; intros H m Fm; [done|]. cbn [foldl]. apply IH; [intros x Hx; apply H; by right|]. apply PF; [|done]. apply (H (k, s)). by left. Qed.
    Lemma configured_in t s : configured e t = Some s → (replace_sep t, s) ∈ ce_conf e.
    Proof.
      unfold configured. intros (pre & [n s'] & post & -> & H & _)%head_omap. cbn in H. destruct (decide (n = replace_sep t)) as [->|]; [|done]. injection H as ->. apply elem_of_app. right. by left.
    Qed.
    Lemma gen_entry_fits u m x : ok_used u → fits m → ok_used (gen_entry e (u, m) x).1 ∧ fits (gen_entry e (u, m) x).2.
    Proof.
      intros Hu Fm. destruct OE as (O1 & O2 & O3 & O4). destruct x as [k [typ|]]; unfold gen_entry; cbn [fst snd].
      - unfold gen_type. cbv zeta. set (d := trim_prefix "*" k).
        assert (Rest : let '(u', s, new) := match configured e d with Some s => (mark u (d, Some s), Some s, []) | None => let '(u, s, new) := ce_build e u k typ in (mark u (k, s), s, new) end in
          ok_used u' ∧ fits (foldl put (match s with Some s => put m (k, s) | None => m end) new)).
        { destruct (configured e d) as [s|] eqn:C.
          - apply configured_in in C. split; [apply mark_ok; [done|]; intros s' k' [= <-] B; by apply (O1 d); [|left]|]. cbn. apply PF; [|done]. apply (O1 d); [done|by right].
          - assert (B := O3 u k typ Hu). destruct (ce_build e u k typ) as [[u' s] new]. destruct B as (B1 & B2 & B3). split; [apply mark_ok; [done|]; intros s' k' E; by apply B2|]. apply puts_fit; [done|]. destruct s as [s|]; [|done]. apply PF; [|done]. apply (B2 s eq_refl). by left. }
        remember (match configured e d with Some s => (mark u (d, Some s), Some s, []) | None => let '(u, s, new) := ce_build e u k typ in (mark u (k, s), s, new) end) as R eqn:ER. clear ER. destruct R as [[u1 s1] new1].
        destruct (u !! d) as [[s|]|] eqn:Ud; [|done|done]. destruct (ce_ref e d); [|done]. split; [done|]. cbn. apply RF; [by apply Hu|done].
      - destruct (split_byte "-" k) as [|c0 [|c rest]] eqn:Sp; [done|done|]. assert (B := O4 u k c0 (c :: rest) Hu Sp c eq_refl). destruct (ce_map e u c) as [[u' s] new]. destruct B as (B1 & B2 & B3). split; [done|]. apply puts_fit; [done|]. destruct s as [s|]; [|done]. apply PF; [by apply B2|done].
    Qed.
    Lemma gen_used_fits u m t : K t → ok_used u → fits m → ok_used (gen_used e (u, m) t).1 ∧ fits (gen_used e (u, m) t).2.
    Proof.
      intros Kt Hu Fm. unfold gen_used. destruct (ce_anon e t); [done|].
      assert (Fc : ∀ l m, (∀ x, x ∈ l → x ∈ ce_conf e) → fits m → fits (foldl (λ m x, if decide (x.1 = replace_sep t) then put m (t, x.2) else m) m l)).
      { induction l as [|[n s] l IH]; intros m0 Hl F0; [done|]. cbn [foldl]. apply IH; [intros x Hx; apply Hl; by right|]. cbn. destruct (decide (n = replace_sep t)) as [->|]; [|done]. apply PF; [|done]. apply (proj1 OE t); [apply Hl; by left|left; by left]. }
      specialize (Fc (ce_conf e) m (λ x H, H) Fm). remember (foldl _ m (ce_conf e)) as m1 eqn:E1. clear E1.
      destruct (ce_known e t) as [[s p]|] eqn:Kn.
      - split; [done|]. cbn. destruct s as [s|]; [|done]. destruct p; [done|]. apply PF; [by apply (proj1 (proj2 OE) t s false)|done].
      - destruct (find_types e t !! t) as [[typ|]|].
        + generalize (ce_range e (find_types e t)). intros l. clear Fm. revert u m1 Hu Fc. induction l as [|x l IH]; intros u m1 Hu Fc; [done|]. cbn [foldl]. destruct (gen_entry e (u, m1) x) as [u2 m2] eqn:G. destruct (gen_entry_fits u m1 x Hu Fc) as [G1 G2]. rewrite G in G1, G2. by apply IH.
        + split; [done|]. cbn. destruct (ce_ref e t); [|done]. destruct (m1 !! component_name t) eqn:L; [done|]. by apply HF.
        + split; [done|]. cbn. destruct (ce_ref e t); [|done]. destruct (m1 !! component_name t) eqn:L; [done|]. by apply HF.
    Qed.
    Lemma gen_keys_fits keys : (∀ t, t ∈ keys → K t) → ∀ u m, ok_used u → fits m → ok_used (foldl (gen_used e) (u, m) keys).1 ∧ fits (foldl (gen_used e) (u, m) keys).2.
    Proof.
      induction keys as [|t keys IH]; intros Kk u m Hu Fm; [done|]. cbn [foldl]. destruct (gen_used_fits u m t) as [G1 G2]; [apply Kk; by left|done|done|]. destruct (gen_used e (u, m) t) as [u2 m2]. apply IH; [|done|done]. intros t' Ht. apply Kk. by right.
    Qed.
  End writes.

  (** ** No component refers to itself *)
  Definition other (k : string) (s : csch) : Prop := s ≠ CRef (component_name k).
  Lemma component_name_eq c r : component_name (String c r) =
    if decide (c = "/"%char ∨ c = "."%char ∨ c = "["%char) then String "_" (component_name r)
    else if decide (c = " "%char) then String "-" (component_name r)
    else if decide (c = "]"%char) then component_name r
    else match r with
         | String d r' =>
             if decide (c = ","%char ∧ d = " "%char) then String "-" (component_name r')
             else match r' with
                  | String e r'' => if decide (c = "-"%char ∧ d = "-"%char ∧ e = ">"%char) then String "_" (component_name r'') else String c (component_name r)
                  | "" => String c (component_name r)
                  end
         | "" => String c (component_name r)
         end.
  Proof. done. Qed.
  Lemma component_name_length s : String.length (component_name s) ≤ String.length s.
  Proof.
    assert (H : ∀ n s, String.length s ≤ n → String.length (component_name s) ≤ String.length s); [|by apply (H (String.length s))]. induction n as [|n IH]; intros [|c r] L; cbn in L; [done|lia|done|].
    assert (I : ∀ r', String.length r' ≤ String.length r → String.length (component_name r') ≤ String.length r') by (intros r' ?; apply IH; lia). clear IH L. assert (I1 := I r (le_n _)).
    rewrite component_name_eq. destruct (decide (c = "/"%char ∨ _)); [cbn [String.length]; lia|]. destruct (decide (c = " "%char)); [cbn [String.length]; lia|]. destruct (decide (c = "]"%char)); [cbn [String.length]; lia|].
    destruct r as [|d r']; [done|]. assert (I2 : String.length (component_name r') ≤ String.length r') by (apply I; cbn; lia). destruct (decide (c = ","%char ∧ d = " "%char)); [cbn [String.length]; lia|].
    destruct r' as [|f r'']; [cbn [String.length] in *; lia|]. assert (I3 : String.length (component_name r'') ≤ String.length r'') by (apply I; cbn; lia).
    destruct (decide (c = "-"%char ∧ d = "-"%char ∧ f = ">"%char)); cbn [String.length] in *; lia.
  Qed.
  Lemma component_name_star x : component_name (String "*" x) = String "*" (component_name x).
  Proof. by destruct x as [|c [|d x]]. Qed.
  Lemma star_not_self k : k ≠ trim_prefix "*" k → component_name (trim_prefix "*" (trim_prefix "*" k)) ≠ component_name k.
  Proof.
    intros N E. assert (T : ∀ s, trim_prefix "*" s = s ∨ ∃ x, s = String "*" x ∧ trim_prefix "*" s = x).
    { intros [|c x]; [by left|]. unfold trim_prefix. destruct (has_prefix "*" (String c x)) eqn:P; [|by left]. right. exists x. split; [|by destruct x]. cbn [has_prefix] in P. rewrite andb_true_r in P. apply bool_decide_eq_true in P. by subst c. }
    destruct (T k) as [|(x & -> & Tx)]; [congruence|]. rewrite Tx, component_name_star in E. destruct (T x) as [Ex|(y & -> & Ey)].
    - rewrite Ex in E. apply (f_equal String.length) in E. cbn in E. lia.
    - rewrite Ey, component_name_star in E. apply (f_equal String.length) in E. cbn in E. lia.
  Qed.
  (** If what the rest of the code gives for a type is no reference to the type's own component, no component is a reference to itself. *)
  Theorem C109_no_self keys u c : ok_env other → ok_used other u → gen_all e keys u !! c ≠ Some (CRef c).
  Proof.
    intros OE OU. apply (gen_keys_fits other (λ m, ∀ c, m !! c ≠ Some (CRef c)) OE) with (K := λ _, True); [| | |done|done|by intros c'; rewrite lookup_empty].
    - intros m k s O Fm c'. unfold put. cbn [fst snd]. intros [[<- ->]|[_ H]]%lookup_insert_Some; [done|by apply (Fm c')].
    - intros m k s O Fm c'. unfold put. cbn [fst snd]. intros [[<- ->]|[N [[<- [= E]]|[_ H]]%lookup_insert_Some]]%lookup_insert_Some; [done| |by apply (Fm c')]. destruct (decide (k = trim_prefix "*" k)) as [E'|N']; [|by apply (star_not_self k)]. apply N. cbn. by rewrite <- E'.
    - intros m t _ _ Fm c'. unfold put. cbn [fst snd]. intros [[<- E]|[_ H]]%lookup_insert_Some; [done|by apply (Fm c')].
  Qed.

  (** ** Placeholders *)
  Definition real (k : string) (s : csch) : Prop := ∀ t, s ≠ CHolder t.
  Definition real_at (m : ccomps) (c : string) : Prop := ∃ s, m !! c = Some s ∧ real c s.
  Lemma put_real m k s c : real k s → real_at m c → real_at (put m (k, s)) c.
  Proof. intros R (s' & H & R'). unfold real_at, put. cbn. destruct (decide (component_name k = c)) as [<-|N]; [exists s; by rewrite lookup_insert|exists s'; by rewrite lookup_insert_ne]. Qed.
  Lemma put_here m k s : real k s → real_at (put m (k, s)) (component_name k).
  Proof. intros R. exists s. unfold put. cbn. by rewrite lookup_insert. Qed.
  (** Once real, always real; and what is a placeholder was so before or is put for an absent one. *)
  Section holders.
    Context (OE : ok_env real).
    Lemma keeps_real c u m t : ok_used real u → real_at m c → real_at (gen_used e (u, m) t).2 c.
    Proof.
      intros OU H. apply (gen_used_fits real (λ m, real_at m c) OE) with (K := λ _, True); [| | |done|done|done].
      - intros m' k s O. by apply put_real.
      - intros m' k s O Fm. by apply put_real, put_real.
      - intros m' t' _ L (s & H1 & H2). exists s. split; [|done]. unfold put. cbn. rewrite lookup_insert_ne; [done|]. intros E. by rewrite E, H1 in L.
    Qed.
    Lemma proper_real u m t : ranges → (∀ u k typ, is_Some (ce_build e u k typ).1.2) → ok_used real u → proper t → real_at (gen_used e (u, m) t).2 (component_name t).
    Proof.
      intros Rg Bd OU (An & Pr). unfold gen_used. rewrite An.
      assert (Cf : ∀ l m, (∀ x, x ∈ l → x ∈ ce_conf e) → ((∃ s, (replace_sep t, s) ∈ l) ∨ real_at m (component_name t)) → real_at (foldl (λ m x, if decide (x.1 = replace_sep t) then put m (t, x.2) else m) m l) (component_name t)).
      { induction l as [|[n s] l IH]; intros m0 Hl H; cbn [foldl]; [destruct H as [[s H]|H]; [by apply elem_of_nil in H|done]|]. apply IH; [intros x Hx; apply Hl; by right|]. cbn.
        destruct (decide (n = replace_sep t)) as [->|N].
        - right. apply put_here. apply (proj1 OE t s t); [apply Hl; by left|left; by left].
        - destruct H as [[s' [Eq|H]%elem_of_cons]|H]; [by injection Eq as Eq _; symmetry in Eq|left; by exists s'|by right]. }
      assert (Cf1 := λ H, Cf (ce_conf e) m (λ x H, H) (or_introl H)). remember (foldl _ m (ce_conf e)) as m1 eqn:E1. clear E1 Cf.
      destruct Pr as [Hc|[[s K]|[K [typ F]]]].
      - specialize (Cf1 Hc). destruct (ce_known e t) as [[[s|] p]|] eqn:K; cbn.
        + destruct p; [done|]. apply put_here. by apply (proj1 (proj2 OE) t s false).
        + done.
        + destruct (find_types e t !! t) as [[typ|]|]; cbn.
          * revert OU Cf1. generalize (ce_range e (find_types e t)). intros l. revert u m1. induction l as [|x l IH]; intros u m1 OU Cf1; [done|]. cbn [foldl].
            assert (G := gen_entry_fits real (λ m, real_at m (component_name t)) OE). destruct (G (λ m k s, put_real m k s _) (λ m k s O H, put_real _ _ _ _ O (put_real _ _ (CRef _) _ (λ _ E, ltac:(discriminate E)) H)) u m1 x OU Cf1) as [G1 G2].
            destruct (gen_entry e (u, m1) x) as [u2 m2]. by apply IH.
          * destruct (ce_ref e t); [|done]. destruct Cf1 as (s & H & R). rewrite H. exists s. done.
          * destruct (ce_ref e t); [|done]. destruct Cf1 as (s & H & R). rewrite H. exists s. done.
      - rewrite K. cbn. apply put_here. by apply (proj1 (proj2 OE) t s false).
      - rewrite K, F. assert (Hin : (t, Some typ) ∈ ce_range e (find_types e t)) by (rewrite (Rg _ : ce_range e _ ≡ₚ _); by apply elem_of_map_to_list).
        assert (H : (t, Some typ) ∈ ce_range e (find_types e t) ∨ real_at m1 (component_name t)) by (by left). clear Hin Cf1. revert OU H. generalize (ce_range e (find_types e t)). intros l. revert u m1. induction l as [|x l IH]; intros u m1 OU H; [destruct H as [H|H]; [by apply elem_of_nil in H|done]|]. cbn [foldl].
        assert (G := gen_entry_fits real (λ m, real_at m (component_name t)) OE). specialize (G (λ m k s, put_real m k s _) (λ m k s O H, put_real _ _ _ _ O (put_real _ _ (CRef _) _ (λ _ E, ltac:(discriminate E)) H))).
        destruct (gen_entry e (u, m1) x) as [u2 m2] eqn:Gx. assert (O2 : ok_used real u2).
        { assert (G' := gen_entry_fits real (λ m, True) OE (λ _ _ _ _ _, I) (λ _ _ _ _ _, I) u m1 x OU I). by rewrite Gx in G'; destruct G'. }
        apply IH; [done|]. destruct H as [[<-|H]%elem_of_cons|H]; [|by left|right; destruct (G u m1 x OU H) as [_ G2]; by rewrite Gx in G2].
        right. unfold gen_entry in Gx. cbn [fst snd] in Gx. unfold gen_type in Gx. cbv zeta in Gx.
        assert (Pn : ∀ new s m, real t s → (∀ x, x ∈ new → real x.1 x.2) → real_at (foldl put (put m (t, s)) new) (component_name t)).
        { intros new s m0 Rs Hn. apply (puts_fit real (λ m, real_at m (component_name t))); [intros; by apply put_real|done|by apply put_here]. }
        assert (Rest : let '(u', s, new) := match configured e (trim_prefix "*" t) with Some s => (mark u (trim_prefix "*" t, Some s), Some s, []) | None => let '(u, s, new) := ce_build e u t typ in (mark u (t, s), s, new) end in real_at (foldl put (match s with Some s => put m1 (t, s) | None => m1 end) new) (component_name t)).
        { destruct (configured e (trim_prefix "*" t)) as [s|] eqn:C.
          - apply Pn; [|by intros y Hy%elem_of_nil]. apply (proj1 OE (trim_prefix "*" t)); [by apply configured_in|by right].
          - assert (B := proj1 (proj2 (proj2 OE)) u t typ OU). assert (Bs := Bd u t typ). destruct (ce_build e u t typ) as [[u' s] new]. destruct Bs as [s' Bs]. cbn in Bs. subst s. destruct B as (B1 & B2 & B3). apply Pn; [|done]. by apply (B2 s' eq_refl); left. }
        remember (match configured e (trim_prefix "*" t) with Some s => (mark u (trim_prefix "*" t, Some s), Some s, []) | None => let '(u, s, new) := ce_build e u t typ in (mark u (t, s), s, new) end) as R eqn:ER. clear ER. destruct R as [[u1 s1] new1].
        destruct (u !! trim_prefix "*" t) as [[s|]|] eqn:Ud; [|by injection Gx as <- <-|by injection Gx as <- <-]. destruct (ce_ref e (trim_prefix "*" t)); [|by injection Gx as <- <-]. injection Gx as <- <-. apply (Pn [(trim_prefix "*" t, s)]); [done|]. intros y ->%elem_of_list_singleton. by apply (OU (trim_prefix "*" t)).
    Qed.
    Lemma keeps_real_all c keys : ∀ u m, ok_used real u → real_at m c → real_at (foldl (gen_used e) (u, m) keys).2 c.
    Proof.
      induction keys as [|t keys IH]; intros u m OU H; [done|]. cbn [foldl]. assert (H2 := keeps_real c u m t OU H). assert (O2 := gen_used_fits real (λ _, True) OE (λ _ _ _ _ _, I) (λ _ _ _ _ _, I) (λ _, True) (λ _ _ _ _ _, I) u m t I OU I).
      destruct (gen_used e (u, m) t) as [u2 m2]. destruct O2. by apply IH.
    Qed.
  End holders.
  (** Each type that gets a schema of its own has a component that is no placeholder, whatever else is used. *)
  Theorem C109_proper keys u t :
    ok_env real → ok_used real u → ranges → (∀ u k typ, is_Some (ce_build e u k typ).1.2) → t ∈ keys → proper t → ∃ s, gen_all e keys u !! component_name t = Some s ∧ ∀ t', s ≠ CHolder t'.
  Proof.
    intros OE OU Rg Bd Hk Pr. apply elem_of_list_split in Hk as (pre & post & ->). unfold gen_all. rewrite foldl_app. cbn [foldl].
    assert (O1 := gen_keys_fits real (λ _, True) OE (λ _ _ _ _ _, I) (λ _ _ _ _ _, I) (λ _, True) (λ _ _ _ _ _, I) pre (λ _ _, I) u ∅ OU I). destruct (foldl (gen_used e) (u, ∅) pre) as [u1 m1]. destruct O1 as [O1 _]. cbn in O1.
    assert (R := proper_real OE u1 m1 t Rg Bd O1 Pr). assert (O2 := gen_used_fits real (λ _, True) OE (λ _ _ _ _ _, I) (λ _ _ _ _ _, I) (λ _, True) (λ _ _ _ _ _, I) u1 m1 t I O1 I). destruct (gen_used e (u1, m1) t) as [u2 m2]. destruct O2 as [O2 _].
    destruct (keeps_real_all OE (component_name t) post u2 m2 O2 R) as (s & H & Rs). by exists s.
  Qed.
  (** A placeholder stands only for a used type, and only if no used type of that component has a schema of its own. *)
  Theorem C109_placeholder keys u c t :
    ok_env real → ok_used real u → ranges → (∀ u k typ, is_Some (ce_build e u k typ).1.2) →
    gen_all e keys u !! c = Some (CHolder t) → t ∈ keys ∧ component_name t = c ∧ ∀ t', t' ∈ keys → component_name t' = c → ¬ proper t'.
  Proof.
    intros OE OU Rg Bd H.
    assert (A : ∀ c t, gen_all e keys u !! c = Some (CHolder t) → t ∈ keys ∧ component_name t = c).
    { clear H c t. assert (G := gen_keys_fits real (λ m, ∀ c t, m !! c = Some (CHolder t) → t ∈ keys ∧ component_name t = c) OE). apply G with (K := λ t, t ∈ keys); [| | |done|done|intros c t; by rewrite lookup_empty].
      - intros m k s R Fm c t. unfold put. cbn [fst snd]. intros [[<- ->]|[_ E]]%lookup_insert_Some; [by destruct (R t)|by apply Fm].
      - intros m k s R Fm c t. unfold put. cbn [fst snd]. intros [[<- ->]|[_ [[_ E]|[_ E]]%lookup_insert_Some]]%lookup_insert_Some; [by destruct (R t)|done|by apply Fm].
      - intros m k Kk _ Fm c t. unfold put. cbn [fst snd]. intros [[<- [= <-]]|[_ E]]%lookup_insert_Some; [done|by apply Fm]. }
    destruct (A c t H) as [A1 A2]. split_and!; [done|done|]. intros t' Ht Hc Pr. destruct (C109_proper keys u t' OE OU Rg Bd Ht Pr) as (s & E & N). rewrite Hc, H in E. injection E as <-. by destruct (N t).
  Qed.
  (** Every used type that may be referred to has a component, unless it is known to be written in place. *)
  Theorem C109_component keys u t :
    ok_env real → ok_used real u → ranges → (∀ u k typ, is_Some (ce_build e u k typ).1.2) → t ∈ keys → ce_anon e t = false → ce_known e t = None → ce_ref e t = true → is_Some (gen_all e keys u !! component_name t).
  Proof.
    intros OE OU Rg Bd Hk An Kn Rf. destruct (find_types e t !! t) as [[typ|]|] eqn:F.
    { destruct (C109_proper keys u t OE OU Rg Bd Hk) as (s & H & _); [|by eexists]. split; [done|]. right. right. split; [done|]. by exists typ. }
    all: apply elem_of_list_split in Hk as (pre & post & ->); unfold gen_all; rewrite foldl_app; cbn [foldl]; destruct (foldl (gen_used e) (u, ∅) pre) as [u1 m1] eqn:E1.
    all: assert (O1 := gen_keys_fits real (λ _, True) OE (λ _ _ _ _ _, I) (λ _ _ _ _ _, I) (λ _, True) (λ _ _ _ _ _, I) pre (λ _ _, I) u ∅ OU I); rewrite E1 in O1; destruct O1 as [O1 _]; cbn in O1.
    all: assert (P2 : is_Some ((gen_used e (u1, m1) t).2 !! component_name t)) by (unfold gen_used; rewrite An, Kn, F; cbn; rewrite Rf; destruct (foldl _ m1 (ce_conf e) !! component_name t) eqn:L; [by eexists|]; unfold put; cbn; rewrite lookup_insert; by eexists).
    all: assert (O2 := gen_used_fits real (λ _, True) OE (λ _ _ _ _ _, I) (λ _ _ _ _ _, I) (λ _, True) (λ _ _ _ _ _, I) u1 m1 t I O1 I); destruct (gen_used e (u1, m1) t) as [u2 m2]; destruct O2 as [O2 _]; cbn in P2, O2.
    all: assert (Pk : ∀ m k s, is_Some (m !! component_name t) → is_Some (put m (k, s) !! component_name t)) by (intros m k s Hm; unfold put; cbn; destruct (decide (component_name k = component_name t)) as [->|]; [rewrite lookup_insert; by eexists|by rewrite lookup_insert_ne]).
    all: apply (gen_keys_fits real (λ m, is_Some (m !! component_name t)) OE) with (K := λ _, True); [| | |done|done|done]; intros; repeat (apply Pk); done.
  Qed.
End comp.
Print Assumptions C109_no_self.
Print Assumptions C109_proper.
Print Assumptions C109_placeholder.
Print Assumptions C109_component.

(** ** A case *)
Definition shop : cenv :=
  CEnv (λ t, bool_decide (t = "__anon")) [("lib.Money", CBody 7)] (λ t, if decide (t = "uuid.UUID") then Some (Some (CBody 8), true) else None) (λ t, bool_decide (t = "string"))
    (λ t, if decide (t = "app.User") then Some ("app", "User", []) else if decide (t = "*app.User") then Some ("app", "User", []) else None)
    (λ p n, if decide (p = "app" ∧ n = "User") then Some 1 else None) ["app"] (λ t, negb (bool_decide (t = "string")))
    (λ u _, (u, Some (CBody 3), [])) (λ u _ n, (u, Some (CBody n), [("app.Address", CBody 4)])) map_to_list.
Definition shop_route : croute := CRoute (Some (CBodyOf [] "app.User")) [CBodyOf [] "lib.Money"; CBodyOf ["uuid.UUID"; "lib.Gone"] ""] ["#/components/schemas/app_Page"] [].
Definition shop_keys : list string := ["app.User"; "app_Page"; "lib.Gone"; "lib.Money"; "uuid.UUID"].
Example shop_used : collect [shop_route] = {["app.User" := None; "lib.Money" := None; "uuid.UUID" := None; "lib.Gone" := None; "app_Page" := None]}.
Proof. apply map_to_list_inj. by vm_compute. Qed.
Example shop_all : gen_all shop shop_keys (collect [shop_route]) =
  {["app_User" := CBody 1; "app_Address" := CBody 4; "app_Page" := CHolder "app_Page"; "lib_Gone" := CHolder "lib.Gone"; "lib_Money" := CBody 7]}.
Proof. apply map_to_list_inj. by vm_compute. Qed.
Lemma shop_ok (ok : string → csch → Prop) : (∀ k n, ok k (CBody n)) → ok_env shop ok.
Proof.
  intros B. split_and!.
  - intros t s k H _. cbn in H. apply elem_of_list_singleton in H as [= _ ->]. apply B.
  - intros t s p. cbn. case_decide; [|done]. intros [= <- _]. apply B.
  - intros u k typ Hu. cbn. split_and!; [done|intros s' [= <-] k' _; apply B|]. intros x ->%elem_of_list_singleton. apply B.
  - intros u k c rest Hu _ c' _. cbn. split_and!; [done|intros s' [= <-]; apply B|]. by intros x ?%elem_of_nil.
Qed.
(** So the theorems apply to it. *)
Example shop_meets : ok_env shop real ∧ ok_env shop other ∧ ok_used real (collect [shop_route]) ∧ ranges shop ∧ (∀ u k typ, is_Some (ce_build shop u k typ).1.2) ∧ proper shop "app.User" ∧ proper shop "lib.Money" ∧ ¬ proper shop "lib.Gone".
Proof.
  split_and!; [apply shop_ok; intros k n t; discriminate|apply shop_ok; intros k n; discriminate| |by intros m|intros; by eexists| | |].
  - intros k s H. rewrite shop_used in H. repeat (apply lookup_insert_Some in H as [[_ H]|[_ H]]; [done|]). by apply lookup_singleton_Some in H as [_ H].
  - split; [done|]. right. right. split; [done|]. exists 1. by vm_compute.
  - split; [done|]. left. exists (CBody 7). unfold configured_as. cbn. by left.
  - intros [_ [[s H]|[[s H]|[_ [typ H]]]]].
    + unfold configured_as in H. cbn in H. by apply elem_of_list_singleton in H.
    + done.
    + by vm_compute in H.
Qed.

(** ** What one would expect, and is not so *)
(** A body of a pointer type gets a component of its own, a copy of the type's, under a name with the star, which OpenAPI does not allow. *)
Theorem C109_pointer_refuted :
  ∃ e rs keys x s, keys ≡ₚ (map_to_list (collect rs)).*1 ∧ ok_env e real ∧ ok_env e other ∧ single_pointers rs ∧ gen_all e keys (collect rs) !! String "*" x = Some s ∧ gen_all e keys (collect rs) !! x = Some s.
Proof.
  exists shop, [CRoute (Some (CBodyOf [] "*app.User")) [] [] []], ["*app.User"; "app.User"], "app_User", (CBody 1).
  split_and!; [by vm_compute|apply shop_ok; intros k n t; discriminate|apply shop_ok; intros k n; discriminate| |by vm_compute|by vm_compute].
  intros r t x y ->%elem_of_list_singleton [b H H'|b H|ref H|v H]; [|by apply elem_of_nil in H|by apply elem_of_nil in H|by apply elem_of_nil in H]. injection H as <-. destruct H' as [H'|(_ & <- & _)]; [by apply elem_of_nil in H'|]. intros [= <-] E. vm_compute in E. done.
Qed.
Print Assumptions C109_pointer_refuted.
(** The constraint of a type parameter is taken to be the second part between dashes of the key, so with a dash in the package's path another text is mapped. *)
Theorem C109_dash_refuted :
  ∃ e t k, (∀ u c, ce_map e u c = (u, Some (if decide (c = "any") then CBody 1 else CBody 2), [])) ∧ ce_core e t = Some ("github.com/my-org/api", "Page", [("T", "any")]) ∧
    find_types e t !! k = Some None ∧ gen_all e [t] ∅ !! component_name k = Some (CBody 2).
Proof.
  exists (CEnv (λ _, false) [] (λ _, None) (λ t, bool_decide (t = "any")) (λ _, Some ("github.com/my-org/api", "Page", [("T", "any")])) (λ _ _, Some 1) [] (λ _, true)
            (λ u c, (u, Some (if decide (c = "any") then CBody 1 else CBody 2), [])) (λ u _ _, (u, Some (CBody 3), [])) map_to_list).
  exists "github.com/my-org/api.Page[T any]", "github.com/my-org/api.T-any". split_and!; [done|done|by vm_compute|by vm_compute].
Qed.
Print Assumptions C109_dash_refuted.
