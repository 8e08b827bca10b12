(** * C110: what a field of a named type is documented with. *)
From Coq Require Import Ascii.
From stdpp Require Import base list strings gmap.
From Verif Require Import StrLib StrSplit StrSub StrOrder PathModel VerbProofs ScanModel ScanProps TypeModel TypeSpec TypeProofs TypeProps GenModel GenProps AliasModel AliasProps.

Lemma cut_yes p s : cut_prefix p (p +:+ s) = (true, s).
Proof. unfold cut_prefix. assert (has_prefix p (p +:+ s) = true) as -> by (apply has_prefix_spec; by exists s). by rewrite str_drop_app. Qed.
Lemma cut_no p s : has_prefix p s = false → cut_prefix p s = (false, s).
Proof. unfold cut_prefix. by intros ->. Qed.
Lemma slice_dec t : (∃ e, t = TSlice e) ∨ ¬ ∃ e, t = TSlice e.
Proof. destruct t; try (right; by intros [? ?]). left. by eexists. Qed.
Lemma ptr_dec t : (∃ e, t = TPtr e) ∨ ¬ ∃ e, t = TPtr e.
Proof. destruct t; try (right; by intros [? ?]). left. by eexists. Qed.
Lemma start_slice t : wf t → match t with TSlice _ => False | _ => True end → has_prefix "[]" (render Dotted t) = false.
Proof.
  intros Hw Ht. destruct t as [p n args c|e|e|l e|k e|d e]; try done.
  - destruct Hw as [(-> & Hok & _)|(? & _)]; [|done]. destruct (named_start p n args Hok) as (ch & b & -> & N & _). cbn [has_prefix]. by rewrite bool_decide_eq_false_2.
  - destruct Hw as (Hl & Hb & _). apply not_true_iff_false. intros [z E]%has_prefix_spec. cbn [render] in E. destruct l as [|c l]; [done|]. rewrite !sapp_cons in E. injection E as -> _. inversion Hb; subst; done.
  - by destruct d.
Qed.
Lemma start_map t : wf t → match t with TMap _ _ => False | _ => True end → has_prefix "map[" (render Dotted t) = false.
Proof.
  intros Hw Ht. destruct t as [p n args c|e|e|l e|k e|d e]; try done; [|by destruct d].
  destruct Hw as [(-> & Hok & _)|(? & _)]; [|done]. by destruct (named_start p n args Hok) as (ch & b & -> & _ & _ & H).
Qed.
Lemma render_ne t : wf t → render Dotted t ≠ "".
Proof. intros Hw. destruct (render_facts t false Dotted Hw) as (_ & _ & Hf). by apply firm_nonempty in Hf. Qed.
(** What a type's declaration is, from what is left of the text. *)
Lemma decl_of_named ds t p n args : wf t → core t = TNamed p n args "" → is_primitive (render Dotted t) = false → decl_of ds (render Dotted t) = decl_by_name ds p n.
Proof. intros Hw Hc Hp. unfold decl_of. rewrite Hp, decide_False by (by apply render_ne). by rewrite C11_dotted_round_trip, Hc. Qed.
Definition remains (t : tref) : tref := unpointer (unslice (unslice t)).
Lemma remains_core t : core (remains t) = core t.
Proof. unfold remains. destruct t as [| | e| | |]; cbn; try done. destruct e as [| | f| | |]; cbn; try done. by destruct f. Qed.
Lemma remains_wf t : wf t → wf (remains t).
Proof. unfold remains. destruct t as [| | e| | |]; cbn; try done. destruct e as [| | f| | |]; cbn; try done. by destruct f. Qed.
Lemma resolve_cuts ds t p n args : wf t → core t = TNamed p n args "" → is_primitive (render Dotted (remains t)) = false →
  resolve_underlying ds (render Dotted t) = match decl_by_name ds p n with Some d => if decide (d_kind d = KAlias) then outermost t +:+ d_target d else "" | None => "" end.
Proof.
  intros Hw Hc Hp. unfold resolve_underlying.
  assert (∀ u (b1 b2 : bool), wf u → core u = TNamed p n args "" → remains t = unpointer u →
    (let '(star, s) := cut_prefix "*" (render Dotted u) in match decl_of ds s with Some d => if decide (d_kind d = KAlias) then let v := d_target d in if b1 then "[]" +:+ v else if b2 then "[]" +:+ v else if star : bool then "*" +:+ v else v else "" | None => "" end) =
    match decl_by_name ds p n with Some d => if decide (d_kind d = KAlias) then (if b1 || b2 then "[]" else match u with TPtr _ => "*" | _ => "" end) +:+ d_target d else "" | None => "" end) as K.
  { intros u b1 b2 Hwu Hcu Hr. rewrite Hr in Hp. destruct (ptr_dec u) as [[e ->]|N].
    - cbn [render]. rewrite cut_yes. rewrite (decl_of_named ds e p n args) by done. destruct (decl_by_name ds p n) as [d|]; [|done]. destruct (decide _); [|done]. by destruct b1, b2.
    - rewrite cut_no by (apply prefix_no_star; [done|destruct u; try done; apply N; by eexists]).
      assert (unpointer u = u) as E by (destruct u; try done; exfalso; apply N; by eexists). rewrite E in Hp.
      rewrite (decl_of_named ds u p n args) by done. destruct (decl_by_name ds p n) as [d|]; [|done]. destruct (decide _); [|done]. destruct b1, b2; try done. cbn [orb]. destruct u; try done. exfalso; apply N; by eexists. }
  destruct (slice_dec t) as [[e ->]|N].
  - change (render Dotted (TSlice e)) with ("[]" +:+ render Dotted e). rewrite cut_yes. cbn [core] in Hc.
    rewrite (cut_no "map[") by (apply start_map; [done|by destruct e]). destruct (slice_dec e) as [[f ->]|N'].
    + change (render Dotted (TSlice f)) with ("[]" +:+ render Dotted f). rewrite cut_yes. etransitivity; [exact (K f true true Hw Hc eq_refl)|done].
    + rewrite (cut_no "[]") by (apply start_slice; [done|destruct e; try done; apply N'; by eexists]). assert (remains (TSlice e) = unpointer e) as R by (unfold remains; cbn [unslice]; f_equal; destruct e; try done; exfalso; apply N'; by eexists).
      etransitivity; [exact (K e true false Hw Hc R)|done].
  - rewrite (cut_no "[]") by (apply start_slice; [done|destruct t; try done; apply N; by eexists]). rewrite (cut_no "map[") by (apply start_map; [done|by destruct t]).
    rewrite (cut_no "[]") by (apply start_slice; [done|destruct t; try done; apply N; by eexists]).
    assert (unslice t = t) as E by (destruct t; try done; exfalso; apply N; by eexists).
    assert (remains t = unpointer t) as R by (unfold remains; by rewrite !E).
    etransitivity; [exact (K t false false Hw Hc R)|]. cbn [orb]. destruct t; try done. exfalso; apply N; by eexists.
Qed.
(** C110d: a type whose name is declared as another's is resolved to that other, with the outermost slice or pointer only. *)
Theorem C110_resolve ds t p n args d : wf t → core t = TNamed p n args "" → is_primitive (render Dotted (remains t)) = false →
  meant_by ds p n d → d_kind d = KAlias → resolve_underlying ds (render Dotted t) = outermost t +:+ d_target d.
Proof. intros Hw Hc Hp Hm%C110_declaration Hk. erewrite resolve_cuts by done. by rewrite Hm, decide_True. Qed.
(** C110e: a type of any other name is not resolved. *)
Theorem C110_unresolved ds t p n args : wf t → core t = TNamed p n args "" → (∀ d, meant_by ds p n d → d_kind d ≠ KAlias) → resolve_underlying ds (render Dotted t) = "".
Proof.
  intros Hw Hc Hm. destruct (is_primitive (render Dotted (remains t))) eqn:Hp.
  - unfold resolve_underlying.
    destruct (slice_dec t) as [[e ->]|N].
    + change (render Dotted (TSlice e)) with ("[]" +:+ render Dotted e). rewrite cut_yes. rewrite (cut_no "map[") by (apply start_map; [done|by destruct e]).
      destruct (slice_dec e) as [[f ->]|N'].
      * change (render Dotted (TSlice f)) with ("[]" +:+ render Dotted f). rewrite cut_yes. unfold remains in Hp. cbn [unslice] in Hp.
        destruct (ptr_dec f) as [[g ->]|N2]; [cbn [render unpointer] in *; rewrite cut_yes; unfold decl_of; by rewrite Hp|].
        rewrite cut_no by (apply prefix_no_star; [done|destruct f; try done; apply N2; by eexists]). unfold decl_of. replace (unpointer f) with f in Hp by (destruct f; try done; exfalso; apply N2; by eexists). by rewrite Hp.
      * rewrite (cut_no "[]") by (apply start_slice; [done|destruct e; try done; apply N'; by eexists]). unfold remains in Hp. cbn [unslice] in Hp. replace (unslice e) with e in Hp by (destruct e; try done; exfalso; apply N'; by eexists).
        destruct (ptr_dec e) as [[g ->]|N2]; [cbn [render unpointer] in *; rewrite cut_yes; unfold decl_of; by rewrite Hp|].
        rewrite cut_no by (apply prefix_no_star; [done|destruct e; try done; apply N2; by eexists]). unfold decl_of. replace (unpointer e) with e in Hp by (destruct e; try done; exfalso; apply N2; by eexists). by rewrite Hp.
    + rewrite (cut_no "[]") by (apply start_slice; [done|destruct t; try done; apply N; by eexists]). rewrite (cut_no "map[") by (apply start_map; [done|by destruct t]).
      rewrite (cut_no "[]") by (apply start_slice; [done|destruct t; try done; apply N; by eexists]).
      unfold remains in Hp. replace (unslice t) with t in Hp by (destruct t; try done; exfalso; apply N; by eexists). replace (unslice t) with t in Hp by (destruct t; try done; exfalso; apply N; by eexists).
      destruct (ptr_dec t) as [[g ->]|N2]; [cbn [render unpointer] in *; rewrite cut_yes; unfold decl_of; by rewrite Hp|].
      rewrite cut_no by (apply prefix_no_star; [done|destruct t; try done; apply N2; by eexists]). unfold decl_of. replace (unpointer t) with t in Hp by (destruct t; try done; exfalso; apply N2; by eexists). by rewrite Hp.
  - erewrite resolve_cuts by done. destruct (decl_by_name ds p n) as [d|] eqn:E; [|done]. rewrite decide_False; [done|]. apply Hm. by apply C110_declaration.
Qed.
Print Assumptions C110_resolve. Print Assumptions C110_unresolved.

(** ** The field *)
(** A name with a package or not, or a pointer to it. *)
Definition simple_field (p n : string) (t : tref) : Prop := t = TNamed p n [] "" ∨ t = TPtr (TNamed p n [] "").
Lemma simple_text p n t : name_ok p n → simple_field p n t → wf t ∧ core t = TNamed p n [] "" ∧ remains t = TNamed p n [] "" ∧ render Dotted t = outermost t +:+ render Dotted (TNamed p n [] "") ∧
  contains_byte "[" (render Dotted t) = false.
Proof.
  intros Hok Ht. assert (wf (TNamed p n [] "")) as Hw by (by left).
  assert (contains_byte "[" (render Dotted (TNamed p n [] "")) = false) as Hb by (rewrite render_named, sapp_nil by done; by apply (plain_no "["); [apply base_plain|]).
  destruct Ht as [-> | ->]; split_and!; try done.
Qed.
Lemma render_pkg p n : p ≠ "" → render Dotted (TNamed p n [] "") = p +:+ "." +:+ n.
Proof. intros Hp. cbn [render is_simple andb]. rewrite decide_True by done. by rewrite bool_decide_eq_false_2. Qed.
Lemma render_ptr t : render Dotted (TPtr t) = "*" +:+ render Dotted t.
Proof. done. Qed.
Lemma no_square p s : contains_byte "[" s = false → str_contains (p +:+ "[") s = false.
Proof. intros H. apply not_true_iff_false. intros (a & b & ->)%str_contains_spec. apply not_true_iff_false in H. apply H, contains_byte_spec. exists (a +:+ p), b. by rewrite !sapp_assoc. Qed.
Lemma documented_simple ds key params pkg t r : core_args (parse_type key) = [] → contains_byte "[" (render Dotted t) = false → resolve_underlying ds (render Dotted t) = r →
  documented ds key params pkg (render Dotted t) = let f := if decide (r = "") then render Dotted t else r in if is_primitive f then f else qualify_field_type f pkg.
Proof.
  intros Hk Hb Hr. unfold documented, field_type. rewrite Hk. cbn [all_concrete]. unfold all_concrete. rewrite bool_decide_eq_true_2 by done. cbn [negb andb]. rewrite decide_True by done.
  assert (has_prefix "[]" (render Dotted t) = false) as ->. { apply not_true_iff_false. intros [z E]%has_prefix_spec. rewrite E in Hb. done. }
  assert (str_contains "map[" (render Dotted t) = false) as -> by (by apply (no_square "map")). cbn [negb andb]. cbn zeta. by rewrite Hr.
Qed.
Lemma primitive_star b : is_basic b = true → is_primitive b = true ∧ is_primitive ("*" +:+ b) = true.
Proof.
  intros Hb. assert (trim_prefix "*" b = b) as E.
  { unfold trim_prefix. destruct (has_prefix "*" b) eqn:P; [|done]. apply has_prefix_spec in P as [z ->]. by pose proof (basic_no "*" _ eq_refl Hb). }
  assert (trim_prefix "*" ("*" +:+ b) = b) as E' by done. unfold is_primitive. rewrite E, E'. cbn zeta. by rewrite Hb.
Qed.
(** C110f: a field of a type declared as a basic one is documented with the basic one, a pointer as a pointer to it. *)
Theorem C110_field ds key params pkg p n t d : core_args (parse_type key) = [] → name_ok p n → simple_field p n t → is_primitive (render Dotted (TNamed p n [] "")) = false →
  meant_by ds p n d → d_kind d = KAlias → is_basic (d_target d) = true → documented ds key params pkg (render Dotted t) = outermost t +:+ d_target d.
Proof.
  intros Hk Hok Ht Hp Hm Ha Hb. destruct (simple_text p n t Hok Ht) as (Hw & Hc & Hr & Et & Hs). rewrite (documented_simple ds key params pkg t (outermost t +:+ d_target d)); [|done|done|].
  - cbn zeta. rewrite decide_False by (intros [_ E]%sapp_eq_nil; by rewrite E in Hb). destruct (primitive_star _ Hb) as [H1 H2].
    assert (is_primitive (outermost t +:+ d_target d) = true) as -> by (by destruct Ht as [-> | ->]). done.
  - eapply C110_resolve; try done. by rewrite Hr.
Qed.
(** C110g: a field of a type declared as another named one is documented with that name, qualified with the package of the struct. *)
Theorem C110_field_named ds key params pkg p n t d : core_args (parse_type key) = [] → pkg ≠ "" → name_ok p n → simple_field p n t → is_primitive (render Dotted (TNamed p n [] "")) = false →
  meant_by ds p n d → d_kind d = KAlias → name_ok "" (d_target d) → contains_byte "{" (d_target d) = false → is_primitive (d_target d) = false →
  documented ds key params pkg (render Dotted t) = outermost t +:+ pkg +:+ "." +:+ d_target d.
Proof.
  intros Hk Hpk Hok Ht Hp Hm Ha Hu Hbr Hb. destruct (simple_text p n t Hok Ht) as (Hw & Hc & Hr & Et & Hs). rewrite (documented_simple ds key params pkg t (outermost t +:+ d_target d)); [|done|done|].
  - assert (d_target d ≠ "") as Hne by (by destruct Hu as (_ & _ & ? & _)). cbn zeta. rewrite decide_False by (by intros [_ E]%sapp_eq_nil).
    set (u := match t with TPtr _ => TPtr (TNamed "" (d_target d) [] "") | _ => TNamed "" (d_target d) [] "" end).
    assert (outermost t +:+ d_target d = render Dotted u) as -> by (by destruct Ht as [-> | ->]).
    assert (wf u) as Hwu by (destruct Ht as [-> | ->]; by left).
    assert (qualify_ref pkg u = Some (match t with TPtr _ => TPtr (TNamed pkg (d_target d) [] "") | _ => TNamed pkg (d_target d) [] "" end)) as Q.
    { destruct Ht as [-> | ->]; unfold u; cbn [qualify_ref]; rewrite decide_False; try done; intros [?|[?|?]]; congruence. }
    destruct (is_primitive (render Dotted u)) eqn:P; [apply (primitive_unqualified pkg) in P; [by rewrite P in Q|done]|].
    rewrite qualified_text; [|done|done|destruct Ht as [-> | ->]; done]. rewrite Q. cbn [from_option]. unfold id. destruct Ht as [-> | ->]; cbn [outermost]; rewrite ?render_ptr, (render_pkg pkg) by done; done.
  - eapply C110_resolve; try done. by rewrite Hr.
Qed.
(** C110h: a field of a type declared otherwise, or not found, keeps its type: with its package, or that of the struct if it has none. *)
Theorem C110_field_kept ds key params pkg p n t : core_args (parse_type key) = [] → pkg ≠ "" → name_ok p n → simple_field p n t → contains_byte "{" (render Dotted t) = false → is_primitive (render Dotted (TNamed p n [] "")) = false →
  (∀ d, meant_by ds p n d → d_kind d ≠ KAlias) → documented ds key params pkg (render Dotted t) = outermost t +:+ (if decide (p = "") then pkg else p) +:+ "." +:+ n.
Proof.
  intros Hk Hpk Hok Ht Hbr Hp Hm. destruct (simple_text p n t Hok Ht) as (Hw & Hc & Hr & Et & Hs). rewrite (documented_simple ds key params pkg t ""); [|done|done|by eapply C110_unresolved].
  cbn zeta. rewrite decide_True by done.
  assert (is_primitive (render Dotted t) = false) as ->.
  { destruct Ht as [-> | ->]; [done|]. cbn [render]. unfold is_primitive in *. change (trim_prefix "*" ("*" +:+ ?s)) with s. 
    assert (trim_prefix "*" (render Dotted (TNamed p n [] "")) = render Dotted (TNamed p n [] "")) as E by (unfold trim_prefix; rewrite prefix_no_star; [done|by left|done]). by rewrite E in Hp. }
  rewrite qualified_text by done.
  destruct (decide (p = "")) as [->|Np].
  - assert (qualify_ref pkg t = Some (match t with TPtr _ => TPtr (TNamed pkg n [] "") | _ => TNamed pkg n [] "" end)) as ->.
    { assert (n ≠ "") by (by destruct Hok as (_ & _ & ? & _)). assert (is_primitive n = false) as Hn by exact Hp. destruct Ht as [-> | ->]; cbn [qualify_ref]; rewrite decide_False; try done; intros [?|[?|?]]; congruence. }
    cbn [from_option]. unfold id. destruct Ht as [-> | ->]; cbn [outermost]; rewrite ?render_ptr, (render_pkg pkg) by done; done.
  - assert (qualify_ref pkg t = None) as -> by (destruct Ht as [-> | ->]; cbn [qualify_ref]; by rewrite decide_True by auto).
    cbn [from_option]. unfold id. destruct Ht as [-> | ->]; cbn [outermost]; rewrite ?render_ptr, (render_pkg p) by done; done.
Qed.
(** C110i: the type itself is documented with its target in the package that declares it. *)
Theorem C110_target info pkg n : pkg ≠ "" → name_ok "" n → target_type (declare info pkg (XIdent n)) = if is_primitive n then n else pkg +:+ "." +:+ n.
Proof.
  intros Hp Hok. unfold target_type. cbn [declare d_pkg d_target]. assert (wf (TNamed "" n [] "")) as Hw by (by left). 
  rewrite (C11_dotted_round_trip (TNamed "" n [] "") Hw : parse_type n = _). cbn [qualify_ref]. 
  assert (n ≠ "") by (by destruct Hok as (_ & _ & ? & _)). destruct (is_primitive n); [by rewrite decide_True by auto|]. rewrite decide_False by (by intros [?|[?|?]]).
  by rewrite (render_pkg pkg).
Qed.
Theorem C110_container info pkg e t : match e with XStruct | XInterface | XIdent _ => False | _ => True end → wf (from_expr info e) → qualify_ref pkg (from_expr info e) = Some t → target_type (declare info pkg e) = render Dotted t.
Proof.
  intros He Hw Q. unfold target_type. assert (declare info pkg e = Decl pkg KOther (recorded info e)) as -> by (by destruct e). cbn [d_pkg d_target]. unfold recorded. by rewrite C11_dotted_round_trip, Q.
Qed.
Print Assumptions C110_field. Print Assumptions C110_field_named. Print Assumptions C110_field_kept. Print Assumptions C110_target. Print Assumptions C110_container.
