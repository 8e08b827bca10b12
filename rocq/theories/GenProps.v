(** * C63: a field of a generic instance is documented with the type it has in Go. *)
From Coq Require Import Ascii.
From stdpp Require Import base list strings gmap.
From Verif Require Import StrLib StrSplit StrSub PathModel VerbProofs ScanModel ScanProps TypeModel TypeSpec TypeProofs TypeProps GenModel.

(** ** Specification *)

(** The type a declared field type stands for: a parameter is its argument, a name written without
    package is of the declaring package unless the language defines it. *)
Fixpoint meant (σ : gmap string tref) (pkg : string) (t : tref) : tref :=
  match t with
  | TNamed p n args c =>
      if decide (p = "" ∧ args = [] ∧ c = "" ∧ is_Some (σ !! n)) then default t (σ !! n)
      else TNamed (if bool_decide (p = "") && negb (is_basic n) then pkg else p) n (meant σ pkg <$> args) c
  | TPtr e => TPtr (meant σ pkg e)
  | TSlice e => TSlice (meant σ pkg e)
  | TArr l e => TArr l (meant σ pkg e)
  | TMap k e => TMap (meant σ pkg k) (meant σ pkg e)
  | TChan d e => TChan d (meant σ pkg e)
  end.
(** Arguments by position. *)
Definition bindings (params : list string) (args : list tref) : gmap string tref := list_to_map (zip params args).
(** No parameter occurs. *)
Fixpoint closed (σ : gmap string tref) (t : tref) : Prop :=
  match t with
  | TNamed p n args c => (p = "" → args = [] → c = "" → σ !! n = None) ∧ foldr (λ a P, closed σ a ∧ P) True args
  | TPtr e | TSlice e | TArr _ e | TChan _ e => closed σ e
  | TMap k e => closed σ k ∧ closed σ e
  end.
(** Only the name at the end of the containers may lack its package. *)
Fixpoint leaf_only (σ : gmap string tref) (pkg : string) (t : tref) : Prop :=
  match t with
  | TNamed p n args c => Forall (λ a, meant σ pkg a = a) args
  | TPtr e | TSlice e | TArr _ e | TChan _ e => leaf_only σ pkg e
  | TMap k e => meant σ pkg k = k ∧ leaf_only σ pkg e
  end.
(** Field types handled exactly: a parameter below pointers and slices, or a type without parameters. *)
Fixpoint field_ok (σ : gmap string tref) (pkg : string) (t : tref) : Prop :=
  closed σ t ∧ leaf_only σ pkg t ∨
  match t with
  | TPtr e | TSlice e => field_ok σ pkg e
  | TNamed p n args c => p = "" ∧ args = [] ∧ c = "" ∧ is_Some (σ !! n)
  | _ => False
  end.
(** An argument of the package itself, or basic, below any containers. *)
Fixpoint home (pkg : string) (t : tref) : Prop :=
  match t with
  | TNamed p n args c => args = [] ∧ c = "" ∧ n ≠ "interface{}" ∧ (p = pkg ∧ is_basic n = false ∨ p = "" ∧ is_basic n = true)
  | TPtr e | TSlice e | TArr _ e | TChan _ e => home pkg e
  | TMap k e => (∃ n, k = TNamed "" n [] "" ∧ is_basic n = true ∧ n ≠ "interface{}") ∧ home pkg e
  end.
(** No braces in the names: no struct or interface literal. *)
Definition brace_free (t : tref) : Prop := contains_byte "{" (render Dotted t) = false.

(** ** Substitution *)
Fixpoint subst (σ : gmap string tref) (t : tref) : tref :=
  match t with
  | TNamed p n args c => if decide (p = "" ∧ args = [] ∧ c = "" ∧ is_Some (σ !! n)) then default t (σ !! n) else TNamed p n (subst σ <$> args) c
  | TPtr e => TPtr (subst σ e)
  | TSlice e => TSlice (subst σ e)
  | TArr l e => TArr l (subst σ e)
  | TMap k e => TMap (subst σ k) (subst σ e)
  | TChan d e => TChan d (subst σ e)
  end.
Section tref_ind.
  Context (P : tref → Prop).
  Context (Hn : ∀ p n args c, Forall P args → P (TNamed p n args c)) (Hp : ∀ e, P e → P (TPtr e)) (Hs : ∀ e, P e → P (TSlice e))
    (Ha : ∀ l e, P e → P (TArr l e)) (Hm : ∀ k e, P k → P e → P (TMap k e)) (Hc : ∀ d e, P e → P (TChan d e)).
  Fixpoint tref_nested_ind (t : tref) : P t :=
    match t with
    | TNamed p n args c => Hn p n args c ((fix go l : Forall P l := match l with [] => Forall_nil_2 P | a :: l => Forall_cons_2 P a l (tref_nested_ind a) (go l) end) args)
    | TPtr e => Hp e (tref_nested_ind e)
    | TSlice e => Hs e (tref_nested_ind e)
    | TArr l e => Ha l e (tref_nested_ind e)
    | TMap k e => Hm k e (tref_nested_ind k) (tref_nested_ind e)
    | TChan d e => Hc d e (tref_nested_ind e)
    end.
End tref_ind.
Lemma closed_args σ args : foldr (λ a P, closed σ a ∧ P) True args ↔ Forall (closed σ) args.
Proof. induction args as [|a args IH]; cbn; [by split; [constructor|]|]. rewrite Forall_cons. by rewrite IH. Qed.
Lemma subst_closed σ t : closed σ t → subst σ t = t.
Proof.
  induction t as [p n args c IH|e IH|e IH|l e IH|k e IHk IHe|d e IH] using tref_nested_ind; cbn [closed subst]; intros H; try (by rewrite IH).
  - destruct H as [H1 H2]. rewrite decide_False; [|intros (-> & -> & -> & [x Hx]); by rewrite H1 in Hx]. f_equal.
    apply closed_args in H2. clear H1. induction IH as [|a args Ha _ IH]; [done|]. rewrite Forall_cons in H2. destruct H2 as [H2 H3]. cbn. rewrite Ha by done. f_equal.
    by apply IH.
  - destruct H as [H1 H2]. by rewrite IHk, IHe.
Qed.

(** First bytes of rendered types. *)
Lemma render_leaf_start t : wf t → match t with TPtr _ | TSlice _ => False | _ => True end → peel_markers (render Dotted t) = ("", render Dotted t).
Proof.
  intros Hw Ht. destruct t as [p n args c|e|e|l e|k e|d e]; try done.
  - destruct Hw as [(-> & Hok & _)|(? & _)]; [|done]. rewrite render_named by done.
    pose proof (base_plain Dotted p n Hok) as Hb. pose proof (base_nonempty Dotted p n Hok) as Hne. destruct (base_of Dotted p n) as [|ch b]; [done|].
    apply plain_cons in Hb as [Hc _]. rewrite sapp_cons. cbn [peel_markers]. apply special_sub in Hc as (H1 & _ & _ & H2). rewrite decide_False by done.
    destruct (b +:+ _); [done|]. rewrite decide_False; [done|]. intros [-> _]. done.
  - destruct Hw as (Hl & Hb & _). destruct l as [|ch l]; [done|]. change (render Dotted (TArr (String ch l) e)) with (String "[" (String ch (l +:+ "]" +:+ render Dotted e))).
    cbn [peel_markers]. rewrite decide_False by done. rewrite decide_False; [done|]. intros [_ ->]. inversion Hb; subst; done.
  - destruct d; reflexivity.
Qed.
Lemma ident_name_ok n : is_ident n = true → n ≠ "map" → name_ok "" n.
Proof.
  intros Hi Hm. destruct (ident_plain n Hi) as [Hp Hne].
  assert (∀ c, ident_char c = true → c ≠ "."%char ∧ c ≠ "-"%char) as Hd by (intros c Hc; split; intros ->; by vm_compute in Hc).
  assert (∀ s, str_any (λ c, negb (ident_char c)) s = false → contains_byte "." s = false ∧ contains_byte "-" s = false) as Hall.
  { unfold contains_byte. induction s as [|c s IH]; [done|]. cbn [str_any]. intros [Hc Hs]%orb_false_iff. destruct (IH Hs) as [-> ->].
    apply negb_false_iff in Hc. apply Hd in Hc as [H1 H2]. by rewrite !bool_decide_eq_false_2 by done. }
  assert (contains_byte "." n = false ∧ contains_byte "-" n = false) as [H1 H2].
  { apply Hall. destruct n as [|c n]; [done|]. cbn [is_ident] in Hi. apply andb_prop in Hi as [Hs Hr]. apply negb_true_iff in Hr. cbn [str_any]. rewrite Hr.
    unfold ident_char. by rewrite Hs. }
  unfold name_ok. split_and!; try done; [apply plain_nil|].
  apply not_true_iff_false. intros (a & b & E)%str_contains_spec. change (("" +:+ "." +:+ n)) with (String "." n) in E.
  destruct a as [|c a]; [done|]. rewrite sapp_cons in E. injection E as _ E. apply not_true_iff_false in H2. apply H2. apply contains_byte_spec. exists a, (String "-" (String ">" b)). done.
Qed.
Lemma wf_ident n : name_ok "" n → wf (TNamed "" n [] "").
Proof. intros H. left. done. Qed.
Lemma render_ident n : name_ok "" n → render Dotted (TNamed "" n [] "") = n.
Proof. intros H. reflexivity. Qed.
Definition replaced (σ : gmap string tref) (t : tref) : string :=
  let '(p, q) := peel_markers (render Dotted t) in match (render Dotted <$> σ) !! q with Some c => p +:+ c | None => render Dotted t end.
Lemma replaced_leaf σ t : (∀ n, is_Some (σ !! n) → name_ok "" n) → wf t → match t with TPtr _ | TSlice _ => False | _ => True end → closed σ t →
  replaced σ t = render Dotted t.
Proof.
  intros Hσ Hw Ht Hc. unfold replaced. rewrite render_leaf_start by done. rewrite lookup_fmap. destruct (σ !! render Dotted t) as [a|] eqn:E; [|done]. exfalso.
  assert (name_ok "" (render Dotted t)) as Hok by (apply Hσ; by eexists).
  assert (t = TNamed "" (render Dotted t) [] "") as Heq. { apply C11_dotted_injective; [done|by apply wf_ident|]. by rewrite render_ident. }
  rewrite Heq in Hc. cbn [closed] in Hc. destruct Hc as [Hc _]. rewrite Hc in E; done.
Qed.
Lemma replaced_ptr σ e : replaced σ (TPtr e) = "*" +:+ replaced σ e.
Proof.
  unfold replaced. change (render Dotted (TPtr e)) with (String "*" (render Dotted e)). cbn [peel_markers]. rewrite decide_True by done.
  destruct (peel_markers (render Dotted e)) as [p q]. by destruct (_ !! q).
Qed.
Lemma replaced_slice σ e : replaced σ (TSlice e) = "[]" +:+ replaced σ e.
Proof.
  unfold replaced. change (render Dotted (TSlice e)) with (String "[" (String "]" (render Dotted e))). cbn [peel_markers]. rewrite decide_False by done.
  rewrite decide_True by done. destruct (peel_markers (render Dotted e)) as [p q]. by destruct (_ !! q).
Qed.
Lemma replaced_closed σ t : (∀ n, is_Some (σ !! n) → name_ok "" n) → wf t → closed σ t → replaced σ t = render Dotted t.
Proof.
  intros Hσ. induction t as [p n args c|e IH|e IH|l e IH|k IHk e IHe|d e IH]; intros Hw Hc; try (by apply replaced_leaf).
  - rewrite replaced_ptr. change (render Dotted (TPtr e)) with ("*" +:+ render Dotted e). f_equal. by apply IH.
  - rewrite replaced_slice. change (render Dotted (TSlice e)) with ("[]" +:+ render Dotted e). f_equal. by apply IH.
Qed.
Lemma replaced_field σ pkg t : (∀ n, is_Some (σ !! n) → name_ok "" n) → wf t → field_ok σ pkg t → replaced σ t = render Dotted (subst σ t).
Proof.
  intros Hσ. induction t as [p n args c|e IH|e IH|l e IH|k IHk e IHe|d e IH]; intros Hw [[Hc _]|Hf]; try (by rewrite replaced_closed, subst_closed); try done.
  - destruct Hf as (-> & -> & -> & [a Ha]). unfold replaced. rewrite render_leaf_start by done. cbn [subst]. rewrite decide_True by (by rewrite Ha).
    change (render Dotted (TNamed "" n [] "")) with n. rewrite lookup_fmap, Ha. done.
  - rewrite replaced_ptr. cbn [subst]. change (render Dotted (TPtr ?x)) with ("*" +:+ render Dotted x). f_equal. by apply IH.
  - rewrite replaced_slice. cbn [subst]. change (render Dotted (TSlice ?x)) with ("[]" +:+ render Dotted x). f_equal. by apply IH.
Qed.

(** Replacing parameters in the text of a field type is replacing them in the type. *)
Theorem C63_substitution_partial σ pkg t : σ ≠ ∅ → (∀ n, is_Some (σ !! n) → is_ident n = true ∧ n ≠ "map") → wf t → field_ok σ pkg t →
  substitute_type_params (render Dotted t) (render Dotted <$> σ) = render Dotted (subst σ t).
Proof.
  intros Hne Hσ Hw Hf. unfold substitute_type_params. rewrite decide_False by (by rewrite fmap_empty_iff).
  apply (replaced_field σ pkg); [|done..]. intros n Hn. apply Hσ in Hn as [H1 H2]. by apply ident_name_ok.
Qed.

(** ** Qualification *)
Lemma basic_list s : is_basic s = true → s ∈ basic_names.
Proof. apply bool_decide_eq_true. Qed.
Lemma basic_unqualified pkg u : wf u → is_basic (render Dotted u) = true → qualify_ref pkg u = None.
Proof.
  intros Hw Hb%basic_list. rewrite <- (C11_dotted_round_trip u Hw). revert Hb. generalize (render Dotted u). intros s Hs. unfold basic_names in Hs.
  repeat (apply elem_of_cons in Hs as [->|Hs]; [vm_compute; reflexivity|]). by apply elem_of_nil in Hs.
Qed.
Lemma basic_no c s : mem_byte c "[]* " = true → is_basic s = true → contains_byte c s = false.
Proof.
  intros Hc Hs%basic_list. unfold basic_names in Hs.
  assert (c ∈ ["["; "]"; "*"; " "]%char) as Hc'.
  { cbn [mem_byte] in Hc. revert Hc. destruct c as [[] [] [] [] [] [] [] []]; vm_compute; try done; intros _; repeat (apply elem_of_cons; (left; reflexivity) || right). }
  repeat (apply elem_of_cons in Hc' as [->|Hc']; [repeat (apply elem_of_cons in Hs as [->|Hs]; [vm_compute; reflexivity|]); by apply elem_of_nil in Hs|]).
  by apply elem_of_nil in Hc'.
Qed.
Lemma cut_close_here x y : contains_byte "]" x = false → cut_close (x +:+ "]" +:+ y) = Some (x, y).
Proof.
  intros Hx. unfold cut_close.
  assert (take_until (λ c, bool_decide (c = "]"%char)) (x +:+ "]" +:+ y) = x) as ->.
  { unfold contains_byte in Hx. rewrite take_until_app, Hx. cbn [take_until]. change ("]" +:+ y) with (String "]" y). cbn [take_until]. rewrite bool_decide_eq_true_2 by done. apply sapp_nil. }
  assert (contains_byte "]" (x +:+ "]" +:+ y) = true) as ->. { apply contains_byte_spec. by exists x, y. }
  do 2 f_equal. change (x +:+ "]" +:+ y) with (x +:+ String "]" y). replace (x +:+ String "]" y) with ((x +:+ "]") +:+ y) by (by rewrite sapp_assoc).
  replace (S (String.length x)) with (String.length (x +:+ "]")) by (rewrite sapp_length; cbn; lia). apply str_drop_app.
Qed.
Lemma cut_close_inside x y h r : contains_byte "]" x = true → cut_close (x +:+ "]" +:+ y) = Some (h, r) → contains_byte "]" r = true.
Proof.
  intros Hx. unfold contains_byte in Hx. destruct (take_until_rest _ _ Hx) as (c & z & Ex & Hc). apply bool_decide_eq_true in Hc as ->.
  pose proof (str_any_take_until (λ c, bool_decide (c = "]"%char)) x) as Hn. revert Ex Hn. generalize (take_until (λ c, bool_decide (c = "]"%char)) x). intros a -> Ha.
  rewrite sapp_assoc. change (String "]" z +:+ "]" +:+ y) with ("]" +:+ (z +:+ "]" +:+ y)). rewrite cut_close_here by done. intros E. injection E as <- <-.
  apply contains_byte_spec. by exists z, y.
Qed.
Lemma prefix_no_star t : wf t → match t with TPtr _ => False | _ => True end → has_prefix "*" (render Dotted t) = false.
Proof.
  intros Hw Ht. destruct t as [p n args c|e|e|l e|k e|d e]; try done; [|by destruct d].
  destruct Hw as [(-> & Hok & _)|(? & _)]; [|done]. rewrite render_named by done.
  pose proof (base_plain Dotted p n Hok) as Hb. pose proof (base_nonempty Dotted p n Hok) as Hne. destruct (base_of Dotted p n) as [|ch b]; [done|].
  apply plain_cons in Hb as [Hc _]. apply special_sub in Hc as (H1 & _ & _ & H2). rewrite sapp_cons. cbn [has_prefix]. by rewrite bool_decide_eq_false_2.
Qed.
Lemma named_start p n args : name_ok p n → ∃ ch b, render Dotted (TNamed p n args "") = String ch b ∧ ch ≠ "["%char ∧ ch ≠ "*"%char ∧ has_prefix "map[" (String ch b) = false.
Proof.
  intros Hok. rewrite render_named by done. pose proof (base_plain Dotted p n Hok) as Hb. pose proof (base_nonempty Dotted p n Hok) as Hne.
  pose proof (base_not_map Dotted p n Hok) as Hm.
  assert (∀ tl, (tl = "" ∨ ∃ x, tl = String "[" x) → has_prefix "map[" (base_of Dotted p n +:+ tl) = false) as Hpre.
  { intros tl Htl. change "map[" with ("map" +:+ String "[" ""). apply no_prefix; [done|done|by apply plain_q|done|by right]. }
  destruct (base_of Dotted p n) as [|ch b]; [done|]. apply plain_cons in Hb as [Hc _]. apply special_sub in Hc as (H1 & _ & _ & H2).
  eexists ch, _. split; [by rewrite sapp_cons|]. split; [by intros ->|]. split; [done|]. rewrite <- sapp_cons. apply Hpre. destruct args; [by left|right; by eexists].
Qed.
Lemma squeeze_contains s : contains_byte "]" (squeeze s) = contains_byte "]" s.
Proof.
  unfold contains_byte. induction s as [|c s IH]; [done|]. cbn [squeeze str_any]. destruct (mem_byte c spaces) eqn:E; [|cbn [str_any]; by rewrite IH].
  rewrite IH. destruct (decide (c = "]"%char)) as [->|N]; [done|]. by rewrite bool_decide_eq_false_2.
Qed.
Lemma primitive_unqualified pkg t : wf t → is_primitive (render Dotted t) = true → qualify_ref pkg t = None.
Proof.
  assert (∀ e, wf e → let b := render Dotted e in
     is_basic b || (has_prefix "[]" b && is_basic (str_drop 2 b))
     || (has_prefix "[" b && match cut_close b with Some (h, r) => bool_decide (1 < String.length h) && is_basic r | None => false end)
     || (has_prefix "map[" b && match cut_close b with Some (h, r) => bool_decide (4 < String.length h) && is_basic (str_drop 4 h) && is_basic (trim_space r) | None => false end) = true →
     qualify_ref pkg e = None) as Hone.
  { intros e Hw b Hb. repeat (apply orb_true_iff in Hb as [Hb|Hb]).
    - by apply basic_unqualified.
    - apply andb_prop in Hb as [H1 H2]. subst b. destruct e as [p n args c|e|e|l e|k e|d e].
      + destruct Hw as [(-> & Hok & _)|(? & _)]; [|done]. destruct (named_start p n args Hok) as (ch & b & E & N1 & N2 & _). rewrite E in H1. cbn [has_prefix] in H1.
        by rewrite bool_decide_eq_false_2 in H1 by done.
      + done.
      + change (render Dotted (TSlice e)) with ("[]" +:+ render Dotted e) in H2. change (str_drop 2 ("[]" +:+ render Dotted e)) with (str_drop 0 (render Dotted e)) in H2.
        assert (str_drop 0 (render Dotted e) = render Dotted e) as E by (by destruct (render Dotted e)). rewrite E in H2.
        cbn [qualify_ref]. by rewrite (basic_unqualified pkg e).
      + destruct Hw as (Hl & Hbal & _). destruct l as [|ch l]; [done|]. change (render Dotted (TArr (String ch l) e)) with (String "[" (String ch (l +:+ "]" +:+ render Dotted e))) in H1.
        cbn [has_prefix] in H1. rewrite bool_decide_eq_true_2 in H1 by done. cbn [andb] in H1. rewrite andb_true_r in H1. apply bool_decide_eq_true in H1 as <-. inversion Hbal; subst; done.
      + done.
      + by destruct d.
    - apply andb_prop in Hb as [H1 H2]. subst b. destruct e as [p n args c|e|e|l e|k e|d e].
      + destruct Hw as [(-> & Hok & _)|(? & _)]; [|done]. destruct (named_start p n args Hok) as (ch & b & E & N1 & N2 & _). rewrite E in H1. cbn [has_prefix] in H1.
        by rewrite bool_decide_eq_false_2 in H1 by done.
      + done.
      + change (render Dotted (TSlice e)) with ("[" +:+ "]" +:+ render Dotted e) in H2. rewrite cut_close_here in H2 by done. done.
      + change (render Dotted (TArr l e)) with (String "[" l +:+ "]" +:+ render Dotted e) in H2. destruct (contains_byte "]" (String "[" l)) eqn:El.
        * destruct (cut_close _) as [[h r]|] eqn:E; [|done]. apply andb_prop in H2 as [_ H2]. apply (cut_close_inside _ _ _ _ El) in E.
          apply (basic_no "]"%char) in H2; [by rewrite H2 in E|done].
        * rewrite cut_close_here in H2 by done. apply andb_prop in H2 as [_ H2]. cbn [qualify_ref]. destruct Hw as (_ & _ & Hw). by rewrite (basic_unqualified pkg e).
      + done.
      + by destruct d.
    - apply andb_prop in Hb as [H1 H2]. subst b. destruct e as [p n args c|e|e|l e|k e|d e].
      + destruct Hw as [(-> & Hok & _)|(? & _)]; [|done]. destruct (named_start p n args Hok) as (ch & b & E & N1 & N2 & N3). rewrite E, N3 in H1. done.
      + done.
      + done.
      + done.
      + destruct Hw as [Hwk Hwe]. change (render Dotted (TMap k e)) with ("map[" +:+ render Dotted k +:+ "]" +:+ render Dotted e) in H2. rewrite <- sapp_assoc in H2.
        destruct (contains_byte "]" ("map[" +:+ render Dotted k)) eqn:El.
        * destruct (cut_close _) as [[h r]|] eqn:E; [|done]. apply andb_prop in H2 as [_ H2]. apply (cut_close_inside _ _ _ _ El) in E.
          apply (basic_no "]"%char) in H2; [|done]. exfalso. apply contains_byte_spec in E as (a & b & ->).
          assert (contains_byte "]" (trim_space (a +:+ String "]" b)) = true) as Hin; [|by rewrite Hin in H2].
          rewrite <- squeeze_contains, squeeze_trim, squeeze_contains. apply contains_byte_spec. by exists a, b.
        * rewrite cut_close_here in H2 by done. apply andb_prop in H2 as [_ H2]. cbn [qualify_ref]. rewrite firm_trim in H2 by (by eapply render_facts).
          by rewrite (basic_unqualified pkg e).
      + by destruct d. }
  intros Hw. unfold is_primitive.
  assert (match t with TPtr _ => False | _ => True end → trim_prefix "*" (render Dotted t) = render Dotted t) as Hid.
  { intros Ht. unfold trim_prefix. by rewrite prefix_no_star. }
  destruct t as [p n args c|e|e|l e|k e|d e]; try (rewrite Hid by done; by apply Hone).
  change (render Dotted (TPtr e)) with ("*" +:+ render Dotted e). rewrite trim_prefix_app. intros H. cbn [qualify_ref]. by rewrite (Hone e).
Qed.
Lemma primitive_name n : plain n → n ≠ "" → n ≠ "map" → is_primitive n = is_basic n.
Proof.
  intros Hp Hne Hm. unfold is_primitive, trim_prefix.
  assert (∀ p q c r, p = q +:+ String c r → plain q → mem_byte c special = true → (c ≠ "["%char ∨ n ≠ q) → has_prefix p n = false) as Hpre.
  { intros p q c r -> Hq Hc Ho. rewrite <- (sapp_nil n). apply no_prefix; auto. }
  rewrite (Hpre "*" "" "*"%char "") by (done || auto using plain_nil). rewrite (Hpre "[]" "" "["%char "]") by (done || auto using plain_nil).
  rewrite (Hpre "[" "" "["%char "") by (done || auto using plain_nil). rewrite (Hpre "map[" "map" "["%char "") by (done || auto || by apply plain_q).
  cbn [andb]. by rewrite !orb_false_r.
Qed.
(** Below any containers the name at the end gets the declaring package. *)
Lemma qualify_meant σ pkg t : wf t → closed σ t → leaf_only σ pkg t → default t (qualify_ref pkg t) = meant σ pkg t.
Proof.
  induction t as [p n args c|e IH|e IH|l e IH|k IHk e IHe|d e IH]; cbn [closed leaf_only]; intros Hw Hc Hl.
  - destruct Hw as [(-> & Hok & _)|(? & _)]; [|done]. destruct Hc as [Hc _]. cbn [qualify_ref meant].
    rewrite (decide_False (P := p = "" ∧ _)); [|intros (-> & -> & _ & [x Hx]); by rewrite Hc in Hx].
    assert (meant σ pkg <$> args = args) as ->. { clear Hok Hc. induction Hl as [|a args Ha _ IH]; [done|]. cbn. by rewrite Ha, IH. }
    destruct Hok as (_ & Hpl & Hne & Hm & _). rewrite primitive_name by done. destruct (decide (p = "")) as [->|Hp].
    + rewrite (bool_decide_eq_true_2 ("" = "")) by done. destruct (is_basic n).
      * rewrite decide_True by auto. done.
      * rewrite decide_False by naive_solver. done.
    + rewrite (bool_decide_eq_false_2 (p = "")) by done. rewrite decide_True by auto. done.
  - cbn [qualify_ref meant]. rewrite <- IH by done. by destruct (qualify_ref pkg e).
  - cbn [qualify_ref meant]. rewrite <- IH by done. by destruct (qualify_ref pkg e).
  - destruct Hw as (_ & _ & Hw). cbn [qualify_ref meant]. rewrite <- IH by done. by destruct (qualify_ref pkg e).
  - destruct Hw as [Hwk Hwe], Hc as [Hck Hce], Hl as [Hlk Hle]. cbn [qualify_ref meant]. rewrite Hlk, <- IHe by done. by destruct (qualify_ref pkg e).
  - cbn [qualify_ref meant]. rewrite <- IH by done. by destruct (qualify_ref pkg e).
Qed.
Lemma no_brace s : contains_byte "{" s = false → anon_struct s = false.
Proof.
  intros H. apply not_true_iff_false. intros (a & b & ->)%str_contains_spec. apply not_true_iff_false in H. apply H, contains_byte_spec.
  exists (a +:+ "struct"), b. by rewrite sapp_assoc.
Qed.
Lemma qualified_text pkg t : wf t → pkg ≠ "" → brace_free t → qualify_field_type (render Dotted t) pkg = render Dotted (default t (qualify_ref pkg t)).
Proof.
  intros Hw Hp Hb. unfold qualify_field_type. rewrite decide_False; [|intros [H|H]; [|done]; destruct (render_facts t false Dotted Hw) as (_ & _ & Hf); by apply firm_nonempty in Hf].
  rewrite no_brace, C11_dotted_round_trip by done. by destruct (qualify_ref pkg t).
Qed.
(** The text of a field type is qualified as the type is: the name at the end of the containers, if it
    has no package and is not basic, and nothing else. *)
Theorem C63_qualification_partial pkg t : wf t → pkg ≠ "" → brace_free t → leaf_only ∅ pkg t →
  qualify_field_type (render Dotted t) pkg = render Dotted (meant ∅ pkg t).
Proof.
  intros Hw Hp Hb Hl. rewrite qualified_text by done. rewrite (qualify_meant ∅); try done. clear.
  induction t as [p n args c IH|e IH|e IH|l e IH|k e IHk IHe|d e IH] using tref_nested_ind; cbn [closed]; try done. split; [done|]. by apply closed_args.
Qed.

(** ** Fields of an instance *)
Lemma home_simple pkg a : pkg ≠ "" → wf a → home pkg a → default (shown Simple a) (qualify_ref pkg (shown Simple a)) = a.
Proof.
  intros Hpkg. induction a as [p n args c|e IH|e IH|l e IH|k IHk e IHe|d e IH]; cbn [home]; intros Hw Hh.
  - destruct Hh as (-> & -> & Hn & Hh). destruct Hw as [(_ & Hok & _)|(? & _)]; [|done]. cbn [shown is_simple andb]. rewrite bool_decide_eq_false_2 by done. cbn [qualify_ref fmap list_fmap].
    destruct Hok as (_ & Hpl & Hne & Hm & _). rewrite primitive_name by done. destruct Hh as [[-> Hb]|[-> Hb]].
    + rewrite decide_False; [done|]. rewrite Hb. naive_solver.
    + rewrite decide_True by auto. done.
  - cbn [shown qualify_ref]. rewrite <- IH at 3 by done. by destruct (qualify_ref pkg (shown Simple e)).
  - cbn [shown qualify_ref]. rewrite <- IH at 3 by done. by destruct (qualify_ref pkg (shown Simple e)).
  - destruct Hw as (_ & _ & Hw). cbn [shown qualify_ref]. rewrite <- IH at 3 by done. by destruct (qualify_ref pkg (shown Simple e)).
  - destruct Hw as [_ Hw], Hh as [(n & -> & Hb & Hn) Hh]. cbn [shown qualify_ref is_simple andb fmap list_fmap]. rewrite bool_decide_eq_false_2 by done. rewrite <- IHe at 3 by done.
    by destruct (qualify_ref pkg (shown Simple e)).
  - cbn [shown qualify_ref]. rewrite <- IH at 3 by done. by destruct (qualify_ref pkg (shown Simple e)).
Qed.
Lemma subst_field σ pkg t : pkg ≠ "" → (∀ n a, σ !! n = Some a → wf a ∧ home pkg a) → wf t → field_ok σ pkg t →
  let u := subst (shown Simple <$> σ) t in default u (qualify_ref pkg u) = meant σ pkg t.
Proof.
  intros Hpkg Hσ.
  assert (∀ t, closed σ t → closed (shown Simple <$> σ) t) as Hcl.
  { clear. intros t. induction t as [p n args c IH|e IH|e IH|l e IH|k e IHk IHe|d e IH] using tref_nested_ind; cbn [closed]; try done.
    - intros [H1 H2]. split; [intros E1 E2 E3; rewrite lookup_fmap; by rewrite H1|]. apply closed_args. apply closed_args in H2. 
      rewrite Forall_forall in *. intros x Hx. apply IH; [done|by apply H2].
    - naive_solver. }
  assert (∀ t, wf t → closed σ t → leaf_only σ pkg t → let u := subst (shown Simple <$> σ) t in default u (qualify_ref pkg u) = meant σ pkg t) as Hclosed.
  { intros t' Hw Hc Hl. cbn zeta. rewrite subst_closed by (by apply Hcl). by apply qualify_meant. }
  induction t as [p n args c|e IH|e IH|l e IH|k IHk e IHe|d e IH]; intros Hw [[Hc Hl]|Hf]; try (by apply Hclosed); try done.
  - destruct Hf as (-> & -> & -> & [a Ha]). cbn zeta. cbn [subst meant]. rewrite !lookup_fmap, Ha. rewrite !decide_True by (by split_and!). cbn [fmap option_fmap option_map].
    change (default (TNamed "" n [] "") (Some ?x)) with x. apply Hσ in Ha as [H1 H2]. by apply home_simple.
  - cbn zeta. cbn [subst meant qualify_ref]. rewrite <- IH by done. cbn zeta. by destruct (qualify_ref pkg (subst _ e)).
  - cbn zeta. cbn [subst meant qualify_ref]. rewrite <- IH by done. cbn zeta. by destruct (qualify_ref pkg (subst _ e)).
Qed.
Lemma wf_subst σ pkg t : (∀ n a, σ !! n = Some a → wf a) → wf t → field_ok σ pkg t → wf (subst σ t).
Proof.
  intros Hσ. induction t as [p n args c|e IH|e IH|l e IH|k IHk e IHe|d e IH]; intros Hw [[Hc Hl]|Hf]; try (by rewrite subst_closed); try done.
  - destruct Hf as (-> & -> & -> & [a Ha]). cbn [subst]. rewrite decide_True by (by rewrite Ha). rewrite Ha. by eapply Hσ.
  - by apply IH.
  - by apply IH.
Qed.
Lemma foldl_insert_map {A} (l : list (string * A)) : NoDup l.*1 → ∀ m : gmap string A, foldl (λ m kv, <[kv.1 := kv.2]> m) m l = list_to_map l ∪ m.
Proof.
  induction l as [|[k v] l IH]; intros Hnd m; [cbn; by rewrite (left_id_L ∅ (∪))|]. cbn [fmap list_fmap fst] in Hnd. apply NoDup_cons in Hnd as [Hk Hnd].
  cbn [foldl fst snd list_to_map foldr]. rewrite IH by done. rewrite <- insert_union_l. rewrite insert_union_r; [done|]. by apply not_elem_of_list_to_map_1.
Qed.
Lemma zip_params_bindings params args : NoDup params → length params = length args → zip_params params args = render Dotted <$> bindings params args.
Proof.
  intros Hnd Hlen. unfold zip_params, bindings.
  assert (∀ l m, foldl (λ m pa, <[pa.1 := arg_text pa.2]> m) (render Dotted <$> m) l = render Dotted <$> foldl (λ (m : gmap string tref) pa, <[pa.1 := pa.2]> m) m l) as H.
  { induction l as [|[p a] l IH]; intros m; [done|]. cbn [foldl fst snd]. rewrite <- IH. by rewrite fmap_insert. }
  rewrite <- (fmap_empty (render Dotted)), H. f_equal. rewrite foldl_insert_map; [apply (right_id_L ∅ (∪))|]. rewrite fst_zip by lia. done.
Qed.
Lemma bindings_fmap f params args : bindings params (f <$> args) = f <$> bindings params args.
Proof. unfold bindings. rewrite <- list_to_map_fmap. f_equal. revert args. induction params as [|p params IH]; intros [|a args]; try done. cbn. by rewrite IH. Qed.
Lemma bindings_arg params args n a : bindings params args !! n = Some a → a ∈ args ∧ n ∈ params.
Proof. unfold bindings. intros H. apply elem_of_list_to_map_2 in H. apply elem_of_zip_l in H as H1. by apply elem_of_zip_r in H. Qed.
Lemma brace_app s t : contains_byte "{" (s +:+ t) = contains_byte "{" s || contains_byte "{" t.
Proof. apply str_any_app. Qed.
Lemma brace_simple pkg a : home pkg a → brace_free a → brace_free (shown Simple a).
Proof.
  unfold brace_free. induction a as [p n args c|e IH|e IH|l e IH|k IHk e IHe|d e IH]; cbn [home]; intros Hh Hb.
  - destruct Hh as (-> & -> & Hn & _). cbn [shown is_simple andb]. rewrite bool_decide_eq_false_2 by done. cbn [fmap list_fmap]. 
    assert (contains_byte "{" n = false) as Hbn.
    { change (render Dotted (TNamed p n [] "")) with (if bool_decide (p = "") then n else p +:+ "." +:+ n) in Hb. destruct (bool_decide (p = "")); [done|]. rewrite !brace_app in Hb.
      apply orb_false_iff in Hb as [_ Hb]. by apply orb_false_iff in Hb as [_ Hb]. }
    exact Hbn.
  - by apply IH.
  - by apply IH.
  - change (render Dotted (TArr l e)) with ("[" +:+ l +:+ "]" +:+ render Dotted e) in Hb. cbn [shown].
    change (render Dotted (TArr l (shown Simple e))) with ("[" +:+ l +:+ "]" +:+ render Dotted (shown Simple e)). rewrite !brace_app in *.
    apply orb_false_iff in Hb as [_ Hb]. apply orb_false_iff in Hb as [-> Hb]. apply orb_false_iff in Hb as [_ Hb]. rewrite IH by done. done.
  - destruct Hh as [(n & -> & _ & Hn) Hh]. cbn [shown is_simple andb fmap list_fmap]. rewrite bool_decide_eq_false_2 by done.
    change (render Dotted (TMap (TNamed "" n [] "") e)) with ("map[" +:+ n +:+ "]" +:+ render Dotted e) in Hb.
    change (render Dotted (TMap (TNamed "" n [] "") (shown Simple e))) with ("map[" +:+ n +:+ "]" +:+ render Dotted (shown Simple e)). rewrite !brace_app in *.
    apply orb_false_iff in Hb as [_ Hb]. apply orb_false_iff in Hb as [-> Hb]. apply orb_false_iff in Hb as [_ Hb]. rewrite IHe by done. done.
  - cbn [shown]. destruct d; by apply IH.
Qed.
Lemma brace_subst σ pkg t : (∀ n a, σ !! n = Some a → brace_free a) → brace_free t → field_ok σ pkg t → brace_free (subst σ t).
Proof.
  intros Hσ. induction t as [p n args c|e IH|e IH|l e IH|k IHk e IHe|d e IH]; intros Hb [[Hc Hl]|Hf]; try (by rewrite subst_closed); try done.
  - destruct Hf as (-> & -> & -> & [a Ha]). cbn [subst]. rewrite decide_True by (by rewrite Ha). rewrite Ha. by eapply Hσ.
  - by apply IH.
  - by apply IH.
Qed.
Lemma home_wf pkg a : well_formed true a → home pkg a → wf a.
Proof. destruct a; try done. intros [H|(_ & _ & _ & Hd)] Hh; [by left|]. destruct Hh as (_ & -> & _). destruct Hd as (_ & _ & Hf & _). by apply firm_nonempty in Hf. Qed.
(** The schema of the instance [Page[User]] shows each field with the type it has: parameters replaced
    by the arguments, names qualified. Partial: the arguments are basic or of the package of the generic
    type itself, and a parameter occurs bare or below pointers and slices only. *)
Theorem C63_instance_field_partial resolve pkg name args params t :
  (∀ s, resolve s = s ∨ resolve s = "") →
  pkg ≠ "" → wf (TNamed pkg name args "") → args ≠ [] → Forall (home pkg) args → Forall brace_free args →
  NoDup params → length params = length args → Forall (λ p, is_ident p = true ∧ p ≠ "map") params →
  wf t → brace_free t → field_ok (bindings params args) pkg t →
  field_type resolve (render Internal (TNamed pkg name args "")) params pkg (render Dotted t) = render Dotted (meant (bindings params args) pkg t).
Proof.
  intros Hres Hpkg Hwi Hne Hhome Hbr Hnd Hlen Hid Hw Hb Hok. set (σ := bindings params args) in *. set (σ' := shown Simple <$> σ).
  assert (Forall wf args) as Hwa.
  { destruct Hwi as [(_ & _ & Ha)|(? & _)]; [|done]. apply args_forall in Ha. rewrite Forall_forall in *. intros a Hin. eapply home_wf; eauto. }
  assert (∀ n a, σ !! n = Some a → wf a ∧ home pkg a ∧ brace_free a ∧ is_ident n = true ∧ n ≠ "map") as Hσ.
  { intros n a [H1 H2]%bindings_arg. rewrite Forall_forall in Hwa. rewrite Forall_forall in Hhome. rewrite Forall_forall in Hbr. rewrite Forall_forall in Hid. split_and!; [by apply Hwa|by apply Hhome|by apply Hbr|by apply Hid|by apply Hid]. }
  assert (∀ n a, σ' !! n = Some a → wf a ∧ brace_free a ∧ name_ok "" n) as Hσ'.
  { unfold σ'. intros n a. rewrite lookup_fmap. destruct (σ !! n) as [x|] eqn:E; [|done]. intros Hx. injection Hx as <-. apply Hσ in E as (H1 & H2 & H3 & H4 & H5).
    split_and!; [by apply wf_shown|by eapply brace_simple|by apply ident_name_ok]. }
  assert (∀ u, closed σ u → closed σ' u) as Hcl.
  { clear. intros u. induction u as [p n args1 c IH|e IH|e IH|l e IH|k e IHk IHe|d e IH] using tref_nested_ind; cbn [closed]; try done.
    - intros [H1 H2]. split; [intros E1 E2 E3; unfold σ'; rewrite lookup_fmap; by rewrite H1|]. apply closed_args. apply closed_args in H2.
      rewrite Forall_forall in *. intros x Hx. apply IH; [done|by apply H2].
    - naive_solver. }
  assert (replaced σ' t = render Dotted (subst σ' t) ∧ wf (subst σ' t) ∧ brace_free (subst σ' t)) as (Hrep & Hwu & Hbu).
  { assert (∀ n, is_Some (σ' !! n) → name_ok "" n) as Hn by (intros n [a Ha]; by eapply Hσ').
    revert Hw Hb Hok. clear -Hcl Hn Hσ' Hσ. induction t as [p n args0 c|e IH|e IH|l e IH|k IHk e IHe|d e IH]; intros Hw Hb [[Hc Hl]|Hf]; try done;
      try (apply Hcl in Hc; rewrite subst_closed by done; split; [by apply replaced_closed|done]).
    - destruct Hf as (-> & -> & -> & [a Ha]). assert (σ' !! n = Some (shown Simple a)) as Ha' by (unfold σ'; by rewrite lookup_fmap, Ha).
      cbn [subst]. rewrite decide_True by (by rewrite Ha'). rewrite Ha'. change (default (TNamed "" n [] "") (Some ?x)) with x. split; [|by apply Hσ' in Ha' as (H1 & H2 & _)].
      unfold replaced. rewrite render_leaf_start by done. change (render Dotted (TNamed "" n [] "")) with n. rewrite lookup_fmap, Ha'. done.
    - destruct (IH Hw Hb Hf) as (H1 & H2 & H3). split; [|done]. rewrite replaced_ptr, H1. done.
    - destruct (IH Hw Hb Hf) as (H1 & H2 & H3). split; [|done]. rewrite replaced_slice, H1. done. }
  unfold field_type. rewrite C11_round_trip by done. cbn [shown core_args core is_simple arg_mode].
  assert (all_concrete (shown Simple <$> args) = true) as ->.
  { unfold all_concrete. rewrite bool_decide_eq_false_2 by (by destruct args). cbn [negb andb]. apply forallb_forall. intros x Hx. apply elem_of_list_In, elem_of_list_fmap in Hx as (a & -> & Ha).
    rewrite Forall_forall in Hwa. rewrite Forall_forall in Hhome. assert (wf (shown Simple a)) as Hwx by (apply wf_shown; by apply Hwa).
    assert (has_constraint (shown Simple a) = false) as ->. { specialize (Hhome a Ha). destruct a; try done. destruct Hhome as (_ & -> & _). done. }
    cbn [negb andb]. unfold arg_text. rewrite bool_decide_eq_false_2; [done|]. intros E. destruct (render_facts _ _ Dotted Hwx) as (_ & _ & Hf). by apply firm_nonempty in Hf. }
  rewrite (bool_decide_eq_false_2 (params = [])) by (destruct params, args; done). cbn [negb andb].
  rewrite zip_params_bindings by (rewrite ?fmap_length; done). rewrite bindings_fmap. fold σ. fold σ'.
  assert (substitute_type_params (render Dotted t) (render Dotted <$> σ') = render Dotted (subst σ' t)) as ->.
  { unfold substitute_type_params. rewrite decide_False; [exact Hrep|]. unfold σ', σ, bindings. rewrite !fmap_empty_iff. destruct params, args; try done. cbn. apply insert_non_empty. }
  assert (∀ f, (if negb (has_prefix "[]" f) && negb (str_contains "map[" f) then (let r := resolve f in if decide (r = "") then f else r) else f) = f) as ->.
  { intros f. destruct (negb _ && negb _); [|done]. cbn zeta. destruct (Hres f) as [-> | ->]; [by destruct (decide (f = ""))|by rewrite decide_True]. }
  pose proof (subst_field σ pkg t Hpkg (λ n a H, conj (proj1 (Hσ n a H)) (proj1 (proj2 (Hσ n a H)))) Hw Hok) as Hm. cbn zeta in Hm. fold σ' in Hm.
  destruct (is_primitive (render Dotted (subst σ' t))) eqn:Ep.
  - rewrite <- Hm. rewrite (primitive_unqualified pkg (subst σ' t)) by done. done.
  - rewrite qualified_text by done. by rewrite Hm.
Qed.
Print Assumptions C63_substitution_partial.
Print Assumptions C63_qualification_partial.
Print Assumptions C63_instance_field_partial.

(** ** Example: a page of users of the same package. *)
Definition ex_user : tref := TNamed "acme/dto" "User" [] "".
Definition ex_field : tref := TSlice (TPtr (TNamed "" "T" [] "")).
Lemma plain_dto : plain "acme/dto".
Proof. by apply plain_q. Qed.
Lemma ok_dto n : str_any (λ c, mem_byte c special) n = false → n ≠ "" → n ≠ "map" → contains_byte "." n = false → str_contains arrow ("acme/dto." +:+ n) = false → name_ok "acme/dto" n.
Proof. intros. unfold name_ok. split_and!; try done; by apply plain_q. Qed.
Example C63_example :
  wf (TNamed "acme/dto" "Page" [ex_user; TNamed "" "int" [] ""] "") ∧ Forall (home "acme/dto") [ex_user; TNamed "" "int" [] ""] ∧
  field_ok (bindings ["T"; "K"] [ex_user; TNamed "" "int" [] ""]) "acme/dto" ex_field ∧
  render Internal (TNamed "acme/dto" "Page" [ex_user; TNamed "" "int" [] ""] "") = "acme/dto-->Page[User, int]" ∧
  field_type (λ s, s) "acme/dto-->Page[User, int]" ["T"; "K"] "acme/dto" "[]*T" = "[]*acme/dto.User" ∧
  field_type (λ s, s) "acme/dto-->Page[User, int]" ["T"; "K"] "acme/dto" "K" = "int" ∧
  field_type (λ s, s) "acme/dto-->Page[User, int]" ["T"; "K"] "acme/dto" "map[string][]Meta" = "map[string][]acme/dto.Meta".
Proof.
  split_and!; try (vm_compute; reflexivity).
  - left. split; [done|]. split; [by apply ok_dto|]. cbn [foldr]. split_and!; [|by left; split_and!; [done| |done]; unfold name_ok; split_and!; done || by apply plain_q|done].
    left. split; [done|]. split; [by apply ok_dto|done].
  - repeat constructor; cbn; try done; by vm_compute.
  - right. right. right. cbn. split_and!; try done.
Qed.

(** ** Refutations *)
(** A parameter inside a map, an array or another instance is not replaced. *)
Theorem C63_containers_refuted :
  field_type (λ s, s) "dto-->Page[int]" ["T"] "dto" "map[string]T" = "map[string]dto.T" ∧
  field_type (λ s, s) "dto-->Page[int]" ["T"] "dto" "[3]T" = "[3]dto.T" ∧
  field_type (λ s, s) "dto-->Page[int]" ["T"] "dto" "Box[T]" = "dto.Box[T]".
Proof. by vm_compute. Qed.
(** An argument of another package is looked for in the package of the generic type: the key of the
    instance has lost it. *)
Theorem C63_argument_package_refuted : ∃ key, key = canonicalize "httpx.Page[models.User]" ∧ field_type (λ s, s) key ["T"] "httpx" "T" = "httpx.User".
Proof. eexists. split; [reflexivity|]. by vm_compute. Qed.
(** A type with the empty struct inside two containers is taken for a struct literal, and the package is
    put before the container. *)
Theorem C63_empty_struct_refuted : field_type (λ s, s) "dto-->Index" [] "dto" "map[string]map[string]struct{}" = "dto.map[string]map[string]struct{}".
Proof. by vm_compute. Qed.
(** The arguments of a generic field type are not qualified. *)
Theorem C63_field_arguments_refuted : ∃ t, wf t ∧ t = TNamed "" "Page" [TNamed "" "User" [] ""] "" ∧ qualify_field_type (render Dotted t) "dto" ≠ render Dotted (meant ∅ "dto" t).
Proof.
  eexists. split; [|split; [reflexivity|by vm_compute]]. left. split; [done|]. split; [unfold name_ok; split_and!; done || by apply plain_q|]. cbn. split; [|done].
  left. split; [done|]. split; [unfold name_ok; split_and!; done || by apply plain_q|done].
Qed.
Print Assumptions C63_containers_refuted.
Print Assumptions C63_argument_package_refuted.
