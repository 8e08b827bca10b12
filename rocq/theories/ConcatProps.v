(** * C88: route paths written as concatenations. *)
From Coq Require Import Ascii.
From stdpp Require Import sorting.
From stdpp Require Import base list strings gmap.
From Verif Require Import StrLib StrSplit DetModel DetSpec DetProofs RouteModel FieldProofs MergeProofs ConcatModel.

(** ** Specification *)
(** The operands of a [+] chain, from left to right. *)
Inductive sums : parg → list parg → Prop :=
  | sums_leaf a : pa_kind a ≠ "binary" → sums a [a]
  | sums_add a x f l1 l2 : pa_kind a = "binary" → pa_value a = "+" → pa_x a = Some x → pa_fun a = Some f → sums x l1 → sums f l2 → sums a (l1 ++ l2).
Definition str_concat (l : list string) : string := foldr String.append "" l.

(** The names declared in the files of each package: constant or not, and the initial value. *)
Notation decls := (gmap string (list (gmap string (bool * option parg)))).
Definition decl_of (d : decls) (pkg name : string) : option (bool * option parg) :=
  files ← d !! pkg; head (omap (λ f : gmap string (bool * option parg), f !! name) files).
(** The metadata of these declarations. *)
Definition record_var (x : bool * option parg) : pvar := PVar x.1 (init_text <$> x.2).
Definition recorded (d : decls) : gmap string (list (gmap string pvar)) :=
  fmap (M := gmap string) (λ files : list (gmap string (bool * option parg)), fmap (M := list) (λ f : gmap string (bool * option parg), fmap (M := gmap string) record_var f) files) d.
(** The value of an expression where the calls in progress are [st], innermost first: a parameter of the
    innermost call hides a declared name, and stands for its argument in the calls further out. *)
Inductive evals (d : decls) : list pedge → parg → string → Prop :=
  | ev_lit st text v : denotes text v → evals d st (e_lit text) v
  | ev_const st pkg name init v : (∀ e, head st = Some e → bound e name = None) → decl_of d pkg name = Some (true, Some init) → evals d [] init v → evals d st (e_ident pkg name) v
  | ev_param e st pkg name b v : bound e name = Some b → evals d st b v → evals d (e :: st) (e_ident pkg name) v
  | ev_paren st a v : evals d st a v → evals d st (e_paren a) v
  | ev_add st a b v w : evals d st a v → evals d st b w → evals d st (e_add a b) (v +:+ w).
(** The expressions that are read: double-quoted literals, constants declared by one, parameters that do not
    have the name of a declared variable and stand for a literal at most [n] calls out. *)
Inductive reads_arg : nat → list pedge → parg → string → Prop :=
  | ra_lit n e st pkg name v : bound e name = Some (e_lit (quoted v)) → plain v → reads_arg (S n) (e :: st) (e_ident pkg name) v
  | ra_param n e st pkg name pkg' name' v : bound e name = Some (e_ident pkg' name') → reads_arg n st (e_ident pkg' name') v → reads_arg (S n) (e :: st) (e_ident pkg name) v.
Inductive reads (d : decls) (st : list pedge) : parg → string → Prop :=
  | r_lit v : plain v → reads d st (e_lit (quoted v)) v
  | r_const pkg name v : (∀ e, head st = Some e → bound e name = None) → name ≠ "" → plain v → decl_of d pkg name = Some (true, Some (e_lit (quoted v))) → reads d st (e_ident pkg name) v
  | r_arg pkg name v : decl_of d pkg name = None → reads_arg 8 st (e_ident pkg name) v → reads d st (e_ident pkg name) v.

(** ** Operands *)
Section parg_ind.
  Context (P : parg → Prop).
  Context (H : ∀ k n v p t x f s l, (∀ y, x = Some y → P y) → (∀ y, f = Some y → P y) → P (PArg k n v p t x f s l)).
  Fixpoint parg_ind' (a : parg) : P a :=
    match a with
    | PArg k n v p t x f s l =>
        H k n v p t x f s l
          (match x return ∀ y, x = Some y → P y with
           | Some z => λ y e, match e in _ = o return match o with Some y => P y | None => True end with eq_refl => parg_ind' z end
           | None => λ y e, match e in _ = o return match o with Some y => P y | None => True end with eq_refl => I end
           end)
          (match f return ∀ y, f = Some y → P y with
           | Some z => λ y e, match e in _ = o return match o with Some y => P y | None => True end with eq_refl => parg_ind' z end
           | None => λ y e, match e in _ = o return match o with Some y => P y | None => True end with eq_refl => I end
           end)
    end.
End parg_ind.
Lemma flatten_sound a : ∀ acc l, flatten a acc = Some l → ∃ l', l = acc ++ l' ∧ sums a l'.
Proof.
  induction a as [k n v p t x f s args Hx Hf] using parg_ind'. intros acc l. cbn [flatten]. destruct (decide (k = "binary")) as [->|Hk].
  - destruct (decide (v = "+")) as [->|]; [|done]. destruct x as [x|]; [|done]. destruct f as [f|]; [|done]. destruct (flatten x acc) as [left|] eqn:E; [|done]. cbn [mbind option_bind]. intros E2.
    apply (Hx x eq_refl) in E as (l1 & -> & H1). apply (Hf f eq_refl) in E2 as (l2 & -> & H2). exists (l1 ++ l2). split; [by rewrite app_assoc|]. by eapply sums_add.
  - intros [= <-]. eexists. split; [reflexivity|]. by apply sums_leaf.
Qed.
Lemma flatten_complete a l : sums a l → ∀ acc, flatten a acc = Some (acc ++ l).
Proof.
  induction 1 as [a Hk|a x f l1 l2 Hk Hv Hx Hf H1 IH1 H2 IH2]; intros acc.
  - destruct a. cbn in *. by rewrite decide_False.
  - destruct a. cbn in Hk, Hv, Hx, Hf. subst. cbn [flatten]. rewrite !decide_True by done. rewrite IH1. cbn [mbind option_bind]. by rewrite IH2, app_assoc.
Qed.
(** The operands found are those of the expression, in the order they are written. *)
Theorem C88_operands a l : flatten a [] = Some l ↔ sums a l.
Proof. split; [intros (l' & -> & H)%flatten_sound; done|]. intros H. by apply (flatten_complete a l H []). Qed.

Section path.
  Context (vars : gmap string (list (gmap string pvar))) (pool : list string) (callees : string → list pedge).
  Lemma operand_forms a nd : let r := resolve_operand vars pool callees a nd in r.2 = "" ∨ (r.2 = placeholder a ∧ r.1 = braces (placeholder a)).
  Proof.
    unfold resolve_operand. destruct (const_value vars pool a); [by left|]. destruct (caller_arg vars pool callees a nd ≫= const_value vars pool); [by left|]. destruct (struct_field vars pool callees a nd); [by left|]. by right.
  Qed.
  Lemma placeholder_nonempty a : placeholder a ≠ "".
  Proof. unfold placeholder. by case_decide; case_decide; case_decide. Qed.
  (** Each operand contributes its value or a placeholder, in order, and exactly the placeholders are declared,
      each once. *)
  Theorem C88_nothing_lost a l nd path names : sums a l → resolve_concat vars pool callees a nd = (path, names) →
    ∃ texts, path = str_concat texts ∧ NoDup names ∧ length texts = length l ∧
      (∀ i o, l !! i = Some o → ∃ t, texts !! i = Some t ∧ (resolve_operand vars pool callees o nd = (t, "") ∨ t = "{" +:+ placeholder o +:+ "}" ∧ placeholder o ≠ "" ∧ placeholder o ∈ names)) ∧
      ∀ n, n ∈ names → ∃ i o, l !! i = Some o ∧ texts !! i = Some ("{" +:+ n +:+ "}").
  Proof.
    intros Hs. unfold resolve_concat. rewrite (flatten_complete a l Hs []). cbn [app]. clear Hs.
    intros E. exists ((λ o, (resolve_operand vars pool callees o nd).1) <$> l). revert path names E. induction l as [|o l IH] using rev_ind; intros path names E.
    - injection E as <- <-. split; [done|]. split; [by constructor|]. split; [done|]. split; [done|]. by intros n ?%elem_of_nil.
    - rewrite foldl_app in E. destruct (foldl _ ("", []) l) as [path0 names0]. cbn [foldl fst snd] in E. destruct (IH path0 names0 eq_refl) as (-> & Hn & Hl & H1 & H2). clear IH.
      pose proof (operand_forms o nd) as Ho. destruct (resolve_operand vars pool callees o nd) as [v n] eqn:Er. cbn [fst snd] in Ho. assert (path = str_concat ((λ o : parg, (resolve_operand vars pool callees o nd).1) <$> l) +:+ v ∧ names = if decide (n = "") then names0 else append_unique names0 [n]) as [-> ->] by (split; congruence). clear E.
      rewrite fmap_app, !app_length. cbn [fmap list_fmap length]. rewrite Er. cbn [fst]. split.
      { clear. unfold str_concat. induction ((λ o : parg, (resolve_operand vars pool callees o nd).1) <$> l) as [|t ts IH]; cbn [app foldr]; [by rewrite sapp_nil|]. by rewrite sapp_assoc, <- IH. }
      assert (∀ x, x ∈ (if decide (n = "") then names0 else append_unique names0 [n]) ↔ x ∈ names0 ∨ n ≠ "" ∧ x = n) as Hin.
      { intros x. destruct (decide (n = "")) as [Hne|Hne]; [split; [by left|]; intros [Hx|[Hx _]]; [exact Hx|by destruct Hx]|]. rewrite elem_append_unique, elem_of_list_singleton. split; [intros [Hx|Hx]; auto|]. intros [Hx|[_ Hx]]; auto. }
      split; [destruct (decide (n = "")); [done|by apply (append_unique_NoDup names0 [n])]|]. split; [by rewrite fmap_length|]. split.
      + intros i o' Hi. apply lookup_app_Some in Hi as [Hi|[Hge Hi]].
        * destruct (H1 i o' Hi) as (t & Ht & Hc). exists t. split; [by apply lookup_app_l_Some|]. destruct Hc as [?|(? & ? & ?)]; [by left|]. right. split; [done|]. split; [done|]. apply Hin. by left.
        * apply list_lookup_singleton_Some in Hi as [Hz <-]. exists v. split; [apply lookup_app_Some; right; rewrite fmap_length; split; [done|]; by rewrite Hz|].
          destruct Ho as [->|[-> ->]]; [by left|]. right. split; [done|]. split; [apply placeholder_nonempty|]. apply Hin. right. split; [apply placeholder_nonempty|done].
      + intros x [Hx|[Hne ->]]%Hin.
        * destruct (H2 x Hx) as (i & o' & Hi & Ht). exists i, o'. split; by apply lookup_app_l_Some.
        * destruct Ho as [->|[-> ->]]; [done|]. exists (length l), o. split; [by rewrite lookup_app_r, Nat.sub_diag by done|]. rewrite lookup_app_r by (by rewrite fmap_length). by rewrite fmap_length, Nat.sub_diag.
  Qed.
  (** An expression with another operator than [+] is one placeholder. *)
  Theorem C88_other_operator a nd : (¬ ∃ l, sums a l) → resolve_concat vars pool callees a nd = (braces (placeholder a), [placeholder a]).
  Proof. intros H. unfold resolve_concat. destruct (flatten a []) as [l|] eqn:E; [|done]. exfalso. apply H. exists l. by apply C88_operands. Qed.

  (** ** Several callers *)
  Lemma agree_loop_spec name es : ∀ chosen r, agree_loop vars pool name es chosen = Some r → (∀ c, chosen = Some c → const_value vars pool c.1 = Some c.2) →
    const_value vars pool r.1 = Some r.2 ∧ (∀ c, chosen = Some c → c.2 = r.2) ∧ ∀ e, e ∈ es → ∃ a, bound e name = Some a ∧ const_value vars pool a = Some r.2.
  Proof.
    induction es as [|e es IH]; intros chosen r; cbn [agree_loop].
    - intros -> H. split; [by apply H|]. split; [by intros c [= ->]|]. by intros e ?%elem_of_nil.
    - destruct (bound e name) as [a|] eqn:Ea; [|done]. cbn [mbind option_bind]. destruct (const_value vars pool a) as [v|] eqn:Ev; [|done]. cbn [mbind option_bind]. intros E Hc.
      assert (agree_loop vars pool name es (Some (a, v)) = Some r ∧ ∀ c, chosen = Some c → c.2 = v) as [E' Hv].
      { destruct chosen as [[b v']|]; [|done]. destruct (decide (v = v')) as [->|]; [|done]. split; [done|]. by intros c [= <-]. }
      apply IH in E' as (H1 & H2 & H3); [|by intros c [= <-]]. specialize (H2 _ eq_refl). cbn in H2. subst v. split; [done|]. split; [done|].
      intros e' [->|He']%elem_of_cons; [eauto|by apply H3].
  Qed.
  Lemma agree_loop_complete name es v : (∀ e, e ∈ es → ∃ a, bound e name = Some a ∧ const_value vars pool a = Some v) →
    ∀ chosen, (∀ c, chosen = Some c → c.2 = v) → (es ≠ [] ∨ chosen ≠ None) → ∃ r, agree_loop vars pool name es chosen = Some r.
  Proof.
    induction es as [|e es IH]; intros H chosen Hc Hne; cbn [agree_loop].
    - destruct chosen as [c|]; [eauto|]. by destruct Hne.
    - destruct (H e) as (a & Ea & Ev); [by left|]. rewrite Ea. cbn [mbind option_bind]. rewrite Ev. cbn [mbind option_bind].
      assert (∃ r, agree_loop vars pool name es (Some (a, v)) = Some r) as [r Hr]. { apply IH; [intros e' He'; apply H; by right|by intros c [= <-]|by right]. }
      destruct chosen as [[b v']|]; [|eauto]. specialize (Hc _ eq_refl). cbn in Hc. subst v'. rewrite decide_True by done. eauto.
  Qed.
  (** The argument of a parameter is taken from the callers exactly when there are some and all of them pass
      constants of one value. *)
  Theorem C88_callers_agree a nd v : nd ≠ [] → pa_name a ≠ "" → enclosing_func nd ≠ "" →
    (∃ b, unique_caller vars pool callees a nd = Some b ∧ const_value vars pool b = Some v) ↔
    callees (enclosing_func nd) ≠ [] ∧ ∀ e, e ∈ callees (enclosing_func nd) → ∃ b, bound e (pa_name a) = Some b ∧ const_value vars pool b = Some v.
  Proof.
    intros H1 H2 H3. unfold unique_caller. rewrite decide_False by (by intros [?|[?|?]]). split.
    - intros (b & E & Hb). apply fmap_Some in E as ([b' v'] & E & ->). pose proof E as E0. apply agree_loop_spec in E as (Ha & _ & H); [|done]. cbn in *. rewrite Hb in Ha. injection Ha as ->. split; [|done].
      intros En. by rewrite En in E0.
    - intros [Hne H]. destruct (agree_loop_complete (pa_name a) _ v H None) as [r Hr]; [done|by left|]. rewrite Hr. exists r.1. split; [done|]. apply agree_loop_spec in Hr as (Ha & _ & Hall); [|done].
      destruct (callees (enclosing_func nd)) as [|e es]; [done|]. destruct (H e) as (b & Eb & Hb); [by left|]. destruct (Hall e) as (b' & Eb' & Hb'); [by left|]. rewrite Eb in Eb'. injection Eb' as <-. rewrite Hb in Hb'. injection Hb' as ->. done.
  Qed.
End path.

(** ** Values *)
Lemma trim_plain v : plain v → trim dquote v = v.
Proof.
  intros [H _]. unfold trim. rewrite trim_left_id; [apply trim_right_id|]; intros [t Ht]; subst v.
  - rewrite contains_byte_app in H. apply orb_false_iff in H as [_ H]. by vm_compute in H.
  - cbn in H. by vm_compute in H.
Qed.
Lemma recorded_decl d pkg name files : recorded d !! pkg = Some files →
  head (omap (λ f : gmap string pvar, f !! name) files) = record_var <$> decl_of d pkg name.
Proof.
  unfold recorded, decl_of. rewrite lookup_fmap. intros H. destruct (d !! pkg) as [fs|]; [|done]. injection H as <-. cbn [mbind option_bind].
  induction fs as [|f fs IH]; [done|]. cbn [fmap list_fmap omap list_omap]. rewrite lookup_fmap. destruct (f !! name) as [x|]; [done|]. exact IH.
Qed.
Section value.
  Context (d : decls) (pool : list string) (callees : string → list pedge).
  Notation vars := (recorded d).
  Lemma const_lit v : plain v → const_value vars pool (e_lit (quoted v)) = Some v.
  Proof. intros H. unfold const_value, e_lit. cbn [pa_kind pa_value]. rewrite decide_True by done. f_equal. by apply unquote_quoted, H. Qed.
  Lemma const_ident pkg name : name ≠ "" → const_value vars pool (e_ident pkg name) = (λ x : bool * option parg, trim dquote (value_text pool (record_var x))) <$> decl_of d pkg name.
  Proof.
    intros Hn. unfold const_value. cbn [e_ident pa_kind pa_pkg]. rewrite !decide_False by done. rewrite decide_True by done. unfold const_in_package. destruct (vars !! pkg) as [files|] eqn:Ef; cbn [mbind option_bind].
    - change (const_name _) with name. rewrite decide_False by done. rewrite (recorded_decl d pkg name files Ef). by destruct (decl_of d pkg name).
    - unfold recorded in Ef. rewrite lookup_fmap in Ef. unfold decl_of. by destruct (d !! pkg).
  Qed.
  Lemma const_ident_empty pkg : const_value vars pool (e_ident pkg "") = None.
  Proof. unfold const_value. cbn [e_ident pa_kind pa_pkg]. rewrite !decide_False by done. rewrite decide_True by done. unfold const_in_package. by destruct (vars !! pkg). Qed.
  Lemma reads_arg_hops n st a v : reads_arg n st a v → ∀ self, ∃ pkg name, a = e_ident pkg name ∧ through_params n a (self :: (Some <$> st)) = Some (e_lit (quoted v)) ∧ plain v.
  Proof.
    induction 1 as [n e st pkg name v Hb Hp|n e st pkg name pkg' name' v Hb Hr IH]; intros self; exists pkg, name; (split; [done|]).
    - split; [|done]. cbn [through_params]. unfold arg_via_parent. cbn [e_ident pa_kind pa_name fmap list_fmap]. rewrite decide_True by done. rewrite Hb. cbn [mbind option_bind fst snd]. f_equal. by destruct n.
    - destruct (IH (Some e)) as (q & m & [= <- <-] & E & Hp). split; [|done]. cbn [through_params]. unfold arg_via_parent. cbn [e_ident pa_kind pa_name fmap list_fmap]. rewrite decide_True by done. rewrite Hb. cbn [mbind option_bind fst snd].
      cbn [fmap list_fmap] in E. by rewrite E.
  Qed.
  Lemma operand_value st self a v : reads d st a v → resolve_operand vars pool callees a (self :: (Some <$> st)) = (v, "").
  Proof.
    intros [w Hw|pkg name w Hh Hn Hw Hd|pkg name w Hu Hr]; unfold resolve_operand.
    - by rewrite const_lit.
    - rewrite const_ident, Hd by done. unfold value_text, record_var. cbn [fmap option_fmap option_map fst snd pv_init init_text e_lit]. rewrite decide_True by done.
      replace (trim dquote (quoted w)) with w; [by rewrite trim_plain|]. symmetry. by apply unquote_quoted, Hw.
    - replace (const_value vars pool (e_ident pkg name)) with (None : option string).
      + destruct (reads_arg_hops _ _ _ _ Hr self) as (q & m & [= <- <-] & E & Hp).
        unfold caller_arg. rewrite decide_True by done. unfold max_hops. rewrite E. rewrite decide_False by done. cbn [mbind option_bind]. by rewrite const_lit.
      + destruct (decide (name = "")) as [->|Hn]; [by rewrite const_ident_empty|]. by rewrite const_ident, Hu.
  Qed.
  (** Full statement: the path is what the expression evaluates to, whenever it does. Proved for chains of the
      operands described by [reads]; the refutations below are of the others. *)
  Theorem C88_value_partial a l vs st self : sums a l → Forall2 (reads d st) l vs →
    Forall2 (evals d st) l vs ∧ resolve_concat vars pool callees a (self :: (Some <$> st)) = (str_concat vs, []).
  Proof.
    intros Hs Hv. split.
    { eapply Forall2_impl; [exact Hv|]. intros o v [w Hw|pkg name w Hh Hn Hw Hd|pkg name w Hu Hr].
      - constructor. split; [done|by left].
      - eapply ev_const; [done|done|]. constructor. split; [done|by left].
      - clear -Hr. induction Hr; [|by eapply ev_param]. eapply ev_param; [done|]. constructor. split; [done|by left]. }
    unfold resolve_concat. rewrite (flatten_complete a l Hs []). cbn [app]. clear Hs.
    assert (∀ p, foldl (λ r o, let '(v, n) := resolve_operand vars pool callees o (self :: (Some <$> st)) in (r.1 +:+ v, if decide (n = "") then r.2 else append_unique r.2 [n])) (p, []) l = (p +:+ str_concat vs, [])) as H.
    { induction Hv as [|o v l vs Ho _ IH]; intros p; cbn [foldl str_concat foldr]; [by rewrite sapp_nil|]. rewrite (operand_value st self o v Ho). rewrite decide_True by done. cbn [fst snd]. rewrite IH. by rewrite sapp_assoc. }
    exact (H "").
  Qed.
End value.

(** ** Fields of a struct the caller passes *)
Definition e_address (a : parg) : parg := PArg "unary" "" "&" "" "" (Some a) None None [].
Section fields.
  Context (vars : gmap string (list (gmap string pvar))) (pool : list string) (callees : string → list pedge).
  (** A field of a keyed literal reads as the constant it is set to, as empty if it is not set, and as unresolved if
      it is set to anything else. *)
  Theorem C88_field x s nd field elts : nd ≠ [] → field ≠ "" → NoDup elts.*1 →
    caller_arg vars pool callees x nd = Some s → (s = e_struct ((λ kv, e_field kv.1 kv.2) <$> elts) ∨ s = e_address (e_struct ((λ kv, e_field kv.1 kv.2) <$> elts))) →
    (∀ v, (field, v) ∈ elts → struct_field vars pool callees (e_sel x field) nd = const_value vars pool v) ∧
    (field ∉ elts.*1 → struct_field vars pool callees (e_sel x field) nd = Some "").
  Proof.
    intros Hnd Hf Hk Hx Hs. unfold struct_field. rewrite decide_True by done. cbn [e_sel pa_x pa_sel mbind option_bind pa_name]. rewrite decide_False by done. rewrite Hx.
    change (default x (Some s)) with s. replace (unwrap_composite s) with (Some (e_struct ((λ kv, e_field kv.1 kv.2) <$> elts))) by (by destruct Hs as [-> | ->]).
    cbn [mbind option_bind]. rewrite decide_True by done. cbn [e_struct pa_args]. clear Hs Hx s. induction elts as [|[k v] elts IH]; [split; [by intros v ?%elem_of_nil|done]|].
    cbn [fmap list_fmap fst snd] in *. apply NoDup_cons in Hk as [Hk Hn]. destruct (IH Hn) as [IH1 IH2]. cbn [field_loop e_field pa_kind pa_x pa_fun]. rewrite decide_True by done. cbn [e_ident pa_name].
    destruct (decide (k = field)) as [->|Hkf].
    - split; [|by intros H; destruct H; left]. intros w [[= ->]|Hw]%elem_of_cons; [done|]. destruct Hk. apply elem_of_list_fmap. by exists (field, w).
    - split; [|intros H; apply IH2; intros ?; apply H; by right]. intros w [[= <- _]|Hw]%elem_of_cons; [done|by apply IH1].
  Qed.
End fields.

(** ** Where the path is not what the program says *)
Definition none_called (f : string) : list pedge := [].
Definition only (pkg name : string) (x : bool * option parg) : decls := {[ pkg := [{[ name := x ]}] ]}.
Definition call_with (caller callee : string) (params : gmap string parg) : pedge := PEdge caller callee None (Some params).
Definition in_func (f : string) : option pedge := Some (call_with f "chi.Get" ∅).
(** A literal in back quotes keeps them. *)
Theorem C88_raw_refuted : ∃ a v, evals ∅ [] a v ∧ (resolve_operand (recorded ∅) [] none_called a [in_func "main"]).2 = "" ∧ (resolve_operand (recorded ∅) [] none_called a [in_func "main"]).1 ≠ v.
Proof. exists (e_lit (raw_quoted "/users")), "/users". split; [constructor; split; [done|by right]|]. by vm_compute. Qed.
(** A constant declared as a sum contributes the text of the sum. *)
Theorem C88_computed_refuted : ∃ d a v, evals d [] a v ∧ v = "/api/v1" ∧ resolve_operand (recorded d) [] none_called a [in_func "main"] = ("/api + /v1", "").
Proof.
  exists (only "shop" "base" (true, Some (e_add (e_lit (quoted "/api")) (e_lit (quoted "/v1"))))), (e_ident "shop" "base"), ("/api" +:+ "/v1"). split; [|by vm_compute].
  eapply ev_const; [done|by vm_compute|]. apply ev_add; constructor; (split; [done|by left]).
Qed.
(** A variable without an initial value contributes the first string of the pool, whatever that is. *)
Theorem C88_uninitialised_refuted : ∃ d a, decl_of d "shop" "base" = Some (false, None) ∧ a = e_ident "shop" "base" ∧
  ∀ first rest, plain first → resolve_operand (recorded d) (first :: rest) none_called a [in_func "main"] = (first, "").
Proof.
  exists (only "shop" "base" (false, None)), (e_ident "shop" "base"). split; [by vm_compute|]. split; [done|]. intros first rest H. unfold resolve_operand. rewrite const_ident by done.
  assert (decl_of (only "shop" "base" (false, None)) "shop" "base" = Some (false, None)) as -> by (by vm_compute). cbn [fmap option_fmap option_map]. change (value_text _ _) with first. by rewrite trim_plain.
Qed.
(** A variable is read as a constant, though the program may assign to it. *)
Theorem C88_variable_refuted : ∃ d a, decl_of d "shop" "base" = Some (false, Some (e_lit (quoted "/dev"))) ∧ a = e_ident "shop" "base" ∧
  resolve_operand (recorded d) [] none_called a [in_func "main"] = ("/dev", "").
Proof. exists (only "shop" "base" (false, Some (e_lit (quoted "/dev")))), (e_ident "shop" "base"). by vm_compute. Qed.
(** A parameter does not hide a constant of its name. *)
Theorem C88_hidden_refuted : ∃ d st a v, evals d st a v ∧ v = "/orders" ∧ resolve_operand (recorded d) [] none_called a (in_func "register" :: (Some <$> st)) = ("/users", "").
Proof.
  exists (only "shop" "prefix" (true, Some (e_lit (quoted "/users")))), [call_with "main" "register" {[ "prefix" := e_lit (quoted "/orders") ]}], (e_ident "shop" "prefix"), "/orders".
  split; [|by vm_compute]. eapply ev_param; [by vm_compute|]. constructor. split; [done|by left].
Qed.
(** A constant passed by name to the registering function is not read: the path has a placeholder. *)
Theorem C88_named_constant_refuted : ∃ d st a v, evals d st a v ∧ v = "/users" ∧ resolve_operand (recorded d) [] none_called a (in_func "register" :: (Some <$> st)) = ("{prefix}", "prefix").
Proof.
  exists (only "shop" "users" (true, Some (e_lit (quoted "/users")))), [call_with "main" "register" {[ "prefix" := e_ident "shop" "users" ]}], (e_ident "shop" "prefix"), "/users".
  split; [|by vm_compute]. eapply ev_param; [by vm_compute|]. eapply ev_const; [done|by vm_compute|]. constructor. split; [done|by left].
Qed.
(** A parameter followed to the parameter of an outer call is then looked up among the parameters of the inner
    function: whatever the outer call passes, the path gets another argument. *)
Theorem C88_scope_refuted : ∃ inner a, ∀ v, plain v → ∃ outer, evals ∅ [inner; outer] a v ∧ resolve_operand (recorded ∅) [] (λ f, if decide (f = "register") then [inner] else []) a [in_func "register"; Some inner] = ("/archive", "").
Proof.
  exists (call_with "setup" "register" {[ "path" := e_ident "shop" "sub"; "sub" := e_lit (quoted "/archive") ]}), (e_ident "shop" "path"). intros v Hv.
  exists (call_with "main" "setup" {[ "sub" := e_lit (quoted v) ]}). split; [|by vm_compute]. eapply ev_param; [by vm_compute|]. eapply ev_param; [by vm_compute|]. constructor. split; [done|by left].
Qed.
(** The parent of a node is asked first, though it need not be the call of the enclosing function. *)
Theorem C88_parent_refuted : ∃ producer call a, pe_callee call = "register" ∧ pe_callee producer ≠ "register" ∧ bound call (pa_name a) = Some (e_lit (quoted "/orders")) ∧
  resolve_operand (recorded ∅) [] none_called a [in_func "register"; Some producer; Some call] = ("log", "").
Proof.
  exists (call_with "main" "newRouter" {[ "prefix" := e_lit (quoted "log") ]}), (call_with "main" "register" {[ "prefix" := e_lit (quoted "/orders") ]}), (e_ident "shop" "prefix").
  split; [done|]. split; [done|]. by vm_compute.
Qed.
(** A field promoted from an embedded struct reads as empty, and the path is shortened. *)
Theorem C88_promoted_refuted : ∃ call a nd, nd = [in_func "register"; Some call] ∧
  bound call "opts" = Some (e_struct [e_field "Common" (e_struct [e_field "BaseURL" (e_lit (quoted "/v1"))])]) ∧ a = e_sel (e_ident "shop" "opts") "BaseURL" ∧
  resolve_operand (recorded ∅) [] none_called a nd = ("", "").
Proof. exists (call_with "main" "register" {[ "opts" := e_struct [e_field "Common" (e_struct [e_field "BaseURL" (e_lit (quoted "/v1"))])] ]}). eexists _, _. split; [reflexivity|]. by vm_compute. Qed.
(** Operands without a name share one: the path names one parameter twice. *)
Theorem C88_duplicate_refuted : ∃ a, sums a [e_call (e_sel (e_ident "shop" "x") "ID"); e_lit (quoted "/"); e_call (e_sel (e_ident "shop" "y") "Kind")] ∧
  resolve_concat (recorded ∅) [] none_called a [in_func "main"] = ("{path}/{path}", ["path"]).
Proof.
  exists (e_add (e_add (e_call (e_sel (e_ident "shop" "x") "ID")) (e_lit (quoted "/"))) (e_call (e_sel (e_ident "shop" "y") "Kind"))). split; [|by vm_compute]. by apply C88_operands; vm_compute.
Qed.
(** Parentheses hide a sum. *)
Theorem C88_paren_refuted : ∃ a v, evals ∅ [] a v ∧ v = "/a/b" ∧ resolve_concat (recorded ∅) [] none_called a [in_func "main"] = ("/a{path}", ["path"]).
Proof.
  exists (e_add (e_lit (quoted "/a")) (e_paren (e_lit (quoted "/b")))), ("/a" +:+ "/b"). split; [|by vm_compute]. apply ev_add; [|apply ev_paren]; constructor; (split; [done|by left]).
Qed.

(** ** A case for each theorem *)
Definition shop : decls := only "shop" "users" (true, Some (e_lit (quoted "/users"))).
Definition two_calls : list pedge := [call_with "setup" "register" {[ "prefix" := e_ident "shop" "base" ]}; call_with "main" "setup" {[ "base" := e_lit (quoted "/api") ]}].
Definition long_path : parg := e_add (e_add (e_ident "shop" "prefix") (e_ident "shop" "users")) (e_lit (quoted "/{id}")).
Example C88_value_case : sums long_path [e_ident "shop" "prefix"; e_ident "shop" "users"; e_lit (quoted "/{id}")] ∧
  Forall2 (reads shop two_calls) [e_ident "shop" "prefix"; e_ident "shop" "users"; e_lit (quoted "/{id}")] ["/api"; "/users"; "/{id}"] ∧
  resolve_concat (recorded shop) [] none_called long_path (in_func "register" :: (Some <$> two_calls)) = ("/api/users/{id}", []).
Proof.
  split; [by apply C88_operands; vm_compute|]. split; [|by vm_compute]. repeat (apply Forall2_cons; split); [..|by apply Forall2_nil].
  - apply r_arg; [by vm_compute|]. eapply ra_param; [by vm_compute|]. by apply ra_lit; [vm_compute|].
  - apply r_const; [|done|done|by vm_compute]. intros e [= <-]. by vm_compute.
  - by constructor.
Qed.
Example C88_nothing_lost_case : resolve_concat (recorded shop) [] none_called (e_add (e_add (e_call (e_ident "shop" "tenant")) (e_ident "shop" "users")) (e_call (e_ident "shop" "suffix"))) [in_func "main"] =
  ("{tenant}/users{suffix}", ["tenant"; "suffix"]).
Proof. by vm_compute. Qed.
Example C88_other_operator_case : ¬ ∃ l, sums (PArg "binary" "" "-" "" "" (Some (e_lit "1")) (Some (e_lit "2")) None []) l.
Proof. intros [l H]. by apply C88_operands in H; vm_compute in H. Qed.
Example C88_callers_case : let sites := [call_with "a" "register" {[ "prefix" := e_ident "shop" "users" ]}; call_with "b" "register" {[ "prefix" := e_lit (quoted "/users") ]}] in
  resolve_operand (recorded shop) [] (λ f, if decide (f = "register") then sites else []) (e_ident "shop" "prefix") [in_func "register"] = ("/users", "").
Proof. by vm_compute. Qed.
Example C88_field_case : let nd := [in_func "register"; Some (call_with "main" "register" {[ "opts" := e_address (e_struct [e_field "BaseURL" (e_ident "shop" "users"); e_field "Name" (e_lit (quoted "x"))]) ]})] in
  caller_arg (recorded shop) [] none_called (e_ident "shop" "opts") nd = Some (e_address (e_struct ((λ kv, e_field kv.1 kv.2) <$> [("BaseURL", e_ident "shop" "users"); ("Name", e_lit (quoted "x"))]))) ∧
  resolve_operand (recorded shop) [] none_called (e_sel (e_ident "shop" "opts") "BaseURL") nd = ("/users", "").
Proof. by vm_compute. Qed.

Print Assumptions C88_operands.
Print Assumptions C88_nothing_lost.
Print Assumptions C88_other_operator.
Print Assumptions C88_callers_agree.
Print Assumptions C88_value_partial.
Print Assumptions C88_field.
Print Assumptions C88_raw_refuted.
Print Assumptions C88_computed_refuted.
Print Assumptions C88_uninitialised_refuted.
Print Assumptions C88_variable_refuted.
Print Assumptions C88_hidden_refuted.
Print Assumptions C88_named_constant_refuted.
Print Assumptions C88_scope_refuted.
Print Assumptions C88_parent_refuted.
Print Assumptions C88_promoted_refuted.
Print Assumptions C88_duplicate_refuted.
Print Assumptions C88_paren_refuted.
