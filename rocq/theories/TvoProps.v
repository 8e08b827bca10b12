(** * C108 Where a variable comes from. *)
From Coq Require Import Ascii ZArith Lia.
From stdpp Require Import sorting.
From stdpp Require Import base numbers list strings gmap relations.
From Verif Require Import StrLib PairModel PairProofs MountProofs TvoModel.

(** ** What the metadata says of a variable of a function *)
Section spec.
  Context (md : vmeta) (caching : bool).
  (** The first call of the function. *)
  Definition called_at (q : vask) (c : vcall) : Prop :=
    ∃ pre post, vt_calls md = pre ++ c :: post ∧ vc_callee c = (q_func q, q_pkg q) ∧ Forall (λ c', vc_callee c' ≠ (q_func q, q_pkg q)) pre.
  Definition uncalled (q : vask) : Prop := Forall (λ c, vc_callee c ≠ (q_func q, q_pkg q)) (vt_calls md).
  Definition type_for (c : vcall) (v t : string) : Prop := vc_tparams c !! v = Some t ∧ t ≠ "".
  (** No call tells: there is none, or the first gives neither a type nor an argument for the variable. *)
  Definition untold (q : vask) : Prop := uncalled q ∨ ∃ c, called_at q c ∧ (∀ t, ¬ type_for c (q_var q) t) ∧ vc_params c !! q_var q = None.
  (** A file that declares neither a variable of the name nor an assignment of it in a function of the name. *)
  Definition silent (q : vask) (f : vfile) : Prop := vf_vars f !! q_var q = None ∧ ∀ fn l, vf_funcs f !! q_func q = Some fn → fn_asn fn !! q_var q = Some l → l = [].
  (** The first file of the package that is not silent. *)
  Definition told_in (q : vask) (f : vfile) : Prop := ∃ pre post, vt_files md (q_pkg q) = pre ++ f :: post ∧ Forall (silent q) pre.
  (** The latest assignment recorded there, with no package variable of the name there. *)
  Definition assigns (q : vask) (f : vfile) (a : vasn) : Prop := vf_vars f !! q_var q = None ∧ ∃ fn l, vf_funcs f !! q_func q = Some fn ∧ fn_asn fn !! q_var q = Some (l ++ [a]).
  Definition assigned (q : vask) (a : vasn) : Prop := q_var q ≠ "" ∧ untold q ∧ ∃ f, told_in q f ∧ assigns q f a.
  (** The value is another name. *)
  Definition alias (q : vask) (a : vasn) : Prop := v_kind (va_value a) = VIdent ∧ v_name (va_value a) ≠ q_var q.
  (** The first method of a name in a file. *)
  Definition is_method (f : vfile) (name : string) (m : vmeth) : Prop :=
    ∃ pre post, concat (vf_types f) = pre ++ m :: post ∧ vm_name m = name ∧ Forall (λ m', vm_name m' ≠ name) pre.
  Definition function_returns (f : vfile) (a : vasn) (r : varg) : Prop := ∃ fn, vf_funcs f !! va_func a = Some fn ∧ fn_rets fn !! va_ret a = Some r.
  (** With the cache, methods are those of the package's first file whatever file is looked at. *)
  Definition method_file (a : vasn) (f g : vfile) : Prop := if caching then head (vt_files md (va_pkg a)) = Some g else g = f.
  Definition gives (a : vasn) (f : vfile) (r : varg) : Prop :=
    function_returns f a r ∨ (∀ r', ¬ function_returns f a r') ∧ ∃ g m, method_file a f g ∧ is_method g (va_func a) m ∧ vm_rets m !! va_ret a = Some r.
  (** What the called function returns at the place of the assignment. *)
  Definition returned (a : vasn) (r : varg) : Prop :=
    va_func a ≠ "" ∧ va_pkg a ≠ "" ∧ ∃ pre f post, vt_files md (va_pkg a) = pre ++ f :: post ∧ gives a f r ∧ Forall (λ g, ∀ r', ¬ gives a g r') pre.
  Definition unreturned (a : vasn) : Prop := va_func a = "" ∨ va_pkg a = "" ∨ Forall (λ g, ∀ r', ¬ gives a g r') (vt_files md (va_pkg a)).
  (** The expression within selectors (their last part), unary expressions and composite literals. *)
  Inductive within : varg → varg → Prop :=
  | w_here k n t s x : k = VIdent ∨ k = VOther → within (VArg k n t s x) (VArg k n t s x)
  | w_sel n t s x r : within s r → within (VArg VSelector n t (Some s) x) r
  | w_x k n t s x r : k = VUnary ∨ k = VComposite → within x r → within (VArg k n t s (Some x)) r.
  Definition name_of (r : varg) (n : string) : Prop := v_kind r = VIdent ∧ v_named r = Some n.
  (** The question is answered. *)
  Inductive says (q : vask) : vres → Prop :=
  | s_empty : q_var q = "" → says q (VRes "" (q_pkg q) None (q_func q))
  | s_type c t : q_var q ≠ "" → called_at q c → type_for c (q_var q) t → says q (VRes (q_var q) (q_pkg q) (Some (v_typed t)) (vc_caller c).1)
  | s_package f t : q_var q ≠ "" → untold q → told_in q f → vf_vars f !! q_var q = Some t → says q (VRes (q_var q) (q_pkg q) (Some (v_typed t)) (q_func q))
  | s_value a : assigned q a → ¬ alias q a → unreturned a → says q (VRes (q_var q) (q_pkg q) (Some (va_value a)) (q_func q))
  | s_returned a r r' : assigned q a → ¬ alias q a → returned a r → within r r' → (∀ n, ¬ name_of r' n) → says q (VRes (v_name r') (va_pkg a) (Some r') (q_func q))
  | s_nothing : q_var q ≠ "" → untold q → Forall (silent q) (vt_files md (q_pkg q)) → says q (VRes (q_var q) (q_pkg q) None (q_func q)).
  (** The variable is another's: the argument of the first call, or the name assigned. *)
  Inductive leads (q : vask) : vask → Prop :=
  | l_argument c t : q_var q ≠ "" → called_at q c → (∀ t, ¬ type_for c (q_var q) t) → vc_params c !! q_var q = Some t → leads q (VAsk (arg_name t) (vc_caller c).1 (vc_caller c).2)
  | l_alias a : assigned q a → alias q a → leads q (VAsk (v_name (va_value a)) (q_func q) (q_pkg q)).
  (** Or what a function returns. *)
  Inductive returns (q : vask) : vask → Prop :=
  | r_name a r r' n : assigned q a → ¬ alias q a → returned a r → within r r' → name_of r' n → returns q (VAsk n (va_func a) (va_pkg a)).
  Definition next (q q' : vask) : Prop := leads q q' ∨ returns q q'.
  (** The origin: by steps to an answer. A returned variable keeps its name and package, and takes the type and function found. *)
  Inductive origin : vask → vres → Prop :=
  | o_here q r : says q r → origin q r
  | o_on q q' r : leads q q' → origin q' r → origin q r
  | o_returned q q' r : returns q q' → origin q' r → origin q (VRes (q_var q') (q_pkg q') (r_type r) (r_func r)).
  (** Assignments name their callees without dots. *)
  Definition plain_calls : Prop :=
    ∀ p f g fn v l a, f ∈ vt_files md p → vf_funcs f !! g = Some fn → fn_asn fn !! v = Some l → a ∈ l → contains_byte "." (va_func a) = false.
End spec.

(** ** General lemmas *)
Lemma head_omap {A B} (g : A → option B) l r : head (omap g l) = Some r ↔ ∃ pre x post, l = pre ++ x :: post ∧ g x = Some r ∧ Forall (λ y, g y = None) pre.
Proof.
  split.
  - induction l as [|x l IH]; [done|]. cbn. destruct (g x) as [b|] eqn:E.
    + intros [= ->]. exists [], x, l. by repeat split.
    + intros (pre & y & post & -> & Hy & F)%IH. exists (x :: pre), y, post. split_and!; [done|done|]. by constructor.
  - intros (pre & x & post & -> & Hx & F). induction F as [|y pre Hy F IH]; cbn; [by rewrite Hx|]. by rewrite Hy.
Qed.
Lemma head_omap_none {A B} (g : A → option B) l : head (omap g l) = None ↔ Forall (λ y, g y = None) l.
Proof.
  split.
  - induction l as [|x l IH]; [constructor|]. cbn. destruct (g x) as [b|] eqn:E; [done|]. intros H. constructor; [done|by apply IH].
  - induction 1 as [|x l Hx F IH]; [done|]. cbn. by rewrite Hx.
Qed.
Lemma head_filter_some {A} (P : A → Prop) `{∀ x, Decision (P x)} (l : list A) x : head (filter P l) = Some x ↔ ∃ pre post, l = pre ++ x :: post ∧ P x ∧ Forall (λ y, ¬ P y) pre.
Proof.
  split.
  - induction l as [|y l IH]; [done|]. rewrite filter_cons. destruct (decide (P y)) as [Py|Py].
    + intros [= ->]. exists [], l. by repeat split.
    + intros (pre & post & -> & Hx & F)%IH. exists (y :: pre), post. split_and!; [done|done|]. by constructor.
  - intros (pre & post & -> & Hx & F). induction F as [|y pre Hy F IH]; cbn [app]; rewrite filter_cons; [by rewrite decide_True|]. by rewrite decide_False.
Qed.
Lemma head_filter_none {A} (P : A → Prop) `{∀ x, Decision (P x)} (l : list A) : head (filter P l) = None ↔ Forall (λ y, ¬ P y) l.
Proof.
  split.
  - induction l as [|y l IH]; [constructor|]. rewrite filter_cons. destruct (decide (P y)) as [Py|Py]; [done|]. intros Hn. constructor; [done|by apply IH].
  - induction 1 as [|y l Hy F IH]; [done|]. rewrite filter_cons. by rewrite decide_False.
Qed.
Lemma within_peel r r' : within r r' ↔ peel r = Some r'.
Proof.
  split; [induction 1 as [k n t s x [->| ->]|n t s x r _ IH|k n t s x r [->| ->] _ IH]; done|].
  revert r r'. fix IH 1. intros [k n t s x] r'. destruct k; cbn.
  - intros [= <-]. apply w_here. by left.
  - destruct s as [s|]; [|done]. intros H. apply w_sel. by apply IH.
  - destruct x as [x|]; [|done]. intros H. apply w_x; [by left|by apply IH].
  - destruct x as [x|]; [|done]. intros H. apply w_x; [by right|by apply IH].
  - intros [= <-]. apply w_here. by right.
Qed.
Lemma is_method_spec f name m : file_method f name = Some m ↔ is_method f name m.
Proof. unfold file_method, is_method. by rewrite head_filter_some. Qed.

Section proofs.
  Context (md : vmeta).
  Notation meths := (option (gmap string (option vmeth))).
  Definition caching_of (mc : meths) : bool := match mc with Some _ => true | None => false end.
  Definition good_meths (mc : meths) : Prop :=
    match mc with
    | None => True
    | Some c => ∀ a m, contains_byte "." (va_func a) = false → c !! meth_key a = Some m → ∀ f fs, vt_files md (va_pkg a) = f :: fs → m = file_method f (va_func a)
    end.
  Lemma meth_key_inj a b : contains_byte "." (va_func a) = false → contains_byte "." (va_func b) = false → meth_key a = meth_key b → va_pkg a = va_pkg b ∧ va_func a = va_func b.
  Proof.
    intros Ha Hb E. unfold meth_key in E. change ("." +:+ va_func a) with (String "." (va_func a)) in E. change ("." +:+ va_func b) with (String "." (va_func b)) in E.
    assert (S1 := split_last_app "." (va_pkg a) _ Ha). rewrite E, split_last_app in S1 by done. by injection S1 as -> ->.
  Qed.
  (** The returned expression a file gives, methods being looked for in [m]. *)
  Definition ret_in (m : option vmeth) (a : vasn) (f : vfile) : option varg :=
    match fun_ret f a with Some r => Some r | None => meth_ret m a end.
  Lemma fetch_known a m c fs : c !! meth_key a = Some m → fetch a fs (Some c) = (head (omap (ret_in m a) fs), Some c).
  Proof.
    intros H. induction fs as [|f fs IH]; [done|]. cbn [fetch cached_method]. rewrite H. cbn [omap list_omap]. unfold ret_in at 1.
    destruct (fun_ret f a) as [r|]; [done|]. destruct (meth_ret m a) as [r|]; [done|]. by rewrite IH.
  Qed.
  Lemma fetch_none a fs : fetch a fs None = (head (omap (λ f, ret_in (file_method f (va_func a)) a f) fs), None).
  Proof.
    induction fs as [|f fs IH]; [done|]. cbn [fetch cached_method]. cbn [omap list_omap]. unfold ret_in at 1.
    destruct (fun_ret f a) as [r|]; [done|]. destruct (meth_ret (file_method f (va_func a)) a) as [r|]; [done|]. by rewrite IH.
  Qed.
  (** The file whose methods count for a callee. *)
  Definition meths_for (b : bool) (a : vasn) (f : vfile) : option vmeth := if b then g ← head (vt_files md (va_pkg a)); file_method g (va_func a) else file_method f (va_func a).
  Definition fetched (b : bool) (a : vasn) : option varg := head (omap (λ f, ret_in (meths_for b a f) a f) (vt_files md (va_pkg a))).
  Lemma fetch_good a mc : contains_byte "." (va_func a) = false → good_meths mc →
    (fetch a (vt_files md (va_pkg a)) mc).1 = fetched (caching_of mc) a ∧ good_meths (fetch a (vt_files md (va_pkg a)) mc).2 ∧ caching_of (fetch a (vt_files md (va_pkg a)) mc).2 = caching_of mc.
  Proof.
    intros P G. destruct mc as [c|]; [|rewrite fetch_none; by repeat split].
    destruct (c !! meth_key a) as [m|] eqn:E.
    - rewrite (fetch_known _ m) by done. split_and!; [|done|done]. unfold fetched, meths_for. cbn. destruct (vt_files md (va_pkg a)) as [|f fs] eqn:Fs; [done|]. cbn. by rewrite (G a m P E f fs Fs).
    - destruct (vt_files md (va_pkg a)) as [|f fs] eqn:Fs; [cbn; unfold fetched; by rewrite Fs|]. cbn [fetch cached_method]. rewrite E. unfold fetched, meths_for. rewrite Fs. cbn [caching_of head]. cbn [omap list_omap]. change (g ← Some f; file_method g (va_func a)) with (file_method f (va_func a)).
      unfold ret_in at 1. destruct (fun_ret f a) as [r|] eqn:Fr; [by split_and!|].
      assert (G' : good_meths (Some (<[meth_key a:=file_method f (va_func a)]> c))).
      { intros b m Pb Hb g gs Fg. apply lookup_insert_Some in Hb as [[Ek <-]|[_ Hb]]; [|by apply (G b m Pb Hb g gs)]. apply meth_key_inj in Ek as [E1 E2]; [|done|done]. rewrite <- E1, Fs in Fg. injection Fg as -> _. by rewrite E2. }
      assert (K : (<[meth_key a:=file_method f (va_func a)]> c) !! meth_key a = Some (file_method f (va_func a))) by apply lookup_insert.
      destruct (meth_ret (file_method f (va_func a)) a) as [r|] eqn:Mr; [by split_and!|].
      rewrite (fetch_known _ _ _ _ K). by split_and!.
  Qed.

  (** One round, with the cache's part made explicit. *)
  Definition step_assigned (b : bool) (q : vask) (a : vasn) : vstep :=
    if decide (v_kind (va_value a) = VIdent ∧ v_name (va_value a) ≠ q_var q) then Ask (VAsk (v_name (va_value a)) (q_func q) (q_pkg q))
    else if decide (va_func a ≠ "" ∧ va_pkg a ≠ "") then
      match fetched b a with
      | Some r =>
          match peel r with
          | None => Crash
          | Some r => match v_kind r, v_named r with VIdent, Some n => AskFor (VAsk n (va_func a) (va_pkg a)) | _, _ => Found (VRes (v_name r) (va_pkg a) (Some r) (q_func q)) end
          end
      | None => Answer (VRes (q_var q) (q_pkg q) (Some (va_value a)) (q_func q))
      end
    else Answer (VRes (q_var q) (q_pkg q) (Some (va_value a)) (q_func q)).
  Fixpoint step_files (b : bool) (q : vask) (fs : list vfile) : vstep :=
    match fs with
    | [] => Answer (VRes (q_var q) (q_pkg q) None (q_func q))
    | f :: fs =>
        match vf_vars f !! q_var q with
        | Some t => Answer (VRes (q_var q) (q_pkg q) (Some (v_typed t)) (q_func q))
        | None => match fn ← vf_funcs f !! q_func q; l ← fn_asn fn !! q_var q; last l with Some a => step_assigned b q a | None => step_files b q fs end
        end
    end.
  Definition step (b : bool) (q : vask) : vstep :=
    match first_call md q with
    | Some c =>
        let params := match vc_params c !! q_var q with Some t => Ask (VAsk (arg_name t) (vc_caller c).1 (vc_caller c).2) | None => step_files b q (vt_files md (q_pkg q)) end in
        match vc_tparams c !! q_var q with
        | Some t => if decide (t = "") then params else Answer (VRes (q_var q) (q_pkg q) (Some (v_typed t)) (vc_caller c).1)
        | None => params
        end
    | None => step_files b q (vt_files md (q_pkg q))
    end.
  Definition agree (x : vstep * meths) (s : vstep) (mc : meths) : Prop := x.1 = s ∧ good_meths x.2 ∧ caching_of x.2 = caching_of mc.
  Lemma assigned_step_good q a mc : contains_byte "." (va_func a) = false → good_meths mc → agree (assigned_step md q a mc) (step_assigned (caching_of mc) q a) mc.
  Proof.
    intros P G. unfold assigned_step, step_assigned. destruct (decide (v_kind (va_value a) = VIdent ∧ _)); [done|]. destruct (decide (va_func a ≠ "" ∧ _)); [|done].
    destruct (fetch_good a mc P G) as (E & G' & C). destruct (fetch a (vt_files md (va_pkg a)) mc) as [[r|] mc']; cbn in E, G', C; rewrite <- E; done.
  Qed.
  Lemma file_step_good q fs mc : (∀ f, f ∈ fs → f ∈ vt_files md (q_pkg q)) → plain_calls md → good_meths mc → agree (file_step md q fs mc) (step_files (caching_of mc) q fs) mc.
  Proof.
    intros Hs P G. induction fs as [|f fs IH]; [done|]. cbn [file_step step_files]. destruct (vf_vars f !! q_var q) as [t|]; [done|].
    destruct (fn ← vf_funcs f !! q_func q; l ← fn_asn fn !! q_var q; last l) as [a|] eqn:A; [|apply IH; intros g Hg; apply Hs; by right].
    apply assigned_step_good; [|done]. apply bind_Some in A as (fn & E1 & A). apply bind_Some in A as (l & E2 & A). apply (P (q_pkg q) f (q_func q) fn (q_var q) l a); try done; [apply Hs; by left|].
    apply last_Some in A as [l' ->]. apply elem_of_app. right. by left.
  Qed.
  Lemma ask_step_good q mc : plain_calls md → good_meths mc → agree (ask_step md q mc) (step (caching_of mc) q) mc.
  Proof.
    intros P G. assert (F := file_step_good q (vt_files md (q_pkg q)) mc (λ f H, H) P G). unfold ask_step, step. destruct (first_call md q) as [c|]; [|done].
    destruct (vc_tparams c !! q_var q) as [t|].
    - destruct (decide (t = "")); [|done]. by destruct (vc_params c !! q_var q).
    - by destruct (vc_params c !! q_var q).
  Qed.

  (** The rounds are what the metadata says. *)
  Lemma first_call_spec q c : first_call md q = Some c ↔ called_at md q c.
  Proof. unfold first_call, called_at. by rewrite head_filter_some. Qed.
  Lemma first_call_none q : first_call md q = None ↔ uncalled md q.
  Proof. unfold first_call, uncalled. by rewrite head_filter_none. Qed.
  Lemma no_type c v : (∀ t, ¬ type_for c v t) ↔ vc_tparams c !! v = None ∨ vc_tparams c !! v = Some "".
  Proof.
    unfold type_for. split.
    - intros H. destruct (vc_tparams c !! v) as [t|] eqn:E; [|by left]. right. destruct (decide (t = "")) as [->|N]; [done|]. by destruct (H t).
    - intros [E|E] t [Et N]; rewrite E in Et; [done|]. by injection Et as <-.
  Qed.
  Lemma step_untold b q : untold md q → step b q = step_files b q (vt_files md (q_pkg q)).
  Proof.
    unfold step. intros [U|(c & C & T & P)]; [by apply first_call_none in U as ->|]. apply first_call_spec in C as ->. rewrite P. apply no_type in T as [-> | ->]; [done|]. by rewrite decide_True.
  Qed.
  Lemma silent_skip b q pre fs : Forall (silent q) pre → step_files b q (pre ++ fs) = step_files b q fs.
  Proof.
    induction 1 as [|f pre [V A] F IH]; [done|]. cbn [app step_files]. rewrite V.
    destruct (fn ← vf_funcs f !! q_func q; l ← fn_asn fn !! q_var q; last l) as [a|] eqn:E; [|done].
    apply bind_Some in E as (fn & E1 & E). apply bind_Some in E as (l & E2 & E). by rewrite (A fn l E1 E2) in E.
  Qed.
  Lemma assigns_spec q f a : assigns q f a ↔ vf_vars f !! q_var q = None ∧ (fn ← vf_funcs f !! q_func q; l ← fn_asn fn !! q_var q; last l) = Some a.
  Proof.
    unfold assigns. split.
    - intros [V (fn & l & E1 & E2)]. split; [done|]. rewrite E1. cbn. rewrite E2. cbn. by rewrite last_snoc.
    - intros [V E]. split; [done|]. apply bind_Some in E as (fn & E1 & E). apply bind_Some in E as (l & E2 & E). apply last_Some in E as [l' ->]. by exists fn, l'.
  Qed.
  Lemma files_cases q fs : Forall (silent q) fs ∨ ∃ pre f post, fs = pre ++ f :: post ∧ Forall (silent q) pre ∧ ((∃ t, vf_vars f !! q_var q = Some t) ∨ ∃ a, assigns q f a).
  Proof.
    induction fs as [|f fs IH]; [by left; constructor|]. destruct (vf_vars f !! q_var q) as [t|] eqn:V; [right; exists [], f, fs; split_and!; [done|constructor|left; by exists t]|].
    destruct (fn ← vf_funcs f !! q_func q; l ← fn_asn fn !! q_var q; last l) as [a|] eqn:E; [right; exists [], f, fs; split_and!; [done|constructor|right; exists a; by apply assigns_spec]|].
    assert (Sf : silent q f). { split; [done|]. intros fn l E1 E2. rewrite E1 in E. cbn in E. rewrite E2 in E. cbn in E. by apply last_None in E. }
    destruct IH as [F|(pre & g & post & -> & F & H)]; [left; by constructor|]. right. exists (f :: pre), g, post. split_and!; [done|by constructor|done].
  Qed.
  Lemma untold_cases q : untold md q ∨ ∃ c, called_at md q c ∧ ((∃ t, type_for c (q_var q) t) ∨ (∀ t, ¬ type_for c (q_var q) t) ∧ ∃ t, vc_params c !! q_var q = Some t).
  Proof.
    destruct (first_call md q) as [c|] eqn:C; [|left; left; by apply first_call_none]. apply first_call_spec in C.
    assert (D : (∃ t, type_for c (q_var q) t) ∨ ∀ t, ¬ type_for c (q_var q) t).
    { destruct (vc_tparams c !! q_var q) as [t|] eqn:E; [|right; apply no_type; by left]. destruct (decide (t = "")) as [->|N]; [right; apply no_type; by right|left; by exists t]. }
    destruct D as [D|D]; [right; exists c; split; [done|by left]|]. destruct (vc_params c !! q_var q) as [t|] eqn:P; [right; exists c; split; [done|right; split; [done|by exists t]]|]. left. right. by exists c.
  Qed.
  Lemma gives_spec b a f r : f ∈ vt_files md (va_pkg a) → gives md b a f r ↔ ret_in (meths_for b a f) a f = Some r.
  Proof.
    intros Hf. unfold gives, ret_in, function_returns, fun_ret.
    assert (M : (∃ g m, method_file md b a f g ∧ is_method g (va_func a) m ∧ vm_rets m !! va_ret a = Some r) ↔ meth_ret (meths_for b a f) a = Some r).
    { unfold method_file, meths_for, meth_ret. destruct b.
      - destruct (vt_files md (va_pkg a)) as [|g fs]; [by apply elem_of_nil in Hf|]. cbn. split.
        + intros (g' & m & [= <-] & Hm & R). apply is_method_spec in Hm. by rewrite Hm.
        + destruct (file_method g (va_func a)) as [m|] eqn:E; [|done]. intros R. exists g, m. split_and!; [done|by apply is_method_spec|done].
      - split.
        + intros (g' & m & -> & Hm & R). apply is_method_spec in Hm. by rewrite Hm.
        + destruct (file_method f (va_func a)) as [m|] eqn:E; [|done]. intros R. exists f, m. split_and!; [done|by apply is_method_spec|done]. }
    rewrite M. destruct (vf_funcs f !! va_func a) as [fn|] eqn:F.
    - destruct (fn_rets fn !! va_ret a) as [r0|] eqn:R; split.
      + intros [(fn' & [= <-] & R')|[N _]]; [congruence|]. destruct (N r0). by exists fn.
      + intros [= <-]. left. by exists fn.
      + intros [(fn' & [= <-] & R')|[_ H]]; [congruence|done].
      + intros H. right. split; [|done]. intros r' (fn' & [= <-] & R'). congruence.
    - split; [intros [(fn' & ? & _)|[_ H]]; done|]. intros H. right. split; [|done]. by intros r' (fn' & ? & _).
  Qed.
  Lemma Forall_gives b a pre : (∀ f, f ∈ pre → f ∈ vt_files md (va_pkg a)) → Forall (λ g, ∀ r', ¬ gives md b a g r') pre ↔ Forall (λ f, ret_in (meths_for b a f) a f = None) pre.
  Proof.
    intros Hs. rewrite !Forall_forall. split; intros H f Hf.
    - destruct (ret_in (meths_for b a f) a f) as [r|] eqn:E; [|done]. apply gives_spec in E; [|by apply Hs]. by destruct (H f Hf r).
    - intros r' Hr. apply gives_spec in Hr; [|by apply Hs]. rewrite (H f Hf) in Hr. done.
  Qed.
  Lemma returned_spec b a r : returned md b a r ↔ (va_func a ≠ "" ∧ va_pkg a ≠ "") ∧ fetched b a = Some r.
  Proof.
    unfold returned, fetched. rewrite head_omap. split.
    - intros (H1 & H2 & pre & f & post & E & G & F). split; [done|]. exists pre, f, post. split_and!; [done| |].
      + apply gives_spec; [|done]. rewrite E. apply elem_of_app. right. by left.
      + apply Forall_gives; [|done]. intros g Hg. rewrite E. apply elem_of_app. by left.
    - intros ([H1 H2] & pre & f & post & E & G & F). split_and!; [done|done|]. exists pre, f, post. split_and!; [done| |].
      + apply gives_spec; [|done]. rewrite E. apply elem_of_app. right. by left.
      + apply Forall_gives; [|done]. intros g Hg. rewrite E. apply elem_of_app. by left.
  Qed.
  Lemma unreturned_spec b a : unreturned md b a ↔ ¬ (va_func a ≠ "" ∧ va_pkg a ≠ "") ∨ fetched b a = None.
  Proof.
    unfold unreturned, fetched. rewrite head_omap_none, (Forall_gives b a (vt_files md (va_pkg a))) by done. split.
    - intros [E|[E|E]]; [left; by intros [? _]|left; by intros [_ ?]|by right].
    - intros [H|H]; [|by right; right]. destruct (decide (va_func a = "")) as [E|N]; [by left|]. destruct (decide (va_pkg a = "")) as [E|N']; [by right; left|]. by destruct H.
  Qed.
  Lemma step_of_assigned b q a : assigned md q a → step b q = step_assigned b q a.
  Proof.
    intros (N & U & f & (pre & post & E & F) & A). rewrite step_untold, E, silent_skip by done. apply assigns_spec in A as [V A]. cbn [step_files]. by rewrite V, A.
  Qed.
  (** The assigned variable, by cases. *)
  Lemma assigned_cases b q a : assigned md q a →
    (alias q a ∧ step b q = Ask (VAsk (v_name (va_value a)) (q_func q) (q_pkg q))) ∨
    (¬ alias q a ∧ unreturned md b a ∧ step b q = Answer (VRes (q_var q) (q_pkg q) (Some (va_value a)) (q_func q))) ∨
    (¬ alias q a ∧ ∃ r, returned md b a r ∧
      ((peel r = None ∧ step b q = Crash) ∨
       (∃ r' n, within r r' ∧ name_of r' n ∧ step b q = AskFor (VAsk n (va_func a) (va_pkg a))) ∨
       (∃ r', within r r' ∧ (∀ n, ¬ name_of r' n) ∧ step b q = Found (VRes (v_name r') (va_pkg a) (Some r') (q_func q))))).
  Proof.
    intros A. rewrite (step_of_assigned b q a A). unfold step_assigned. destruct (decide (v_kind (va_value a) = VIdent ∧ v_name (va_value a) ≠ q_var q)) as [Al|Al]; [by left|]. right.
    destruct (decide (va_func a ≠ "" ∧ va_pkg a ≠ "")) as [H|H]; [|left; split_and!; [done|apply unreturned_spec; by left|done]].
    destruct (fetched b a) as [r|] eqn:E; [|left; split_and!; [done|apply unreturned_spec; by right|done]]. right. split; [done|]. exists r. split; [by apply returned_spec|].
    destruct (peel r) as [r'|] eqn:Pl; [|by left]. right. apply within_peel in Pl. unfold name_of.
    destruct (v_kind r') eqn:K; try (right; exists r'; split_and!; [done|intros n [? _]; congruence|done]).
    destruct (v_named r') as [n|] eqn:Nm; [left; by exists r', n|]. right. exists r'. split_and!; [done|intros n [_ ?]; congruence|done].
  Qed.
  Lemma returned_unique b a r r' : returned md b a r → returned md b a r' → r = r'.
  Proof. rewrite !returned_spec. intros [_ E] [_ E']. congruence. Qed.
  Lemma within_unique r s s' : within r s → within r s' → s = s'.
  Proof. rewrite !within_peel. congruence. Qed.
  Lemma not_both b a r : returned md b a r → unreturned md b a → False.
  Proof. rewrite returned_spec, unreturned_spec. intros [H E] [N|N]; [done|congruence]. Qed.
  Lemma says_step b q r : q_var q ≠ "" → says md b q r → step b q = Answer r ∨ step b q = Found r.
  Proof.
    intros N H. destruct H as [E|c t _ C T|f t _ U (pre & post & E & F) V|a A Al Un|a r r' A Al R W Nn|_ U F]; [done|..].
    - left. unfold step. apply first_call_spec in C as ->. destruct T as [-> Nt]. by rewrite decide_False.
    - left. rewrite step_untold, E, silent_skip by done. cbn [step_files]. by rewrite V.
    - left. destruct (assigned_cases b q a A) as [[? _]|[(_ & _ & E)|(_ & r & R & _)]]; [done|done|]. by destruct (not_both b a r).
    - right. destruct (assigned_cases b q a A) as [[? _]|[(_ & U & _)|(_ & r0 & R0 & H)]]; [done|by destruct (not_both b a r)|].
      rewrite <- (returned_unique b a r r0 R R0) in H. destruct H as [[E _]|[(r1 & n & W1 & Hn & _)|(r1 & W1 & _ & E)]].
      + apply within_peel in W. congruence.
      + rewrite (within_unique r r1 r' W1 W) in Hn. by destruct (Nn n).
      + by rewrite (within_unique r r1 r' W1 W) in E.
    - left. rewrite step_untold by done. rewrite <- (app_nil_r (vt_files md (q_pkg q))), silent_skip by done. done.
  Qed.
  Lemma leads_step b q q' : leads md q q' → step b q = Ask q'.
  Proof.
    intros [c t N C T P|a A Al].
    - unfold step. apply first_call_spec in C as ->. rewrite P. apply no_type in T as [-> | ->]; [done|]. by rewrite decide_True.
    - destruct (assigned_cases b q a A) as [[_ E]|[(? & _)|(? & _)]]; done.
  Qed.
  Lemma returns_step b q q' : returns md b q q' → step b q = AskFor q'.
  Proof.
    intros [a r r' n A Al R W Hn]. destruct (assigned_cases b q a A) as [[? _]|[(_ & U & _)|(_ & r0 & R0 & H)]]; [done|by destruct (not_both b a r)|].
    rewrite <- (returned_unique b a r r0 R R0) in H. destruct H as [[E _]|[(r1 & n1 & W1 & Hn1 & E)|(r1 & W1 & Nn & _)]].
    - apply within_peel in W. congruence.
    - rewrite (within_unique r r1 r' W1 W) in Hn1. destruct Hn1 as [_ E1], Hn as [_ E2]. congruence.
    - rewrite (within_unique r r1 r' W1 W) in Nn. by destruct (Nn n).
  Qed.
  Lemma assigned_ne q a : assigned md q a → q_var q ≠ "".
  Proof. by intros [N _]. Qed.
  Lemma returns_ne b q q' : returns md b q q' → q_var q ≠ "".
  Proof. intros [a r r' n A _ _ _ _]. by apply (assigned_ne q a). Qed.
  Lemma leads_ne q q' : leads md q q' → q_var q ≠ "".
  Proof. intros [c t N C T P|a A Al]; [done|by apply (assigned_ne q a)]. Qed.
  (** Every round is one of these, or a crash. *)
  Lemma step_cases b q : q_var q ≠ "" →
    match step b q with Answer r | Found r => says md b q r | Ask q' => leads md q q' | AskFor q' => returns md b q q' | Crash => True end.
  Proof.
    intros N. destruct (untold_cases q) as [U|(c & C & [[t T]|[T [t P]]])].
    - destruct (files_cases q (vt_files md (q_pkg q))) as [F|(pre & f & post & E & F & [[t V]|[a A]])].
      + rewrite step_untold by done. rewrite <- (app_nil_r (vt_files md (q_pkg q))), silent_skip by done. cbn [step_files]. by apply s_nothing.
      + rewrite step_untold, E, silent_skip by done. cbn [step_files]. rewrite V. apply (s_package md b q f t); try done. by exists pre, post.
      + assert (As : assigned md q a) by (split_and!; [done|done|]; exists f; split; [by exists pre, post|done]).
        destruct (assigned_cases b q a As) as [[Al ->]|[(Al & Un & ->)|(Al & r & R & [[_ ->]|[(r' & n & W & Hn & ->)|(r' & W & Hn & ->)]])]].
        * by apply (l_alias md q a).
        * by apply (s_value md b q a).
        * done.
        * by apply (r_name md b q a r r' n).
        * by apply (s_returned md b q a r r').
    - assert (S1 := s_type md b q c t N C T). unfold step. apply first_call_spec in C as ->. destruct T as [-> Nt]. by rewrite decide_False.
    - assert (L := l_argument md q c t N C T P). by rewrite (leads_step b q _ L).
  Qed.
End proofs.
