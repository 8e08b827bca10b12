(** * C104: the parameters and type parameters of a call. *)
From Coq Require Import Ascii ZArith Lia.
From stdpp Require Import sorting.
From stdpp Require Import base numbers list strings gmap.
From Verif Require Import TargModel.

(** ** Specification *)
(** [v] is at the last of the positions of [k] that have a value. *)
Definition last_under {A} (keys : list string) (vals : list A) (k : string) (v : A) : Prop :=
  ∃ i, keys !! i = Some k ∧ vals !! i = Some v ∧ ∀ j, i < j → keys !! j = Some k → vals !! j = None.
(** The identifier a function is called by: its name or the last name of a selector, with type arguments or without. *)
Inductive called_by : gexp → nat → Prop :=
| by_name n : called_by (GIdent n) n
| by_selector x n : called_by (GSel x n) n
| by_name_of n is : called_by (GIndex (GIdent n) is) n
| by_selector_of x n is : called_by (GIndex (GSel x n) is) n.
(** An argument somewhere in another, itself included. *)
Inductive inside : targ → targ → Prop :=
| inside_self a : inside a a
| inside_kid k a b : k ∈ ta_kids b → inside a k → inside a b.

(** ** Maps filled by position *)
Lemma last_under_cons {A} p ps (a : A) l k v : last_under (p :: ps) (a :: l) k v ↔ last_under ps l k v ∨ (p = k ∧ a = v ∧ ∀ j, ps !! j = Some k → l !! j = None).
Proof.
  split.
  - intros ([|i] & Hk & Hv & Hl); [right|left; exists i; split; [done|]; split; [done|]; intros j Hj; apply (Hl (S j)); lia]. cbn in Hk, Hv. split; [congruence|]. split; [congruence|]. intros j. apply (Hl (S j)). lia.
  - intros [(i & Hk & Hv & Hl)|(-> & -> & Hl)]; [exists (S i)|exists 0]; (split; [done|]; split; [done|]); intros [|j] Hj; [lia| |lia|]; cbn; [apply Hl; lia|apply Hl].
Qed.
Lemma last_under_dec {A} ps (l : list A) k : (∃ v, last_under ps l k v) ∨ (∀ j, ps !! j = Some k → l !! j = None).
Proof.
  revert l. induction ps as [|p ps IH]; intros l; [by right|]. destruct l as [|a l]; [by right|]. destruct (IH l) as [[v H]|H]; [left; exists v; apply last_under_cons; by left|].
  destruct (decide (p = k)) as [->|N]; [left; exists a; apply last_under_cons; by right|]. right. intros [|j] Hj; cbn in *; [congruence|by apply H].
Qed.
Lemma last_under_none {A} ps (l : list A) k v : (∀ j, ps !! j = Some k → l !! j = None) → ¬ last_under ps l k v.
Proof. intros H (i & Hk & Hv & _). specialize (H i Hk). congruence. Qed.
Lemma put_types_lookup names : ∀ ts m k t, put_types names ts m !! k = Some t ↔ last_under names ts k t ∨ ((∀ j, names !! j = Some k → ts !! j = None) ∧ m !! k = Some t).
Proof.
  induction names as [|n names IH]; intros ts m k t; cbn [put_types].
  - split; [by right|]. intros [(i & H & _)|[_ H]]; done.
  - destruct ts as [|t0 ts].
    + split; [by right|]. intros [(i & _ & H & _)|[_ H]]; done.
    + rewrite IH, last_under_cons. split.
      * intros [H|[H Hm]]; [by left; left|]. destruct (decide (n = k)) as [->|N]; [rewrite lookup_insert in Hm; left; right; split; [done|]; split; [congruence|done]|].
        rewrite lookup_insert_ne in Hm by done. right. split; [|done]. intros [|j] Hj; cbn in *; [congruence|by apply H].
      * intros [[H|(-> & -> & H)]|[H Hm]]; [by left|right; split; [done|apply lookup_insert]|]. right. split; [intros j; apply (H (S j))|]. rewrite lookup_insert_ne; [done|]. intros ->. by specialize (H 0 eq_refl).
Qed.
Lemma put_types_empty names ts k t : put_types names ts ∅ !! k = Some t ↔ last_under names ts k t.
Proof. rewrite put_types_lookup, lookup_empty. split; [by intros [|[]]|by left]. Qed.
Lemma put_args_lookup tm ps : ∀ args m k a, (put_args tm ps args m).1 !! k = Some a ↔ last_under ps (put_args tm ps args m).2 k a ∨ ((∀ j, ps !! j = Some k → args !! j = None) ∧ m !! k = Some a).
Proof.
  induction ps as [|p ps IH]; intros args m k a; cbn [put_args].
  - split; [by right|]. intros [(i & H & _)|[_ H]]; done.
  - destruct args as [|a0 args].
    + split; [by right|]. intros [(i & _ & H & _)|[_ H]]; done.
    + set (a1 := GArg (ga_id a0) (ga_ident a0) (tm ∪ ga_map a0)). specialize (IH args (<[p := a1]> m) k a). assert (L : ∀ m', length (put_args tm ps args m').2 = length args).
      { clear. revert args. induction ps as [|p ps IH]; intros args m'; [done|]. destruct args as [|a args]; [done|]. cbn [put_args]. specialize (IH args (<[p:=GArg (ga_id a) (ga_ident a) (tm ∪ ga_map a)]> m')). destruct (put_args tm ps args _). cbn in *. lia. }
      specialize (L (<[p := a1]> m)). destruct (put_args tm ps args (<[p := a1]> m)) as [m' args']. cbn [fst snd] in *.
      assert (N : ∀ j, args' !! j = None ↔ args !! j = None) by (intros j; rewrite !lookup_ge_None; lia). rewrite IH, last_under_cons. split.
      * intros [H|[H Hm]]; [by left; left|]. destruct (decide (p = k)) as [->|Np]; [rewrite lookup_insert in Hm; left; right; split; [done|]; split; [congruence|intros j Hj; apply N; by apply H]|].
        rewrite lookup_insert_ne in Hm by done. right. split; [|done]. intros [|j] Hj; cbn in *; [congruence|by apply H].
      * intros [[H|(-> & -> & H)]|[H Hm]]; [by left|right; split; [intros j Hj; apply N; by apply H|apply lookup_insert]|]. right. split; [intros j; apply (H (S j))|]. rewrite lookup_insert_ne; [done|]. intros ->. by specialize (H 0 eq_refl).
Qed.
Lemma put_args_args tm ps : ∀ args m i a', (put_args tm ps args m).2 !! i = Some a' ↔ ∃ a, args !! i = Some a ∧ a' = if decide (i < length ps) then GArg (ga_id a) (ga_ident a) (tm ∪ ga_map a) else a.
Proof.
  induction ps as [|p ps IH]; intros args m i a'; cbn [put_args].
  - cbn. split; [intros H; exists a'; by split|intros (a & H & ->); done].
  - destruct args as [|a0 args]; [split; [done|by intros (? & ? & _)]|]. specialize (IH args (<[p := GArg (ga_id a0) (ga_ident a0) (tm ∪ ga_map a0)]> m)). destruct (put_args tm ps args _) as [m' args']. cbn [fst snd] in *. destruct i as [|i]; cbn [lookup list_lookup].
    + cbn. split; [intros [= <-]; by exists a0|intros (a & [= <-] & ->); done].
    + rewrite IH. cbn [length]. split; intros (a & H & ->); exists a; (split; [done|]); destruct (decide (i < length ps)), (decide (S i < S (length ps))); try done; lia.
Qed.

(** ** What is recorded *)
Lemma fun_object_spec i f s : fun_object i f = Some (GFunc s) ↔ ∃ n, called_by f n ∧ gi_object i n = Some (GFunc s).
Proof.
  split.
  - destruct f as [n|x n|[n|x n|x is|x|] js|x|]; cbn; intros H; try done; exists n; (split; [constructor|done]).
  - intros (n & C & H). by destruct C.
Qed.
(** C104a: under a parameter's name is the argument at the last position of that name, with the type parameters of the call over its own. *)
Theorem C104_params_iff i c args s n p a : called_by (gc_fun c) n → gi_object i n = Some (GFunc s) →
  let '(m, tm, args') := extract_params i c args in
  (m !! p = Some a ↔ last_under (gs_params s) args' p a) ∧
  ∀ k a', args' !! k = Some a' ↔ ∃ a0, args !! k = Some a0 ∧ a' = if decide (k < length (gs_params s)) then GArg (ga_id a0) (ga_ident a0) (tm ∪ ga_map a0) else a0.
Proof.
  intros C H. unfold extract_params. rewrite (proj2 (fun_object_spec i (gc_fun c) s)) by (by exists n). pose proof (put_args_lookup (type_params i c s args) (gs_params s) args ∅ p a) as L. pose proof (put_args_args (type_params i c s args) (gs_params s) args ∅) as A.
  destruct (put_args _ _ _ _) as [m args']. cbn [fst snd] in *. split; [|done]. rewrite L, lookup_empty. split; [by intros [|[]]|by left].
Qed.
(** C104b: of distinct parameters each gets the argument at its position. *)
Theorem C104_params_distinct i c args s n k p a0 : called_by (gc_fun c) n → gi_object i n = Some (GFunc s) → NoDup (gs_params s) → gs_params s !! k = Some p → args !! k = Some a0 →
  let '(m, tm, _) := extract_params i c args in m !! p = Some (GArg (ga_id a0) (ga_ident a0) (tm ∪ ga_map a0)).
Proof.
  intros C H Hnd Hp Ha. pose proof (C104_params_iff i c args s n p) as X. destruct (extract_params i c args) as [[m tm] args']. apply X; [done|done|]. exists k. split; [done|]. split.
  - apply (proj2 (X (GArg 0 false ∅) C H)). exists a0. split; [done|]. rewrite decide_True; [done|]. by apply lookup_lt_Some in Hp.
  - intros j Hj Hp'. pose proof (NoDup_lookup _ _ _ _ Hnd Hp Hp'). lia.
Qed.
(** C104c: the calls of anything else record nothing. *)
Theorem C104_nothing i c args : (∀ n s, called_by (gc_fun c) n → gi_object i n ≠ Some (GFunc s)) → extract_params i c args = (∅, ∅, args).
Proof.
  intros H. unfold extract_params. destruct (fun_object i (gc_fun c)) as [[s|]|] eqn:E; try done. apply fun_object_spec in E as (n & C & E). by apply H in E.
Qed.
(** C104d: type arguments written at the call are put under the type parameters at their positions. *)
Theorem C104_explicit_iff i c args s n x is t ty : gc_fun c = GIndex x is → is ≠ [] → called_by (gc_fun c) n → gi_object i n = Some (GFunc s) →
  (extract_params i c args).1.2 !! t = Some ty ↔ last_under (gs_tparams s) ((λ e, default (gi_name i e) (gi_type i e)) <$> is) t ty.
Proof.
  intros E Hn C H. unfold extract_params. rewrite (proj2 (fun_object_spec i (gc_fun c) s)) by (by exists n). destruct (put_args _ _ _ _) as [m args'] eqn:P. cbn [fst snd]. unfold type_params. rewrite E. cbn [explicit_args]. destruct (gs_tparams s) as [|n0 ns]; [rewrite lookup_empty; split; [done|intros (? & ? & _); done]|]. destruct is as [|e es]; [done|]. apply put_types_empty.
Qed.
(** C104d2: so are those written at the receiver of a method. *)
Theorem C104_receiver_iff i c args s n x is t ty : gc_fun c = GSel (GIndex x is) n → is ≠ [] → gi_object i n = Some (GFunc s) →
  (extract_params i c args).1.2 !! t = Some ty ↔ last_under (gs_tparams s) ((λ e, default (gi_name i e) (gi_type i e)) <$> is) t ty.
Proof.
  intros E Hn H. unfold extract_params. rewrite (proj2 (fun_object_spec i (gc_fun c) s)) by (exists n; rewrite E; split; [constructor|done]). destruct (put_args _ _ _ _) as [m args'] eqn:P. cbn [fst snd]. unfold type_params. rewrite E. cbn [explicit_args]. destruct (gs_tparams s) as [|n0 ns]; [rewrite lookup_empty; split; [done|intros (? & ? & _); done]|]. destruct is as [|e es]; [done|]. apply put_types_empty.
Qed.
Example C104_receiver_example : (extract_params (GInfo (λ n, if decide (n = 2) then Some (GFunc (GSig ["T"] ["v"])) else None) (λ _, None) (λ e, match e with GIdent 5 => Some "app.User" | _ => None end) (λ _, "")) (GCall (GSel (GIndex (GIdent 1) [GIdent 5]) 2) None) [GArg 10 true ∅]).1.2 !! "T" = Some "app.User".
Proof. by vm_compute. Qed.
Print Assumptions C104_receiver_iff.
(** C104e: those inferred are put under the type parameters of a function called by a plain or qualified name. *)
Theorem C104_inferred_iff i c args s n ts t ty : gc_fun c = GIdent n ∨ (∃ m, gc_fun c = GSel (GIdent m) n) → gi_object i n = Some (GFunc s) → gi_instance i n = Some ts →
  (extract_params i c args).1.2 !! t = Some ty ↔ last_under (gs_tparams s) ts t ty.
Proof.
  intros E H Hi. unfold extract_params. rewrite (proj2 (fun_object_spec i (gc_fun c) s)) by (exists n; destruct E as [->|[m ->]]; split; [constructor|done|constructor|done]). destruct (put_args _ _ _ _) as [m args'] eqn:P. cbn [fst snd]. unfold type_params. destruct (gs_tparams s) as [|n0 ns]; [rewrite lookup_empty; split; [done|intros (? & ? & _); done]|].
  assert (X : explicit_args (gc_fun c) = [] ∧ fun_instance i (gc_fun c) = Some ts) by (by destruct E as [->|[? ->]]). destruct X as [-> ->]. apply put_types_empty.
Qed.
(** C104f: without an instance nothing is inferred from the arguments: what there is puts a name under itself. *)
Theorem C104_no_instance i c args s n t ty : gc_fun c = GIdent n ∨ (∃ m, gc_fun c = GSel (GIdent m) n) → gi_object i n = Some (GFunc s) → gi_instance i n = None →
  (extract_params i c args).1.2 !! t = Some ty → ty = t.
Proof.
  intros E H Hi. unfold extract_params. rewrite (proj2 (fun_object_spec i (gc_fun c) s)) by (exists n; destruct E as [->|[m ->]]; split; [constructor|done|constructor|done]). destruct (put_args _ _ _ _) as [m args'] eqn:P. cbn [fst snd]. unfold type_params. destruct (gs_tparams s) as [|n0 ns]; [by rewrite lookup_empty|].
  assert (X : explicit_args (gc_fun c) = [] ∧ fun_instance i (gc_fun c) = None) by (by destruct E as [->|[? ->]]). destruct X as [-> ->]. destruct args as [|a args]; [by rewrite lookup_empty|]. destruct (gc_first c) as [[[|] own]|]; [|by rewrite lookup_empty..]. destruct (ga_ident a); [|by rewrite lookup_empty].
  rewrite put_types_empty. intros (k & Hk & Hv & _). congruence.
Qed.

(** ** Resolution *)
Lemma resolve_eq tm t m r g kids : resolve_arg tm (TArg t m r g kids) =
  let kids := (λ k, resolve_arg (ta_map k) k) <$> kids in
  match t with Some ty => if bool_decide (is_Some (tm !! ty)) || bool_decide (m ≠ ∅) then TArg t m (pooled (default "" (tm !! ty))) true kids else TArg t m r g kids | None => TArg t m r g kids end.
Proof.
  cbn [resolve_arg]. assert (E : (fix all l := match l with [] => [] | k :: l => resolve_arg (ta_map k) k :: all l end) kids = (λ k, resolve_arg (ta_map k) k) <$> kids). { induction kids as [|k kids IH]; [done|]. cbn. by f_equal. } by rewrite E.
Qed.
(** What becomes of one argument, given the map it is looked up in. *)
Definition resolved_with (tm : gmap string string) (a b : targ) : Prop :=
  ta_type b = ta_type a ∧ ta_map b = ta_map a ∧
  (∀ ty, ta_type a = Some ty → tm !! ty ≠ None → ta_generic b = true ∧ ∀ c, tm !! ty = Some c → c ≠ "" → ta_resolved b = Some c) ∧
  (∀ ty, ta_type a = Some ty → tm !! ty = None → ta_map a ≠ ∅ → ta_generic b = true ∧ ta_resolved b = None) ∧
  ((∀ ty, ta_type a = Some ty → tm !! ty = None) → ta_map a = ∅ ∨ ta_type a = None → ta_generic b = ta_generic a ∧ ta_resolved b = ta_resolved a).
Lemma resolve_one tm a : resolved_with tm a (resolve_arg tm a).
Proof.
  destruct a as [t m r g kids]. rewrite resolve_eq. cbn zeta. unfold resolved_with. destruct t as [ty|]; cbn [ta_type ta_map ta_generic ta_resolved]; [|by repeat split].
  destruct (tm !! ty) as [c|] eqn:L.
  - rewrite bool_decide_eq_true_2 by done. cbn. split; [done|]. split; [done|]. split; [|split].
    + intros ty' [= <-] _. split; [done|]. intros c' Hc N. rewrite L in Hc. assert (c' = c) as -> by congruence. unfold pooled. by rewrite decide_False.
    + intros ty' [= <-] L'. congruence.
    + intros H. specialize (H ty eq_refl). congruence.
  - rewrite (bool_decide_eq_false_2 (is_Some None)) by (by intros [? ?]). cbn [orb]. destruct (decide (m = ∅)) as [->|N].
    + rewrite bool_decide_eq_false_2 by (intros X; by apply X). split; [done|]. split; [done|]. split; [intros ty' [= <-] X; congruence|]. split; [intros ty' _ _ X; by destruct X|done].
    + rewrite bool_decide_eq_true_2 by done. split; [done|]. split; [done|]. split; [intros ty' [= <-] X; congruence|]. split; [done|]. intros _ [?|?]; done.
Qed.
Lemma targ_rect (P : targ → Prop) : (∀ t m r g kids, Forall P kids → P (TArg t m r g kids)) → ∀ a, P a.
Proof. intros H. fix IH 1. intros [t m r g kids]. apply H. clear H. induction kids as [|k kids IHk]; constructor; [apply IH|apply IHk]. Qed.
Lemma kids_resolved tm a : ta_kids (resolve_arg tm a) = (λ k, resolve_arg (ta_map k) k) <$> ta_kids a.
Proof. destruct a as [[ty|] m r g kids]; rewrite resolve_eq; cbn; [|done]. by destruct (_ || _). Qed.
(** C104g: every argument within a resolved one is one resolved: the outermost with the map of the call, the others with their own. *)
Theorem C104_resolved tm a b : inside b (resolve_arg tm a) → resolved_with tm a b ∨ ∃ a', inside a' a ∧ a' ≠ a ∧ resolved_with (ta_map a') a' b.
Proof.
  assert (size : ∃ sz : targ → nat, ∀ k b, k ∈ ta_kids b → sz k < sz b).
  { exists (fix sz a := match a with TArg _ _ _ _ kids => S ((fix all l := match l with [] => 0 | k :: l => sz k + all l end) kids) end). intros k [t m r g kids]. cbn [ta_kids]. intros Hk. induction kids as [|k0 kids IH]; [by apply elem_of_nil in Hk|]. apply elem_of_cons in Hk as [->|Hk]; [lia|]. specialize (IH Hk). lia. }
  destruct size as [sz Hsz]. assert (Hin : ∀ x y, inside x y → sz x ≤ sz y). { intros x y H. induction H as [|k x y Hk _ IH]; [done|]. specialize (Hsz _ _ Hk). lia. }
  revert tm b. induction a as [t m r g kids IH] using targ_rect. intros tm b H. inversion H as [x|k x y Hk Hi]; subst; [left; apply resolve_one|]. right. rewrite kids_resolved in Hk. apply elem_of_list_fmap in Hk as (k0 & -> & Hk0). cbn [ta_kids] in Hk0. rewrite Forall_forall in IH.
  assert (N : ∀ x, inside x k0 → x ≠ TArg t m r g kids). { intros x Hx ->. apply Hin in Hx. pose proof (Hsz k0 (TArg t m r g kids) Hk0). lia. }
  destruct (IH k0 Hk0 (ta_map k0) b Hi) as [R|(a' & Ha & _ & R)].
  - exists k0. split; [eapply inside_kid; [exact Hk0|constructor]|]. split; [apply N; constructor|done].
  - exists a'. split; [eapply inside_kid; [exact Hk0|done]|]. split; [by apply N|done].
Qed.
(** C104h: an argument whose type is one of the call's type parameters gets the type this stands for, both as an argument and under its parameter. *)
Theorem C104_edge tm args params k a p b ty c : args !! k = Some a → params !! p = Some b → ta_type a = Some ty → ta_type b = Some ty → ta_map a !! ty = Some c → tm !! ty = Some c → c ≠ "" →
  let '(args', params') := resolve_edge tm args params in (∃ a', args' !! k = Some a' ∧ ta_resolved a' = Some c ∧ ta_generic a' = true) ∧ (∃ b', params' !! p = Some b' ∧ ta_resolved b' = Some c ∧ ta_generic b' = true).
Proof.
  intros Ha Hb Ta Tb Ma Mb N. unfold resolve_edge. rewrite list_lookup_fmap, lookup_fmap, Ha, Hb. cbn. split; eexists; (split; [done|]).
  - destruct (resolve_one (ta_map a) a) as (_ & _ & R & _). destruct (R ty Ta) as [G R']; [congruence|]. split; [by apply R'|done].
  - destruct (resolve_one tm b) as (_ & _ & R & _). destruct (R ty Tb) as [G R']; [congruence|]. split; [by apply R'|done].
Qed.

(** ** Refutations *)
(** A generic function Do[A, B](a, b), at identifier 1, instantiated with int and string. *)
Definition x_info : ginfo := GInfo (λ n, if decide (n = 1) then Some (GFunc (GSig ["A"; "B"] ["a"; "b"])) else None) (λ n, if decide (n = 1) then Some ["int"; "string"] else None) (λ e, match e with GIdent 5 => Some "int" | _ => None end) (λ _, "?").
Definition x_args : list garg := [GArg 10 true ∅; GArg 11 true ∅].
Example C104_example : let '(m, tm, _) := extract_params x_info (GCall (GIdent 1) None) x_args in ga_id <$> m !! "a" = Some 10 ∧ ga_id <$> m !! "b" = Some 11 ∧ tm !! "A" = Some "int" ∧ tm !! "B" = Some "string".
Proof. by vm_compute. Qed.
(** C104i: with some type arguments written and others inferred, the inferred are not recorded. *)
Theorem C104_partly_refuted : ∃ i n is args ts t ty s, gi_object i n = Some (GFunc s) ∧ gi_instance i n = Some ts ∧ last_under (gs_tparams s) ts t ty ∧ (extract_params i (GCall (GIndex (GIdent n) is) None) args).1.2 !! t = None.
Proof. exists x_info, 1, [GIdent 5], x_args, ["int"; "string"], "B", "string", (GSig ["A"; "B"] ["a"; "b"]). split; [done|]. split; [done|]. split; [|by vm_compute]. exists 1. split; [done|]. split; [done|]. intros [|[|j]] Hj H; [lia|lia|done]. Qed.
(** C104j: a function called in parentheses records nothing, though its instance is looked up. *)
Theorem C104_paren_refuted : ∃ i n args s, gi_object i n = Some (GFunc s) ∧ fun_instance i (GParen (GIdent n)) ≠ None ∧ extract_params i (GCall (GParen (GIdent n)) None) args = (∅, ∅, args) ∧ (extract_params i (GCall (GIdent n) None) args).1.1 ≠ ∅.
Proof. exists x_info, 1, x_args, (GSig ["A"; "B"] ["a"; "b"]). split; [done|]. split; [done|]. split; [done|]. intros E. assert (X : (extract_params x_info (GCall (GIdent 1) None) x_args).1.1 !! "a" = None) by (rewrite E; apply lookup_empty). by vm_compute in X. Qed.
(** C104k: of the arguments of a variadic parameter only the first is under it. *)
Theorem C104_variadic_refuted : ∃ i c args a, a ∈ args ∧ ∀ p a', (extract_params i c args).1.1 !! p = Some a' → ga_id a' ≠ ga_id a.
Proof.
  exists (GInfo (λ _, Some (GFunc (GSig [] ["mw"]))) (λ _, None) (λ _, None) (λ _, "")), (GCall (GIdent 1) None), [GArg 10 true ∅; GArg 11 true ∅], (GArg 11 true ∅). split; [by apply (elem_of_list_lookup_2 _ 1)|].
  intros p a'. assert (E : (extract_params (GInfo (λ _, Some (GFunc (GSig [] ["mw"]))) (λ _, None) (λ _, None) (λ _, "")) (GCall (GIdent 1) None) [GArg 10 true ∅; GArg 11 true ∅]).1.1 = {["mw" := GArg 10 true (∅ ∪ ∅)]}) by reflexivity. rewrite E. intros H. apply lookup_singleton_Some in H as [_ <-]. done.
Qed.
(** C104l: two parameters without a name share an entry, so the argument of the first is lost. *)
Theorem C104_unnamed_refuted : ∃ i c args s n k, called_by (gc_fun c) n ∧ gi_object i n = Some (GFunc s) ∧ gs_params s !! k = Some "" ∧ ∃ a, args !! k = Some a ∧ ∀ b, (extract_params i c args).1.1 !! "" = Some b → ga_id b ≠ ga_id a.
Proof. exists (GInfo (λ _, Some (GFunc (GSig [] [""; ""]))) (λ _, None) (λ _, None) (λ _, "")), (GCall (GIdent 1) None), [GArg 10 true ∅; GArg 11 true ∅], (GSig [] [""; ""]), 1, 0. split; [constructor|]. split; [done|]. split; [done|]. exists (GArg 10 true ∅). split; [done|]. intros b H. vm_compute in H. injection H as <-. done. Qed.
(** C104m: a call of a method through its type has the receiver as first argument, which is put under the method's first parameter. *)
Theorem C104_method_expression_refuted : ∃ i recv arg, let c := GCall (GSel (GIdent 0) 1) None in
  gi_object i 1 = Some (GFunc (GSig [] ["id"])) ∧ ga_id recv ≠ ga_id arg ∧ ga_id <$> (extract_params i c [recv; arg]).1.1 !! "id" = Some (ga_id recv).
Proof. exists (GInfo (λ n, if decide (n = 1) then Some (GFunc (GSig [] ["id"])) else None) (λ _, None) (λ _, None) (λ _, "")), (GArg 10 true ∅), (GArg 11 true ∅). by vm_compute. Qed.
(** C104n: an argument that is a generic call of its own, with a type parameter of the same name, loses what that stands for. *)
Theorem C104_inner_refuted : ∃ i c a t ty, ga_map a !! t = Some ty ∧ ∀ a', (extract_params i c [a]).2 = [a'] → ga_map a' !! t ≠ Some ty.
Proof. exists (GInfo (λ _, Some (GFunc (GSig ["T"] ["v"]))) (λ _, Some ["[]User"]) (λ _, None) (λ _, "")), (GCall (GIdent 1) None), (GArg 10 false {["T" := "User"]}), "T", "User". split; [done|]. intros a' E. vm_compute in E. injection E as <-. by vm_compute. Qed.
(** C104o: an argument of a plain type is marked as generic, and what it was resolved to lost, if the function called is generic. *)
Theorem C104_plain_refuted : ∃ a, ta_type a = Some "string" ∧ ta_map a !! "string" = None ∧ ta_generic a = false ∧ ta_generic (resolve_arg (ta_map a) a) = true ∧ ta_resolved a ≠ ta_resolved (resolve_arg (ta_map a) a).
Proof. exists (TArg (Some "string") {["T" := "User"]} (Some "string") false []). by vm_compute. Qed.
Print Assumptions C104_params_iff. Print Assumptions C104_params_distinct. Print Assumptions C104_nothing. Print Assumptions C104_explicit_iff. Print Assumptions C104_inferred_iff. Print Assumptions C104_no_instance. Print Assumptions C104_resolved. Print Assumptions C104_edge.
Print Assumptions C104_partly_refuted. Print Assumptions C104_paren_refuted. Print Assumptions C104_variadic_refuted. Print Assumptions C104_unnamed_refuted. Print Assumptions C104_method_expression_refuted. Print Assumptions C104_inner_refuted. Print Assumptions C104_plain_refuted.
