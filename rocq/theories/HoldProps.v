(** * C95: what an interface-typed body holds. *)
From Coq Require Import Ascii.
From stdpp Require Import sorting.
From stdpp Require Import base list strings gmap.
From Verif Require Import StrLib StrOrder OverModel HoldModel.

Section props.
  Context (is_iface : string → bool) (fn_in : string → string → option (string → list string)) (fn_any : string → option (string → list string)).
  Context (sel_type : barg → string) (followed : string → string) (one_step : string → option string) (const_type : barg → string) (returned : barg → string) (literal_type : string → string) (canon : string → string).
  Notation find_function := (find_function fn_in fn_any).
  Notation concrete_set := (concrete_set is_iface fn_in fn_any).
  Notation concrete_enclosing := (concrete_enclosing is_iface fn_in fn_any).
  Notation request_origin := (request_origin is_iface fn_in fn_any sel_type followed).
  Notation response_origin := (response_origin is_iface fn_in fn_any sel_type one_step).
  Notation request_type := (request_type is_iface fn_in fn_any sel_type followed one_step literal_type canon).
  Notation response_type := (response_type is_iface fn_in fn_any sel_type one_step const_type returned literal_type canon).

  (** The specification: the function of the call assigns the type to the variable, and it is a type, not an interface. *)
  Definition assigns (s : bsite) (name t : string) : Prop :=
    bs_caller s ≠ "" ∧ t ≠ "" ∧ is_iface t = false ∧ ∃ f, find_function (bs_pkg s) (bs_caller s) = Some f ∧ t ∈ f name.
  (** The argument is a variable, or, with [through], the address of one. *)
  Definition variable (through : bool) (a : barg) (name : string) : Prop :=
    (ba_kind a = BIdent ∧ ba_name a = name) ∨
    (through = true ∧ (ba_kind a = BFuncLit ∧ ba_name a = name ∨ ba_kind a = BUnary ∧ (ba_x a = Some (BIdent, name) ∨ ba_x a = Some (BFuncLit, name)))).

  Lemma add_concrete_spec l : ∀ set, (∀ t, t ∈ add_concrete is_iface set l ↔ t ∈ set ∨ (t ∈ l ∧ t ≠ "" ∧ is_iface t = false)) ∧ (NoDup set → NoDup (add_concrete is_iface set l)).
  Proof.
    induction l as [|x l IH]; intros set; cbn [add_concrete].
    - split; [|done]. intros t. split; [by left|]. intros [?|[H _]]; [done|by apply elem_of_nil in H].
    - destruct (decide (x = "" ∨ is_iface x = true)) as [B|B]; [|destruct (decide (x ∈ set)) as [I|I]].
      + destruct (IH set) as [H1 H2]. split; [|done]. intros t. rewrite H1. split; intros [?|(H & N & F)]; [by left|right; split_and!; [by right|done|done]|by left|].
        apply elem_of_cons in H as [->|H]; [exfalso; destruct B; congruence|by right].
      + destruct (IH set) as [H1 H2]. split; [|done]. intros t. rewrite H1. split; intros [?|(H & N & F)]; [by left|right; split_and!; [by right|done|done]|by left|].
        apply elem_of_cons in H as [->|H]; [by left|by right].
      + destruct (IH (set ++ [x])) as [H1 H2]. split.
        * intros t. rewrite H1, elem_of_app, elem_of_list_singleton. split.
          -- intros [[?| ->]|(H & N & F)]; [by left|right|right; split_and!; [by right|done|done]]. split_and!; [by left|naive_solver|]. destruct (is_iface x); naive_solver.
          -- intros [?|(H & N & F)]; [by left; left|]. apply elem_of_cons in H as [->|H]; [left; by right|by right].
        * intros ND. apply H2. apply NoDup_app. split_and!; [done| |apply NoDup_singleton]. intros y Hy. rewrite elem_of_list_singleton. by intros ->.
  Qed.

  (** C95a: the alternatives of an interface-typed variable are the types the function of the call assigns to it, each once, in order. *)
  Theorem C95_set name s orig :
    is_iface orig = true →
    (∀ t, t ∈ concrete_set name s orig ↔ assigns s name t) ∧ NoDup (concrete_set name s orig) ∧ StronglySorted string_le (concrete_set name s orig).
  Proof.
    intros HI. unfold HoldModel.concrete_set, assigns. rewrite HI. cbn [negb]. destruct (decide (bs_caller s = "")) as [E|N].
    { split_and!; [|apply NoDup_nil_2|constructor]. intros t. split; [intros H; by apply elem_of_nil in H|naive_solver]. }
    destruct (find_function (bs_pkg s) (bs_caller s)) as [f|].
    - destruct (add_concrete_spec (f name) []) as [H1 H2]. split_and!; [|apply NoDup_ssort, H2, NoDup_nil_2|apply ssort_sorted].
      intros t. rewrite elem_of_ssort, H1, elem_of_nil. split; [intros [?|(? & ? & ?)]; [done|]; split_and!; eauto|]. intros (_ & ? & ? & g & [= <-] & ?). by right.
    - split_and!; [|apply NoDup_nil_2|constructor]. intros t. split; [intros H; by apply elem_of_nil in H|intros (_ & _ & _ & g & ? & _); done].
  Qed.
  (** C95b: it is narrowed to a type exactly when that is the one type assigned to it. *)
  Theorem C95_narrow_iff name s orig t :
    is_iface orig = true → t ≠ "" → (concrete_enclosing name s orig = t ↔ ∀ u, assigns s name u ↔ u = t).
  Proof.
    intros HI Nt. destruct (C95_set name s orig HI) as (HS & ND & _). unfold HoldModel.concrete_enclosing. split.
    - intros E u. rewrite <- HS. destruct (concrete_set name s orig) as [|x [|y l]] eqn:EL; [done| |done]. subst x. by rewrite elem_of_list_singleton.
    - intros H. assert (HT : ∀ u, u ∈ concrete_set name s orig ↔ u = t) by (intros u; by rewrite HS). clear -HT ND.
      destruct (concrete_set name s orig) as [|x [|y l]].
      + exfalso. by eapply elem_of_nil, HT.
      + assert (x = t) as -> by (apply HT; by left). done.
      + exfalso. assert (x = t) as -> by (apply HT; by left). assert (y = t) as -> by (apply HT; right; by left). apply NoDup_cons in ND as [ND _]. apply ND. by left.
  Qed.
  (** C95c: a parameter is narrowed to the argument of the nearest call on the path that entered the function. *)
  Theorem C95_binding enclosing name up t :
    t ≠ "" →
    (bound_at is_iface enclosing name up = t ↔
     ∃ i p, up !! i = Some (Some p) ∧ bs_callee_base p = enclosing ∧ bs_params p name = Some t ∧ is_iface t = false ∧
       ∀ j q, j < i → up !! j = Some (Some q) → bs_callee_base q ≠ enclosing).
  Proof.
    intros Nt. induction up as [|[p|] up IH]; cbn [bound_at].
    - split; [done|]. intros (i & p & H & _). by rewrite lookup_nil in H.
    - destruct (decide (bs_callee_base p = enclosing)) as [E|N].
      + split.
        * intros H. exists 0, p. split_and!; [done|done| | |lia]; destruct (bs_params p name) as [u|]; try done; destruct (decide (u = "" ∨ is_iface u = true)) as [|B]; try done; subst u; [done|].
          destruct (is_iface t) eqn:EI; [exfalso; apply B; by right|done].
        * intros ([|i] & q & H & Eq & Ep & EI & Hj).
          -- assert (q = p) as -> by (cbn in H; congruence). rewrite Ep. rewrite decide_False; [done|]. rewrite EI. naive_solver.
          -- exfalso. by apply (Hj 0 p); [lia|done|].
      + rewrite IH. split.
        * intros (i & q & H & Eq & Ep & EI & Hj). exists (S i), q. split_and!; try done. intros [|j] q' Hlt Hq'; [assert (q' = p) as -> by (cbn in Hq'; congruence); done|]. apply (Hj j); [lia|done].
        * intros ([|i] & q & H & Eq & Ep & EI & Hj); [assert (q = p) as -> by (cbn in H; congruence); done|]. exists i, q. split_and!; try done. intros j q' Hlt Hq'. apply (Hj (S j)); [lia|done].
    - rewrite IH. split.
      + intros (i & q & H & Eq & Ep & EI & Hj). exists (S i), q. split_and!; try done. intros [|j] q' Hlt Hq'; [done|]. apply (Hj j); [lia|done].
      + intros ([|i] & q & H & Eq & Ep & EI & Hj); [done|]. exists i, q. split_and!; try done. intros j q' Hlt Hq'. apply (Hj (S j)); [lia|done].
  Qed.

  (** Where a type other than the one written may come from. *)
  Inductive source (through : bool) (a : barg) (s : bsite) (up : list (option bsite)) (orig : string) (generic : string → Prop) (t : string) : Prop :=
  | src_resolved : ba_resolved a = t → source through a s up orig generic t
  | src_generic : generic t → source through a s up orig generic t
  | src_field : ba_kind a = BSelector → sel_type a = t → source through a s up orig generic t
  | src_result name : variable through a name → t ∈ bs_assigned s name → source through a s up orig generic t
  | src_assigned name : variable through a name → is_iface orig = true → (∀ u, assigns s name u ↔ u = t) → source through a s up orig generic t
  | src_parameter name i p : variable through a name → is_iface orig = true → (¬ ∃ u, ∀ v, assigns s name v ↔ v = u) → up !! i = Some (Some p) → bs_callee_base p = bs_caller_base s → bs_params p name = Some t → is_iface t = false → source through a s up orig generic t.

  Lemma from_variable_source through a s up orig generic name :
    variable through a name → let r := from_variable is_iface fn_in fn_any name s up orig in r ≠ orig → r ≠ "" ∧ source through a s up orig generic r.
  Proof.
    intros HV. cbn zeta. unfold from_variable. destruct (list_find (λ t, t ≠ "") (bs_assigned s name)) as [[i t]|] eqn:EF.
    - apply list_find_Some in EF as (E & N & _). intros _. split; [done|]. eapply src_result; [done|]. by eapply elem_of_list_lookup_2.
    - destruct (decide (concrete_enclosing name s orig = "")) as [E|N].
      + destruct (decide (concrete_binding is_iface name s up orig = "")) as [|NB]; [done|]. intros _. split; [done|].
        unfold concrete_binding in *. destruct (is_iface orig) eqn:EI; [|done]. cbn [negb] in *. destruct (decide (bs_caller_base s = "")); [done|].
        destruct (proj1 (C95_binding (bs_caller_base s) name up _ NB) eq_refl) as (j & p & Hp & Ec & Ep & EN & _). eapply src_parameter; eauto.
        intros (u & Hu). assert (Nu : u ≠ "") by (destruct (proj2 (Hu u) eq_refl) as (_ & ? & _); done).
        apply (C95_narrow_iff name s orig u EI Nu) in Hu. congruence.
      + intros _. split; [done|]. destruct (is_iface orig) eqn:EI.
        * eapply src_assigned; [done|done|]. by apply C95_narrow_iff with orig.
        * exfalso. apply N. unfold HoldModel.concrete_enclosing, HoldModel.concrete_set. by rewrite EI.
  Qed.
  (** C95d: a body is documented as a type other than the one written only if one of these says so: its recorded type, the type its parameter stands for, a field, the value of the variable where the call gave
      it, the one type assigned to it, or the argument bound to it. Then it is not empty. *)
  Theorem C95_request_source core a s up orig :
    let r := request_origin core a s up orig in r ≠ orig → r ≠ "" ∧ source true a s up orig (λ t, followed (core orig) = t) r.
  Proof.
    cbn zeta. unfold HoldModel.request_origin. destruct (decide (ba_resolved a = "")) as [_|N]; [|intros _; split; [done|by apply src_resolved]].
    destruct (decide (followed (core orig) = "")) as [_|N]; [|intros _; split; [done|by apply src_generic]].
    destruct (decide (ba_kind a = BSelector ∧ sel_type a ≠ "")) as [[E N]|_]; [intros _; split; [done|by apply src_field]|].
    destruct (target_of a) as [k name] eqn:ET.
    assert (HV : k = BIdent ∨ k = BFuncLit → variable true a name).
    { intros Hk. unfold target_of in ET. unfold variable. destruct (ba_kind a) eqn:EK; try (injection ET as <- <-; destruct Hk as [Hk|Hk]; try discriminate Hk); [|left; done|right; split; [done|]; by left].
      destruct (ba_x a) as [[k' n']|] eqn:EX; [|injection ET as <- <-; destruct Hk; done]. injection ET as -> ->. right. split; [done|]. right. split; [done|]. destruct Hk as [->| ->]; [by left|by right]. }
    destruct k; try done; intros Hr; apply from_variable_source; auto.
  Qed.
  Theorem C95_response_source a s up orig :
    let r := response_origin a s up orig in r ≠ orig → (r ≠ "" ∨ ∃ g, ba_generic a = Some g) ∧ source false a s up orig (λ t, ∃ g, ba_generic a = Some g ∧ one_step g = Some t) r.
  Proof.
    cbn zeta. unfold HoldModel.response_origin. destruct (decide (ba_resolved a = "")) as [_|N]; [|intros _; split; [by left|by apply src_resolved]].
    destruct (ba_generic a ≫= one_step) as [t|] eqn:EG.
    { intros _. destruct (ba_generic a) as [g|]; [|done]. split; [right; eauto|]. apply src_generic. eauto. }
    destruct (decide (ba_kind a = BSelector ∧ sel_type a ≠ "")) as [[E N]|_]; [intros _; split; [by left|by apply src_field]|].
    destruct (ba_kind a) eqn:EK; try done. intros Hr. destruct (from_variable_source false a s up orig (λ t, ∃ g, ba_generic a = Some g ∧ one_step g = Some t) (ba_name a)) as [N S]; [by left|done|]. split; [by left|done].
  Qed.
  Lemma ambiguous_spec a s t :
    ambiguous_set is_iface fn_in fn_any a s t ≠ [] →
    ∃ name, variable true a name ∧ is_iface t = true ∧ ambiguous_set is_iface fn_in fn_any a s t = concrete_set name s t ∧ 2 ≤ length (concrete_set name s t).
  Proof.
    unfold ambiguous_set. destruct (target_of a) as [k name] eqn:ET. intros H.
    assert (HK : (k = BIdent ∨ k = BFuncLit) ∧ 2 ≤ length (concrete_set name s t)).
    { destruct k; try done; (split; [by auto|]); by destruct (decide (2 ≤ length (concrete_set name s t))). }
    destruct HK as [Hk HL]. exists name. split_and!; [| | |done].
    - unfold target_of in ET. unfold variable. destruct (ba_kind a) eqn:EK; try (injection ET as <- <-; destruct Hk as [Hk|Hk]; try discriminate Hk); [|left; done|right; split; [done|]; by left].
      destruct (ba_x a) as [[k' n']|] eqn:EX; [|injection ET as <- <-; destruct Hk; done]. injection ET as -> ->. right. split; [done|]. right. split; [done|]. destruct Hk as [->| ->]; [by left|by right].
    - destruct (is_iface t) eqn:EI; [done|]. unfold HoldModel.concrete_set in HL. rewrite EI in HL. cbn in HL. lia.
    - destruct Hk as [->| ->]; by rewrite decide_True.
  Qed.
  (** C95e: alternatives are given for an interface-typed variable only, at least two, each once and in order, and they are all the types its function assigns to it. *)
  Definition alternatives_ok (a : barg) (s : bsite) (l : list string) : Prop :=
    l = [] ∨ ∃ name, variable true a name ∧ 2 ≤ length l ∧ NoDup l ∧ StronglySorted string_le l ∧ ∀ t, t ∈ l ↔ assigns s name t.
  Theorem C95_alternatives core deref a s up :
    alternatives_ok a s (request_type core deref a s up).2 ∧ alternatives_ok a s (response_type deref a s up).2.
  Proof.
    assert (HA : ∀ t, alternatives_ok a s (ambiguous_set is_iface fn_in fn_any a s t)).
    { intros t. destruct (decide (ambiguous_set is_iface fn_in fn_any a s t = [])) as [->|N]; [by left|]. right.
      destruct (ambiguous_spec a s t N) as (name & HV & HI & -> & HL). exists name. destruct (C95_set name s t HI) as (H1 & H2 & H3). done. }
    assert (HL : ∀ (P : Prop) (d : Decision P) t, alternatives_ok a s (if decide P then ambiguous_set is_iface fn_in fn_any a s t else [])) by (intros P d t; destruct (decide P); [apply HA|by left]).
    split.
    - unfold HoldModel.request_type. destruct (ba_kind a); cbn zeta; cbn [snd]; try apply HL; by left.
    - unfold HoldModel.response_type. cbn zeta. destruct (ba_kind a); try (by left); (destruct (decide _); [by left|cbn [snd]; apply HL]).
  Qed.
End props.

(** C95f, the findings. *)
Definition h_iface (t : string) : bool := bool_decide (t = "app.Animal" ∨ t = "*app.Animal").
Definition h_request (fn_in : string → string → option (string → list string)) (fn_any : string → option (string → list string)) : barg → bsite → list (option bsite) → string * list string :=
  request_type h_iface fn_in fn_any (λ _, "") (λ _, "") (λ _, None) (λ s, s) (λ s, s) (λ s, s) true.
Definition h_response (fn_in : string → string → option (string → list string)) (fn_any : string → option (string → list string)) : barg → bsite → list (option bsite) → string * list string :=
  response_type h_iface fn_in fn_any (λ _, "") (λ _, None) (λ _, "") (λ _, "") (λ s, s) (λ s, s) true.
Definition h_var : barg := BArg BIdent "a" "app.Animal" "app.Animal" "" None None None.
Definition h_addr : barg := BArg BUnary "" "*app.Animal" "" "" None (Some (BIdent, "a")) None.
Definition h_site (pkg caller : string) : bsite := BSite caller pkg (pkg +:+ "." +:+ caller) "json.Encoder.Encode" (λ _, []) (λ _, None).
Definition h_assign (l : list string) (name : string) : list string := if decide (name = "a") then l else [].
(** The handler is a method, so it is no function of its package; a function of the same name in another package is taken for it. *)
Theorem C95_other_package_refuted :
  ∃ fn_in fn_any, fn_in "app" "Create" = None ∧ fn_in "zoo" "Create" = Some (h_assign ["zoo.Cat"]) ∧ (h_response fn_in fn_any h_var (h_site "app" "Create") []).1 = "zoo.Cat".
Proof. exists (λ p n, if decide (p = "zoo" ∧ n = "Create") then Some (h_assign ["zoo.Cat"]) else None), (λ n, if decide (n = "Create") then Some (h_assign ["zoo.Cat"]) else None). by vm_compute. Qed.
(** Another assignment gives the variable a value of unknown type, and still it is narrowed to the one known. *)
Theorem C95_unknown_refuted :
  ∃ l, "app.Animal" ∈ l ∧ h_iface "app.Animal" = true ∧ h_response (λ _ _, Some (h_assign l)) (λ _, None) h_var (h_site "app" "create") [] = ("app.Dog", []).
Proof. exists ["app.Dog"; "app.Animal"]. split; [by right; left|by vm_compute]. Qed.
(** A response of [&a]: two types are alternatives, the one type of another is not seen; a request sees it. *)
Theorem C95_address_refuted :
  ∃ one two, h_response (λ _ _, Some (h_assign two)) (λ _, None) h_addr (h_site "app" "create") [] = ("app.Animal", two) ∧
    h_response (λ _ _, Some (h_assign one)) (λ _, None) h_addr (h_site "app" "create") [] = ("app.Animal", []) ∧
    h_request (λ _ _, Some (h_assign one)) (λ _, None) h_addr (h_site "app" "create") [] = ("app.Dog", []).
Proof. exists ["app.Dog"], ["app.Cat"; "app.Dog"]. by vm_compute. Qed.

Example C95_two : h_request (λ _ _, Some (h_assign ["app.Dog"; "app.Cat"; "app.Dog"; ""])) (λ _, None) h_addr (h_site "app" "create") [] = ("app.Animal", ["app.Cat"; "app.Dog"]).
Proof. by vm_compute. Qed.
Example C95_bound : h_response (λ _ _, None) (λ _, None) h_var (h_site "app" "write")
  [None; Some (BSite "x" "app" "app.x" "app.other" (λ _, []) (λ _, Some "app.Cat")); Some (BSite "h" "app" "app.h" "app.write" (λ _, []) (λ n, if decide (n = "a") then Some "app.Dog" else None))] = ("app.Dog", []).
Proof. by vm_compute. Qed.
Example C95_narrowed : concrete_enclosing h_iface (λ _ _, Some (h_assign ["app.Dog"; "app.Dog"])) (λ _, None) "a" (h_site "app" "create") "app.Animal" = "app.Dog".
Proof. by vm_compute. Qed.
Print Assumptions C95_set. Print Assumptions C95_narrow_iff. Print Assumptions C95_binding. Print Assumptions C95_request_source. Print Assumptions C95_response_source. Print Assumptions C95_alternatives.
Print Assumptions C95_other_package_refuted. Print Assumptions C95_unknown_refuted. Print Assumptions C95_address_refuted.
