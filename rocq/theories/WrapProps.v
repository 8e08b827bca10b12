(** * The properties about router wrappers. *)
From Coq Require Import Ascii.
From stdpp Require Import sorting.
From stdpp Require Import base list strings gmap relations.
From Coq Require Import ZArith.
From Verif Require Import StrLib StrOrder StrSplit PathModel SccSpec SecProps StatModel WrapModel WrapSpec WrapProofs WrapProofs2.

(** ** C74: the parameter an argument comes from *)
Section params.
Context (method_of : wmethod → option (list string * (string → list sarg))) (function_of : wmethod → option (string → list sarg)).

(** An argument is traced to a parameter exactly when it leads to one over at most
    three assignments. *)
Theorem C74_traced (w : wmethod) (a : sarg) :
  is_Some (index_of method_of function_of w (Some a)) ↔
  ∃ k i p, k ≤ 3 ∧ leads method_of function_of w a k p ∧ parameter method_of w i p.
Proof.
  split.
  - intros [i H]. apply index_of_some in H as (k & p & Hk & Hl & Hi & _). exists k, i, p. by rewrite <- elem_of_params.
  - intros (k & i & p & Hk & Hl & Hi). apply elem_of_params in Hi. eapply index_of_complete; [exact Hk|exact Hl|]. by eapply elem_of_list_lookup_2.
Qed.
(** The position found is that of a nearest parameter, the first of its name. *)
Theorem C74_position (w : wmethod) (a : sarg) (i : nat) :
  index_of method_of function_of w (Some a) = Some i → comes_from method_of function_of w a i.
Proof.
  intros H. apply index_of_some in H as (k & p & Hk & Hl & Hi & Hj & Hn). exists k, p. split; [done|]. split; [done|]. split; [by apply elem_of_params|].
  split.
  - intros j Hlt Hp. apply elem_of_params in Hp. by apply (Hj j).
  - intros k' i' p' Hk' Hl' Hp. apply elem_of_params in Hp. apply (Hn k' p' Hk' Hl'). by eapply elem_of_list_lookup_2.
Qed.
(** An argument that is the parameter itself comes from that parameter. *)
Theorem C74_forwarded (w : wmethod) (a : sarg) (i : nat) :
  s_name a ≠ "" → parameter method_of w i (s_name a) → (∀ j, j < i → ¬ parameter method_of w j (s_name a)) →
  index_of method_of function_of w (Some a) = Some i.
Proof.
  intros Hn Hp Hj. apply elem_of_params in Hp as Hi. unfold index_of. rewrite bool_decide_eq_false_2.
  2: { intros E. rewrite E in Hi. done. }
  assert (∃ l, idents_in expr_depth a = s_name a :: l) as [l ->].
  { unfold expr_depth. cbn [idents_in]. rewrite bool_decide_eq_true_2 by done. eexists. reflexivity. }
  unfold assign_hops. cbn [index_hops]. unfold match_param. cbn [omap list_omap]. rewrite bool_decide_eq_false_2 by done.
  assert (list_find (λ p, p = s_name a) (params_of method_of w) = Some (i, s_name a)) as ->; [|done].
  apply list_find_Some. split; [done|]. split; [done|]. intros j y Hy Hlt ->. apply (Hj j Hlt). by apply elem_of_params.
Qed.
End params.
Print Assumptions C74_traced.
Print Assumptions C74_position.
Print Assumptions C74_forwarded.

Definition ident (n : string) : sarg := SArg SIdent n None None None [].
Definition select (x : sarg) (f : string) : sarg := SArg SSelector "" (Some x) (Some (ident f)) None [].
Definition call_with (f : sarg) (args : list sarg) : sarg := SArg SCall "" None None (Some f) (Some <$> args).
Definition index_at (x i : sarg) : sarg := SArg SOther "" (Some x) None (Some i) [].

(** gitea: [func (r *Router) Methods(methods, pattern string, h ...any)] with
    [fn := h[len(h)-1]] and [handlerFunc = fn]. *)
Definition gitea_assigns (n : string) : list sarg :=
  if bool_decide (n = "handlerFunc") then [ident "fn"]
  else if bool_decide (n = "fn") then [index_at (ident "h") (call_with (ident "len") [ident "h"])] else [].
Definition router_method : wmethod := WMethod "example.com/app/web" "*Router" "Methods".
Definition gitea (w : wmethod) : option (list string * (string → list sarg)) :=
  if bool_decide (wm_name w = "Methods") then Some (["methods"; "pattern"; "h"], gitea_assigns)
  else if bool_decide (wm_name w = "routes") then Some (["list"], λ _, [])
  else Some (["pattern"; "h"], λ _, []).
Definition no_function (w : wmethod) : option (string → list sarg) := None.
Example C74_example :
  index_of gitea no_function router_method (Some (ident "methods")) = Some 0 ∧
  index_of gitea no_function router_method (Some (call_with (select (ident "r") "getPattern") [ident "pattern"])) = Some 1 ∧
  index_of gitea no_function router_method (Some (ident "handlerFunc")) = Some 2 ∧
  index_of gitea no_function router_method (Some (ident "notFound")) = None ∧
  leads gitea no_function router_method (ident "handlerFunc") 2 "h" ∧
  parameter gitea router_method 0 (s_name (ident "methods")).
Proof.
  split; [by vm_compute|]. split; [by vm_compute|]. split; [by vm_compute|]. split; [by vm_compute|]. split.
  - exists "handlerFunc". split; [apply (mentions_here 5 (ident "handlerFunc")); done|].
    apply nsteps_l with "fn"; [|apply nsteps_l with "h"; [|apply nsteps_O]].
    + split; [done|]. exists (ident "fn"). split; [left; exists ["methods"; "pattern"; "h"], gitea_assigns; split; [done|left]|].
      apply (mentions_here 5 (ident "fn")); done.
    + split; [done|]. exists (index_at (ident "h") (call_with (ident "len") [ident "h"])). split.
      * left; exists ["methods"; "pattern"; "h"], gitea_assigns; split; [done|left].
      * apply mentions_part with (ident "h"); [by left|]. apply (mentions_here 4 (ident "h")); done.
  - exists ["methods"; "pattern"; "h"], gitea_assigns. done.
Qed.

(** Full statement, false: "a value the method made up itself resolves to nothing" —
    [s.list] in a method with a parameter [list] is taken for the parameter, though
    the value mentions the parameter nowhere but as the name of a field. *)
Theorem C74_made_up_value_refuted :
  ∃ method_of function_of w a i, index_of method_of function_of w (Some a) = Some i ∧
    ∀ p, mentions_value a p → (∀ i, ¬ parameter method_of w i p) ∧ ∀ v, ¬ assigned_value method_of function_of w p v.
Proof.
  exists gitea, no_function, (WMethod "example.com/app/web" "*Router" "routes"), (select (ident "s") "list"), 0.
  split; [by vm_compute|].
  assert (∀ p, mentions_value (select (ident "s") "list") p → p = "s") as H.
  { intros p H. inversion H as [a Ha|a b n Hab Hb]; subst; [done|]. destruct Hab as [Hx|[Hx|Hx]]; cbn in Hx.
    - injection Hx as <-. inversion Hb as [a Ha|a b n Hab Hb']; subst; [done|]. destruct Hab as [Hx|[Hx|Hx]]; cbn in Hx; [done|done|by apply elem_of_nil in Hx].
    - done.
    - by apply elem_of_nil in Hx. }
  intros p ->%H. split.
  - intros i (ps & asg & E & Hi). vm_compute in E. injection E as <- <-. destruct i as [|i]; [done|]. by destruct i.
  - intros v [(ps & asg & E & Hv)|(_ & asg & E & _)]; [|done]. vm_compute in E. injection E as <- <-. by apply elem_of_nil in Hv.
Qed.
Print Assumptions C74_made_up_value_refuted.

(** Full statement, false: only the assignments of the method count — those of a
    function of the same name in the package are followed too. *)
Definition namesake (w : wmethod) : option (string → list sarg) :=
  Some (λ n, if bool_decide (n = "target") then [ident "pattern"] else []).
Theorem C74_namesake_refuted :
  ∃ method_of function_of w a i, index_of method_of function_of w (Some a) = Some i ∧
    (∀ ps asg v n, method_of w = Some (ps, asg) → v ∉ asg n) ∧ ∀ p, mentions 6 a p → ∀ i, ¬ parameter method_of w i p.
Proof.
  exists gitea, namesake, (WMethod "example.com/app/web" "*Router" "Get"), (ident "target"), 0. split; [by vm_compute|]. split.
  - intros ps asg v n E. vm_compute in E. injection E as <- <-. apply not_elem_of_nil.
  - intros p Hp i (ps & asg & E & Hi). vm_compute in E. injection E as <- <-.
    assert (p = "target") as ->.
    { inversion Hp as [d a Ha|d a b n Hab Hb]; subst; [done|]. destruct Hab as [Hx|[Hx|[Hx|Hx]]]; cbn in Hx; [done|done|done|by apply elem_of_nil in Hx]. }
    destruct i as [|[|i]]; [done|done|by destruct i].
Qed.
Print Assumptions C74_namesake_refuted.

(** ** C75: router wrappers *)
Section wrappers.
Context (method_of : wmethod → option (list string * (string → list sarg))) (function_of : wmethod → option (string → list sarg)).
Context (matches : rpat → wedge → bool) (modpath : string).
Notation derive := (derive_wrapper method_of function_of).
Notation found config es := (detect_found method_of function_of matches modpath config es).

Lemma index_arg w e j : match index_of method_of function_of w (arg_at e j) with
  | Some i => passes method_of function_of w e j i
  | None => ∀ i, ¬ passes method_of function_of w e j i
  end.
Proof.
  unfold passes, arg_at. destruct (decide (j < 0)%Z) as [Hj|Hj].
  { rewrite bool_decide_eq_true_2 by done. cbn. intros i [? _]. lia. }
  rewrite bool_decide_eq_false_2 by done. destruct (we_args e !! Z.to_nat j) as [[a|]|] eqn:Ea; cbn [mjoin option_join].
  - destruct (index_of method_of function_of w (Some a)) as [i|] eqn:Ei.
    + split; [lia|]. exists a. split; [done|]. by apply C74_position.
    + intros i (_ & a' & [= <-] & k & p & Hk & Hl & Hp & _).
      assert (is_Some (index_of method_of function_of w (Some a))) as [? ?]; [|congruence]. apply C74_traced. by exists k, i, p.
  - cbn. by intros i (_ & a & [=] & _).
  - cbn. by intros i (_ & a & [=] & _).
Qed.
Lemma role_spec (b : bool) w e j : let o := if b then index_of method_of function_of w (arg_at e j) else None in
  (bool_decide (is_Some o) = true ↔ b = true ∧ ∃ i, passes method_of function_of w e j i) ∧
  (bool_decide (is_Some o) = true → ∃ i, (match o with Some i => Z.of_nat i | None => 0%Z end) = Z.of_nat i ∧ passes method_of function_of w e j i).
Proof.
  cbv zeta. pose proof (index_arg w e j) as H. destruct b; [|split; [split; [intros ?%bool_decide_eq_true_1|intros [? _]]|intros ?%bool_decide_eq_true_1]; by (try destruct H0)].
  destruct (index_of method_of function_of w (arg_at e j)) as [i|].
  - rewrite bool_decide_eq_true_2 by done. split; [split; eauto|]. intros _. by exists i.
  - rewrite bool_decide_eq_false_2 by (by intros [? ?]). split; [|done]. split; [done|]. intros [_ [i Hi]]. by apply H in Hi.
Qed.
Lemma verb_argument_spec q j : inner_verb_arg_index q = Some j ↔ verb_argument q j.
Proof.
  unfold inner_verb_arg_index, verb_argument. destruct (rp_verb_call q); cbn [orb]; [split; [done|by intros (? & _)]|].
  destruct (rp_verb_handler q); cbn [orb]; [split; [done|by intros (_ & ? & _)]|].
  destruct (rp_verb_path q); cbn [orb]; [split; [done|by intros (_ & _ & ? & _)]|].
  destruct (rp_verb q).
  { split; [by intros [= <-]|]. by intros (_ & _ & _ & -> & _). }
  destruct (decide (rp_path q = true ∧ rp_verb_idx q = rp_path_idx q)) as [[Hp E]|Hp].
  { rewrite Hp, (bool_decide_eq_true_2 _ E). cbn [andb]. split; [done|]. intros (_ & _ & _ & -> & H). by destruct (H eq_refl) as [H1 _]; destruct (H1 eq_refl). }
  assert (rp_path q && bool_decide (rp_verb_idx q = rp_path_idx q) = false) as ->.
  { apply not_true_iff_false. rewrite andb_true_iff, bool_decide_eq_true. exact Hp. }
  destruct (decide (rp_handler q = true ∧ rp_verb_idx q = rp_handler_idx q)) as [[Hh E]|Hh].
  { rewrite Hh, (bool_decide_eq_true_2 _ E). cbn [andb]. split; [done|]. intros (_ & _ & _ & -> & H). by destruct (H eq_refl) as [_ H1]; destruct (H1 eq_refl). }
  assert (rp_handler q && bool_decide (rp_verb_idx q = rp_handler_idx q) = false) as ->.
  { apply not_true_iff_false. rewrite andb_true_iff, bool_decide_eq_true. exact Hh. }
  split; [|by intros (_ & _ & _ & -> & _)]. intros [= <-]. split; [done|]. split; [done|]. split; [done|]. split; [done|]. intros _. split; intros ? ?; [by apply Hp|by apply Hh].
Qed.

(** What is derived from one registration call: each role is there exactly when the
    inner pattern has it and its argument comes from a parameter, and then it names
    such a parameter; it is complete exactly with a path and a handler. *)
Theorem C75_roles (w : wmethod) (q : rpat) (e : wedge) : let d := derive w q e in let p := dw_pat d in
  dw_recv d = wm_pkg w +:+ "." +:+ wm_recv w ∧ dw_methods d = [wm_name w] ∧ rp_call p = "^" +:+ quote_meta (wm_name w) +:+ "$" ∧
  (rp_path p = true ↔ rp_path q = true ∧ ∃ i, passes method_of function_of w e (rp_path_idx q) i) ∧
  (rp_path p = true → ∃ i, rp_path_idx p = Z.of_nat i ∧ passes method_of function_of w e (rp_path_idx q) i) ∧
  (rp_handler p = true ↔ rp_handler q = true ∧ ∃ i, passes method_of function_of w e (rp_handler_idx q) i) ∧
  (rp_handler p = true → ∃ i, rp_handler_idx p = Z.of_nat i ∧ passes method_of function_of w e (rp_handler_idx q) i) ∧
  (rp_verb p = true ↔ ∃ j i, verb_argument q j ∧ passes method_of function_of w e j i) ∧
  (rp_verb p = true → ∃ j i, rp_verb_idx p = Z.of_nat i ∧ verb_argument q j ∧ passes method_of function_of w e j i) ∧
  (rp_verb_call p = true ↔ rp_verb p = false ∧
     to_upper (wm_name w) ∈ ["GET"; "POST"; "PUT"; "DELETE"; "PATCH"; "OPTIONS"; "HEAD"; "CONNECT"; "TRACE"]) ∧
  rp_verb_handler p = false ∧ rp_verb_path p = false ∧
  (dw_complete d = true ↔ rp_path p = true ∧ rp_handler p = true).
Proof.
  cbv zeta. cbn [derive_wrapper dw_recv dw_methods dw_pat dw_complete rp_call rp_path rp_path_idx rp_handler rp_handler_idx rp_verb rp_verb_idx rp_verb_call rp_verb_handler rp_verb_path].
  pose proof (role_spec (rp_path q) w e (rp_path_idx q)) as [H1 H2]. pose proof (role_spec (rp_handler q) w e (rp_handler_idx q)) as [H3 H4].
  split; [done|]. split; [done|]. split; [done|]. split; [exact H1|]. split; [exact H2|]. split; [exact H3|]. split; [exact H4|].
  assert (∀ o : option nat, bool_decide (o = None) = negb (bool_decide (is_Some o))) as Hn.
  { intros [n|]; [rewrite bool_decide_eq_false_2 by done; by rewrite bool_decide_eq_true_2 by done|].
    rewrite bool_decide_eq_true_2 by done. by rewrite bool_decide_eq_false_2 by (by intros [? ?]). }
  set (o := match inner_verb_arg_index q with Some i => index_of method_of function_of w (arg_at e i) | None => None end).
  split; [|split; [|split; [|split; [done|split; [done|by rewrite andb_true_iff]]]]].
  - subst o. pose proof (verb_argument_spec q) as Hv. destruct (inner_verb_arg_index q) as [j|].
    + pose proof (index_arg w e j) as H. destruct (index_of method_of function_of w (arg_at e j)) as [i|].
      * rewrite bool_decide_eq_true_2 by done. split; [|done]. intros _. exists j, i. split; [by apply Hv|done].
      * rewrite bool_decide_eq_false_2 by (by intros [? ?]). split; [done|]. intros (j' & i & [= <-]%Hv & Hi). by apply H in Hi.
    + rewrite bool_decide_eq_false_2 by (by intros [? ?]). split; [done|]. by intros (j' & i & [=]%Hv & _).
  - subst o. pose proof (verb_argument_spec q) as Hv. destruct (inner_verb_arg_index q) as [j|].
    + pose proof (index_arg w e j) as H. destruct (index_of method_of function_of w (arg_at e j)) as [i|].
      * intros _. exists j, i. split; [done|]. split; [by apply Hv|done].
      * rewrite bool_decide_eq_false_2 by (by intros [? ?]). done.
    + rewrite bool_decide_eq_false_2 by (by intros [? ?]). done.
  - rewrite Hn, andb_true_iff, negb_true_iff. unfold named_for_verb. by rewrite bool_decide_eq_true.
Qed.

(** The methods found are exactly those that rest on a registration of the
    configuration over a chain of at most four calls, every wrapper between being
    complete. *)
Theorem C75_found_exact (config : list rpat) (es : list wedge) (k : string) :
  is_Some (found config es !! k) ↔ ∃ n, n ≤ 4 ∧ rests_on matches modpath config es (found config es) n k.
Proof.
  unfold detect_found. rewrite rounds_run. unfold detect_rounds. split.
  - intros [d Hd]. by apply (found_rests _ _ _ _ _ _ _ _ _ Hd).
  - intros (n & Hn & Hr). destruct (rests_found _ _ _ _ _ _ _ _ _ Hn Hr) as [d Hd]. exists d. by eapply run_mono.
Qed.
(** What is recorded for a method is derived from a call in it that a pattern of the
    configuration, or the pattern of a complete wrapper, describes. *)
Theorem C75_recorded (config : list rpat) (es : list wedge) (k : string) (d : dwrap) :
  found config es !! k = Some d →
  ∃ e w q, e ∈ es ∧ written_in modpath e w ∧ method_key w = k ∧ matches q e = true ∧ d = derive w q e ∧
    (q ∈ config ∨ ∃ k' d', found config es !! k' = Some d' ∧ dw_complete d' = true ∧ q = dw_pat d').
Proof. unfold detect_found. rewrite rounds_run. apply found_derived. Qed.
(** A method with a registration of the configuration in it is described by the first
    such call and the first pattern that describes the call. *)
Theorem C75_direct (config : list rpat) (es : list wedge) (k : string) (d : dwrap) :
  (∃ e w q, e ∈ es ∧ written_in modpath e w ∧ method_key w = k ∧ q ∈ config ∧ matches q e = true) →
  found config es !! k = Some d ↔
  ∃ i e w j q, es !! i = Some e ∧ written_in modpath e w ∧ method_key w = k ∧ config !! j = Some q ∧ matches q e = true ∧
    (∀ j' q', j' < j → config !! j' = Some q' → matches q' e = false) ∧ d = derive w q e ∧
    ∀ i' e' w' q', i' < i → es !! i' = Some e' → written_in modpath e' w' → method_key w' = k → q' ∈ config → matches q' e' = false.
Proof.
  intros (e & w & q & He & Hw & Hk & Hq & Hm). unfold detect_found. rewrite rounds_run.
  destruct (run_rounds method_of function_of matches modpath 1 config es ∅) as [s f] eqn:E1. pose proof E1 as E. cbn [run_rounds] in E.
  apply round_spec in E as (_ & I2 & I3 & _). destruct (I3 e w q He Hw Hq Hm) as [d0 Hd0]. rewrite Hk in Hd0.
  assert ((run_rounds method_of function_of matches modpath detect_rounds config es ∅).2 !! k = Some d0) as H4.
  { apply (run_mono _ _ _ _ 1); [unfold detect_rounds; lia|]. by rewrite E1. }
  rewrite H4, <- Hd0. apply I2. apply lookup_empty.
Qed.
End wrappers.
Print Assumptions C75_roles.
Print Assumptions C75_found_exact.
Print Assumptions C75_recorded.
Print Assumptions C75_direct.

(** chi in front of gitea's router: [Get] forwards to [Methods], which forwards to
    [chi.Mux.Method]. *)
Definition by_name (p : rpat) (e : wedge) : bool := bool_decide (rp_call p = "^" +:+ we_callee e +:+ "$").
Definition chi_method : rpat := RPat "^Method$" "" true 1 true 2 true 0 false false false.
Definition app : string := "example.com/app".
Definition web : string := "example.com/app/web".
Definition calls_chi : wedge := WEdge "*Router" web "Methods" "github.com/go-chi/chi/v5" "Method"
  [Some (ident "methods"); Some (call_with (select (ident "r") "getPattern") [ident "pattern"]); Some (ident "handlerFunc")].
Definition calls_own (name callee verb : string) : wedge := WEdge "*Router" web name web callee [Some (ident verb); Some (ident "pattern"); Some (ident "h")].
Definition registers : wedge := WEdge "*Router" web "routes" "github.com/go-chi/chi/v5" "Method" [Some (ident "GET"); Some (ident "/users"); Some (ident "listUsers")].
Definition gitea_edges : list wedge := [calls_own "Get" "Methods" "GET"; calls_own "Post" "Methods" "POST"; calls_chi; registers].
Example C75_example : let f := detect_found gitea no_function by_name app [chi_method] gitea_edges in
  dom f = {[ "example.com/app/web.*Router.Get"; "example.com/app/web.*Router.Post"; "example.com/app/web.*Router.Methods"; "example.com/app/web.*Router.routes" ]} ∧
  (dw_pat <$> f !! "example.com/app/web.*Router.Methods") =
    Some (RPat "^Methods$" "^example\.com/app/web\.\*?Router$" true 1 true 2 true 0 false false false) ∧
  (dw_pat <$> f !! "example.com/app/web.*Router.Get") =
    Some (RPat "^Get$" "^example\.com/app/web\.\*?Router$" true 0 true 1 false 0 true false false) ∧
  (dw_complete <$> f !! "example.com/app/web.*Router.Get") = Some true ∧
  (dw_complete <$> f !! "example.com/app/web.*Router.routes") = Some false ∧
  written_in app calls_chi router_method ∧ by_name chi_method calls_chi = true.
Proof.
  cbv zeta. split; [by apply (bool_decide_unpack _); vm_compute|]. split; [by vm_compute|]. split; [by vm_compute|].
  split; [by vm_compute|]. split; [by vm_compute|]. split; [|by vm_compute].
  split; [done|]. split; [done|]. split; [done|]. split; [by exists "/web"|done].
Qed.

(** Full statement, false: a method that forwards its parameters to a registration is
    found complete — an earlier call in it that forwards nothing stands in the way. *)
Definition forwards_verbatim : wedge := WEdge "*Router" web "Get" "github.com/go-chi/chi/v5" "Method" [Some (ident "GET"); Some (ident "pattern"); Some (ident "h")].
Definition logs_first : wedge := WEdge "*Router" web "Get" "github.com/go-chi/chi/v5" "Method" [Some (ident "HEAD"); Some (ident "/probe"); Some (ident "probe")].
Theorem C75_earlier_call_refuted :
  ∃ method_of function_of matches modpath config es e w q d, e ∈ es ∧ written_in modpath e w ∧ q ∈ config ∧ matches q e = true ∧
    dw_complete (derive_wrapper method_of function_of w q e) = true ∧
    detect_found method_of function_of matches modpath config es !! method_key w = Some d ∧ dw_complete d = false.
Proof.
  exists gitea, no_function, by_name, app, [chi_method], [logs_first; forwards_verbatim], forwards_verbatim, (WMethod web "*Router" "Get"), chi_method.
  eexists. split; [right; left|]. split.
  { split; [done|]. split; [done|]. split; [done|]. split; [by exists "/web"|done]. }
  split; [left|]. split; [by vm_compute|]. split; [by vm_compute|]. split; [vm_compute; reflexivity|by vm_compute].
Qed.
Print Assumptions C75_earlier_call_refuted.

(** Full statement, false: only types of the module are described — a package of
    another module whose path begins with the same letters counts. *)
Definition other_module : wedge := WEdge "*Router" "example.com/application" "Get" "github.com/go-chi/chi/v5" "Method" [Some (ident "GET"); Some (ident "pattern"); Some (ident "h")].
Theorem C75_other_module_refuted :
  ∃ method_of function_of matches modpath config es k d, detect_found method_of function_of matches modpath config es !! k = Some d ∧ dw_complete d = true ∧
    ∀ e, e ∈ es → we_pkg e ≠ modpath ∧ ∀ rest, we_pkg e ≠ modpath +:+ "/" +:+ rest.
Proof.
  exists gitea, no_function, by_name, app, [chi_method], [other_module], "example.com/application.*Router.Get". eexists.
  split; [vm_compute; reflexivity|]. split; [by vm_compute|]. intros e ->%elem_of_list_singleton. split; [done|]. intros rest E. by inversion E.
Qed.
Print Assumptions C75_other_module_refuted.

(** Full statement, false: a wrapper is found however long the chain — five calls are
    one too many. *)
Definition chain : list wedge :=
  [calls_own "A5" "A4" "v"; calls_own "A4" "A3" "v"; calls_own "A3" "A2" "v"; calls_own "A2" "A1" "v"; calls_own "A1" "Method" "v"].
Definition forwarding (w : wmethod) : option (list string * (string → list sarg)) := Some (["v"; "pattern"; "h"], λ _, []).
Theorem C75_long_chain_refuted :
  ∃ method_of function_of matches modpath config es n k, rests_on matches modpath config es (detect_found method_of function_of matches modpath config es) n k ∧
    detect_found method_of function_of matches modpath config es !! k = None.
Proof.
  exists forwarding, no_function, by_name, app, [chi_method], chain, 5, (web +:+ ".*Router.A5"). split; [|by vm_compute].
  assert (∀ name callee, written_in app (calls_own name callee "v") (WMethod web "*Router" name)) as Hw.
  { intros name callee. split; [done|]. split; [done|]. split; [done|]. split; [by exists "/web"|done]. }
  set (f := detect_found forwarding no_function by_name app [chi_method] chain).
  assert (∀ name callee n d, f !! method_key (WMethod web "*Router" callee) = Some d → dw_complete d = true → by_name (dw_pat d) (calls_own name callee "v") = true →
    calls_own name callee "v" ∈ chain →
    rests_on by_name app [chi_method] chain f n (method_key (WMethod web "*Router" callee)) → rests_on by_name app [chi_method] chain f (S n) (method_key (WMethod web "*Router" name))) as Hs.
  { intros name callee n d Hd Hc Hm Hin Hr. by eapply rests_step. }
  change (web +:+ ".*Router.A5") with (method_key (WMethod web "*Router" "A5")).
  eapply (Hs "A5" "A4"); [vm_compute; reflexivity|by vm_compute|by vm_compute|unfold chain; left|].
  eapply (Hs "A4" "A3"); [vm_compute; reflexivity|by vm_compute|by vm_compute|unfold chain; right; left|].
  eapply (Hs "A3" "A2"); [vm_compute; reflexivity|by vm_compute|by vm_compute|unfold chain; right; right; left|].
  eapply (Hs "A2" "A1"); [vm_compute; reflexivity|by vm_compute|by vm_compute|unfold chain; right; right; right; left|].
  apply (rests_config by_name app [chi_method] chain f (calls_own "A1" "Method" "v") (WMethod web "*Router" "A1") chi_method); [unfold chain; right; right; right; right; left|apply Hw|left|by vm_compute].
Qed.
Print Assumptions C75_long_chain_refuted.

(** ** C76: groups *)
Section groups.
Context (method_of : wmethod → option (list string * (string → list sarg))) (function_of : wmethod → option (string → list sarg)).
Context (matches : rpat → wedge → bool) (modpath : string) (config : list rpat) (es : list wedge).
Notation found := (detect_found method_of function_of matches modpath config es).
(** No dot in the name of a type, nothing special in the name of a method. *)
Definition plain_names : Prop := ∀ e, e ∈ es → dotless (we_recv e) ∧ plain (we_name e).
Lemma found_from_methods : plain_names → from_methods method_of function_of found.
Proof.
  intros Hpl k d Hk. apply C75_recorded in Hk as (e & w & q & He & Hw & Hkw & _ & Hd & _). exists w, q, e.
  destruct Hw as (_ & _ & _ & _ & ->). destruct (Hpl e He) as [? ?]. done.
Qed.
(** Every method found is in a group with its receiver and roles; every member of a
    group is a method found with the receiver and roles of the group; a group lists its
    methods sorted and its call expression is the alternation of them. *)
Theorem C76_groups_exact iter iter' : is_order iter → is_order iter' → plain_names → let out := group_wrappers iter iter' found in
  (∀ k d, found !! k = Some d → ∃ g m, g ∈ out ∧ same_roles g d ∧ dw_methods d = [m] ∧ m ∈ dw_methods g) ∧
  (∀ g m, g ∈ out → m ∈ dw_methods g → ∃ d, found !! (dw_recv g +:+ "." +:+ m) = Some d ∧ same_roles g d) ∧
  (∀ g, g ∈ out → dw_methods g ≠ [] ∧ StronglySorted string_le (dw_methods g) ∧ NoDup (dw_methods g) ∧
    rp_call (dw_pat g) = "^(" +:+ str_join "|" (dw_methods g) +:+ ")$") ∧
  (∀ g g', g ∈ out → g' ∈ out → same_roles g g' → g = g') ∧
  StronglySorted wrap_le out.
Proof.
  intros Hi Hi' Hpl out. pose proof (found_from_methods Hpl) as Hf.
  set (it := iter (map_to_list found)). assert (it ≡ₚ map_to_list found) as Hp by apply Hi.
  assert (∀ g, g ∈ out ↔ ∃ gk, group_of it gk = Some g) as Hout by (intros g; by apply elem_of_groups).
  assert (∀ gk g, group_of it gk = Some g → ∃ k d, found !! k = Some d ∧ group_key d = gk ∧ same_roles g d) as Hrep.
  { intros gk g Hg. destruct (group_of_spec _ it gk g Hp Hg) as (k & d & ? & ? & ? & _). eauto. }
  assert (∀ a b c, same_roles a b → same_roles c b → same_roles a c) as Hsr.
  { unfold same_roles. intros a b c (? & ? & ? & ? & ? & ? & ? & ? & ? & ? & ? & ?) (? & ? & ? & ? & ? & ? & ? & ? & ? & ? & ? & ?).
    repeat (split; [congruence|]). congruence. }
  assert (∀ a b, same_roles a b → same_roles b a) as Hsym by (intros a b H; eapply Hsr; [|exact H]; by repeat split).
  split; [|split; [|split; [|split]]].
  - intros k d Hk. destruct (group_of_some _ it k d Hp Hk) as [g Hg]. destruct (entry_key _ _ _ Hf k d Hk) as (m & Hm & _).
    exists g, m. split; [apply Hout; eauto|]. split; [|split; [done|]].
    + destruct (Hrep _ _ Hg) as (k' & d' & Hk' & Hgk & Hs). eapply Hsr; [exact Hs|]. by apply (entry_roles _ _ _ Hf k k').
    + apply (group_methods _ _ _ Hf it _ _ _ Hp Hg). eauto.
  - intros g m (gk & Hg)%Hout Hm. apply (group_methods _ _ _ Hf it _ _ _ Hp Hg) in Hm as (k & d & Hk & Hm & Hgk).
    destruct (Hrep _ _ Hg) as (k' & d' & Hk' & Hgk' & Hs).
    assert (same_roles g d) as Hgd. { eapply Hsr; [exact Hs|]. apply (entry_roles _ _ _ Hf k k'); [done|done|congruence]. }
    exists d. split; [|done]. destruct (entry_key _ _ _ Hf k d Hk) as (m' & Hm' & Hkk & _). destruct Hgd as (-> & _).
    assert (m' = m) as <- by congruence. by rewrite <- Hkk.
  - intros g (gk & Hg)%Hout. destruct (group_of_spec _ it gk g Hp Hg) as (k & d & Hk & Hgk & Hs & Hms & Hc & _).
    pose proof (λ m, group_methods _ _ _ Hf it gk g m Hp Hg) as Hm. split; [|split; [|split]].
    + destruct (entry_key _ _ _ Hf k d Hk) as (m & Hdm & _). intros E. assert (m ∈ dw_methods g) as H by (apply Hm; eauto). rewrite E in H. by apply elem_of_nil in H.
    + rewrite Hms. apply ssort_sorted.
    + rewrite Hms, (ssort_perm _).
      assert (∀ l, NoDup l → (∀ k d, (k, d) ∈ l → found !! k = Some d) → NoDup (concat (dw_methods <$> filter (λ d, group_key d = gk) l.*2))) as Hnd.
      { intros l. induction l as [|[k1 d1] l IH]; intros Hnd Hl; [constructor|]. apply NoDup_cons in Hnd as [Hni Hnd].
        rewrite fmap_cons. cbn [snd]. destruct (decide (group_key d1 = gk)) as [Eg|Eg].
        - rewrite filter_cons_True by done. rewrite fmap_cons. cbn [concat].
          destruct (entry_key _ _ _ Hf k1 d1 ltac:(apply Hl; left)) as (m1 & Hm1 & Hk1 & _). rewrite Hm1. cbn [app]. apply NoDup_cons. split.
          + intros H. apply elem_of_concat in H as (ms & H & Hm1s). apply elem_of_list_fmap in H as (d2 & -> & H).
            apply elem_of_list_filter in H as [Hg2 H]. apply elem_of_list_fmap in H as ([k2 d2'] & -> & H). cbn [snd] in *.
            assert (found !! k2 = Some d2') as Hk2 by (apply Hl; by right). destruct (entry_key _ _ _ Hf k2 d2' Hk2) as (m2 & Hm2 & Hkk2 & _).
            rewrite Hm2 in Hm1s. apply elem_of_list_singleton in Hm1s as ->.
            assert (found !! k1 = Some d1) as Hk1' by (apply Hl; left).
            assert (dw_recv d1 = dw_recv d2') as Hr. { by destruct (proj1 (entry_roles _ _ _ Hf _ _ _ _ Hk1' Hk2) ltac:(congruence)) as (? & _). }
            assert (k1 = k2) as <- by congruence. assert (d2' = d1) as -> by congruence. done.
          + apply IH; [done|]. intros k2 d2 H. apply Hl. by right.
        - rewrite filter_cons_False by done. apply IH; [done|]. intros k2 d2 H. apply Hl. by right. }
      apply Hnd; [rewrite Hp; apply NoDup_map_to_list|]. intros k0 d0 H. rewrite Hp in H. by apply elem_of_map_to_list in H.
    + rewrite Hc. do 3 f_equal. assert (Forall plain (dw_methods g)) as Hall.
      { apply Forall_forall. intros m (k0 & d0 & Hk0 & Hm0 & _)%Hm. destruct (entry_key _ _ _ Hf k0 d0 Hk0) as (m' & Hm' & _ & Hpm). by replace m with m' by congruence. }
      clear -Hall. induction Hall as [|m l Hm Hl IH]; [done|]. rewrite fmap_cons, IH. by rewrite quote_plain.
  - intros g g' (gk & Hg)%Hout (gk' & Hg')%Hout Hs. destruct (Hrep _ _ Hg) as (k & d & Hk & Hgk & Hsd). destruct (Hrep _ _ Hg') as (k' & d' & Hk' & Hgk' & Hsd').
    assert (group_key d = group_key d') as E.
    { apply (entry_roles _ _ _ Hf k k'); [done|done|]. apply (Hsr d g d'); [by apply Hsym|]. apply (Hsr d' g' g); [by apply Hsym|done]. }
    congruence.
  - apply groups_sorted.
Qed.
(** The groups do not depend on the orders the maps are read in, but for the report of
    what they delegate to. *)
Theorem C76_determined iter iter' iter2 iter2' : is_order iter → is_order iter' → is_order iter2 → is_order iter2' → plain_names →
  but_via <$> group_wrappers iter iter' found = but_via <$> group_wrappers iter2 iter2' found.
Proof. intros ? ? ? ? Hpl. by eapply group_determined; [apply found_from_methods|..]. Qed.
End groups.
Print Assumptions C76_groups_exact.
Print Assumptions C76_determined.

Example C76_example : let f := detect_found gitea no_function by_name app [chi_method] gitea_edges in
  plain_names gitea_edges ∧
  (λ g, (dw_methods g, rp_call (dw_pat g), dw_complete g)) <$> group_wrappers id id f =
    [(["Get"; "Post"], "^(Get|Post)$", true); (["Methods"], "^(Methods)$", true); (["routes"], "^(routes)$", false)].
Proof.
  split; [|by vm_compute].
  assert (Forall (λ e, dotless (we_recv e) ∧ plain (we_name e)) gitea_edges) as H; [|by rewrite Forall_forall in H].
  assert (∀ s, Forall (λ c, contains_byte c s = false) ["\"; "."; "+"; "*"; "?"; "("; ")"; "|"; "["; "]"; "{"; "}"; "^"; "$"]%char → plain s) as Hp.
  { intros s Hs c Hc. rewrite Forall_forall in Hs. by apply Hs. }
  repeat constructor; apply Hp; apply (bool_decide_unpack _); by vm_compute.
Qed.

(** Full statement, false: the report is the same for every order — of a group that
    delegates in two ways the one met first is reported. *)
Definition two_ways : list wedge :=
  [WEdge "*Router" web "Get" "chi" "Method" [Some (ident "GET"); Some (ident "pattern"); Some (ident "h")];
   WEdge "*Router" web "Post" "mux" "Method" [Some (ident "POST"); Some (ident "pattern"); Some (ident "h")]].
Theorem C76_report_refuted :
  ∃ method_of function_of matches modpath config es iter iter2, is_order iter ∧ is_order iter2 ∧ plain_names es ∧
    group_wrappers iter id (detect_found method_of function_of matches modpath config es) ≠
    group_wrappers iter2 id (detect_found method_of function_of matches modpath config es).
Proof.
  exists gitea, no_function, by_name, app, [chi_method], two_ways, id, reverse. split; [by intros l|]. split; [intros l; apply reverse_Permutation|].
  split.
  { assert (Forall (λ e, dotless (we_recv e) ∧ plain (we_name e)) two_ways) as H; [|by rewrite Forall_forall in H].
    assert (∀ s, Forall (λ c, contains_byte c s = false) ["\"; "."; "+"; "*"; "?"; "("; ")"; "|"; "["; "]"; "{"; "}"; "^"; "$"]%char → plain s) as Hp.
    { intros s Hs c Hc. rewrite Forall_forall in Hs. by apply Hs. }
    repeat constructor; apply Hp; apply (bool_decide_unpack _); by vm_compute. }
  intros E. apply (f_equal (fmap dw_via)) in E. vm_compute in E. discriminate E.
Qed.
Print Assumptions C76_report_refuted.
