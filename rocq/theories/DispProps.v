(** * Splitting one registration into several verbs: C32 and C58. *)
From Coq Require Import Ascii.
From stdpp Require Import base list strings gmap.
From Verif Require Import StrLib PathModel PairModel PairProofs VerbModel VerbProps DispModel.

(** ** Specification *)
(** A verb named by some branch. *)
Definition named (bs : list branch) (v : string) : Prop := ∃ b, b ∈ bs ∧ v ∈ br_methods b.
(** A line inside a branch of the verb. *)
Definition in_branch (bs : list branch) (v : string) (line : nat) : Prop :=
  ∃ b, b ∈ bs ∧ v ∈ br_methods b ∧ br_start b ≤ line ∧ line ≤ br_end b.
(** A call site known to be in the handler's file. *)
Definition at_handler {B} (file : string) (x : located B) : Prop := file ≠ "" ∧ 0 < lo_line x ∧ lo_file x = file.
(** Routes that agree on everything but the method, the verbs of the registration, the operation
    suffix, the request and the responses. *)
Definition same_registration {B R} (a b : route B R) : Prop :=
  rt_package a = rt_package b ∧ rt_function a = rt_function b ∧ rt_explicit a = rt_explicit b ∧ rt_rest a = rt_rest b.

Section core.
  Context {B R : Type}.
  Implicit Types rt nr : route B R.

  (** ** Collecting the ranges *)
  Definition good (seen : list (string * (nat * nat))) (acc : list string * gmap string (list (nat * nat))) : Prop :=
    NoDup acc.1 ∧ (∀ m, m ∈ acc.1 ↔ is_Some (acc.2 !! m)) ∧ (∀ m, m ∈ acc.1 ↔ ∃ r, (m, r) ∈ seen) ∧
    ∀ m r, r ∈ default [] (acc.2 !! m) ↔ (m, r) ∈ seen.
  Lemma good_step seen acc b m : good seen acc → good (seen ++ [(m, (br_start b, br_end b))]) (note_verb b acc m).
  Proof.
    destruct acc as [order ranges]. intros (H1 & H2 & H3 & H4). unfold note_verb, good; cbn [fst snd] in *.
    assert (Hr : ∀ m' r, r ∈ default [] (<[m := default [] (ranges !! m) ++ [(br_start b, br_end b)]]> ranges !! m') ↔
      (m', r) ∈ seen ++ [(m, (br_start b, br_end b))]).
    { intros m' r. rewrite elem_of_app, elem_of_list_singleton. destruct (decide (m = m')) as [<-|Hne].
      - rewrite lookup_insert. change (r ∈ default [] (ranges !! m) ++ [(br_start b, br_end b)] ↔ (m, r) ∈ seen ∨ (m, r) = (m, (br_start b, br_end b))).
        rewrite elem_of_app, elem_of_list_singleton, H4.
        split; intros [H|H]; [by left|right; by rewrite H|by left|right; by injection H].
      - rewrite lookup_insert_ne by done. rewrite H4. split; [by left|]. intros [H|[= -> _]]; done. }
    assert (Hk : ∀ m', is_Some (<[m := default [] (ranges !! m) ++ [(br_start b, br_end b)]]> ranges !! m') ↔ m' = m ∨ is_Some (ranges !! m')).
    { intros m'. rewrite lookup_insert_is_Some. destruct (decide (m' = m)) as [->|]; naive_solver. }
    assert (Ho : NoDup (match ranges !! m with Some _ => order | None => order ++ [m] end) ∧
      ∀ m', m' ∈ match ranges !! m with Some _ => order | None => order ++ [m] end ↔ m' = m ∨ m' ∈ order).
    { destruct (ranges !! m) as [x|] eqn:E.
      - split; [done|]. intros m'. split; [by right|]. intros [->|]; [|done]. apply H2. by rewrite E.
      - split.
        + apply NoDup_app. split; [done|]. split; [|apply NoDup_singleton]. intros x Hx. rewrite elem_of_list_singleton. intros ->.
          apply H2 in Hx. rewrite E in Hx. by destruct Hx.
        + intros m'. rewrite elem_of_app, elem_of_list_singleton. tauto. }
    destruct Ho as [Ho1 Ho2]. split; [done|]. split; [|split; [|done]].
    - intros m'. rewrite Ho2, Hk, H2. done.
    - intros m'. rewrite Ho2, H3. setoid_rewrite elem_of_app. setoid_rewrite elem_of_list_singleton. split.
      + intros [->|[r Hr']]; [eexists; by right|eexists; by left].
      + intros [r [Hr'|[= -> _]]]; [right; by eexists|by left].
  Qed.
  Lemma good_branch b ms : ∀ seen acc, good seen acc → good (seen ++ ((λ m, (m, (br_start b, br_end b))) <$> ms)) (foldl (note_verb b) acc ms).
  Proof.
    induction ms as [|m ms IH]; intros seen acc H; cbn; [by rewrite app_nil_r|].
    rewrite cons_middle, app_assoc. apply IH, good_step, H.
  Qed.
  Lemma good_collect bs : good (flat_map (λ b, (λ m, (m, (br_start b, br_end b))) <$> br_methods b) bs) (collect bs).
  Proof.
    unfold collect. assert (H : ∀ bs seen acc, good seen acc →
      good (seen ++ flat_map (λ b, (λ m, (m, (br_start b, br_end b))) <$> br_methods b) bs) (foldl (λ acc b, foldl (note_verb b) acc (br_methods b)) acc bs)).
    { clear. induction bs as [|b bs IH]; intros seen acc H; cbn; [by rewrite app_nil_r|]. rewrite app_assoc. apply IH, good_branch, H. }
    apply (H bs [] ([], ∅)). split; [constructor|]. split_and!; intros m; cbn [fst snd].
    - rewrite lookup_empty. split; [by intros ?%elem_of_nil|by intros [? ?]].
    - split; [by intros ?%elem_of_nil|by intros [? ?%elem_of_nil]].
    - intros r. rewrite lookup_empty. split; by intros ?%elem_of_nil.
  Qed.
  Lemma pairs_spec bs m r : (m, r) ∈ flat_map (λ b, (λ m, (m, (br_start b, br_end b))) <$> br_methods b) bs ↔
    ∃ b, b ∈ bs ∧ m ∈ br_methods b ∧ r = (br_start b, br_end b).
  Proof.
    rewrite elem_of_list_In, in_flat_map. setoid_rewrite <-elem_of_list_In. split.
    - intros (b & Hb & (x & [= -> ->] & Hx)%elem_of_list_fmap). by exists b.
    - intros (b & Hb & Hm & ->). exists b. split; [done|]. apply elem_of_list_fmap. by exists m.
  Qed.
  Lemma collect_order bs : NoDup (collect bs).1 ∧ ∀ v, v ∈ (collect bs).1 ↔ named bs v.
  Proof.
    destruct (good_collect bs) as (H1 & _ & H3 & _). split; [done|]. intros v. rewrite H3. setoid_rewrite pairs_spec. split.
    - intros (r & b & Hb & Hv & _). by exists b.
    - intros (b & Hb & Hv). by exists (br_start b, br_end b), b.
  Qed.
  Lemma in_ranges_spec bs v line : in_ranges (default [] ((collect bs).2 !! v)) line = true ↔ in_branch bs v line.
  Proof.
    destruct (good_collect bs) as (_ & _ & _ & H4). unfold in_ranges. rewrite existsb_exists. setoid_rewrite <-elem_of_list_In.
    setoid_rewrite H4. setoid_rewrite pairs_spec. setoid_rewrite andb_true_iff. setoid_rewrite bool_decide_eq_true. split.
    - intros (r & (b & Hb & Hv & ->) & H1 & H2). by exists b.
    - intros (b & Hb & Hv & H1 & H2). exists (br_start b, br_end b). split; [by exists b|done].
  Qed.
  Lemma belongs_to_spec file bs v (x : located B) : belongs_to file (default [] ((collect bs).2 !! v)) x = true ↔
    ¬ at_handler file x ∨ in_branch bs v (lo_line x).
  Proof.
    unfold belongs_to, inside_handler, at_handler. rewrite <-in_ranges_spec.
    destruct (bool_decide (file = "")) eqn:E1; [apply bool_decide_eq_true in E1; cbn; split; [intros _; left; tauto|done]|apply bool_decide_eq_false in E1].
    destruct (bool_decide (0 < lo_line x)) eqn:E2; [apply bool_decide_eq_true in E2|apply bool_decide_eq_false in E2; cbn; split; [intros _; left; tauto|done]].
    destruct (bool_decide (lo_file x = file)) eqn:E3; [apply bool_decide_eq_true in E3|apply bool_decide_eq_false in E3; cbn; split; [intros _; left; tauto|done]].
    cbn. split; [by right|]. intros [H|H]; [exfalso; tauto|done].
  Qed.

  Lemma split_route_verb rt bs file nr : nr ∈ split_route rt bs file → (∃ v, named bs v) →
    nr = verb_route rt file (default [] ((collect bs).2 !! rt_method nr)) (rt_method nr) ∧ named bs (rt_method nr).
  Proof.
    unfold split_route. destruct (collect_order bs) as [_ Ho]. destruct (collect bs) as [order ranges]. cbn [fst snd] in *.
    destruct order as [|m0 order'].
    - intros _ [v Hv]. apply Ho in Hv. by apply elem_of_nil in Hv.
    - intros (m & -> & Hm)%elem_of_list_fmap _. cbn. split; [done|]. by apply Ho.
  Qed.

  (** ** Theorems *)
  (** One route for every verb named by a branch, and no other. *)
  Theorem C32_one_route_per_verb rt bs file : (∃ v, named bs v) →
    NoDup (rt_method <$> split_route rt bs file) ∧ ∀ v, v ∈ (rt_method <$> split_route rt bs file) ↔ named bs v.
  Proof.
    intros [v0 H0]. unfold split_route. destruct (collect_order bs) as [Hn Ho]. destruct (collect bs) as [order ranges]. cbn [fst snd] in *.
    destruct order as [|m0 order'] eqn:E; [apply Ho in H0; by apply elem_of_nil in H0|]. rewrite <-E in *. clear E.
    rewrite <-list_fmap_compose.
    assert (rt_method ∘ (λ m, verb_route rt file (default [] (ranges !! m)) m) <$> order = order) as ->; [|by split].
    clear. induction order as [|m l IH]; [done|]. cbn. f_equal. apply IH.
  Qed.
  (** A registration whose branches name no verb stays as it is. *)
  Theorem C32_no_verb rt bs file : (¬ ∃ v, named bs v) → split_route rt bs file = [rt].
  Proof.
    intros H. unfold split_route. destruct (collect_order bs) as [_ Ho]. destruct (collect bs) as [order ranges]. cbn [fst snd] in *.
    destruct order as [|m l]; [done|]. destruct H. exists m. apply Ho. apply elem_of_list_here.
  Qed.
  (** A verb's route has exactly the responses of the registration that are not in the handler's
      file, or are in a branch of that verb. *)
  Theorem C32_responses rt bs file nr slot r : nr ∈ split_route rt bs file → (∃ v, named bs v) →
    rt_response nr !! slot = Some (Some r) ↔
    rt_response rt !! slot = Some (Some r) ∧ (¬ at_handler file r ∨ in_branch bs (rt_method nr) (lo_line r)).
  Proof.
    intros Hnr Hv. destruct (split_route_verb _ _ _ _ Hnr Hv) as [E _]. rewrite E at 1. cbn. rewrite lookup_omap, <-belongs_to_spec.
    destruct (rt_response rt !! slot) as [[x|]|]; cbn.
    - destruct (belongs_to file (default [] ((collect bs).2 !! rt_method nr)) x) eqn:Eb; split.
      + intros [= <-]. by split.
      + by intros [[= <-] _].
      + done.
      + intros [[= <-] Hb]. by rewrite Eb in Hb.
    - split; [done|by intros [? _]].
    - split; [done|by intros [? _]].
  Qed.
  Theorem C32_request rt bs file nr r : nr ∈ split_route rt bs file → (∃ v, named bs v) →
    rt_request nr = Some r ↔ rt_request rt = Some r ∧ (¬ at_handler file r ∨ in_branch bs (rt_method nr) (lo_line r)).
  Proof.
    intros Hnr Hv. destruct (split_route_verb _ _ _ _ Hnr Hv) as [E _]. rewrite E at 1. cbn. rewrite <-belongs_to_spec.
    destruct (rt_request rt) as [x|].
    - destruct (belongs_to file (default [] ((collect bs).2 !! rt_method nr)) x) eqn:Eb; split.
      + intros [= <-]. by split.
      + by intros [[= <-] _].
      + done.
      + intros [[= <-] Hb]. by rewrite Eb in Hb.
    - split; [done|by intros [? _]].
  Qed.
  (** No slot is left without a response, and the rest of the registration is copied. *)
  Theorem C32_rest rt bs file nr : nr ∈ split_route rt bs file → (∃ v, named bs v) →
    same_registration nr rt ∧ rt_extra nr = rt_extra rt ∧ rt_suffix nr = rt_method nr ∧ ∀ slot, rt_response nr !! slot ≠ Some None.
  Proof.
    intros Hnr Hv. destruct (split_route_verb _ _ _ _ Hnr Hv) as [E _]. rewrite E. cbn. split_and!; try done.
    intros slot. rewrite lookup_omap. destruct (rt_response rt !! slot) as [[x|]|]; cbn; [|done..]. by destruct (belongs_to _ _ x).
  Qed.
  (** Operations of one registration have different names. *)
  Lemma suffix_inj base (a b : route B R) : same_registration a b → rt_suffix a ≠ "" → rt_suffix b ≠ "" →
    operation_id base a = operation_id base b → rt_suffix a = rt_suffix b.
  Proof.
    intros (Hp & Hf & _) Ha Hb. unfold operation_id. rewrite Hp, Hf.
    destruct (bool_decide (rt_suffix a = "")) eqn:E1; [by apply bool_decide_eq_true in E1|].
    destruct (bool_decide (rt_suffix b = "")) eqn:E2; [by apply bool_decide_eq_true in E2|].
    intros H. apply (inj (String.append _)) in H. by injection H.
  Qed.
  Theorem C32_split_names base rt bs file i j a b : (∃ v, named bs v) → ¬ named bs "" →
    split_route rt bs file !! i = Some a → split_route rt bs file !! j = Some b → operation_id base a = operation_id base b → i = j.
  Proof.
    intros Hv Hne Hi Hj Hid. pose proof (elem_of_list_lookup_2 _ _ _ Hi) as Ha. pose proof (elem_of_list_lookup_2 _ _ _ Hj) as Hb.
    destruct (C32_rest rt bs file a Ha Hv) as ((Ap & Af & Ae & Ar) & _ & As & _). destruct (C32_rest rt bs file b Hb Hv) as ((Bp & Bf & Be & Br) & _ & Bs & _).
    destruct (split_route_verb _ _ _ _ Ha Hv) as [_ An]. destruct (split_route_verb _ _ _ _ Hb Hv) as [_ Bn].
    assert (Hm : rt_method a = rt_method b).
    { rewrite <-As, <-Bs. apply (suffix_inj base); [split_and!; congruence| | |done].
      - rewrite As. intros E. apply Hne. by rewrite <-E.
      - rewrite Bs. intros E. apply Hne. by rewrite <-E. }
    destruct (C32_one_route_per_verb rt bs file Hv) as [Hnd _]. eapply (NoDup_lookup _ i j (rt_method a)); [done| |].
    - by rewrite list_lookup_fmap, Hi.
    - rewrite list_lookup_fmap, Hj. cbn. by rewrite Hm.
  Qed.
  (** A route registered with a verb is never split, and neither is one whose handler does not
      dispatch. *)
  Theorem C32_explicit_stays find rt : rt_explicit rt = true → split_routes find [rt] = [rt].
  Proof. intros H. unfold split_routes, dispatch_for. cbn. rewrite H. by destruct (bool_decide _). Qed.
  Theorem C32_only_dispatching find rt : rt_explicit rt = false → rt_function rt ≠ "" →
    split_routes find [rt] = match find (rt_package rt) (if bool_decide (rt_package rt = "") then rt_function rt else trim_prefix (rt_package rt +:+ ".") (rt_function rt)) with
      | Some (bs, pos) => if bool_decide (bs = []) then [rt] else split_route rt bs (file_of_position pos)
      | None => [rt]
      end.
  Proof.
    intros He Hf. unfold split_routes, dispatch_for. cbn. rewrite app_nil_r, He.
    destruct (bool_decide (rt_function rt = "")) eqn:E; [by apply bool_decide_eq_true in E|].
    destruct (find _ _) as [[bs pos]|]; [|done]. by destruct bs.
  Qed.

  (** ** Registrations that name several verbs *)
  Theorem C32_expand rt : rt_extra rt ≠ [] →
    (rt_method <$> expand_route rt) = rt_method rt :: rt_extra rt ∧
    ∀ nr, nr ∈ expand_route rt → same_registration nr rt ∧ rt_response nr = rt_response rt ∧ rt_request nr = rt_request rt ∧
      rt_suffix nr = rt_method nr ∧ rt_extra nr = [].
  Proof.
    intros H. unfold expand_route. destruct (rt_extra rt) as [|x l] eqn:E; [done|]. split.
    - cbn. do 2 f_equal. rewrite <-list_fmap_compose. clear. induction l as [|y l IH]; [done|]. cbn. f_equal. apply IH.
    - intros nr (m & -> & Hm)%elem_of_list_fmap. cbn. by split_and!.
  Qed.
  Theorem C32_expand_single rt : rt_extra rt = [] → expand_route rt = [rt].
  Proof. intros H. unfold expand_route. by rewrite H. Qed.
  (** With the verbs read from the argument of the registration, names never collide. *)
  Theorem C32_expand_names base rt raw i j a b : rt_method rt :: rt_extra rt = verbs_from_arg (Some raw) →
    expand_route rt !! i = Some a → expand_route rt !! j = Some b → operation_id base a = operation_id base b → i = j.
  Proof.
    intros Hv Hi Hj Hid. destruct (decide (rt_extra rt = [])) as [He|He].
    { rewrite C32_expand_single in Hi, Hj by done. destruct i, j; done. }
    destruct (C32_expand rt He) as [Hm Hall]. pose proof (elem_of_list_lookup_2 _ _ _ Hi) as Ha. pose proof (elem_of_list_lookup_2 _ _ _ Hj) as Hb.
    destruct (Hall a Ha) as ((Ap & Af & Ae & Ar) & _ & _ & As & _). destruct (Hall b Hb) as ((Bp & Bf & Be & Br) & _ & _ & Bs & _).
    assert (Hnd : NoDup (verbs_from_arg (Some raw)) ∧ ∀ v, v ∈ verbs_from_arg (Some raw) → v ≠ "").
    { assert (Hne : verbs_from_arg (Some raw) ≠ []) by by rewrite <-Hv.
      unfold verbs_from_arg in *. destruct (decide (raw = "")); [done|]. destruct (verbs_loop _ []) as [l|] eqn:E; [|done]. cbn.
      revert E. assert (G : ∀ parts acc l, NoDup acc → (∀ v, v ∈ acc → v ≠ "") → verbs_loop parts acc = Some l → NoDup l ∧ ∀ v, v ∈ l → v ≠ "").
      { clear. induction parts as [|p parts IH]; intros acc l H1 H2; cbn [verbs_loop]; [by intros [= <-]|].
        destruct (bool_decide (verb_of p = "")) eqn:E1; [done|]. apply bool_decide_eq_false in E1.
        destruct (valid_method (verb_of p)); cbn [orb negb]; [|done]. apply IH.
        - destruct (decide (verb_of p ∈ acc)); [done|]. apply NoDup_app. split; [done|]. split; [|apply NoDup_singleton].
          intros x Hx. rewrite elem_of_list_singleton. by intros ->.
        - intros v. destruct (decide (verb_of p ∈ acc)); [apply H2|]. rewrite elem_of_app, elem_of_list_singleton. intros [?| ->]; [by apply H2|done]. }
      apply G; [constructor|]. by intros v ?%elem_of_nil. }
    destruct Hnd as [Hnd Hnz]. rewrite Hv in Hm.
    assert (Hin : ∀ x, x ∈ expand_route rt → rt_method x ≠ "").
    { intros x Hx. apply Hnz. rewrite <-Hm. apply elem_of_list_fmap. by exists x. }
    assert (Hmm : rt_method a = rt_method b).
    { rewrite <-As, <-Bs. apply (suffix_inj base); [split_and!; congruence| | |done]; [rewrite As; by apply Hin|rewrite Bs; by apply Hin]. }
    rewrite <-Hm in Hnd. eapply (NoDup_lookup _ i j (rt_method a)); [done| |].
    - by rewrite list_lookup_fmap, Hi.
    - rewrite list_lookup_fmap, Hj. cbn. by rewrite Hmm.
  Qed.
End core.

(** The file of a position, colons in the file name included. *)
Theorem C32_file_of_position file line col : contains_byte ":" line = false → contains_byte ":" col = false →
  file_of_position (file +:+ ":" +:+ line +:+ ":" +:+ col) = file.
Proof.
  intros Hl Hc. unfold file_of_position.
  assert (file +:+ ":" +:+ line +:+ ":" +:+ col = (file +:+ String ":" line) +:+ String ":" col) as ->.
  { by rewrite sapp_assoc. }
  rewrite split_last_app by done. by rewrite split_last_app.
Qed.

(** ** What the lines cannot tell *)
(** [handler] occupies the lines from [a] to [b] of its file: a response written elsewhere, in the
    same file, is lost for every verb. *)
Theorem C32_shared_helper_refuted : ∃ (rt : route unit unit) (bs : list branch) (file slot : string) (a b : nat) (r : located unit),
  (∀ x, x ∈ bs → a ≤ br_start x ∧ br_end x ≤ b) ∧ (∃ v, named bs v) ∧ rt_response rt !! slot = Some (Some r) ∧
  (lo_file r = file ∧ b < lo_line r) ∧ ∀ nr, nr ∈ split_route rt bs file → rt_response nr !! slot = None.
Proof.
  exists (Route "m/api" "m/api.items" "" false "" [] {[ "400" := Some (Located "api.go" 40 ()) ]} None ()),
    [Branch ["GET"] 11 14; Branch ["POST"] 15 18], "api.go", "400", 10, 20, (Located "api.go" 40 ()).
  split; [|split; [|split; [by vm_compute|split; [cbn; split; [done|lia]|]]]].
  - intros x Hx. apply elem_of_cons in Hx as [->|Hx]; [cbn; lia|]. apply elem_of_list_singleton in Hx as ->. cbn; lia.
  - exists "GET". eexists. split; [apply elem_of_list_here|]. apply elem_of_list_here.
  - intros nr Hnr. vm_compute in Hnr. apply elem_of_cons in Hnr as [->|Hnr]; [done|]. by apply elem_of_list_singleton in Hnr as ->.
Qed.

(** ** The arms of a handler (C58) *)
(** Go's choice of an arm: a request of method [m] can take an arm whose test can hold, and passes
    one whose test can fail. An operand that is not a constant can do either. *)
Definition can_hold (m : string) (g : test) : bool :=
  match g with Other => true | Is ops => bool_decide (Some m ∈ ops) || bool_decide (None ∈ ops) end.
Definition can_fail (m : string) (g : test) : bool := match g with Other => true | Is ops => negb (bool_decide (Some m ∈ ops)) end.
(** The sites a request of method [m] can reach. *)
Fixpoint runs (m : string) (s : stmt) : list nat :=
  match s with
  | Site l => [l]
  | Nest body => flat_map (runs m) body
  | Choice _ arms rest =>
      (fix go arms := match arms with
        | [] => flat_map (runs m) rest
        | (g, _, body) :: arms => (if can_hold m g then flat_map (runs m) body else []) ++ (if can_fail m g then go arms else [])
        end) arms
  end.
(** All sites. *)
Fixpoint sites (s : stmt) : list nat :=
  match s with
  | Site l => [l]
  | Nest body => flat_map sites body
  | Choice _ arms rest => flat_map (λ a, flat_map sites a.2) arms ++ flat_map sites rest
  end.
(** [all P l]: every element satisfies [P]; as a fixpoint, to recur through it. *)
Definition all {A} (P : A → Prop) : list A → Prop := fix go l := match l with [] => True | x :: l => P x ∧ go l end.
(** Handlers written as expected: tests of the method compare with verbs, spelled in capitals, no
    verb is tested twice in one statement, and an arm chosen by the method does not test it
    again. *)
Fixpoint untested (s : stmt) : Prop :=
  match s with
  | Site _ => True
  | Nest body => all untested body
  | Choice sw arms rest => sw = false ∧ all (λ a, a.1.1 = Other ∧ all untested a.2) arms ∧ all untested rest
  end.
Definition operands (g : test) : list (option string) := match g with Other => [] | Is ops => ops end.
Definition verbal (g : test) : Prop := match g with Other => True | Is ops => ops ≠ [] ∧ ∀ o, o ∈ ops → ∃ v, o = Some v ∧ v ∈ http_verbs end.
Fixpoint expected (s : stmt) : Prop :=
  match s with
  | Site _ => True
  | Nest body => all expected body
  | Choice sw arms rest =>
      all (λ a, verbal a.1.1) arms ∧ NoDup (flat_map (λ a, operands a.1.1) arms) ∧ (sw = true → arms ≠ [] ∧ all (λ a, a.1.1 ≠ Other) arms) ∧
      all (λ a, match a.1.1 with Other => all expected a.2 | Is _ => all untested a.2 end) arms ∧ all expected rest
  end.
(** The arms chosen by the method: those of the outermost statements that test it. *)
Fixpoint arms_of (s : stmt) : list (list (option string) * (nat * nat) * list stmt) :=
  match s with
  | Site _ => []
  | Nest body => flat_map arms_of body
  | Choice _ arms rest =>
      let here := omap (λ a, match a.1.1 with Is ops => Some (ops, a.1.2, a.2) | Other => None end) arms in
      match here with
      | [] => flat_map (λ a, flat_map arms_of a.2) arms ++ flat_map arms_of rest
      | _ => here
      end
  end.
(** One site a line, and the lines of an arm are those of its sites. *)
Definition laid_out (body : list stmt) : Prop :=
  NoDup (flat_map sites body) ∧
  ∀ a l, a ∈ flat_map arms_of body → l ∈ flat_map sites body → (a.1.2.1 ≤ l ∧ l ≤ a.1.2.2) ↔ l ∈ flat_map sites a.2.
Definition in_arm (body : list stmt) (l : nat) : Prop := ∃ a, a ∈ flat_map arms_of body ∧ l ∈ flat_map sites a.2.

(** *** Lemmas *)
Lemma stmt_ind' (P : stmt → Prop) :
  (∀ l, P (Site l)) → (∀ body, Forall P body → P (Nest body)) →
  (∀ sw arms rest, Forall (λ a, Forall P a.2) arms → Forall P rest → P (Choice sw arms rest)) → ∀ s, P s.
Proof.
  intros H1 H2 H3. fix IH 1. intros [l|body|sw arms rest].
  - apply H1.
  - apply H2. induction body as [|s body IHb]; constructor; [apply IH|apply IHb].
  - apply H3.
    + induction arms as [|[g b] arms IHa]; constructor; [|apply IHa]. cbn. induction b as [|s b IHb]; constructor; [apply IH|apply IHb].
    + induction rest as [|s rest IHr]; constructor; [apply IH|apply IHr].
Qed.
Lemma all_Forall {A} (P : A → Prop) l : all P l ↔ Forall P l.
Proof.
  induction l as [|x l IH]; cbn; [split; [intros _; constructor|done]|]. rewrite IH. split; [intros [? ?]; by constructor|]. intros H. by apply Forall_cons in H.
Qed.
Lemma untested_nest body : untested (Nest body) ↔ Forall untested body.
Proof. apply all_Forall. Qed.
Lemma untested_choice sw arms rest : untested (Choice sw arms rest) ↔
  sw = false ∧ Forall (λ a, a.1.1 = Other ∧ Forall untested a.2) arms ∧ Forall untested rest.
Proof.
  cbn. rewrite !all_Forall. assert (∀ a : test * (nat * nat) * list stmt, (a.1.1 = Other ∧ all untested a.2) ↔ (a.1.1 = Other ∧ Forall untested a.2)) as H.
  { intros a. by rewrite all_Forall. }
  split; intros (? & Ha & ?); (split; [done|split; [|done]]); (eapply Forall_impl; [exact Ha|]); intros a; apply H.
Qed.
Lemma expected_nest body : expected (Nest body) ↔ Forall expected body.
Proof. apply all_Forall. Qed.
Lemma expected_choice sw arms rest : expected (Choice sw arms rest) ↔
  Forall (λ a, verbal a.1.1) arms ∧ NoDup (flat_map (λ a, operands a.1.1) arms) ∧ (sw = true → arms ≠ [] ∧ Forall (λ a, a.1.1 ≠ Other) arms) ∧
  Forall (λ a, match a.1.1 with Other => Forall expected a.2 | Is _ => Forall untested a.2 end) arms ∧ Forall expected rest.
Proof.
  cbn. rewrite !all_Forall.
  assert (∀ a : test * (nat * nat) * list stmt, match a.1.1 with Other => all expected a.2 | Is _ => all untested a.2 end ↔
    match a.1.1 with Other => Forall expected a.2 | Is _ => Forall untested a.2 end) as H.
  { intros a. destruct (a.1.1); by rewrite all_Forall. }
  split; intros (H1 & H2 & H3 & Ha & H5); (split; [done|split; [done|split; [done|split; [|done]]]]); (eapply Forall_impl; [exact Ha|]); intros a; apply H.
Qed.
Lemma elem_flat_map {A C} (f : A → list C) l y : y ∈ flat_map f l ↔ ∃ x, x ∈ l ∧ y ∈ f x.
Proof. rewrite elem_of_list_In, in_flat_map. setoid_rewrite elem_of_list_In. done. Qed.
Lemma NoDup_flat_map_in {A} (f : A → list nat) l x : NoDup (flat_map f l) → x ∈ l → NoDup (f x).
Proof.
  intros H Hx. induction l as [|y l IH]; [by apply elem_of_nil in Hx|]. cbn in H. apply NoDup_app in H as (H1 & _ & H2).
  apply elem_of_cons in Hx as [->|Hx]; [done|by apply IH].
Qed.
Lemma NoDup_flat_map_same {A} (f : A → list nat) l x y v : NoDup (flat_map f l) → x ∈ l → y ∈ l → v ∈ f x → v ∈ f y → x = y.
Proof.
  intros H Hx Hy Vx Vy. induction l as [|z l IH]; [by apply elem_of_nil in Hx|]. cbn in H. apply NoDup_app in H as (_ & H & H2).
  apply elem_of_cons in Hx. apply elem_of_cons in Hy. destruct Hx as [Ex|Hx], Hy as [Ey|Hy]; [congruence|subst z..|by apply IH].
  - destruct (H v Vx). apply elem_flat_map. by exists y.
  - destruct (H v Vy). apply elem_flat_map. by exists x.
Qed.
Definition runs_arms (m : string) (rest : list stmt) : list (test * (nat * nat) * list stmt) → list nat :=
  fix go arms := match arms with
    | [] => flat_map (runs m) rest
    | (g, _, body) :: arms => (if can_hold m g then flat_map (runs m) body else []) ++ (if can_fail m g then go arms else [])
    end.
Lemma runs_choice m sw arms rest : runs m (Choice sw arms rest) = runs_arms m rest arms.
Proof. done. Qed.
(** What can run is reached through a test that can hold. *)
Lemma runs_arms_inv m rest arms l : l ∈ runs_arms m rest arms →
  (∃ a, a ∈ arms ∧ can_hold m a.1.1 = true ∧ l ∈ flat_map (runs m) a.2) ∨ l ∈ flat_map (runs m) rest.
Proof.
  induction arms as [|[[g p] b] arms IH]; cbn [runs_arms]; [by right|]. rewrite elem_of_app. intros [H|H].
  - destruct (can_hold m g) eqn:E; [|by apply elem_of_nil in H]. left. eexists. split; [apply elem_of_list_here|]. done.
  - destruct (can_fail m g); [|by apply elem_of_nil in H]. destruct (IH H) as [(a & Ha & Hh & Hl)|?]; [|by right].
    left. exists a. split; [by right|done].
Qed.
(** An arm is reached when every test before it can fail. *)
Lemma runs_arms_intro m rest arms1 a arms2 l : Forall (λ x, can_fail m x.1.1 = true) arms1 → can_hold m a.1.1 = true →
  l ∈ flat_map (runs m) a.2 → l ∈ runs_arms m rest (arms1 ++ a :: arms2).
Proof.
  intros H Hh Hl. induction H as [|[[g p] b] arms1 Hx _ IH]; cbn [runs_arms app].
  - destruct a as [[g p] b]. cbn in Hh. rewrite Hh. rewrite elem_of_app. by left.
  - cbn in Hx. rewrite Hx, elem_of_app. by right.
Qed.
Lemma runs_arms_rest m rest arms l : Forall (λ x, can_fail m x.1.1 = true) arms → l ∈ flat_map (runs m) rest → l ∈ runs_arms m rest arms.
Proof. intros H Hl. induction H as [|[[g p] b] arms Hx _ IH]; cbn [runs_arms]; [done|]. cbn in Hx. rewrite Hx, elem_of_app. by right. Qed.

Lemma runs_sites m s : ∀ l, l ∈ runs m s → l ∈ sites s.
Proof.
  induction s as [l|body IH|sw arms rest IHa IHr] using stmt_ind'; intros l'; [done| |].
  - cbn. rewrite !elem_flat_map. intros (s & Hs & Hl). exists s. split; [done|]. rewrite Forall_forall in IH. by apply IH.
  - rewrite runs_choice. intros H. cbn [sites]. rewrite elem_of_app. rewrite Forall_forall in IHa. rewrite Forall_forall in IHr.
    apply runs_arms_inv in H as [(a & Ha & _ & Hl)|Hl].
    + left. apply elem_flat_map. exists a. split; [done|]. rewrite elem_flat_map in Hl. destruct Hl as (s & Hs & Hl). apply elem_flat_map. exists s. split; [done|].
      specialize (IHa a Ha). rewrite Forall_forall in IHa. by apply IHa.
    + right. rewrite elem_flat_map in Hl. destruct Hl as (s & Hs & Hl). apply elem_flat_map. exists s. split; [done|]. by apply IHr.
Qed.
Lemma untested_runs m s : untested s → ∀ l, l ∈ sites s → l ∈ runs m s.
Proof.
  induction s as [l|body IH|sw arms rest IHa IHr] using stmt_ind'; intros Hu l'; [done| |].
  - rewrite untested_nest in Hu. cbn. rewrite !elem_flat_map. intros (s & Hs & Hl). exists s. split; [done|]. rewrite Forall_forall in IH. rewrite Forall_forall in Hu. apply IH; [done|by apply Hu|done].
  - rewrite untested_choice in Hu. destruct Hu as (_ & Ha & Hr). rewrite runs_choice. cbn [sites]. rewrite elem_of_app.
    assert (Hf : Forall (λ x : test * (nat * nat) * list stmt, can_fail m x.1.1 = true) arms).
    { eapply Forall_impl; [exact Ha|]. intros x [-> _]. done. }
    rewrite Forall_forall in IHa. rewrite Forall_forall in IHr. rewrite Forall_forall in Ha. rewrite Forall_forall in Hr. intros [H|H].
    + apply elem_flat_map in H as (a & Hin & H). apply elem_of_list_split in Hin as Hs. destruct Hs as (l1 & l2 & ->).
      apply Forall_app in Hf as [Hf _]. apply runs_arms_intro; [done| |].
      * destruct (Ha a Hin) as [-> _]. done.
      * apply elem_flat_map in H as (s & Hs & H). apply elem_flat_map. exists s. split; [done|].
        specialize (IHa a Hin). destruct (Ha a Hin) as [_ Hu]. rewrite Forall_forall in IHa. rewrite Forall_forall in Hu. apply IHa; [done|by apply Hu|done].
    + apply runs_arms_rest; [done|]. apply elem_flat_map in H as (s & Hs & H). apply elem_flat_map. exists s. split; [done|]. apply IHr; [done|by apply Hr|done].
Qed.

Lemma upper_verb v : v ∈ http_verbs → const_verb (Some v) = Some v.
Proof.
  intros H. unfold const_verb. repeat (apply elem_of_cons in H as [->|H]; [by vm_compute|]). by apply elem_of_nil in H.
Qed.
Lemma verbal_verbs (ops : list (option string)) : (∀ o, o ∈ ops → ∃ v, o = Some v ∧ v ∈ http_verbs) → ∀ v, v ∈ omap const_verb ops ↔ Some v ∈ ops.
Proof.
  intros H v. rewrite elem_of_list_omap. split.
  - intros (o & Ho & E). destruct (H o Ho) as (w & -> & Hw). rewrite upper_verb in E by done. by injection E as ->.
  - intros Hv. exists (Some v). split; [done|]. destruct (H _ Hv) as (w & [= <-] & Hw). by apply upper_verb.
Qed.
Definition here_arms (arms : list (test * (nat * nat) * list stmt)) : list (list (option string) * (nat * nat) * list stmt) :=
  omap (λ a, match a.1.1 with Is ops => Some (ops, a.1.2, a.2) | Other => None end) arms.
Lemma here_spec arms x : x ∈ here_arms arms ↔ (Is x.1.1, x.1.2, x.2) ∈ arms.
Proof.
  unfold here_arms. rewrite elem_of_list_omap. split.
  - intros ([[g p] b] & Ha & E). cbn in E. destruct g as [|ops]; [done|]. injection E as <-. done.
  - intros H. exists (Is x.1.1, x.1.2, x.2). split; [done|]. by destruct x as [[? ?] ?].
Qed.
Definition branch_of (a : list (option string) * (nat * nat) * list stmt) : branch := Branch (omap const_verb a.1.1) a.1.2.1 a.1.2.2.
Lemma arm_branches_here arms : Forall (λ a, verbal a.1.1) arms → arm_branches arms = branch_of <$> here_arms arms.
Proof.
  induction 1 as [|[[g [p q]] b] arms Hv _ IH]; [done|]. unfold arm_branches, here_arms in *. cbn in Hv |- *.
  destruct g as [|ops]; cbn; [done|]. destruct Hv as [Hne Hv].
  destruct (omap const_verb ops) as [|v vs] eqn:E.
  - exfalso. destruct ops as [|o ops]; [done|]. destruct (Hv o) as (v & -> & Hin); [apply elem_of_list_here|].
    assert (v ∈ omap const_verb (Some v :: ops)) as Hx by (apply verbal_verbs; [done|apply elem_of_list_here]).
    rewrite E in Hx. by apply elem_of_nil in Hx.
  - cbn. f_equal; [|done]. unfold branch_of. cbn. by rewrite E.
Qed.
Lemma here_nil arms : here_arms arms = [] → Forall (λ a : test * (nat * nat) * list stmt, a.1.1 = Other) arms.
Proof.
  induction arms as [|[[g p] b] arms IH]; intros H; [constructor|]. unfold here_arms in *. cbn in H. destruct g; [|done]. constructor; [done|by apply IH].
Qed.
Lemma flat_map_fmap {A C D} (f : C → D) (g : A → list C) l : f <$> flat_map g l = flat_map (λ x, f <$> g x) l.
Proof. induction l as [|x l IH]; [done|]. cbn. by rewrite fmap_app, IH. Qed.
Lemma flat_map_ext_in {A C} (f g : A → list C) l : (∀ x, x ∈ l → f x = g x) → flat_map f l = flat_map g l.
Proof. intros H. induction l as [|x l IH]; [done|]. cbn. rewrite H by apply elem_of_list_here. f_equal. apply IH. intros y Hy. apply H. by right. Qed.
(** The branches detected are those of the arms chosen by the method. *)
Lemma detect_arms s : expected s → detect s = branch_of <$> arms_of s.
Proof.
  induction s as [l|body IH|sw arms rest IHa IHr] using stmt_ind'; intros He; [done| |].
  - rewrite expected_nest in He. cbn. rewrite flat_map_fmap. apply flat_map_ext_in. intros x Hx. rewrite Forall_forall in IH. rewrite Forall_forall in He. apply IH; [done|by apply He].
  - rewrite expected_choice in He. destruct He as (Hv & _ & Hsw & Hb & Hr). cbn [detect arms_of]. change (omap _ arms) with (here_arms arms). rewrite arm_branches_here by done.
    destruct (here_arms arms) as [|x xs] eqn:E; [|by destruct sw].
    apply here_nil in E. cbn. destruct sw.
    + destruct (Hsw eq_refl) as [Hne Ho]. destruct arms as [|a arms]; [done|].
      apply Forall_cons in E as [E _]. apply Forall_cons in Ho as [Ho _]. done.
    + rewrite fmap_app, !flat_map_fmap. rewrite Forall_forall in IHa. rewrite Forall_forall in IHr. rewrite Forall_forall in Hb. rewrite Forall_forall in Hr. rewrite Forall_forall in E. f_equal; apply flat_map_ext_in.
      * intros a Ha. rewrite flat_map_fmap. apply flat_map_ext_in. intros s Hs. specialize (IHa a Ha). specialize (Hb a Ha). rewrite (E a Ha) in Hb.
        rewrite Forall_forall in IHa. rewrite Forall_forall in Hb. apply IHa; [done|by apply Hb].
      * intros s Hs. apply IHr; [done|by apply Hr].
Qed.
(** Where the arms lie, and what they compare with. *)
Lemma arms_sites s a l : a ∈ arms_of s → l ∈ flat_map sites a.2 → l ∈ sites s.
Proof.
  induction s as [l0|body IH|sw arms rest IHa IHr] using stmt_ind'; intros Ha Hl; [by apply elem_of_nil in Ha| |].
  - cbn in Ha |- *. apply elem_flat_map in Ha as (s & Hs & Ha). apply elem_flat_map. exists s. split; [done|]. rewrite Forall_forall in IH. by apply IH.
  - cbn [arms_of] in Ha. change (omap _ arms) with (here_arms arms) in Ha. cbn [sites]. rewrite elem_of_app.
    destruct (here_arms arms) as [|x xs] eqn:E.
    + rewrite Forall_forall in IHa. rewrite Forall_forall in IHr. apply elem_of_app in Ha as [Ha|Ha]; [left|right].
      * apply elem_flat_map in Ha as (y & Hy & Ha). apply elem_flat_map. exists y. split; [done|]. apply elem_flat_map in Ha as (s & Hs & Ha).
        apply elem_flat_map. exists s. split; [done|]. specialize (IHa y Hy). rewrite Forall_forall in IHa. by apply IHa.
      * apply elem_flat_map in Ha as (s & Hs & Ha). apply elem_flat_map. exists s. split; [done|]. by apply IHr.
    + left. rewrite <-E in Ha. apply here_spec in Ha. apply elem_flat_map. eexists. split; [exact Ha|done].
Qed.
Lemma arms_tested s a : expected s → a ∈ arms_of s → verbal (Is a.1.1).
Proof.
  induction s as [l0|body IH|sw arms rest IHa IHr] using stmt_ind'; intros He Ha; [by apply elem_of_nil in Ha| |].
  - rewrite expected_nest in He. cbn in Ha. apply elem_flat_map in Ha as (s & Hs & Ha). rewrite Forall_forall in IH. rewrite Forall_forall in He. apply (IH s); try done. by apply He.
  - rewrite expected_choice in He. destruct He as (Hv & _ & _ & Hb & He). cbn [arms_of] in Ha. change (omap _ arms) with (here_arms arms) in Ha.
    rewrite Forall_forall in IHa. rewrite Forall_forall in IHr. rewrite Forall_forall in Hb. rewrite Forall_forall in He. rewrite Forall_forall in Hv. destruct (here_arms arms) as [|x xs] eqn:E.
    + apply here_nil in E. rewrite Forall_forall in E. apply elem_of_app in Ha as [Ha|Ha].
      * apply elem_flat_map in Ha as (y & Hy & Ha). apply elem_flat_map in Ha as (s & Hs & Ha).
        specialize (IHa y Hy). specialize (Hb y Hy). rewrite (E y Hy) in Hb. rewrite Forall_forall in IHa. rewrite Forall_forall in Hb. apply (IHa s); try done. by apply Hb.
      * apply elem_flat_map in Ha as (s & Hs & Ha). apply (IHr s); try done. by apply He.
    + rewrite <-E in Ha. apply here_spec in Ha. by apply (Hv _ Ha).
Qed.
Lemma arms_verbal s a : expected s → a ∈ arms_of s → ∀ o, o ∈ a.1.1 → ∃ v, o = Some v ∧ v ∈ http_verbs.
Proof. intros He Ha. by destruct (arms_tested s a He Ha). Qed.
Lemma arms_nonempty s a : expected s → a ∈ arms_of s → ∃ o, o ∈ a.1.1.
Proof.
  intros He Ha. destruct (arms_tested s a He Ha) as [Hne _]. destruct (a.1.1) as [|o l]; [done|]. exists o. apply elem_of_list_here.
Qed.
(** An arm is run by the methods it names. *)
Lemma arm_runs m s a l : expected s → a ∈ arms_of s → Some m ∈ a.1.1 → l ∈ flat_map sites a.2 → l ∈ runs m s.
Proof.
  induction s as [l0|body IH|sw arms rest IHa IHr] using stmt_ind'; intros He Ha Hm Hl; [by apply elem_of_nil in Ha| |].
  - rewrite expected_nest in He. cbn in Ha |- *. apply elem_flat_map in Ha as (s & Hs & Ha). apply elem_flat_map. exists s. split; [done|].
    rewrite Forall_forall in IH. rewrite Forall_forall in He. apply IH; try done. by apply He.
  - rewrite expected_choice in He. destruct He as (Hv & Hnd & Hsw & Hb & Hr). cbn [arms_of] in Ha. change (omap _ arms) with (here_arms arms) in Ha. rewrite runs_choice.
    destruct (here_arms arms) as [|x xs] eqn:E.
    + apply here_nil in E.
      assert (Hf : Forall (λ x : test * (nat * nat) * list stmt, can_fail m x.1.1 = true) arms).
      { eapply Forall_impl; [exact E|]. by intros x ->. }
      rewrite Forall_forall in IHa. rewrite Forall_forall in IHr. rewrite Forall_forall in Hb. rewrite Forall_forall in Hr. rewrite Forall_forall in E. apply elem_of_app in Ha as [Ha|Ha].
      * apply elem_flat_map in Ha as (y & Hy & Ha). apply elem_flat_map in Ha as (s & Hs & Ha).
        specialize (IHa y Hy). specialize (Hb y Hy). rewrite (E y Hy) in Hb. rewrite Forall_forall in IHa. rewrite Forall_forall in Hb.
        assert (Hh : can_hold m y.1.1 = true) by by rewrite (E y Hy).
        apply elem_of_list_split in Hy as (l1 & l2 & ->). apply Forall_app in Hf as [Hf _]. apply runs_arms_intro; [done|done|].
        apply elem_flat_map. exists s. split; [done|]. apply IHa; try done. by apply Hb.
      * apply runs_arms_rest; [done|]. apply elem_flat_map in Ha as (s & Hs & Ha). apply elem_flat_map. exists s. split; [done|].
        apply IHr; try done. by apply Hr.
    + rewrite <-E in Ha. apply here_spec in Ha. pose proof Ha as Hin. apply elem_of_list_split in Ha as (l1 & l2 & ->).
      apply runs_arms_intro.
      * rewrite flat_map_app in Hnd. apply NoDup_app in Hnd as (_ & Hnd & _). apply Forall_forall. intros y Hy. unfold can_fail.
        destruct (y.1.1) as [|ops] eqn:Ey; [done|]. rewrite bool_decide_eq_false_2; [done|]. intros Hops. apply (Hnd (Some m)).
        -- apply elem_flat_map. exists y. by rewrite Ey.
        -- cbn. apply elem_of_app. by left.
      * cbn. by rewrite bool_decide_eq_true_2.
      * rewrite Forall_forall in Hb. specialize (Hb _ Hin). cbn in Hb. rewrite Forall_forall in Hb. cbn.
        apply elem_flat_map in Hl as (s & Hs & Hl). apply elem_flat_map. exists s. split; [done|]. apply untested_runs; [by apply Hb|done].
Qed.
(** A site of an arm is run only by the methods the arm names. *)
Lemma runs_arm m s a l : expected s → NoDup (sites s) → a ∈ arms_of s → l ∈ flat_map sites a.2 → l ∈ runs m s → Some m ∈ a.1.1.
Proof.
  induction s as [l0|body IH|sw arms rest IHa IHr] using stmt_ind'; intros He Hnd Ha Hl Hr; [by apply elem_of_nil in Ha| |].
  - rewrite expected_nest in He. cbn in Ha, Hr, Hnd. apply elem_flat_map in Ha as (s & Hs & Ha). apply elem_flat_map in Hr as (s' & Hs' & Hr).
    assert (Hsa : l ∈ sites s) by by eapply arms_sites. apply runs_sites in Hr as Hr'.
    assert (s = s') as <- by by eapply (NoDup_flat_map_same sites body).
    rewrite Forall_forall in IH. rewrite Forall_forall in He. apply (IH s); try done; [by apply He|by eapply NoDup_flat_map_in].
  - rewrite expected_choice in He. destruct He as (Hv & _ & Hsw & Hb & He). cbn [sites] in Hnd. apply NoDup_app in Hnd as (Hn1 & Hn2 & Hn3).
    cbn [arms_of] in Ha. change (omap _ arms) with (here_arms arms) in Ha. rewrite runs_choice in Hr.
    assert (Hcases : (∃ y, y ∈ arms ∧ can_hold m y.1.1 = true ∧ l ∈ flat_map (runs m) y.2 ∧ l ∈ flat_map sites y.2) ∨ (l ∈ flat_map (runs m) rest ∧ l ∈ flat_map sites rest)).
    { apply runs_arms_inv in Hr as [(y & Hy & Hh & Hr)|Hr]; [left; exists y|right]; split_and!; try done;
        apply elem_flat_map in Hr as (s & Hs & Hr); apply elem_flat_map; exists s; (split; [done|by eapply runs_sites]). }
    destruct (here_arms arms) as [|x xs] eqn:E.
    + apply here_nil in E. rewrite Forall_forall in IHa. rewrite Forall_forall in IHr. rewrite Forall_forall in Hb. rewrite Forall_forall in He. rewrite Forall_forall in E. apply elem_of_app in Ha as [Ha|Ha].
      * apply elem_flat_map in Ha as (y & Hy & Ha). apply elem_flat_map in Ha as (s & Hs & Ha).
        assert (Hls : l ∈ sites s) by by eapply arms_sites.
        assert (Hly : l ∈ flat_map sites y.2) by (apply elem_flat_map; by exists s).
        destruct Hcases as [(z & Hz & _ & Hrz & Hlz)|[_ Hlr]].
        -- assert (y = z) as <- by (eapply (NoDup_flat_map_same (λ a : test * (nat * nat) * list stmt, flat_map sites a.2) arms); done).
           apply elem_flat_map in Hrz as (s' & Hs' & Hr'). assert (NoDup (flat_map sites y.2)) as Hny by by eapply (NoDup_flat_map_in (λ a : test * (nat * nat) * list stmt, flat_map sites a.2)).
           assert (s = s') as <- by (eapply (NoDup_flat_map_same sites y.2); try done; by eapply runs_sites).
           specialize (IHa y Hy). specialize (Hb y Hy). rewrite (E y Hy) in Hb. rewrite Forall_forall in IHa. rewrite Forall_forall in Hb.
           apply (IHa s); try done; [by apply Hb|by eapply NoDup_flat_map_in].
        -- destruct (Hn2 l); [|done]. apply elem_flat_map. by exists y.
      * apply elem_flat_map in Ha as (s & Hs & Ha). assert (Hls : l ∈ sites s) by by eapply arms_sites.
        assert (Hlr : l ∈ flat_map sites rest) by (apply elem_flat_map; by exists s).
        destruct Hcases as [(z & Hz & _ & _ & Hlz)|[Hrr _]].
        -- destruct (Hn2 l); [|done]. apply elem_flat_map. by exists z.
        -- apply elem_flat_map in Hrr as (s' & Hs' & Hr'). assert (s = s') as <- by (eapply (NoDup_flat_map_same sites rest); try done; by eapply runs_sites).
           apply (IHr s); try done; [by apply He|by eapply NoDup_flat_map_in].
    + rewrite <-E in Ha. apply here_spec in Ha. destruct Hcases as [(z & Hz & Hh & _ & Hlz)|[_ Hlr]].
      * assert ((Is a.1.1, a.1.2, a.2) = z) as <- by (eapply (NoDup_flat_map_same (λ a : test * (nat * nat) * list stmt, flat_map sites a.2) arms); done).
        cbn in Hh. apply orb_true_iff in Hh as [Hh|Hh]; apply bool_decide_eq_true in Hh; [done|].
        rewrite Forall_forall in Hv. specialize (Hv _ Ha). cbn in Hv. destruct Hv as [_ Hv]. destruct (Hv None Hh) as (? & ? & _). done.
      * destruct (Hn2 l); [|done]. apply elem_flat_map. eexists. split; [exact Ha|done].
Qed.

(** *** Theorems *)
(** A response written in an arm of a handler laid out as expected is documented under exactly the
    methods whose requests can reach it. *)
Theorem C58_arms_documented_exactly_partial {B R} (rt nr : route B R) (body : list stmt) (file slot : string) (r : located B) :
  Forall expected body → laid_out body → nr ∈ split_route rt (detect_body body) file →
  file ≠ "" → lo_file r = file → 0 < lo_line r → in_arm body (lo_line r) → rt_response rt !! slot = Some (Some r) →
  (rt_response nr !! slot = Some (Some r) ↔ lo_line r ∈ flat_map (runs (rt_method nr)) body).
Proof.
  intros He [Hnd Hlay] Hnr Hf Hlf Hl0 (a & Ha & Hl) Hslot. pose proof Ha as Ha'. apply elem_flat_map in Ha as (s & Hs & Ha).
  rewrite Forall_forall in He.
  assert (Hls : lo_line r ∈ sites s) by by eapply arms_sites.
  assert (Hlb : lo_line r ∈ flat_map sites body) by (apply elem_flat_map; by exists s).
  assert (Hd : detect_body body = branch_of <$> flat_map arms_of body).
  { unfold detect_body. rewrite flat_map_fmap. apply flat_map_ext_in. intros x Hx. apply detect_arms. by apply He. }
  assert (Hverb : ∀ a', a' ∈ flat_map arms_of body → ∀ v, v ∈ omap const_verb a'.1.1 ↔ Some v ∈ a'.1.1).
  { intros a' Hin. apply elem_flat_map in Hin as (s' & Hs' & Hin). apply verbal_verbs. eapply arms_verbal; [by apply He|done]. }
  assert (Hex : ∃ v, named (detect_body body) v).
  { assert (Hne : ∃ v, Some v ∈ a.1.1).
    { destruct (arms_nonempty s a (He s Hs) Ha) as [o Ho]. destruct (arms_verbal s a (He s Hs) Ha o Ho) as (v & -> & _). by exists v. }
    destruct Hne as [v Hv]. exists v, (branch_of a). split; [rewrite Hd; apply elem_of_list_fmap; by exists a|]. cbn. by apply Hverb. }
  rewrite (C32_responses rt (detect_body body) file nr slot r Hnr Hex). split.
  - intros [_ [Hn|Hin]]; [destruct Hn; by split_and!|]. destruct Hin as (b & Hb & Hv & H1 & H2). rewrite Hd in Hb.
    apply elem_of_list_fmap in Hb as (a' & -> & Ha''). cbn in Hv, H1, H2. apply Hverb in Hv; [|done].
    assert (Hla : lo_line r ∈ flat_map sites a'.2) by (apply Hlay; done).
    apply elem_flat_map in Ha'' as (s' & Hs' & Ha''). apply elem_flat_map. exists s'. split; [done|].
    eapply arm_runs; try done. by apply He.
  - intros Hr. split; [done|]. right. apply elem_flat_map in Hr as (s' & Hs' & Hr).
    assert (s = s') as <- by (eapply (NoDup_flat_map_same sites body); try done; by eapply runs_sites).
    exists (branch_of a). split; [rewrite Hd; apply elem_of_list_fmap; by exists a|]. cbn. split.
    + apply Hverb; [done|]. eapply runs_arm; try done; [by apply He|by eapply NoDup_flat_map_in].
    + by apply Hlay.
Qed.

(** A check made before the switch writes its 401 under no verb, though every verb reaches it. *)
Definition checked_handler : list stmt :=
  [Choice false [(Other, (11, 14), [Site 12])] []; Choice true [(Is [Some "GET"; Some "HEAD"], (16, 18), [Site 17]); (Is [Some "POST"], (19, 21), [Site 20])] [Site 23]].
Lemma checked_expected : Forall expected checked_handler.
Proof.
  assert (Hv : ∀ v, v ∈ http_verbs → ∃ w, Some v = Some w ∧ w ∈ http_verbs) by (intros v Hv; by exists v).
  repeat constructor; cbn; try done; try (intros o [->|[->|?%elem_of_nil]%elem_of_cons]%elem_of_cons; [..|done]; apply Hv; by apply (bool_decide_unpack _); vm_compute).
  - intros o [->|?%elem_of_nil]%elem_of_cons; [|done]. apply Hv. by apply (bool_decide_unpack _); vm_compute.
  - set_solver.
  - set_solver.
  - set_solver.
Qed.
Lemma checked_laid_out : laid_out checked_handler.
Proof.
  split; [by apply (bool_decide_unpack _); vm_compute|]. intros a l Ha Hl.
  let x := eval vm_compute in (flat_map arms_of checked_handler) in change (flat_map arms_of checked_handler) with x in Ha.
  let x := eval vm_compute in (flat_map sites checked_handler) in change (flat_map sites checked_handler) with x in Hl.
  apply elem_of_cons in Ha as [->|Ha]; [|apply elem_of_list_singleton in Ha as ->];
    repeat (apply elem_of_cons in Hl as [->|Hl]; [cbn; rewrite elem_of_list_singleton; lia|]); by apply elem_of_nil in Hl.
Qed.
Definition checked_route : route unit unit :=
  Route "m/api" "m/api.items" "" false "" [] {[ "401" := Some (Located "api.go" 12 ()); "200" := Some (Located "api.go" 17 ()); "201" := Some (Located "api.go" 20 ());
    "405" := Some (Located "api.go" 23 ()); "500" := Some (Located "errors.go" 7 ()) ]} None ().
Theorem C58_shared_check_refuted : ∃ (rt : route unit unit) (body : list stmt) (file slot : string) (r : located unit),
  Forall expected body ∧ laid_out body ∧ rt_response rt !! slot = Some (Some r) ∧ lo_file r = file ∧ 0 < lo_line r ∧
  (∀ m, lo_line r ∈ flat_map (runs m) body) ∧
  ∀ nr, nr ∈ split_route rt (detect_body body) file → rt_response nr !! slot = None.
Proof.
  exists checked_route, checked_handler, "api.go", "401", (Located "api.go" 12 ()). split; [apply checked_expected|]. split; [apply checked_laid_out|].
  split; [by vm_compute|]. split; [done|]. split; [cbn; lia|]. split.
  - intros m. cbn. apply elem_of_list_here.
  - intros nr Hnr. vm_compute in Hnr. repeat (apply elem_of_cons in Hnr as [->|Hnr]; [by vm_compute|]). by apply elem_of_nil in Hnr.
Qed.
(** Whatever the handler looks like, only the nine verbs of HTTP become methods, each an operand of an arm with its lines. *)
Inductive has_arm : stmt → test * (nat * nat) * list stmt → Prop :=
  | arm_nest body s a : s ∈ body → has_arm s a → has_arm (Nest body) a
  | arm_here sw arms rest a : a ∈ arms → has_arm (Choice sw arms rest) a
  | arm_inside sw arms rest b s a : b ∈ arms → s ∈ b.2 → has_arm s a → has_arm (Choice sw arms rest) a
  | arm_rest sw arms rest s a : s ∈ rest → has_arm s a → has_arm (Choice sw arms rest) a.
Lemma arm_branches_in arms b v : b ∈ arm_branches arms → v ∈ br_methods b →
  ∃ a ops raw, a ∈ arms ∧ a.1.1 = Is ops ∧ Some raw ∈ ops ∧ v = to_upper raw ∧ v ∈ http_verbs ∧ br_start b = a.1.2.1 ∧ br_end b = a.1.2.2.
Proof.
  unfold arm_branches. intros (a & Ha & Hb)%elem_of_list_omap Hv. destruct (guard_verbs a.1.1) as [|w vs] eqn:E; [done|]. injection Hb as <-. cbn [br_methods] in Hv.
  rewrite <- E in Hv. unfold guard_verbs in Hv. destruct (a.1.1) as [|ops] eqn:Eg; [by apply elem_of_nil in Hv|].
  apply elem_of_list_omap in Hv as (o & Ho & Hv). destruct o as [raw|]; [|done]. unfold const_verb in Hv.
  destruct (decide (to_upper raw ∈ http_verbs)) as [H|H]; [rewrite bool_decide_eq_true_2 in Hv by done|by rewrite bool_decide_eq_false_2 in Hv].
  injection Hv as <-. by exists a, ops, raw.
Qed.
Theorem C58_only_verbs (body : list stmt) b v : b ∈ detect_body body → v ∈ br_methods b →
  v ∈ ["GET"; "POST"; "PUT"; "DELETE"; "PATCH"; "HEAD"; "OPTIONS"; "CONNECT"; "TRACE"] ∧
  ∃ s a ops raw, s ∈ body ∧ has_arm s a ∧ a.1.1 = Is ops ∧ Some raw ∈ ops ∧ v = to_upper raw ∧ br_start b = a.1.2.1 ∧ br_end b = a.1.2.2.
Proof.
  intros (s & Hs & Hb)%elem_flat_map Hv.
  assert (∀ s, b ∈ detect s → v ∈ http_verbs ∧ ∃ a ops raw, has_arm s a ∧ a.1.1 = Is ops ∧ Some raw ∈ ops ∧ v = to_upper raw ∧ br_start b = a.1.2.1 ∧ br_end b = a.1.2.2) as H.
  { clear s Hs Hb. intros s. induction s as [l0|l IH|sw arms rest IHa IHr] using stmt_ind'; intros Hb; [by apply elem_of_nil in Hb| |].
    - cbn in Hb. apply elem_flat_map in Hb as (s & Hs & Hb). rewrite Forall_forall in IH. destruct (IH s Hs Hb) as (H1 & a & ops & raw & H2 & H3). split; [done|].
      exists a, ops, raw. split; [by apply (arm_nest _ s)|done].
    - rewrite Forall_forall in IHa. rewrite Forall_forall in IHr.
      assert (b ∈ arm_branches arms → v ∈ http_verbs ∧ ∃ a ops raw, has_arm (Choice sw arms rest) a ∧ a.1.1 = Is ops ∧ Some raw ∈ ops ∧ v = to_upper raw ∧ br_start b = a.1.2.1 ∧ br_end b = a.1.2.2) as Hhere.
      { intros H. destruct (arm_branches_in arms b v H Hv) as (a & ops & raw & H1 & H2 & H3 & H4 & H5 & H6). split; [done|]. exists a, ops, raw. split; [by apply arm_here|done]. }
      cbn [detect] in Hb. destruct sw; [by apply Hhere|]. destruct (arm_branches arms) as [|x xs]; [|by apply Hhere].
      apply elem_of_app in Hb as [Hb|Hb].
      + apply elem_flat_map in Hb as (y & Hy & Hb). apply elem_flat_map in Hb as (s & Hs & Hb). specialize (IHa y Hy). rewrite Forall_forall in IHa.
        destruct (IHa s Hs Hb) as (H1 & a & ops & raw & H2 & H3). split; [done|]. exists a, ops, raw. split; [by apply (arm_inside _ _ _ y s)|done].
      + apply elem_flat_map in Hb as (s & Hs & Hb). destruct (IHr s Hs Hb) as (H1 & a & ops & raw & H2 & H3). split; [done|]. exists a, ops, raw.
        split; [by apply (arm_rest _ _ _ s)|done]. }
  destruct (H s Hb) as (H1 & a & ops & raw & H2 & H3). split; [done|]. by exists s, a, ops, raw.
Qed.
(** An operand that is no verb of HTTP gives no method. *)
Example C58_only_verbs_case : (br_methods <$> detect_body [Choice false [(Is [Some "LIST"; Some "get"], (11, 13), [Site 12])] []]) = [["GET"]].
Proof. by vm_compute. Qed.
(** A constant in small letters is documented as the verb, whose requests never equal it. *)
Theorem C58_small_letters_refuted : ∃ (rt nr : route unit unit) (body : list stmt) (file slot : string) (r : located unit),
  laid_out body ∧ in_arm body (lo_line r) ∧ lo_file r = file ∧ 0 < lo_line r ∧ nr ∈ split_route rt (detect_body body) file ∧
  rt_response nr !! slot = Some (Some r) ∧ lo_line r ∉ flat_map (runs (rt_method nr)) body.
Proof.
  exists (Route "m/api" "m/api.items" "" false "" [] {[ "200" := Some (Located "api.go" 12 ()) ]} None ()),
    (verb_route (Route "m/api" "m/api.items" "" false "" [] {[ "200" := Some (Located "api.go" 12 ()) ]} None ()) "api.go" [(11, 13)] "GET"),
    [Choice false [(Is [Some "get"], (11, 13), [Site 12])] []], "api.go", "200", (Located "api.go" 12 ()).
  split.
  { split; [by apply (bool_decide_unpack _); vm_compute|]. intros a l Ha Hl. cbn in Ha, Hl. apply elem_of_list_singleton in Ha as ->.
    apply elem_of_list_singleton in Hl as ->. cbn. rewrite elem_of_list_singleton. lia. }
  split; [eexists; split; [apply elem_of_list_here|apply elem_of_list_here]|]. split; [done|]. split; [cbn; lia|].
  split; [|split; [by vm_compute|]].
  - apply elem_of_list_here.
  - vm_compute. apply not_elem_of_nil.
Qed.

(** Cases meeting the hypotheses. *)
Definition slots (nr : route unit unit) : list bool := (λ k, bool_decide (is_Some (rt_response nr !! k))) <$> ["200"; "201"; "401"; "405"; "500"].
Example C32_split_example :
  (rt_method <$> split_route checked_route (detect_body checked_handler) "api.go") = ["GET"; "HEAD"; "POST"] ∧
  (slots <$> split_route checked_route (detect_body checked_handler) "api.go") =
    [[true; false; false; false; true]; [true; false; false; false; true]; [false; true; false; false; true]].
Proof. by vm_compute. Qed.
Example C32_expand_example : let rt := Route (B := unit) "m/api" "m/api.items" "GET" true "" ["POST"] ∅ None () in
  rt_method rt :: rt_extra rt = verbs_from_arg (Some "GET,post") ∧
  (operation_id (λ p f, f) <$> expand_route rt) = ["m/api.items_GET"; "m/api.items_POST"].
Proof. by vm_compute. Qed.
Example C32_position_example : file_of_position "C:/src/api.go:12:3" = "C:/src/api.go".
Proof. by vm_compute. Qed.
Example C58_arm_example : in_arm checked_handler 17 ∧ 17 ∈ flat_map (runs "HEAD") checked_handler ∧ 17 ∉ flat_map (runs "POST") checked_handler.
Proof.
  split; [eexists; split; [apply elem_of_list_here|apply elem_of_list_here]|]. split; [by apply (bool_decide_unpack _); vm_compute|by apply (bool_decide_unpack _); vm_compute].
Qed.

Print Assumptions C32_one_route_per_verb.
Print Assumptions C32_no_verb.
Print Assumptions C32_responses.
Print Assumptions C32_request.
Print Assumptions C32_rest.
Print Assumptions C32_split_names.
Print Assumptions C32_explicit_stays.
Print Assumptions C32_only_dispatching.
Print Assumptions C32_expand.
Print Assumptions C32_expand_single.
Print Assumptions C32_expand_names.
Print Assumptions C32_file_of_position.
Print Assumptions C32_shared_helper_refuted.
Print Assumptions C58_arms_documented_exactly_partial.
Print Assumptions C58_shared_check_refuted.
Print Assumptions C58_small_letters_refuted.
Print Assumptions C58_only_verbs.
