(** * Whether an encode is the response (C69) and a decode the request body (C70). *)
From stdpp Require Import base numbers list strings gmap.
From Verif Require Import ProvModel ProvSpec ProvProofs.

Definition over_write : list kind := [KUnary; KStar; KParen].
Definition over_read : list kind := [KUnary; KStar].

(** ** C69 *)
(** The search over arguments ends and finds exactly what can be traced to a writer. *)
Theorem C69_traced writer s a : distinct_ids over_write s a → (reaches_writer writer s a = true ↔ traced writer s a).
Proof. apply reaches_writer_spec. Qed.
(** Also with equal IDs nothing else is found. *)
Theorem C69_only_traced writer s a : reaches_writer writer s a = true → traced writer s a.
Proof. apply reaches_writer_sound. Qed.
Theorem C69_search_ends writer s a : ∃ b v, reaches writer s (S (length (universe s a))) ∅ a = Some (b, v).
Proof. apply reaches_ends. Qed.

(** What is dropped is not traced to a writer, and what it is followed to has a type that writers cannot be used as. *)
Theorem C69_dropped writer compatible s a :
  distinct_ids over_write s a → should_drop writer compatible s a = true →
  ¬ traced writer s a ∧ ∃ b, leads_to s a b ∧ type_of s b ≠ "" ∧ compatible (type_of s b) = false.
Proof.
  intros Hd. unfold should_drop. destruct (reaches_writer writer s a) eqn:Hr; [done|].
  destruct (decide (leaf_type s a = "")) as [E|E]; [by rewrite bool_decide_eq_true_2|rewrite bool_decide_eq_false_2 by done]. cbn.
  destruct (compatible (leaf_type s a)) eqn:Hc; [done|]. intros _. split.
  - intros Ht. apply (C69_traced writer s a Hd) in Ht. congruence.
  - destruct (leaf_type_sound s a E) as (b & Hb & _ & Ht). exists b. split; [done|]. by rewrite Ht.
Qed.
(** Conversely, what is not traced and has only known types that writers cannot be used as is dropped. *)
Theorem C69_others_dropped writer compatible s a :
  ¬ traced writer s a → (∃ b, leads_to s a b) →
  (∀ b, leads_to s a b → g_kind b ∈ [KIdent; KSelector; KCall; KComposite] ∧ type_of s b ≠ "" ∧ compatible (type_of s b) = false) → should_drop writer compatible s a = true.
Proof.
  intros Hn Hex Hall. unfold should_drop. destruct (reaches_writer writer s a) eqn:Hr; [by destruct Hn; apply C69_only_traced|].
  assert (leaf_type s a ≠ "") as Hl.
  { unfold leaf_type. destruct (leaf_ends s a) as [t Ht]. rewrite Ht. eapply leaf_known; [done|done|]. intros b Hb. destruct (Hall b Hb) as (H1 & H2 & _). done. }
  destruct (leaf_type_sound s a Hl) as (b & Hb & _ & Ht). destruct (Hall b Hb) as (_ & _ & Hc). rewrite Ht in Hc. rewrite bool_decide_eq_false_2 by done. cbn. by rewrite Hc.
Qed.
(** A call without a fixed signature counts as writing the response unless all its arguments would be dropped. *)
Theorem C69_any_argument writer compatible s l : any_arg_reaches writer compatible s l = true ↔ ∃ a, a ∈ l ∧ should_drop writer compatible s a = false.
Proof.
  unfold any_arg_reaches. rewrite existsb_exists. setoid_rewrite <- elem_of_list_In. unfold should_drop. split.
  - intros (a & Ha & H). exists a. split; [done|]. destruct (reaches_writer writer s a); [done|]. cbn in H. by rewrite H.
  - intros (a & Ha & H). exists a. split; [done|]. destruct (reaches_writer writer s a); [done|]. cbn. by destruct (bool_decide _ || _).
Qed.

(** A value that holds the response writer is never dropped, provided composite literals have no keys and no parameter is
    assigned to. *)
Theorem C69_writer_kept_partial writer compatible s params a :
  distinct_ids over_write s a → (∀ b, b ∈ universe s a → g_kind b ≠ KKeyValue) → (∀ p, p ∈ params → s_assigned s !! p = None) →
  holds writer s params a → should_drop writer compatible s a = false.
Proof.
  intros Hd Hkv Hp Hh. unfold should_drop. assert (traced writer s a) as Ht.
  { assert (∀ b, holds writer s params b → b ∈ universe s a → traced writer s b) as H; [|by apply H, universe_top].
    induction 1 as [b y Hk Hy _ IH|b Hk Hin Hn Hw|b rhs Hk Hn Ha _ IH|b e Hk He _ IH|b v Hk Hv _ IH|b e Hk He _ IH|b base f rhs c e k v Hk Hb Hf Hkb Hn Ha Hc Hkc He Hke Hx Hnm Hfun _ IH]; intros HU.
    - apply (traced_through _ _ _ y); [done|done|]. by apply IH, (universe_x _ _ b).
    - apply traced_param; [done|done| |done]. by apply Hp.
    - apply (traced_assigned _ _ _ rhs); [done..|]. by eapply IH, universe_assigned.
    - apply (traced_element _ _ _ e); [rewrite Hk; by apply (bool_decide_unpack _)|done|]. by apply IH, (universe_arg _ _ b).
    - by destruct (Hkv b HU).
    - apply (traced_argument _ _ _ e); [done|done|]. by apply IH, (universe_arg _ _ b).
    - destruct (Hkv e); [|done]. apply (universe_arg _ _ c); [|done]. eapply (strip_universe _ _ _ rhs); [by eapply universe_assigned|done]. }
  apply (C69_traced writer s a Hd) in Ht. by rewrite Ht.
Qed.

(** *** Cases *)
Definition ident (pos name typ : string) : arg := Arg KIdent (name +:+ "@" +:+ pos) name typ "" "" None None None [].
Definition address (x : arg) : arg := Arg KUnary "" "" "" "" "" (Some x) None None [].
Definition paren (x : arg) : arg := Arg KParen "" "" "" "" "" (Some x) None None [].
Definition composite (pos typ : string) (l : list arg) : arg := Arg KComposite (typ +:+ "{}@" +:+ pos) "" "" "" typ (Some (ident pos typ typ)) None None l.
Definition pair_of (pos key ktyp : string) (v : arg) : arg := Arg KKeyValue (":@" +:+ pos) "" "" "" "" (Some (ident pos key ktyp)) None (Some v) [].
Definition select (pos : string) (x : arg) (f typ : string) : arg := Arg KSelector ("." +:+ f +:+ "@" +:+ pos) "" typ "" "" (Some x) (Some (ident (pos +:+ "s") f typ)) None [].
Definition call_of (pos : string) (f : arg) (typ : string) (l : list arg) : arg := Arg KCall ("()@" +:+ pos) "" typ "" "" None None (Some f) l.
Definition site_of (l : list (string * arg)) : site := Site (list_to_map l) (λ _, "") "handler" (λ _, None).
Definition is_writer (t : string) : bool := bool_decide (t = "net/http.ResponseWriter").
Definition is_compatible (t : string) : bool := bool_decide (t ∈ ["io.Writer"; "io.WriteCloser"; "io.ReadWriter"]).
Definition the_writer (pos : string) : arg := ident pos "w" "net/http.ResponseWriter".

Lemma distinct_nodup over s a : NoDup (g_id <$> filter (λ b, g_kind b ∉ over) (universe s a)) → distinct_ids over s a.
Proof.
  intros H b c Hb Hc Hkb Hkc E. assert (b ∈ filter (λ b, g_kind b ∉ over) (universe s a)) as Hb' by (by apply elem_of_list_filter).
  assert (c ∈ filter (λ b, g_kind b ∉ over) (universe s a)) as Hc' by (by apply elem_of_list_filter). revert Hb' Hc' H.
  generalize (filter (λ b, g_kind b ∉ over) (universe s a)) as l. induction l as [|x l IH]; [by intros ?%elem_of_nil|]. cbn. intros Hb' Hc' [Hx Hnd]%NoDup_cons.
  apply elem_of_cons in Hb' as [-> |Hb'], Hc' as [-> |Hc']; [done|..|by apply IH]; destruct Hx; apply elem_of_list_fmap; [by exists c|by exists b].
Qed.
Ltac distinct := apply distinct_nodup; apply (bool_decide_unpack _); vm_compute; exact I.

(** out := &jsonOut{out: w}, with a field of type io.Writer: the value of a pair is in Fun, which is not looked at. *)
Theorem C69_field_value_refuted : ∃ s a, distinct_ids over_write s a ∧ (∀ p, p ∈ ["w"] → s_assigned s !! p = None) ∧ holds is_writer s ["w"] a ∧ should_drop is_writer is_compatible s a = true.
Proof.
  set (w := the_writer "2"). set (lit := composite "1" "app.jsonOut" [pair_of "1a" "out" "io.Writer" w]).
  exists (site_of [("out", address lit)]), (ident "3" "out" "*app.jsonOut"). split; [distinct|]. split; [by intros p ->%elem_of_list_singleton|]. split; [|by vm_compute].
  eapply holds_assigned; [done|done|by vm_compute|]. apply (holds_through _ _ _ _ lit); [by apply (bool_decide_unpack _)|done|].
  eapply (holds_element _ _ _ _ (pair_of "1a" "out" "io.Writer" w)); [done|by apply elem_of_list_singleton|]. apply (holds_value _ _ _ _ w); [done|done|].
  apply holds_param; [done|by apply elem_of_list_singleton|done|left; by vm_compute].
Qed.
(** w = wrap(w): the parameter's own type is not looked at once it is assigned to. *)
Theorem C69_reassigned_refuted : ∃ s a, distinct_ids over_write s a ∧ (∀ b, b ∈ universe s a → g_kind b ≠ KKeyValue) ∧ holds is_writer s ["w"] a ∧ should_drop is_writer is_compatible s a = true.
Proof.
  set (c := call_of "1" (ident "1" "wrap" "func") "*app.statusWriter" [the_writer "2"]).
  exists (site_of [("w", c)]), (the_writer "3"). split; [distinct|]. split.
  - apply Forall_forall. apply (bool_decide_unpack _). vm_compute. exact I.
  - split; [|by vm_compute]. apply holds_param; [done|by apply elem_of_list_singleton|done|left; by vm_compute].
Qed.
(** c := ctx{W: w}; json.NewEncoder(c.W): a field is not followed. *)
Theorem C69_field_selected_refuted : ∃ s a, distinct_ids over_write s a ∧ (∀ p, p ∈ ["w"] → s_assigned s !! p = None) ∧ g_kind a = KSelector ∧ holds is_writer s ["w"] a ∧
  type_of s a = "net/http.ResponseWriter" ∧ should_drop is_writer is_compatible s a = true.
Proof.
  set (w := the_writer "2"). set (e := pair_of "1a" "W" "net/http.ResponseWriter" w). set (lit := composite "1" "app.ctx" [e]).
  set (a := select "3" (ident "3" "c" "app.ctx") "W" "net/http.ResponseWriter").
  exists (site_of [("c", lit)]), a. split; [distinct|]. split; [by intros p ->%elem_of_list_singleton|]. split; [done|]. split; [|split; by vm_compute].
  eapply (holds_field _ _ _ a (ident "3" "c" "app.ctx") _ lit lit e _ w); try done; [by apply elem_of_list_singleton|].
  apply holds_param; [done|by apply elem_of_list_singleton|done|left; by vm_compute].
Qed.
Ltac not_held H := inversion H; clear H; try discriminate; repeat match goal with
  | H : _ ∈ [] |- _ => by apply elem_of_nil in H
  | H : ?k ∈ [KUnary; KStar; KParen] |- _ => apply (bool_decide_pack _) in H; vm_compute in H; destruct H
  | H : ?x ∈ g_args ?y |- _ => let l := eval hnf in (g_args y) in change (x ∈ l) in H
  | H : ?x ∈ [?y] |- _ => apply elem_of_list_singleton in H; try discriminate; subst x
  | H : s_assigned _ !! _ = Some _ |- _ => vm_compute in H; injection H as <-
  | H : g_fun _ = Some _ |- _ => cbn in H; injection H as <-
  | H : g_x _ = Some _ |- _ => cbn in H; injection H as <-
  end; try done.
(** rec := httptest.NewRecorder(); lw := &logging{ResponseWriter: rec}: the key is taken for a variable of the field's type. *)
Theorem C69_only_writer_refuted : ∃ s a, distinct_ids over_write s a ∧ (∀ p, p ∈ ["w"] → s_assigned s !! p = None) ∧ ¬ holds is_writer s ["w"] a ∧ reaches_writer is_writer s a = true.
Proof.
  set (c := call_of "1" (ident "1" "NewRecorder" "func") "*httptest.ResponseRecorder" []).
  set (v := ident "2" "rec" "*httptest.ResponseRecorder"). set (e := pair_of "2a" "ResponseWriter" "net/http.ResponseWriter" v).
  set (lit := composite "3" "app.logging" [e]). exists (site_of [("rec", c); ("lw", address lit)]), (ident "4" "lw" "*app.logging").
  split; [distinct|]. split; [by intros p ->%elem_of_list_singleton|]. split; [|by vm_compute].
  set (s := site_of _).
  assert (¬ holds is_writer s ["w"] c) as Hc by (intros H; not_held H).
  assert (¬ holds is_writer s ["w"] v) as Hv by (intros H; not_held H; try by apply Hc).
  assert (¬ holds is_writer s ["w"] e) as He by (intros H; not_held H; try by apply Hv).
  assert (¬ holds is_writer s ["w"] lit) as Hl by (intros H; not_held H; try by apply He).
  assert (¬ holds is_writer s ["w"] (address lit)) as Hd by (intros H; not_held H; try by apply Hl).
  intros H; not_held H; try by apply Hd.
Qed.
(** The assignments of the function called hide the caller's: a helper's own [dst := &buf] answers for the caller's [dst := w]. *)
Theorem C69_callee_scope_refuted : ∃ callee caller a,
  let at_call m := Site m (λ _, "") "handler" (λ _, None) in
  distinct_ids over_write (at_call (latest_assigned callee caller)) a ∧
  holds is_writer (at_call (latest_assigned ∅ caller)) ["w"] a ∧ should_drop is_writer is_compatible (at_call (latest_assigned ∅ caller)) a = false ∧
  should_drop is_writer is_compatible (at_call (latest_assigned callee caller)) a = true.
Proof.
  exists {[ "dst" := [address (ident "9" "buf" "bytes.Buffer")] ]}, {[ "dst" := [the_writer "1"] ]}, (ident "2" "dst" "net/http.ResponseWriter").
  intros at_call. split; [distinct|]. split; [|split; by vm_compute].
  eapply holds_assigned; [done|done|by vm_compute|]. apply holds_param; [done|by apply elem_of_list_singleton|done|left; by vm_compute].
Qed.
(** Without a name in common the caller's assignments are the ones used, the latest one. *)
Theorem C69_caller_scope callee caller x : last (default [] (callee !! x)) = None → latest_assigned callee caller !! x = last (default [] (caller !! x)).
Proof.
  intros H. unfold latest_assigned. rewrite lookup_union, !lookup_omap. destruct (callee !! x) as [l|]; cbn in *; [rewrite H|]; destruct (caller !! x) as [k|]; cbn; by try destruct (last k).
Qed.

(** lw := &logging{w}; json.NewEncoder(lw) is kept; json.NewEncoder(&buf) is dropped. *)
Example C69_case :
  let s := site_of [("lw", address (composite "1" "app.logging" [the_writer "2"]))] in
  let lw := ident "3" "lw" "*app.logging" in let buf := address (ident "4" "buf" "bytes.Buffer") in
  distinct_ids over_write s lw ∧ (∀ b, b ∈ universe s lw → g_kind b ≠ KKeyValue) ∧ holds is_writer s ["w"] lw ∧ traced is_writer s lw ∧ should_drop is_writer is_compatible s lw = false ∧
  distinct_ids over_write s buf ∧ should_drop is_writer is_compatible s buf = true ∧ any_arg_reaches is_writer is_compatible s [buf; lw] = true ∧ any_arg_reaches is_writer is_compatible s [buf] = false.
Proof.
  intros s lw buf. assert (distinct_ids over_write s lw) as Hd by distinct. split; [done|]. split; [apply Forall_forall; apply (bool_decide_unpack _); vm_compute; exact I|].
  split; [|split; [apply (C69_traced _ _ _ Hd); by vm_compute|split; [by vm_compute|split; [distinct|repeat split; by vm_compute]]]].
  eapply holds_assigned; [done|done|by vm_compute|]. eapply holds_through; [by apply (bool_decide_unpack _)|done|].
  eapply (holds_element _ _ _ _ (the_writer "2")); [done|by apply elem_of_list_singleton|]. apply holds_param; [done|by apply elem_of_list_singleton|done|left; by vm_compute].
Qed.

(** ** C70 *)
Theorem C70_source request accessor s a : distinct_ids over_read s a → selectors_named s a → (request_source request accessor s a = true ↔ reads_body request accessor s a).
Proof. apply request_source_spec. Qed.
Theorem C70_search_ends request accessor s a : is_Some (check request accessor s (S (length (universe s a))) ∅ a).
Proof. apply check_ends. Qed.

(** Whatever is taken for the body comes from an accessor of the body on a variable whose type is a request's. *)
Theorem C70_only_request request accessor s a : distinct_ids over_read s a → selectors_named s a → request_source request accessor s a = true →
  ∃ b r l, (b = a ∨ b ∈ universe s a) ∧ chain b r l ∧ l ≠ [] ∧ request (root_type s r) = true ∧ accessor (accessors l) = true.
Proof.
  intros Hd Hn Hr. apply (C70_source _ _ _ _ Hd Hn) in Hr. clear Hd Hn.
  assert (∀ b, reads_body request accessor s b → b ∈ universe s a → ∃ b r l, b ∈ universe s a ∧ chain b r l ∧ l ≠ [] ∧ request (root_type s r) = true ∧ accessor (accessors l) = true) as H.
  { induction 1 as [b r l Hc Hl _ Hq Hacc|b y Hk Hy _ IH|b r l rhs Hc Hn Ha _ IH]; intros HU.
    - by exists b, r, l.
    - by apply IH, (universe_x _ _ b).
    - by eapply IH, universe_assigned. }
  destruct (H a Hr (universe_top _ _)) as (b & r & l & Hb & Hc & Hl & Hq & Hacc). exists b, r, l. by auto.
Qed.

(** Everything read from the body is found if it is not in parentheses and not read through another reader. *)
Theorem C70_from_body_partial request accessor s a : distinct_ids over_read s a → selectors_named s a →
  (∀ b, b ∈ universe s a → g_kind b ≠ KParen) → (∀ b e, b ∈ universe s a → g_kind b = KCall → e ∈ g_args b → ¬ from_body request accessor s e) →
  from_body request accessor s a → request_source request accessor s a = true.
Proof.
  intros Hd Hn Hp Hc Hf. apply (C70_source _ _ _ _ Hd Hn).
  assert (∀ b, from_body request accessor s b → b ∈ universe s a → reads_body request accessor s b) as H; [|by apply H, universe_top].
  induction 1 as [b Hb|b y Hk Hy _ IH|b e Hk He Hfe _|b rhs Hk Hname Ha _ IH]; intros HU.
  - done.
  - apply (reads_through _ _ _ _ y); [|done|by apply IH, (universe_x _ _ b)]. pose proof (Hp b HU).
    apply elem_of_cons in Hk as [-> |[-> |Hk%elem_of_list_singleton]%elem_of_cons]; [by apply (bool_decide_unpack _)..|done].
  - by destruct (Hc b e HU Hk He).
  - apply (reads_assigned _ _ _ _ b [] rhs); [by apply chain_root|done|done|]. by eapply IH, universe_assigned.
Qed.

Definition is_request (t : string) : bool := bool_decide (t ∈ ["net/http.Request"; "*net/http.Request"]).
Definition is_body (t : string) : bool := bool_decide (t = "Body").
Definition the_body (pos : string) : arg := select pos (ident pos "r" "*net/http.Request") "Body" "io.ReadCloser".
Lemma the_body_reads s pos : reads_body is_request is_body s (the_body pos).
Proof.
  assert (root_type s (ident pos "r" "*net/http.Request") = "*net/http.Request") as E by done.
  eapply reads_accessor; [eapply chain_field; [done|done|done|by apply chain_root]|done| |rewrite E; by vm_compute|by vm_compute]. by rewrite E.
Qed.

(** io.LimitReader(r.Body, n), (r.Body), and b, _ := io.ReadAll(r.Body) are not found. *)
Theorem C70_reader_lost_refuted :
  (∃ s a, distinct_ids over_read s a ∧ g_kind a = KCall ∧ from_body is_request is_body s a ∧ request_source is_request is_body s a = false) ∧
  (∃ s a, distinct_ids over_read s a ∧ g_kind a = KParen ∧ from_body is_request is_body s a ∧ request_source is_request is_body s a = false) ∧
  (∃ s a, distinct_ids over_read s a ∧ g_kind a = KIdent ∧ from_body is_request is_body s a ∧ request_source is_request is_body s a = false).
Proof.
  split; [|split].
  - exists (site_of []), (call_of "1" (select "1" (ident "1" "io" "") "LimitReader" "func") "io.Reader" [the_body "2"; ident "3" "n" "int64"]).
    split; [distinct|]. split; [done|]. split; [|by vm_compute]. apply (from_argument _ _ _ _ (the_body "2")); [done|by apply elem_of_cons; left|]. apply from_accessor, the_body_reads.
  - exists (site_of []), (paren (the_body "2")). split; [distinct|]. split; [done|]. split; [|by vm_compute].
    apply (from_through _ _ _ _ (the_body "2")); [by apply (bool_decide_unpack _)|done|]. apply from_accessor, the_body_reads.
  - exists (site_of [("b", call_of "1" (select "1" (ident "1" "io" "") "ReadAll" "func") "[]byte" [the_body "2"])]), (ident "4" "b" "[]byte").
    split; [distinct|]. split; [done|]. split; [|by vm_compute]. eapply from_assigned; [done|done|by vm_compute|].
    apply (from_argument _ _ _ _ (the_body "2")); [done|by apply elem_of_cons; left|]. apply from_accessor, the_body_reads.
Qed.

(** src := r.Body; json.NewDecoder(src).Decode(&v). *)
Example C70_case :
  let s := site_of [("src", the_body "1")] in let a := ident "2" "src" "io.ReadCloser" in
  distinct_ids over_read s a ∧ selectors_named s a ∧ (∀ b, b ∈ universe s a → g_kind b ≠ KParen) ∧ (∀ b e, b ∈ universe s a → g_kind b = KCall → e ∈ g_args b → ¬ from_body is_request is_body s e) ∧
  from_body is_request is_body s a ∧ request_source is_request is_body s a = true.
Proof.
  intros s a. split; [distinct|]. split; [|split; [|split; [|split; [|by vm_compute]]]].
  - assert (Forall (λ b, g_kind b = KSelector → is_Some (g_sel b)) (universe s a)) as H; [|by rewrite Forall_forall in H].
    apply (bool_decide_unpack _). vm_compute. exact I.
  - apply Forall_forall. apply (bool_decide_unpack _). vm_compute. exact I.
  - assert (Forall (λ b, g_kind b ≠ KCall) (universe s a)) as H by (apply (bool_decide_unpack _); vm_compute; exact I).
    rewrite Forall_forall in H. intros b e Hb Hk. by destruct (H b Hb).
  - eapply from_assigned; [done|done|by vm_compute|]. apply from_accessor, the_body_reads.
Qed.

(** The reader a decoder was made with: the first argument of the call it is chained onto; otherwise that of the call last
    assigned to the receiver in the plain function of the caller's name. *)
Theorem C70_receiver fns d a : receiver_source fns d = Some a ↔
  (∃ l, d_chain d = Some (a :: l)) ∨
  ((∀ b l, d_chain d ≠ Some (b :: l)) ∧ d_recv d ≠ "" ∧
   ∃ before f after l rhs args, fns = before ++ f :: after ∧ f_pkg f = d_pkg d ∧ f_recv f = "" ∧ f_name f = d_caller d ∧
     (∀ g, g ∈ before → ¬ (f_pkg g = d_pkg d ∧ f_recv g = "" ∧ f_name g = d_caller d)) ∧
     f_assigns f !! d_recv d = Some (l ++ [rhs]) ∧ g_kind rhs = KCall ∧ g_args rhs = a :: args).
Proof.
  assert (∀ (l : list fn) f, find_function l (d_pkg d) (d_caller d) = Some f ↔ ∃ before after, l = before ++ f :: after ∧ (f_pkg f = d_pkg d ∧ f_recv f = "" ∧ f_name f = d_caller d) ∧
    (∀ g, g ∈ before → ¬ (f_pkg g = d_pkg d ∧ f_recv g = "" ∧ f_name g = d_caller d))) as Hfind.
  { unfold find_function. induction l as [|g l IH]; intros f.
    - split; [done|]. by intros ([|??] & ? & ? & _).
    - destruct (decide (f_pkg g = d_pkg d ∧ f_recv g = "" ∧ f_name g = d_caller d)) as [Hg|Hg].
      + rewrite filter_cons_True by done. cbn. split.
        * intros [= ->]. exists [], l. split; [done|]. split; [done|]. by intros ? ?%elem_of_nil.
        * intros ([|h before] & after & E & Hf & Hb); injection E as E1 E2; [by rewrite E1|]. subst h. destruct (Hb g); [by apply elem_of_cons; left|done].
      + rewrite filter_cons_False by done. rewrite IH. split.
        * intros (before & after & -> & Hf & Hb). exists (g :: before), after. split; [done|]. split; [done|]. intros h [-> |Hh]%elem_of_cons; [done|by apply Hb].
        * intros ([|h before] & after & E & Hf & Hb); injection E as E1 E2; [by subst g|]. exists before, after. split; [done|]. split; [done|].
          intros k Hk. apply Hb. apply elem_of_cons. by right. }
  assert ((∀ b l, d_chain d ≠ Some (b :: l)) → (match find_function fns (d_pkg d) (d_caller d) with
           | None => None
           | Some f => match last (default [] (f_assigns f !! d_recv d)) with
                       | Some rhs => if bool_decide (g_kind rhs = KCall) then head (g_args rhs) else None
                       | None => None
                       end
           end = Some a ↔ ∃ before f after l rhs args, fns = before ++ f :: after ∧ f_pkg f = d_pkg d ∧ f_recv f = "" ∧ f_name f = d_caller d ∧
     (∀ g, g ∈ before → ¬ (f_pkg g = d_pkg d ∧ f_recv g = "" ∧ f_name g = d_caller d)) ∧
     f_assigns f !! d_recv d = Some (l ++ [rhs]) ∧ g_kind rhs = KCall ∧ g_args rhs = a :: args)) as Hvar.
  { intros _. destruct (find_function fns (d_pkg d) (d_caller d)) as [f|] eqn:Hf.
    - pose proof (proj1 (Hfind fns f) Hf) as (before & after & E & (H1 & H2 & H3) & Hb). split.
      + destruct (f_assigns f !! d_recv d) as [k|] eqn:Hk; [cbn|done]. destruct (last k) as [rhs|] eqn:Hl; [|done].
        destruct (bool_decide (g_kind rhs = KCall)) eqn:Hc; [|done]. apply bool_decide_eq_true in Hc. destruct (g_args rhs) as [|x args] eqn:Hx; [done|]. intros [= ->].
        apply last_Some in Hl as [l' ->]. by exists before, f, after, l', rhs, args.
      + intros (b' & f' & a' & l & rhs & args & E' & G1 & G2 & G3 & Gb & Gl & Gk & Ga).
        assert (find_function fns (d_pkg d) (d_caller d) = Some f') as Hf' by (apply Hfind; by exists b', a'). rewrite Hf in Hf'. injection Hf' as <-.
        rewrite Gl. cbn. rewrite last_snoc, bool_decide_eq_true_2 by done. by rewrite Ga.
    - split; [done|]. intros (b' & f' & a' & l & rhs & args & E' & G1 & G2 & G3 & Gb & Gl & Gk & Ga).
      assert (find_function fns (d_pkg d) (d_caller d) = Some f') as Hf' by (apply Hfind; by exists b', a'). congruence. }
  unfold receiver_source. destruct (d_chain d) as [[|x l]|] eqn:Hch.
  - destruct (decide (d_recv d = "")) as [E|E]; [rewrite bool_decide_eq_true_2 by done|rewrite bool_decide_eq_false_2 by done].
    + split; [done|]. intros [[l [=]]|(_ & ? & _)]; done.
    + rewrite Hvar by done. split; [intros H; right; by split|]. intros [[l [=]]|(_ & _ & H)]; done.
  - split; [intros [= ->]; left; by exists l|]. intros [[l' [= ->]]|(H & _)]; [done|]. by destruct (H x l).
  - destruct (decide (d_recv d = "")) as [E|E]; [rewrite bool_decide_eq_true_2 by done|rewrite bool_decide_eq_false_2 by done].
    + split; [done|]. intros [[l [=]]|(_ & ? & _)]; done.
    + rewrite Hvar by done. split; [intros H; right; by split|]. intros [[l [=]]|(_ & _ & H)]; done.
Qed.

(** dec := json.NewDecoder(r.Body); dec.Decode(&v): found in a plain handler; in a method the table has no such function, *)
Definition new_decoder : arg := call_of "1" (select "1" (ident "1" "json" "") "NewDecoder" "func") "*json.Decoder" [the_body "2"].
Definition decode_in (f : fn) : decode := Decode None "dec" (f_pkg f) (f_name f).
Theorem C70_method_refuted : ∃ (plain method other : fn),
  f_assigns plain = f_assigns method ∧ f_assigns method !! "dec" = Some [new_decoder] ∧ reads_body is_request is_body (site_of []) (the_body "2") ∧
  receiver_source [plain] (decode_in plain) = Some (the_body "2") ∧
  receiver_source [method] (decode_in method) = None ∧
  (** and a plain function of the method's name answers instead, here with what it decodes: a file. *)
  f_recv other = "" ∧ receiver_source [method; other] (decode_in method) = Some (ident "7" "file" "*os.File").
Proof.
  set (m := {[ "dec" := [new_decoder] ]} : gmap string (list arg)).
  exists (Fn "app" "" "Create" m), (Fn "app" "*API" "Create" m),
    (Fn "app" "" "Create" {[ "dec" := [call_of "6" (select "6" (ident "6" "json" "") "NewDecoder" "func") "*json.Decoder" [ident "7" "file" "*os.File"]] ]}).
  split; [done|]. split; [done|]. split; [apply the_body_reads|]. repeat split; by vm_compute.
Qed.

Print Assumptions C69_traced.
Print Assumptions C69_only_traced.
Print Assumptions C69_search_ends.
Print Assumptions C69_dropped.
Print Assumptions C69_others_dropped.
Print Assumptions C69_any_argument.
Print Assumptions C69_writer_kept_partial.
Print Assumptions C69_field_value_refuted.
Print Assumptions C69_reassigned_refuted.
Print Assumptions C69_field_selected_refuted.
Print Assumptions C69_only_writer_refuted.
Print Assumptions C69_callee_scope_refuted.
Print Assumptions C69_caller_scope.
Print Assumptions C70_source.
Print Assumptions C70_search_ends.
Print Assumptions C70_only_request.
Print Assumptions C70_from_body_partial.
Print Assumptions C70_reader_lost_refuted.
Print Assumptions C70_receiver.
Print Assumptions C70_method_refuted.
