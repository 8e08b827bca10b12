(** * C96: which calls read a request parameter, and what they document. *)
From Coq Require Import Ascii.
From stdpp Require Import base list strings gmap.
From Verif Require Import StrLib MergeModel SecProps OriginModel.

(** The specification. What an expression was got from: the value a method was called on, the function called, the value a field was selected from. *)
Inductive got_from : oexp → oexp → Prop :=
| got_method t t' x : got_from (OCall t (Some (OSel t' (Some x)))) x
| got_call t f : (∀ t' x, f ≠ OSel t' x) → got_from (OCall t (Some f)) f
| got_field t x : got_from (OSel t (Some x)) x.
Inductive got_steps : nat → oexp → oexp → Prop :=
| got_none e : got_steps 0 e e
| got_more n e e' e'' : got_from e e' → got_steps n e' e'' → got_steps (S n) e e''.

Lemma got_from_next e e' : got_from e e' ↔ origin_next e = Some e'.
Proof.
  split.
  - intros [t t' x|t f Hf|t x]; cbn; try done. destruct f; try done. by destruct (Hf t0 x).
  - destruct e as [t [[t' f'|t' x'|t']|]|t x|t]; cbn; intros E; try done.
    + injection E as <-. apply got_call. intros ? ? ?; discriminate.
    + subst x'. apply got_method.
    + injection E as <-. apply got_call. intros ? ? ?; discriminate.
    + subst x. apply got_field.
Qed.
Lemma arg_origins_spec n e t : t ∈ arg_origins n (Some e) ↔ t ≠ "" ∧ ∃ k e', k < n ∧ got_steps k e e' ∧ oexp_type e' = t.
Proof.
  revert e. induction n as [|n IH]; intros e.
  - cbn. split; [intros H; by apply elem_of_nil in H|]. intros (_ & k & e' & Hk & _). lia.
  - cbn [arg_origins]. rewrite elem_of_app. split.
    + intros [H|H].
      * destruct (decide (oexp_type e = "")) as [|N]; [by apply elem_of_nil in H|]. apply elem_of_list_singleton in H as ->. split; [done|]. exists 0, e. split_and!; [lia|constructor|done].
      * destruct (origin_next e) as [e1|] eqn:E1; [|destruct n; by apply elem_of_nil in H]. apply IH in H as (N & k & e' & Hk & G & Ht). split; [done|]. exists (S k), e'. split_and!; [lia| |done].
        apply got_more with e1; [by apply got_from_next|done].
    + intros (N & k & e' & Hk & G & Ht). destruct G as [e|k e e1 e2 G1 G2].
      * left. rewrite decide_False by congruence. apply elem_of_list_singleton. congruence.
      * right. apply got_from_next in G1. rewrite G1. apply IH. split; [done|]. exists k, e2. split_and!; [lia|done|done].
Qed.

(** C96a: the origins of a receiver are the receivers of the eight nearest calls it is chained onto, and the types of the last recorded value of its variable and of what that was got from in up to seven steps. *)
Theorem C96_origins_iff chain assigned t :
  t ∈ receiver_origins chain assigned ↔
  (∃ i forms, i < 8 ∧ chain !! i = Some forms ∧ t ∈ forms) ∨
  (∃ v k e, last assigned = Some v ∧ k < 8 ∧ got_steps k v e ∧ oexp_type e = t ∧ t ≠ "").
Proof.
  unfold receiver_origins. rewrite elem_of_app.
  assert (H1 : t ∈ concat (take origin_depth chain) ↔ ∃ i forms, i < 8 ∧ chain !! i = Some forms ∧ t ∈ forms).
  { rewrite elem_of_concat. split.
    - intros (l & Hl & Ht). apply elem_of_list_lookup in Hl as [i Hi]. apply lookup_take_Some in Hi as [Hi Hlt]. eauto 6.
    - intros (i & l & Hlt & Hi & Ht). exists l. split; [|done]. apply elem_of_list_lookup. exists i. by rewrite lookup_take. }
  rewrite H1. assert (H2 : t ∈ (match last assigned with Some v => arg_origins origin_depth (Some v) | None => [] end) ↔ ∃ v k e, last assigned = Some v ∧ k < 8 ∧ got_steps k v e ∧ oexp_type e = t ∧ t ≠ "").
  { destruct (last assigned) as [v|].
    - rewrite arg_origins_spec. split; [intros (N & k & e & Hk & G & Ht); exists v, k, e; done|]. intros (v' & k & e & [= <-] & Hk & G & Ht & N). split; [done|]. exists k, e. done.
    - split; [intros H; by apply elem_of_nil in H|]. intros (v & k & e & H & _). done. }
  by rewrite H2.
Qed.
(** C96b: a call is read as a parameter exactly if its pattern matches and none of its origins is excluded; without origins nothing is. *)
Theorem C96_match_iff rx p exclude c chain assigned :
  param_matches rx p exclude c chain assigned = true ↔
  matches rx p c = true ∧ (exclude = "" ∨ ∀ t, t ∈ receiver_origins chain assigned → rx exclude t = false).
Proof.
  unfold param_matches. rewrite andb_true_iff, orb_true_iff, bool_decide_eq_true, negb_true_iff.
  assert (H : existsb (rx exclude) (receiver_origins chain assigned) = false ↔ ∀ t, t ∈ receiver_origins chain assigned → rx exclude t = false); [|by rewrite H].
  split.
  - intros H t Ht. destruct (rx exclude t) eqn:E; [|done]. rewrite <- H. symmetry. apply existsb_exists. exists t. split; [by apply elem_of_list_In|done].
  - intros H. apply not_true_iff_false. intros (t & Ht & E)%existsb_exists. apply elem_of_list_In in Ht. rewrite H in E; done.
Qed.
(** C96c: a call has at most two receivers, the recorded one first, none empty, none twice. *)
Theorem C96_forms pkg recv written :
  let l := recv_forms pkg recv written in
  length l ≤ 2 ∧ NoDup l ∧ "" ∉ l ∧ (qualify_owner pkg recv ≠ "" → head l = Some (qualify_owner pkg recv)) ∧
  ∀ t, t ∈ l ↔ t ≠ "" ∧ (t = qualify_owner pkg recv ∨ ∃ w, written = Some w ∧ t = qualify_owner pkg w).
Proof.
  cbn zeta. unfold recv_forms. set (r := qualify_owner pkg recv). destruct written as [w|].
  - set (q := qualify_owner pkg w).
    destruct (decide (r = "")) as [Er|Nr].
    + destruct (decide (q = "")) as [Eq|Nq].
      * split_and!; [cbn; lia|apply NoDup_nil_2|apply not_elem_of_nil|done|]. intros t. rewrite elem_of_nil. split; [done|]. intros (N & [->|(w' & [= <-] & ->)]); done.
      * split_and!; [cbn; lia|apply NoDup_singleton|by rewrite elem_of_list_singleton|done|]. intros t. rewrite elem_of_list_singleton. split; [intros ->; split; [done|]; right; by exists w|]. intros (N & [->|(w' & [= <-] & ->)]); done.
    + destruct (decide (q = "" ∨ q = r)) as [D|D].
      * split_and!; [cbn; lia|apply NoDup_singleton|by rewrite elem_of_list_singleton|done|]. intros t. rewrite elem_of_list_singleton. split; [intros ->; split; [done|by left]|]. intros (N & [->|(w' & [= <-] & ->)]); [done|]. destruct D as [D|D]; [done|done].
      * split_and!; [cbn; lia| | |done|].
        -- apply NoDup_cons. split; [|apply NoDup_singleton]. rewrite elem_of_list_singleton. intros E. apply D. by right.
        -- rewrite !elem_of_cons, elem_of_nil. intros [E|[E|E]]; [done| |done]. apply D. by left.
        -- intros t. rewrite !elem_of_cons, elem_of_nil. split; [intros [->|[->|?]]; [split; [done|by left]|split; [intros E; apply D; by left|right; by exists w]|done]|]. intros (N & [->|(w' & [= <-] & ->)]); [by left|right; by left].
  - destruct (decide (r = "")) as [Er|Nr].
    + split_and!; [cbn; lia|apply NoDup_nil_2|apply not_elem_of_nil|done|]. intros t. rewrite elem_of_nil. split; [done|]. intros (N & [->|(w' & ? & ->)]); done.
    + split_and!; [cbn; lia|apply NoDup_singleton|by rewrite elem_of_list_singleton|done|]. intros t. rewrite elem_of_list_singleton. split; [intros ->; split; [done|by left]|]. intros (N & [->|(w' & ? & ->)]); done.
Qed.

Section extract.
  Context {A S : Type} (constant : A → option string) (through : A → option A) (typed : A → option S) (text binary : S).
  Notation extract := (extract_param constant through typed text binary).
  (** The name a client sends is the constant, or the constant its parameter is bound to. *)
  Definition named (a : A) (n : string) : Prop := constant a = Some n ∨ constant a = None ∧ ∃ b, through a = Some b ∧ constant b = Some n.
  Lemma wire_name_spec a n : wire_name constant through a = Some n ↔ named a n.
  Proof.
    unfold wire_name, named. destruct (constant a) as [v|] eqn:E; [naive_solver|]. destruct (through a) as [b|]; cbn [mbind option_bind]; naive_solver.
  Qed.
  (** C96d: what is documented has the name its argument gives, the place the pattern says, is required exactly in a path, and is a file, of its argument's type, or a text. *)
  Theorem C96_param h args p m :
    extract h args = (Some p, m) →
    ph_in h ≠ "multipart" ∧ op_in p = ph_in h ∧ (op_required p = true ↔ ph_in h = "path") ∧ (m = true ↔ ph_in h = "formFile") ∧
    (∀ a, args !! ph_at h = Some a → named a (op_name p)) ∧
    (ph_in h = "formFile" → op_schema p = binary) ∧
    (ph_in h ≠ "formFile" → (∃ a, ph_typed h = true ∧ args !! ph_type_at h = Some a ∧ typed a = Some (op_schema p)) ∨
       op_schema p = text ∧ (ph_typed h = true → ∀ a, args !! ph_type_at h = Some a → typed a = None)).
  Proof.
    unfold extract_param. destruct (decide (ph_in h = "multipart")) as [|NM]; [done|].
    destruct (match args !! ph_at h with Some a => wire_name constant through a | None => Some "" end) as [n|] eqn:EN; [|done].
    assert (HN : ∀ a, args !! ph_at h = Some a → named a n). { intros a Ha. rewrite Ha in EN. by apply wire_name_spec. }
    destruct (decide (ph_in h = "formFile")) as [EF|NF]; intros [= <- <-]; cbn.
    - split_and!; try done. split; [done|]. rewrite EF. done.
    - split_and!; try done. { by rewrite bool_decide_eq_true. }
      intros _. destruct (ph_typed h); [|right; done]. destruct (args !! ph_type_at h) as [a|] eqn:EA; cbn [mbind option_bind].
      + destruct (typed a) as [s|] eqn:ET; [left; exists a; done|right]. split; [done|]. intros _ b [= <-]. done.
      + right. split; [done|]. intros _ b Hb. done.
  Qed.
  (** C96e: nothing is documented exactly for a marker of multipart bodies and for an argument that does not state the name. *)
  Theorem C96_none_iff h args :
    (extract h args).1 = None ↔ ph_in h = "multipart" ∨ ∃ a, args !! ph_at h = Some a ∧ ∀ n, ¬ named a n.
  Proof.
    unfold extract_param. destruct (decide (ph_in h = "multipart")) as [|NM]; [naive_solver|].
    destruct (args !! ph_at h) as [a|] eqn:EA.
    - destruct (wire_name constant through a) as [n|] eqn:EN.
      + apply wire_name_spec in EN. split; [destruct (decide (ph_in h = "formFile")); done|]. intros [?|(b & [= <-] & H)]; [done|]. by destruct (H n).
      + split; [|done]. intros _. right. exists a. split; [done|]. intros n Hn. apply wire_name_spec in Hn. congruence.
    - split; [destruct (decide (ph_in h = "formFile")); done|]. intros [?|(b & ? & H)]; done.
  Qed.
  (** C96f: a body becomes multipart by a marker or a named file, and by nothing else. *)
  Theorem C96_multipart_iff h args :
    (extract h args).2 = true ↔ ph_in h = "multipart" ∨ ph_in h = "formFile" ∧ ∀ a, args !! ph_at h = Some a → ∃ n, named a n.
  Proof.
    unfold extract_param. destruct (decide (ph_in h = "multipart")) as [|NM]; [naive_solver|].
    destruct (args !! ph_at h) as [a|] eqn:EA.
    - destruct (wire_name constant through a) as [n|] eqn:EN.
      + apply wire_name_spec in EN. destruct (decide (ph_in h = "formFile")) as [EF|NF]; cbn; naive_solver.
      + cbn. split; [done|]. intros [?|[_ H]]; [done|]. destruct (H a eq_refl) as [n Hn]. apply wire_name_spec in Hn. congruence.
    - destruct (decide (ph_in h = "formFile")) as [EF|NF]; cbn; naive_solver.
  Qed.
End extract.

(** C96g, the findings. The pattern for [Header.Get] of net/http. *)
Definition o_rx (p v : string) : bool := if decide (p = "writer") then bool_decide (v = "net/http.ResponseWriter") else bool_decide (p = v).
Definition o_header : pat := Pat "Get" "" "net/http.Header" "" "header" ([], [], [], []) "".
Definition o_get : call := Call "Get" "handle" ["net/http.Header"] ("", "", "", "").
Definition o_request : oexp := OSel "net/http.Header" (Some (OElse "*net/http.Request")).
Definition o_response : oexp := OCall "net/http.Header" (Some (OSel "func() net/http.Header" (Some (OElse "net/http.ResponseWriter")))).
(** The value a variable has at a call in straight-line code: that of the last assignment above it. *)
Definition in_effect (line : nat) (l : list (nat * oexp)) : option oexp := snd <$> last (filter (λ x, x.1 < line) l).
(** [h := r.Header; h.Get("X"); h = w.Header()]: the call reads the request, and is dropped for an assignment after it. *)
Theorem C96_later_refuted :
  ∃ line l, in_effect line l = Some o_request ∧ param_matches o_rx o_header "writer" o_get [] l.*2 = false ∧
    param_matches o_rx o_header "writer" o_get [] [o_request] = true.
Proof. exists 2, [(1, o_request); (3, o_response)]. by vm_compute. Qed.
(** [wh := w.Header(); h := wh; h.Get("X")]: the second variable's value is the first, and what that was got from is not asked. *)
Theorem C96_alias_refuted :
  ∃ wh h, param_matches o_rx o_header "writer" o_get [] [wh] = false ∧ h = OElse (oexp_type wh) ∧ param_matches o_rx o_header "writer" o_get [] [h] = true.
Proof. exists o_response, (OElse "net/http.Header"). by vm_compute. Qed.
(** A call without the argument that names the parameter is documented without a name. *)
Theorem C96_nameless_refuted :
  ∃ h, (extract_param Some (λ _, None) (λ _, None) "string" "binary" h []).1 = Some (OParam "" "query" false "string").
Proof. exists (PHints "query" 0 false 0). by vm_compute. Qed.

Example C96_chained : receiver_origins [["*echo.Response"]; ["echo.Context"]] [] = ["*echo.Response"; "echo.Context"].
Proof. by vm_compute. Qed.
Example C96_assigned : receiver_origins [] [o_request; o_response] = ["net/http.Header"; "net/http.ResponseWriter"].
Proof. by vm_compute. Qed.
Example C96_path : extract_param Some (λ _, None) (λ _, None) "string" "binary" (PHints "path" 0 false 0) ["id"] = (Some (OParam "id" "path" true "string"), false).
Proof. by vm_compute. Qed.
Example C96_file : extract_param (λ s : string, if decide (s = "field") then None else Some s) (λ s, if decide (s = "field") then Some "avatar" else None) (λ _, None) "string" "binary" (PHints "formFile" 1 false 0) ["ctx"; "field"]
  = (Some (OParam "avatar" "formFile" false "binary"), true).
Proof. by vm_compute. Qed.
Example C96_two_forms : recv_forms "net/http" "*response" (Some "ResponseWriter") = ["net/http.*response"; "net/http.ResponseWriter"].
Proof. by vm_compute. Qed.
Print Assumptions C96_origins_iff. Print Assumptions C96_match_iff. Print Assumptions C96_forms. Print Assumptions C96_param. Print Assumptions C96_none_iff. Print Assumptions C96_multipart_iff.
Print Assumptions C96_later_refuted. Print Assumptions C96_alias_refuted. Print Assumptions C96_nameless_refuted.
