(** * C87: signatures as text, and what the analysis misses. *)
From Coq Require Import Ascii.
From stdpp Require Import sorting.
From stdpp Require Import base list strings gmap.
From Verif Require Import StrLib StrSub StrOrder StrSplit FieldModel FieldProofs PairModel PairProofs ImplModel ImplProofs ImplProps.

(** ** Qualifiers *)
(** An identifier. *)
Definition ident_text (s : string) : Prop := ∃ c r, s = String c r ∧ id_start c = true ∧ str_any (λ c, negb (id_char c)) r = false.
(** Text between identifiers: it starts no identifier, and follows one without joining it. *)
Definition between (s : string) : Prop := str_any id_start s = false ∧ ∃ c r, s = String c r ∧ id_char c = false ∧ c ≠ "."%char.
(** A text of identifiers, each with an optional qualifier and what stands before it. *)
Record token := Token { tk_before : string; tk_qualifier : option string; tk_name : string }.
Definition token_ok (t : token) : Prop :=
  between (tk_before t) ∧ ident_text (tk_name t) ∧ match tk_qualifier t with Some q => ident_text q | None => True end.
Fixpoint spell (qualified : bool) (l : list token) : string :=
  match l with
  | [] => ""
  | t :: l => tk_before t +:+ (match tk_qualifier t with Some q => if qualified then q +:+ "." else "" | None => "" end) +:+ tk_name t +:+ spell qualified l
  end.
Lemma normalize_sep s rest : str_any id_start s = false → normalize_from "" (s +:+ rest) = s +:+ normalize_from "" rest.
Proof. induction s as [|c s IH]; [done|]. cbn [str_any]. intros [H1 H2]%orb_false_iff. rewrite !sapp_cons. cbn [normalize_from]. rewrite decide_True by done. by rewrite H1, IH. Qed.
Lemma normalize_run r rest : ∀ run, run ≠ "" → str_any (λ c, negb (id_char c)) r = false → normalize_from run (r +:+ rest) = normalize_from (run +:+ r) rest.
Proof.
  induction r as [|c r IH]; intros run Hr; [by rewrite sapp_nil|]. cbn [str_any]. intros [H1 H2]%orb_false_iff. rewrite sapp_cons. cbn [normalize_from]. rewrite decide_False by done.
  apply negb_false_iff in H1. rewrite H1, IH; [|by destruct run|done]. by rewrite sapp_assoc.
Qed.
Lemma normalize_ident s rest : ident_text s → normalize_from "" (s +:+ rest) = normalize_from s rest.
Proof.
  intros (c & r & -> & H1 & H2). rewrite sapp_cons. cbn [normalize_from]. rewrite decide_True by done. rewrite H1. by rewrite normalize_run.
Qed.
Lemma ident_nonempty s : ident_text s → s ≠ "".
Proof. by intros (c & r & -> & _). Qed.
Lemma normalize_name s rest : ident_text s → (rest = "" ∨ ∃ c r, rest = String c r ∧ id_char c = false ∧ c ≠ "."%char) → (str_any id_start rest = false ∨ True) →
  normalize_from s rest = s +:+ normalize_from "" rest.
Proof.
  intros Hs [-> | (c & r & -> & H1 & H2)] _; cbn [normalize_from]; [by rewrite sapp_nil|]. rewrite decide_False by (by apply ident_nonempty). rewrite H1. rewrite decide_False by done.
  rewrite decide_True by done. assert (id_start c = false) as ->; [|done]. unfold id_char in H1. by apply orb_false_iff in H1 as [H1 _].
Qed.
Lemma spell_start b l tail : Forall token_ok l → (tail = "" ∨ between tail) → spell b l +:+ tail = "" ∨ ∃ c r, spell b l +:+ tail = String c r ∧ id_char c = false ∧ c ≠ "."%char.
Proof.
  intros Hl Ht. destruct l as [|t l]; cbn [spell].
  - change ("" +:+ tail) with tail. destruct Ht as [-> | [_ (c & r & -> & H)]]; [by left|]. right. by exists c, r.
  - apply Forall_cons in Hl as [((_ & c & r & E & H1 & H2) & _) _]. right. rewrite E. eexists c, _. split; [by rewrite !sapp_cons|done].
Qed.
(** Two spellings of a signature that differ only in qualifiers compare equal: both become the bare one. *)
Theorem C87_qualifiers l tail b : Forall token_ok l → (tail = "" ∨ between tail) → normalize (spell b l +:+ tail) = spell false l +:+ tail.
Proof.
  unfold normalize. intros Hl Ht. induction l as [|t l IH]; cbn [spell].
  - change ("" +:+ tail) with tail. destruct Ht as [-> | [H _]]; [done|]. pose proof (normalize_sep tail "" H) as E. cbn [normalize_from] in E. by rewrite !sapp_nil in E.
  - pose proof (spell_start b l tail) as Hst. apply Forall_cons in Hl as [((Hb & _) & Hn & Hq) Hl]. specialize (IH Hl). specialize (Hst Hl Ht). rewrite !sapp_assoc, normalize_sep by done. f_equal.
    assert (normalize_from "" (tk_name t +:+ spell b l +:+ tail) = tk_name t +:+ spell false l +:+ tail) as E.
    { rewrite normalize_ident by done. rewrite normalize_name by (try done; by right). by rewrite IH. }
    destruct (tk_qualifier t) as [q|]; [|exact E]. destruct b; [|exact E]. rewrite !sapp_assoc, normalize_ident by done.
    change ("." +:+ ?s) with (String "." s). cbn [normalize_from]. rewrite decide_False by (by apply ident_nonempty). exact E.
Qed.
Example C87_qualifiers_case : let l := [Token "(" None "ctx"; Token " " (Some "context") "Context"; Token ", *" (Some "shop") "Order"; Token ") " None "error"] in
  Forall token_ok l ∧ "func" +:+ spell true l = "func(ctx context.Context, *shop.Order) error" ∧ normalize (spell true l) = "(ctx Context, *Order) error".
Proof.
  cbn [spell tk_before tk_qualifier tk_name]. split; [|by vm_compute].
  repeat (apply Forall_cons; split); try by apply Forall_nil_2.
  all: (split; [split; [done|eexists _, _; split; [reflexivity|done]]|split; [eexists _, _; split; [reflexivity|done]|first [exact I|eexists _, _; split; [reflexivity|done]]]]).
Qed.

(** ** The text of a signature *)
(** The types of a list of results as Go reads it: one for each name. *)
Definition go_results (fs : list afield) : list string := param_types fs.
Definition text_ok (s : string) : Prop := s ≠ "" ∧ contains_byte "," s = false ∧ contains_byte ")" s = false.
Definition texts_ok (fs : list afield) : Prop := Forall (λ f : afield, text_ok f.2) fs.
Lemma param_texts fs : texts_ok fs → Forall text_ok (param_types fs).
Proof.
  intros H. unfold param_types. apply Forall_forall. intros s Hs. apply elem_of_list_join in Hs as (l & Hs & Hl). apply elem_of_list_fmap in Hl as ([names ty] & -> & Hf).
  unfold texts_ok in H. rewrite Forall_forall in H. specialize (H _ Hf). cbn [fst snd] in *. destruct names as [|n names]; [by apply elem_of_list_singleton in Hs as ->|]. by apply elem_of_list_fmap in Hs as (? & -> & _).
Qed.
Lemma take_until_at c a b : contains_byte c a = false → take_until (λ d, bool_decide (d = c)) (a +:+ String c b) = a.
Proof.
  intros H. rewrite take_until_app. change (str_any (λ d, bool_decide (d = c)) a) with (contains_byte c a). rewrite H. cbn [take_until]. rewrite bool_decide_eq_true_2 by done. by rewrite sapp_nil.
Qed.
Lemma take_until_whole c a : contains_byte c a = false → take_until (λ d, bool_decide (d = c)) a = a.
Proof. intros H. by apply take_until_none. Qed.
Lemma join_inj l1 : ∀ l2, Forall text_ok l1 → Forall text_ok l2 → str_join ", " l1 = str_join ", " l2 → l1 = l2.
Proof.
  assert (∀ x l, text_ok x → take_until (λ d, bool_decide (d = ","%char)) (str_join ", " (x :: l)) = x) as Ht.
  { intros x l (_ & H & _). destruct l as [|y l]; [by apply take_until_whole|]. rewrite str_join_cons2. change (", " +:+ ?s) with (String "," (String " " s)). by apply take_until_at. }
  induction l1 as [|x l1 IH]; intros [|y l2] H1 H2 E.
  - done.
  - apply Forall_cons in H2 as [H2 _]. apply (f_equal (take_until (λ d, bool_decide (d = ","%char)))) in E. rewrite Ht in E by done. by destruct H2.
  - apply Forall_cons in H1 as [H1 _]. apply (f_equal (take_until (λ d, bool_decide (d = ","%char)))) in E. rewrite Ht in E by done. by destruct H1.
  - apply Forall_cons in H1 as [Hx H1], H2 as [Hy H2]. pose proof (f_equal (take_until (λ d, bool_decide (d = ","%char))) E) as Exy. rewrite !Ht in Exy by done. subst y. f_equal.
    destruct l1 as [|x1 l1], l2 as [|y1 l2]; [done|..].
    + rewrite str_join_cons2 in E. cbn [str_join] in E. apply (f_equal String.length) in E. rewrite !sapp_length in E. cbn [String.length] in E. lia.
    + rewrite str_join_cons2 in E. cbn [str_join] in E. apply (f_equal String.length) in E. rewrite !sapp_length in E. cbn [String.length] in E. lia.
    + rewrite !str_join_cons2 in E. apply sapp_inj_l, sapp_inj_l in E. by apply IH.
Qed.
Lemma join_no c l : contains_byte c ", " = false → Forall (λ x, contains_byte c x = false) l → contains_byte c (str_join ", " l) = false.
Proof.
  intros Hc. induction l as [|x l IH]; intros H; [done|]. apply Forall_cons in H as [Hx H]. destruct l as [|y l]; [done|]. rewrite str_join_cons2, !contains_byte_app, Hx, Hc. by apply IH.
Qed.
(** Full statement: two signatures have one text if and only if they have the same parameter and result
    types. Proved for types written without comma or parenthesis, and results with at most one name each. *)
Theorem C87_signature_partial ps rs ps' rs' : texts_ok ps → texts_ok rs → texts_ok ps' → texts_ok rs' →
  Forall (λ f : afield, length f.1 ≤ 1) (rs ++ rs') →
  sig_text ps rs = sig_text ps' rs' ↔ param_types ps = param_types ps' ∧ go_results rs = go_results rs'.
Proof.
  intros H1 H2 H3 H4 Hone. apply Forall_app in Hone as [O1 O2].
  assert (∀ fs, Forall (λ f : afield, length f.1 ≤ 1) fs → result_types fs = go_results fs) as Hres.
  { induction fs as [|[names ty] fs IH]; intros H; [done|]. apply Forall_cons in H as [Hn H]. specialize (IH H). cbn [fst] in Hn.
    destruct names as [|n [|? ?]]; [| |cbn in Hn; lia]; change (result_types ((_, ty) :: fs)) with (ty :: result_types fs); rewrite IH; done. }
  rewrite <- (Hres rs O1), <- (Hres rs' O2). unfold sig_text. split; [|by intros [-> ->]]. intros E. apply sapp_inj_l in E.
  assert (∀ fs, texts_ok fs → contains_byte ")" (str_join ", " (param_types fs)) = false) as Hp.
  { intros fs H. apply join_no; [done|]. eapply Forall_impl; [by apply param_texts|]. by intros x (_ & _ & ?). }
  change (") " +:+ ?s) with (String ")" (String " " s)) in E.
  pose proof (f_equal (take_until (λ d, bool_decide (d = ")"%char))) E) as Ep. rewrite !take_until_at in Ep by (by apply Hp). rewrite Ep in E. apply sapp_inj_l in E. injection E as E.
  split; [apply join_inj; [by apply param_texts|by apply param_texts|done]|].
  assert (∀ fs, texts_ok fs → Forall text_ok (result_types fs)) as Hr by (intros fs H; by apply Forall_fmap).
  by apply join_inj; [apply Hr|apply Hr|].
Qed.
Example C87_signature_case : sig_text [(["ctx"], "context.Context"); (["a"; "b"], "int")] [([], "string"); ([], "error")] = "func(context.Context, int, int) string, error" ∧
  texts_ok [(["ctx"], "context.Context"); (["a"; "b"], "int")].
Proof. split; [done|]. by repeat (apply Forall_cons; split); [..|apply Forall_nil_2]. Qed.
(** [(a, b int)] is read as one result: it has the text of [int]. *)
Theorem C87_results_refuted : ∃ ps rs rs', texts_ok rs ∧ texts_ok rs' ∧ sig_text ps rs = sig_text ps rs' ∧ go_results rs ≠ go_results rs'.
Proof. exists [], [(["a"; "b"], "int")], [([], "int")]. split; [by apply Forall_singleton|]. split; [by apply Forall_singleton|]. by vm_compute. Qed.

(** ** What the analysis gets wrong *)
Definition small (t i : itype) : iproject := {[ "shop" := {[ "T" := t; "I" := i ]} ]}.
Lemma small_fresh t i : it_implements t = [] → it_implemented_by t = [] → it_implements i = [] → it_implemented_by i = [] →
  NoDup (im_name <$> it_methods t) → NoDup (im_name <$> it_methods i) → fresh (small t i).
Proof.
  intros H1 H2 H3 H4 H5 H6 [p n] u. unfold get_type, small. cbn [fst snd]. destruct (decide (p = "shop")) as [->|Hp]; [|by rewrite lookup_singleton_ne].
  rewrite lookup_singleton. cbn [mbind option_bind]. destruct (decide (n = "T")) as [->|Hn]; [rewrite lookup_insert; intros [= <-]; done|].
  rewrite lookup_insert_ne by done. destruct (decide (n = "I")) as [->|Hn']; [rewrite lookup_singleton; intros [= <-]; done|]. by rewrite lookup_singleton_ne.
Qed.
(** Types of one name in two packages are taken for one type: [Save(a.Order)] is no [Save(b.Order)]. *)
Theorem C87_packages_refuted : ∃ pr t i m m', fresh pr ∧ get_type pr ("shop", "T") = Some t ∧ get_type pr ("shop", "I") = Some i ∧ it_methods t = [m] ∧ it_methods i = [m'] ∧
  im_name m = im_name m' ∧ im_sig m = sig_text [([], "a.Order")] [([], "error")] ∧ im_sig m' = sig_text [([], "b.Order")] [([], "error")] ∧
  ∃ i', get_type (analyze pr) ("shop", "I") = Some i' ∧ "shop.T" ∈ it_implemented_by i'.
Proof.
  exists (small (IType "struct" [IMethod "Save" "func(a.Order) error"] [] []) (IType "interface" [IMethod "Save" "func(b.Order) error"] [] [])). eexists _, _, _, _.
  split; [apply small_fresh; first [done|apply NoDup_singleton]|]. do 7 (split; [reflexivity|]). eexists. split; [by vm_compute|]. by apply (bool_decide_unpack _).
Qed.
(** The methods of an interface are its own and those of the interfaces it embeds. *)
Definition go_methods (env : string → list imethod) (elems : list (option string * string)) : list imethod :=
  mjoin ((λ e : option string * string, match e.1 with Some n => [IMethod n e.2] | None => env e.2 end) <$> elems).
(** A struct without the methods of an embedded interface is taken for an implementation. *)
Theorem C87_embedded_refuted : ∃ env elems t m, m ∈ go_methods env elems ∧ im_name m ∉ im_name <$> it_methods t ∧ satisfies t (IType "interface" (interface_methods elems) [] []).
Proof.
  exists (λ n, if decide (n = "io.Closer") then [IMethod "Close" "func() error"] else []), [(Some "Read", "func([]byte) int, error"); (None, "io.Closer")],
    (IType "struct" [IMethod "Read" "func([]byte) int, error"] [] []), (IMethod "Close" "func() error").
  split; [right; by left|]. split; [by apply (bool_decide_unpack (_ ∉ _))|]. split; [done|]. split; [done|]. split; [done|].
  intros m Hm. apply elem_of_list_singleton in Hm as ->. eexists. split; [by apply elem_of_list_singleton|done].
Qed.
(** An interface made of embedded ones alone has no implementation at all. *)
Theorem C87_embedded_only elems : (∀ e, e ∈ elems → e.1 = None) → ∀ t, ¬ satisfies t (IType "interface" (interface_methods elems) [] []).
Proof.
  intros H t (_ & _ & Hn & _). apply Hn. cbn [it_methods]. unfold interface_methods. clear Hn t. induction elems as [|[n s] elems IH]; [done|].
  assert (n = None) as -> by (apply (H (n, s)); by left). apply IH. intros e' He'. apply H. by right.
Qed.
Example C87_embedded_only_case : ∀ e, e ∈ [(None, "io.Reader"); (None, "io.Writer")] → e.1 = (None : option string).
Proof. intros e. rewrite !elem_of_cons, elem_of_nil. intros [-> | [-> | []]]; done. Qed.
Theorem C87_embedded_only_refuted : ∃ env elems t, it_kind t = "struct" ∧ go_methods env elems ≠ [] ∧ (∀ m, m ∈ go_methods env elems → m ∈ it_methods t) ∧
  ¬ satisfies t (IType "interface" (interface_methods elems) [] []).
Proof.
  exists (λ _, [IMethod "Close" "func() error"]), [(None, "io.Closer")], (IType "struct" [IMethod "Close" "func() error"] [] []).
  split; [done|]. split; [done|]. split; [done|]. apply C87_embedded_only. intros e. by intros ->%elem_of_list_singleton.
Qed.
(** A type that is no struct, such as a function type, implements nothing, though it declares the methods. *)
Theorem C87_kind_refuted : ∃ pr t i, fresh pr ∧ get_type pr ("shop", "T") = Some t ∧ get_type pr ("shop", "I") = Some i ∧ it_kind t = "other" ∧ it_methods t = it_methods i ∧ it_methods i ≠ [] ∧
  ∃ i', get_type (analyze pr) ("shop", "I") = Some i' ∧ it_implemented_by i' = [].
Proof.
  exists (small (IType "other" [IMethod "Serve" "func() error"] [] []) (IType "interface" [IMethod "Serve" "func() error"] [] [])). eexists _, _.
  split; [apply small_fresh; first [done|apply NoDup_singleton]|]. do 4 (split; [reflexivity|]). split; [done|]. eexists. by vm_compute.
Qed.
(** Metadata from a file may name an interface among its own implementations: the recursion does not end. *)
Theorem C87_cycle_refuted : ∃ pr methods pkg name, ∀ n, handler_keys n pr methods pkg name = None.
Proof.
  exists (small (IType "struct" [] [] []) (IType "interface" [IMethod "Serve" "func()"] [] ["shop.I"])), ["Serve"], "shop", "I". intros n. induction n as [|n IH]; [done|].
  cbn [handler_keys]. rewrite decide_False by (by intros [?|[?|?]]). change (get_type _ _) with (Some (IType "interface" [IMethod "Serve" "func()"] [] ["shop.I"])).
  cbn [it_kind it_implemented_by]. rewrite decide_True by done. cbn [mapM]. assert (split_type_key "shop.I" = Some ("shop", "I")) as -> by (by vm_compute). by rewrite IH.
Qed.

(** A project with a struct, an interface it satisfies and an outside interface. *)
Definition store : iproject := small (IType "struct" [IMethod "ServeHTTP" "func(http.ResponseWriter, *http.Request) "; IMethod "Save" "func(Order) error"] [] [])
  (IType "interface" [IMethod "Save" "func(shop.Order) error"] [] []).
Definition store_ext (x : string * string) : list string := if decide (x = ("shop", "T")) then ["net/http.Handler"] else [].
Example C87_store_case : fresh store ∧ (∀ x t, get_type store x = Some t → it_kind t = "interface" → store_ext x = []) ∧
  it_implemented_by <$> get_type (analyze store) ("shop", "I") = Some ["shop.T"] ∧
  handler_keys 2 (analyze_external store_ext (analyze store)) ["ServeHTTP"] "net/http" "Handler" = Some ["shop.T.ServeHTTP"] ∧
  handler_keys 2 (analyze_external store_ext (analyze store)) ["ServeHTTP"] "shop" "I" = Some ["shop.T.ServeHTTP"].
Proof.
  split; [apply small_fresh; try done; [|apply NoDup_singleton]; by apply (bool_decide_unpack _)|]. split; [|by vm_compute].
  intros x t Hx Hk. unfold store_ext. destruct (decide (x = ("shop", "T"))) as [->|]; [|done]. vm_compute in Hx. injection Hx as <-. done.
Qed.

Print Assumptions C87_exact.
Print Assumptions C87_nothing_new.
Print Assumptions C87_key_split.
Print Assumptions C87_method_key_split.
Print Assumptions C87_handler_keys.
Print Assumptions C87_qualifiers.
Print Assumptions C87_signature_partial.
Print Assumptions C87_results_refuted.
Print Assumptions C87_packages_refuted.
Print Assumptions C87_embedded_refuted.
Print Assumptions C87_embedded_only.
Print Assumptions C87_embedded_only_refuted.
Print Assumptions C87_kind_refuted.
Print Assumptions C87_cycle_refuted.
