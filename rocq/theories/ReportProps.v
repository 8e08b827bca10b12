(** * C105: the overview report. *)
From Coq Require Import Ascii ZArith Lia.
From stdpp Require Import sorting.
From stdpp Require Import base numbers list strings gmap.
From Verif Require Import StrLib StrSub StrOrder DecLib SecProps ReportModel.

(** ** Specification *)
(** The operations of a document. *)
Definition op_fields : list (string * (oitem → option oop)) := [("GET", oi_get); ("POST", oi_post); ("PUT", oi_put); ("DELETE", oi_delete); ("PATCH", oi_patch); ("OPTIONS", oi_options); ("HEAD", oi_head)].
Definition has_operation (d : odoc) (path method : string) (op : oop) : Prop := ∃ pi f, od_paths d !! path = Some pi ∧ (method, f) ∈ op_fields ∧ f pi = Some op.
(** A schema refers to a component somewhere in it. *)
Definition subs (s : osch) : list osch := match s with ONil => [] | OSch _ _ _ _ items addl neg props allof oneof anyof => items :: addl :: neg :: props ++ allof ++ oneof ++ anyof end.
Inductive mentions : osch → string → Prop :=
| mentions_here n ty de en it ad ne pr al on an : mentions (OSch ("#/components/schemas/" +:+ n) ty de en it ad ne pr al on an) n
| mentions_sub s k n : k ∈ subs s → mentions k n → mentions s n.
(** The schemas of an operation and where they are. *)
Inductive used (op : oop) : string → osch → Prop :=
| used_body l ct s : oo_body op = Some l → (ct, s) ∈ l → used op "request body" s
| used_response status l ct s : (status, l) ∈ oo_responses op → (ct, s) ∈ l → used op ("response " +:+ status) s
| used_param name s : (name, s) ∈ oo_params op → used op ("parameter " +:+ name) s.
Definition placeholder (s : osch) : Prop := ∃ ref ty de en it ad ne pr al on an, s = OSch ref ty de en it ad ne pr al on an ∧ str_contains "External or unresolved type" de = true.
(** An envelope: composed of several, one a reference and one with properties of its own. *)
Definition envelope (s : osch) : Prop := ∃ ref ty de en it ad ne pr al on an, s = OSch ref ty de en it ad ne pr al on an ∧ 2 ≤ length al ∧
  (∃ n ty de en it ad ne pr al' on an, OSch ("#/components/schemas/" +:+ n) ty de en it ad ne pr al' on an ∈ al) ∧ (∃ ty de en it ad ne x pr al' on an, OSch "" ty de en it ad ne (x :: pr) al' on an ∈ al).
(** What is to be reported of an operation: severity, kind, where, and the component. *)
Inductive reported (comps : gmap string osch) (op : oop) : string → string → string → Prop :=
| rep_none : oo_responses op = [] → reported comps op "warn" "no-responses" ""
| rep_dangling w s n : used op w s → mentions s n → comps !! n = None → reported comps op "warn" "dangling-ref" n
| rep_placeholder w s n t : used op w s → mentions s n → comps !! n = Some t → placeholder t → reported comps op "warn" "unresolved-type" n
| rep_envelope status l ct s : (status, l) ∈ oo_responses op → (ct, s) ∈ l → envelope s → reported comps op "info" "wrapper-specialised" ""
| rep_default l : ("default", l) ∈ oo_responses op → reported comps op "info" "default-status" "".

(** ** References *)
Lemma osch_ind' (P : osch → Prop) : P ONil → (∀ ref ty de en it ad ne pr al on an, P it → P ad → P ne → Forall P pr → Forall P al → Forall P on → Forall P an → P (OSch ref ty de en it ad ne pr al on an)) → ∀ s, P s.
Proof.
  intros H0 H. fix IH 1. intros [|ref ty de en it ad ne pr al on an]; [exact H0|]. apply H; clear H; [apply IH|apply IH|apply IH|..].
  - induction pr as [|x l IHl]; constructor; [apply IH|apply IHl].
  - induction al as [|x l IHl]; constructor; [apply IH|apply IHl].
  - induction on as [|x l IHl]; constructor; [apply IH|apply IHl].
  - induction an as [|x l IHl]; constructor; [apply IH|apply IHl].
Qed.
Lemma ref_walk_eq ref ty de en it ad ne pr al on an : ref_walk (OSch ref ty de en it ad ne pr al on an) = (if has_prefix ref_prefix ref then [str_drop (String.length ref_prefix) ref] else []) ++ concat (ref_walk <$> subs (OSch ref ty de en it ad ne pr al on an)).
Proof.
  cbn [ref_walk]. assert (E : ∀ l, (fix all (l : list osch) : list string := match l with [] => [] | x :: l => ref_walk x ++ all l end) l = concat (ref_walk <$> l)) by (induction l as [|x l IH]; [done|]; cbn; by rewrite IH).
  rewrite !E. f_equal. cbn [subs]. rewrite !fmap_cons, !fmap_app. cbn [concat]. by rewrite !concat_app.
Qed.
Lemma in_concat_fmap {A B} (f : A → list B) l (b : B) : b ∈ concat (f <$> l) ↔ ∃ a, a ∈ l ∧ b ∈ f a.
Proof.
  rewrite elem_of_list_In, in_concat. split.
  - intros (x & Hx & H). apply elem_of_list_In, elem_of_list_fmap in Hx as (a & -> & Ha). exists a. split; [done|]. by apply elem_of_list_In.
  - intros (a & Ha & H). exists (f a). split; [apply elem_of_list_In, elem_of_list_fmap; by exists a|by apply elem_of_list_In].
Qed.
Lemma ref_walk_spec s n : n ∈ ref_walk s ↔ mentions s n.
Proof.
  revert n. assert (K : ∀ ref ty de en it ad ne pr al on an, Forall (λ k, ∀ n, n ∈ ref_walk k ↔ mentions k n) (subs (OSch ref ty de en it ad ne pr al on an)) → ∀ n, n ∈ ref_walk (OSch ref ty de en it ad ne pr al on an) ↔ mentions (OSch ref ty de en it ad ne pr al on an) n).
  { intros ref ty de en it ad ne pr al on an F n. rewrite Forall_forall in F. rewrite ref_walk_eq, elem_of_app, in_concat_fmap. split.
    - intros [H|(k & Hk & Hn)].
      + destruct (has_prefix ref_prefix ref) eqn:P; [|by apply not_elem_of_nil in H]. apply elem_of_list_singleton in H as ->. apply has_prefix_spec in P as [t ->]. rewrite str_drop_app. constructor.
      + eapply mentions_sub; [exact Hk|]. by apply F.
    - intros H. inversion H as [n' ty' de' en' it' ad' ne' pr' al' on' an'|s' k n' Hk Hm]; subst.
      + left. change "#/components/schemas/" with ref_prefix. rewrite (proj2 (has_prefix_spec ref_prefix (ref_prefix +:+ n))) by (by exists n). rewrite str_drop_app. by left.
      + right. exists k. split; [done|]. by apply F. }
  induction s as [|ref ty de en it ad ne pr al on an I1 I2 I3 I4 I5 I6 I7] using osch_ind'.
  - intros n. split; [intros H; by apply not_elem_of_nil in H|]. intros H. inversion H as [|s k n' Hk _]; subst. by apply not_elem_of_nil in Hk.
  - apply K. cbn [subs]. do 3 (apply Forall_cons; split; [done|]). by rewrite !Forall_app.
Qed.
Lemma elem_of_firsts x l : ∀ seen, x ∈ firsts seen l ↔ x ∈ l ∧ x ∉ seen.
Proof.
  induction l as [|y l IH]; intros seen; cbn [firsts]; [split; [intros H; by apply not_elem_of_nil in H|by intros [? _]]|]. destruct (decide (y ∈ seen)) as [Hy|Hy].
  - rewrite IH, elem_of_cons. split; [intros [? ?]; split; [by right|done]|]. intros [[->|?] ?]; [done|by split].
  - rewrite elem_of_cons, IH, not_elem_of_union, not_elem_of_singleton, elem_of_cons. split; [intros [->|(? & ? & ?)]; [by split; [left|]|by split; [right|]]|]. intros [[->|?] ?]; [by left|]. destruct (decide (x = y)) as [->|]; [by left|by right].
Qed.
Lemma NoDup_firsts l : ∀ seen, NoDup (firsts seen l).
Proof. induction l as [|y l IH]; intros seen; cbn [firsts]; [constructor|]. destruct (decide (y ∈ seen)); [done|]. constructor; [|done]. rewrite elem_of_firsts. intros [_ H]. apply H. by apply elem_of_union_l, elem_of_singleton. Qed.
(** C105a: the references found in a schema are exactly those in it, each once. *)
Theorem C105_refs s : (∀ n, n ∈ schema_refs s ↔ mentions s n) ∧ NoDup (schema_refs s).
Proof. split; [|apply NoDup_firsts]. intros n. unfold schema_refs. rewrite elem_of_firsts, ref_walk_spec. split; [by intros [? _]|]. intros H. split; [done|]. apply not_elem_of_empty. Qed.

(** ** Issues *)
Lemma ops_of_spec pi m op : (m, op) ∈ operations_of pi ↔ ∃ f, (m, f) ∈ op_fields ∧ f pi = Some op.
Proof.
  unfold operations_of. rewrite elem_of_list_omap. split.
  - intros ([m' o] & Hin & E). cbn in E. destruct o as [op'|]; [|done]. injection E as -> ->. repeat (apply elem_of_cons in Hin as [E|Hin]; [injection E as -> E; eexists; split; [|symmetry; exact E]; unfold op_fields; repeat (first [by left|right])|]). by apply not_elem_of_nil in Hin.
  - intros (f & Hin & E). exists (m, Some op). split; [|done]. rewrite <- E. unfold op_fields in Hin. repeat (apply elem_of_cons in Hin as [X|Hin]; [injection X as -> ->; repeat (first [by left|right])|]). by apply not_elem_of_nil in Hin.
Qed.
Lemma all_ops_spec d p m op : (p, m, op) ∈ all_operations d ↔ has_operation d p m op.
Proof.
  unfold all_operations, has_operation. rewrite elem_of_list_In, in_concat. split.
  - intros (l & Hl & H). apply elem_of_list_In, elem_of_list_fmap in Hl as (q & -> & _). apply elem_of_list_In in H. destruct (od_paths d !! q) as [pi|] eqn:E; [|by apply not_elem_of_nil in H]. apply elem_of_list_fmap in H as ([m' o] & X & H). cbn in X. injection X as -> -> ->. apply ops_of_spec in H as (f & H1 & H2). by exists pi, f.
  - intros (pi & f & Hp & Hf & E). eexists. split.
    + apply elem_of_list_In, elem_of_list_fmap. exists p. split; [done|]. apply elem_of_ssort, elem_of_elements, elem_of_dom. by exists pi.
    + rewrite Hp. apply elem_of_list_In, elem_of_list_fmap. exists (m, op). split; [done|]. apply ops_of_spec. by exists f.
Qed.
Lemma ref_issues_spec m p w s comps i : i ∈ ref_issues m p w s comps ↔ is_severity i = "warn" ∧ is_method i = m ∧ is_path i = p ∧ ∃ n, mentions s n ∧ is_ref i = n ∧
  ((comps !! n = None ∧ is_kind i = "dangling-ref" ∧ is_detail i = w +:+ " references a schema that has no component definition") ∨ (∃ t, comps !! n = Some t ∧ placeholder t ∧ is_kind i = "unresolved-type" ∧ is_detail i = w +:+ " resolves to an unresolved/external placeholder type")).
Proof.
  unfold ref_issues. rewrite elem_of_list_In, in_concat. split.
  - intros (l & Hl & H). apply elem_of_list_In, elem_of_list_fmap in Hl as (n & -> & Hn). apply elem_of_list_In in H. apply (C105_refs s) in Hn. destruct (comps !! n) as [t|] eqn:E.
    + destruct t as [|ref ty de en it ad ne pr al on an]; [by apply not_elem_of_nil in H|]. cbn [os_descr] in H. destruct (str_contains placeholder_marker de) eqn:P; [|by apply not_elem_of_nil in H]. apply elem_of_list_singleton in H as ->. cbn. repeat split. exists n. split; [done|]. split; [done|]. right. eexists. split; [exact E|]. split; [|done]. by repeat eexists.
    + apply elem_of_list_singleton in H as ->. cbn. repeat split. exists n. split; [done|]. split; [done|]. by left.
  - destruct i as [sv kd mt pt dt rf]. cbn. intros (-> & -> & -> & n & Hn & -> & H). eexists. split; [apply elem_of_list_In, elem_of_list_fmap; exists n; split; [done|by apply (C105_refs s)]|]. apply elem_of_list_In. destruct H as [(E & -> & ->)|(t & E & (ref & ty & de & en & it & ad & ne & pr & al & on & an & -> & P) & -> & ->)]; rewrite E; [by left|]. cbn [os_descr]. change "External or unresolved type" with placeholder_marker in P. rewrite P. by left.
Qed.
Lemma wrapper_spec s : is_wrapper s = true ↔ envelope s.
Proof.
  destruct s as [|ref ty de en it ad ne pr al on an]; cbn [is_wrapper].
  { split; [done|]. intros (? & ? & ? & ? & ? & ? & ? & ? & ? & ? & ? & ? & _). done. }
  rewrite !andb_true_iff, bool_decide_eq_true, !existsb_exists. split.
  - intros ((H1 & x & Hx & Px) & y & Hy & Py). exists ref, ty, de, en, it, ad, ne, pr, al, on, an. split; [done|]. split; [done|]. split.
    + destruct x as [|r ? ? ? ? ? ? ? ? ? ?]; [done|]. apply has_prefix_spec in Px as [t ->]. repeat eexists. apply elem_of_list_In. exact Hx.
    + destruct y as [|r ? ? ? ? ? ? ps ? ? ?]; [done|]. apply andb_true_iff in Py as [P1 P2]. apply bool_decide_eq_true in P1, P2. subst r. destruct ps as [|z0 ps]; [done|]. repeat eexists. apply elem_of_list_In. exact Hy.
  - intros (? & ? & ? & ? & ? & ? & ? & ? & ? & ? & ? & E & H1 & (n & ? & ? & ? & ? & ? & ? & ? & ? & ? & ? & Hx) & (? & ? & ? & ? & ? & ? & z0 & ps & ? & ? & ? & Hy)). injection E as -> -> -> -> -> -> -> -> -> -> ->. split; [split; [done|]|].
    + eexists. split; [apply elem_of_list_In; exact Hx|]. cbn beta iota. apply has_prefix_spec. by exists n.
    + eexists. split; [apply elem_of_list_In; exact Hy|]. done.
Qed.
Lemma op_issues_spec m p op comps sv kd rf : (∃ i, i ∈ operation_issues m p op comps ∧ is_severity i = sv ∧ is_kind i = kd ∧ is_ref i = rf) ↔ reported comps op sv kd rf.
Proof.
  assert (R : ∀ w s i, used op w s → i ∈ ref_issues m p w s comps → reported comps op (is_severity i) (is_kind i) (is_ref i)).
  { intros w s i U Hi. apply ref_issues_spec in Hi as (-> & _ & _ & n & Hn & -> & [(E & -> & _)|(t & E & P & -> & _)]); [by eapply rep_dangling|by eapply rep_placeholder]. }
  unfold operation_issues. split.
  - intros (i & Hi & <- & <- & <-). rewrite !elem_of_app in Hi. destruct Hi as [H|[H|[H|[H|H]]]].
    + destruct (decide _) as [E|] in H; [|by apply not_elem_of_nil in H]. apply elem_of_list_singleton in H as ->. by constructor.
    + apply in_concat_fmap in H as ([ct s] & Hc & H). cbn in H. destruct (oo_body op) as [l|] eqn:B; [|by apply not_elem_of_nil in Hc]. eapply R; [|exact H]. by eapply used_body.
    + apply in_concat_fmap in H as ([st l] & Hr & H). cbn in H. apply in_concat_fmap in H as ([ct s] & Hc & H). cbn in H. apply elem_of_app in H as [H|H]; [eapply R; [|exact H]; by eapply used_response|]. destruct (is_wrapper s) eqn:W; [|by apply not_elem_of_nil in H]. apply elem_of_list_singleton in H as ->. eapply rep_envelope; [done|done|by apply wrapper_spec].
    + destruct (decide _) as [E|] in H; [|by apply not_elem_of_nil in H]. apply elem_of_list_singleton in H as ->. apply elem_of_list_fmap in E as ([st l] & X & E). cbn in X. subst st. by eapply rep_default.
    + apply in_concat_fmap in H as ([nm s] & Hc & H). cbn in H. eapply R; [|exact H]. by constructor.
  - assert (R' : ∀ w s n, used op w s → mentions s n → ∀ kd, (comps !! n = None ∧ kd = "dangling-ref" ∨ ∃ t, comps !! n = Some t ∧ placeholder t ∧ kd = "unresolved-type") → ∃ i, i ∈ operation_issues m p op comps ∧ is_severity i = "warn" ∧ is_kind i = kd ∧ is_ref i = n).
    { intros w s n U Mn kd' H. assert (∃ i, i ∈ ref_issues m p w s comps ∧ is_kind i = kd' ∧ is_severity i = "warn" ∧ is_ref i = n) as (i & Hi & Ki & Si & Ri).
      { destruct H as [(E & ->)|(t & E & P & ->)]; [exists (Issue "warn" "dangling-ref" m p (w +:+ " references a schema that has no component definition") n)|exists (Issue "warn" "unresolved-type" m p (w +:+ " resolves to an unresolved/external placeholder type") n)]; (split; [|done]); apply ref_issues_spec; cbn; repeat split; exists n; (split; [done|]; split; [done|]); [by left|right; by exists t]. }
      exists i. split; [|done]. unfold operation_issues. rewrite !elem_of_app. destruct U as [l ct s B Hc|st l ct s Hr Hc|nm s Hc].
      - right; left. rewrite B. apply in_concat_fmap. by exists (ct, s).
      - right; right; left. apply in_concat_fmap. exists (st, l). split; [done|]. cbn. apply in_concat_fmap. exists (ct, s). split; [done|]. cbn. apply elem_of_app. by left.
      - right; right; right; right. apply in_concat_fmap. by exists (nm, s). }
    fold (operation_issues m p op comps). intros H. destruct H as [E|w s n U Mn E|w s n t U Mn E P|st l ct s Hr Hc W|l Hl].
    + eexists. split; [unfold operation_issues; rewrite decide_True by done; by left|done].
    + apply (R' w s n U Mn). by left.
    + apply (R' w s n U Mn). right. by exists t.
    + eexists. split; [unfold operation_issues; rewrite !elem_of_app; right; right; left; apply in_concat_fmap; exists (st, l); split; [done|]; cbn; apply in_concat_fmap; exists (ct, s); split; [done|]; cbn; rewrite (proj2 (wrapper_spec s) W); apply elem_of_app; right; by left|done].
    + eexists. split; [unfold operation_issues; rewrite !elem_of_app; right; right; right; left; rewrite decide_True; [by left|apply elem_of_list_fmap; by exists ("default", l)]|done].
Qed.
Lemma op_issues_at m p op comps i : i ∈ operation_issues m p op comps → is_method i = m ∧ is_path i = p.
Proof.
  assert (R : ∀ w s i, i ∈ ref_issues m p w s comps → is_method i = m ∧ is_path i = p) by (intros w s j Hj; apply ref_issues_spec in Hj as (_ & ? & ? & _); done).
  unfold operation_issues. rewrite !elem_of_app. intros [H|[H|[H|[H|H]]]].
  - destruct (decide _) in H; [|by apply not_elem_of_nil in H]. by apply elem_of_list_singleton in H as ->.
  - apply in_concat_fmap in H as (x & _ & H). by eapply R.
  - apply in_concat_fmap in H as (x & _ & H). apply in_concat_fmap in H as (y & _ & H). apply elem_of_app in H as [H|H]; [by eapply R|]. destruct (is_wrapper _); [|by apply not_elem_of_nil in H]. by apply elem_of_list_singleton in H as ->.
  - destruct (decide _) in H; [|by apply not_elem_of_nil in H]. by apply elem_of_list_singleton in H as ->.
  - apply in_concat_fmap in H as (x & _ & H). by eapply R.
Qed.
(** C105b: the issues are exactly what is to be reported of the operations. *)
Theorem C105_issue_iff d p m sv kd rf : (∃ i, i ∈ report_issues d ∧ is_path i = p ∧ is_method i = m ∧ is_severity i = sv ∧ is_kind i = kd ∧ is_ref i = rf) ↔ ∃ op, has_operation d p m op ∧ reported (od_comps d) op sv kd rf.
Proof.
  unfold report_issues, raw_issues. split.
  - intros (i & Hi & <- & <- & Hs & Hk & Hr). rewrite merge_sort_Permutation in Hi. apply in_concat_fmap in Hi as ([[p m] op] & Ho & Hi). cbn in Hi. destruct (op_issues_at _ _ _ _ _ Hi) as [-> ->]. exists op. split; [by apply all_ops_spec|]. apply (op_issues_spec m p). by exists i.
  - intros (op & Ho & Hr). apply (op_issues_spec m p) in Hr as (i & Hi & Hs & Hk & Hf). exists i. split; [rewrite merge_sort_Permutation; apply in_concat_fmap; exists (p, m, op); split; [by apply all_ops_spec|done]|]. by destruct (op_issues_at _ _ _ _ _ Hi) as [-> ->].
Qed.
Lemma string_le_total' a b : string_le a b ∨ string_le b a.
Proof. apply (total string_le). Qed.
Lemma string_le_tr a b c : string_le a b → string_le b c → string_le a c.
Proof. apply (transitivity (R := string_le)). Qed.
Lemma string_le_anti a b : string_le a b → string_le b a → a = b.
Proof. apply (anti_symm string_le). Qed.
#[global] Instance issue_le_total : Total issue_le.
Proof.
  intros a b. unfold issue_le. destruct (bool_decide (is_severity a = "warn")), (bool_decide (is_severity b = "warn")); try (by left); try (by right).
  all: destruct (decide (is_path a = is_path b)) as [E|N]; [destruct (string_le_total' (is_method a) (is_method b)); [left; right|right; right]; done|destruct (string_le_total' (is_path a) (is_path b)); [left; left|right; left]; split; try done; congruence].
Qed.
#[global] Instance issue_le_trans : Transitive issue_le.
Proof.
  intros a b c. unfold issue_le. destruct (bool_decide (is_severity a = "warn")), (bool_decide (is_severity b = "warn")), (bool_decide (is_severity c = "warn")); try done.
  all: intros [[N1 L1]|[E1 L1]] [[N2 L2]|[E2 L2]]; [left; split; [intros E; apply N1, string_le_anti; [done|by rewrite E]|by eapply string_le_tr]|left; rewrite <- E2; by split|left; rewrite E1; by split|right; split; [congruence|by eapply string_le_tr]].
Qed.
(** C105c: they come warnings first, then in the order of paths, then of methods. *)
Theorem C105_order d : StronglySorted issue_le (report_issues d) ∧ report_issues d ≡ₚ concat ((λ x : string * string * oop, operation_issues x.1.2 x.1.1 x.2 (od_comps d)) <$> all_operations d).
Proof. split; [apply StronglySorted_merge_sort; apply _|apply merge_sort_Permutation]. Qed.

(** ** States *)
Lemma classify_broken b l : classify b l = "broken" ↔ ∃ i, i ∈ l ∧ is_kind i ∈ ["dangling-ref"; "unresolved-type"; "no-responses"].
Proof.
  revert b. induction l as [|i l IH]; intros b; cbn [classify].
  - split; [by destruct b|]. intros (i & Hi & _). by apply not_elem_of_nil in Hi.
  - destruct (bool_decide _) eqn:K; [apply bool_decide_eq_true in K; split; [intros _; exists i; split; [by left|done]|done]|]. apply bool_decide_eq_false in K. rewrite IH. split; intros (j & Hj & Hk); exists j; (split; [|done]); [by right|]. apply elem_of_cons in Hj as [->|Hj]; done.
Qed.
Lemma classify_full b l : classify b l = "full" ↔ b = false ∧ ∀ i, i ∈ l → is_kind i ∉ ["dangling-ref"; "unresolved-type"; "no-responses"; "missing-body"; "default-status"].
Proof.
  revert b. induction l as [|i l IH]; intros b; cbn [classify].
  - split; [destruct b; [done|]; intros _; split; [done|]; intros i Hi; by apply not_elem_of_nil in Hi|by intros [-> _]].
  - destruct (bool_decide (is_kind i ∈ ["dangling-ref"; "unresolved-type"; "no-responses"])) eqn:K.
    + apply bool_decide_eq_true in K. split; [done|]. intros [_ H]. destruct (H i); [by left|]. change (is_kind i ∈ ["dangling-ref"; "unresolved-type"; "no-responses"] ++ ["missing-body"; "default-status"]). apply elem_of_app. by left.
    + apply bool_decide_eq_false in K. rewrite IH, orb_false_iff, bool_decide_eq_false. split.
      * intros [[-> Hn] H]. split; [done|]. intros j Hj. apply elem_of_cons in Hj as [->|Hj]; [|by apply H]. change (is_kind i ∉ ["dangling-ref"; "unresolved-type"; "no-responses"] ++ ["missing-body"; "default-status"]). rewrite elem_of_app. by intros [?|?].
      * intros [-> H]. split; [split; [done|]|intros j Hj; apply H; by right]. intros X. apply (H i); [by left|]. change (is_kind i ∈ ["dangling-ref"; "unresolved-type"; "no-responses"] ++ ["missing-body"; "default-status"]). apply elem_of_app. by right.
Qed.
Lemma classify_cases b l : classify b l = "full" ∨ classify b l = "partial" ∨ classify b l = "broken".
Proof. revert b. induction l as [|i l IH]; intros b; cbn [classify]; [destruct b; [right; by left|by left]|]. destruct (bool_decide _); [right; by right|apply IH]. Qed.
Lemma reported_cases comps op sv kd rf : reported comps op sv kd rf →
  (sv = "warn" ∧ kd = "no-responses" ∧ oo_responses op = []) ∨
  (sv = "warn" ∧ kd = "dangling-ref" ∧ ∃ w s, used op w s ∧ mentions s rf ∧ comps !! rf = None) ∨
  (sv = "warn" ∧ kd = "unresolved-type" ∧ ∃ w s t, used op w s ∧ mentions s rf ∧ comps !! rf = Some t ∧ placeholder t) ∨
  (sv = "info" ∧ kd = "wrapper-specialised") ∨
  (sv = "info" ∧ kd = "default-status" ∧ ∃ l, ("default", l) ∈ oo_responses op).
Proof. intros [|w s n|w s n t| |l]; [by left|right; left|right; right; left|right; right; right; by left|right; right; right; right]; (split; [done|]; split; [done|]); [by exists w, s|by exists w, s, t|by exists l]. Qed.
Lemma warn_iff m p op comps : has_warn (operation_issues m p op comps) = true ↔ classify false (operation_issues m p op comps) = "broken".
Proof.
  rewrite classify_broken. unfold has_warn. rewrite existsb_exists. split.
  - intros (i & Hi & Hs). apply elem_of_list_In in Hi. apply bool_decide_eq_true in Hs. assert (R : reported comps op (is_severity i) (is_kind i) (is_ref i)) by (apply (op_issues_spec m p); by exists i). exists i. split; [done|]. rewrite Hs in R. apply reported_cases in R as [(_ & -> & _)|[(_ & -> & _)|[(_ & -> & _)|[(? & _)|(? & _)]]]]; [right; right; by left|by left|right; by left|done|done].
  - intros (i & Hi & Hk). exists i. split; [by apply elem_of_list_In|]. apply bool_decide_eq_true. assert (R : reported comps op (is_severity i) (is_kind i) (is_ref i)) by (apply (op_issues_spec m p); by exists i). apply reported_cases in R as [(? & _)|[(? & _)|[(? & _)|[(_ & K)|(_ & K & _)]]]]; try done; rewrite K in Hk; by apply (bool_decide_pack _) in Hk.
Qed.
(** C105d: an operation is broken exactly if it has no response or a reference that dangles or ends at a placeholder, full exactly if it moreover has no default response. *)
Theorem C105_broken_iff d x : classify false (op_issues d x) = "broken" ↔ oo_responses x.2 = [] ∨ ∃ w s n, used x.2 w s ∧ mentions s n ∧ (od_comps d !! n = None ∨ ∃ t, od_comps d !! n = Some t ∧ placeholder t).
Proof.
  destruct x as [[p m] op]. unfold op_issues. cbn [fst snd]. rewrite classify_broken. split.
  - intros (i & Hi & Hk). assert (R : reported (od_comps d) op (is_severity i) (is_kind i) (is_ref i)) by (apply (op_issues_spec m p); by exists i). apply reported_cases in R as [(_ & _ & E)|[(_ & _ & w & s & U & Mn & E)|[(_ & _ & w & s & t & U & Mn & E & P)|[(_ & K)|(_ & K & _)]]]]; [by left| | | |].
    + right. exists w, s, (is_ref i). split; [done|]. split; [done|]. by left.
    + right. exists w, s, (is_ref i). split; [done|]. split; [done|]. right. by exists t.
    + rewrite K in Hk. by apply (bool_decide_pack _) in Hk.
    + rewrite K in Hk. by apply (bool_decide_pack _) in Hk.
  - intros H. assert (∃ kd rf, reported (od_comps d) op "warn" kd rf ∧ kd ∈ ["dangling-ref"; "unresolved-type"; "no-responses"]) as (kd & rf & R & K).
    { destruct H as [E|(w & s & n & U & Mn & [E|(t & E & P)])]; [exists "no-responses", ""; split; [by constructor|right; right; by left]|exists "dangling-ref", n; split; [by eapply rep_dangling|by left]|exists "unresolved-type", n; split; [by eapply rep_placeholder|right; by left]]. }
    apply (op_issues_spec m p) in R as (i & Hi & _ & <- & _). by exists i.
Qed.
Theorem C105_full_iff d x : classify false (op_issues d x) = "full" ↔ classify false (op_issues d x) ≠ "broken" ∧ ∀ l, ("default", l) ∉ oo_responses x.2.
Proof.
  destruct x as [[p m] op]. unfold op_issues. cbn [fst snd]. rewrite classify_full, classify_broken. split.
  - intros [_ H]. split.
    + intros (i & Hi & Hk). apply (H i Hi). change (is_kind i ∈ ["dangling-ref"; "unresolved-type"; "no-responses"] ++ ["missing-body"; "default-status"]). apply elem_of_app. by left.
    + intros l Hl. assert (R : reported (od_comps d) op "info" "default-status" "") by (by eapply rep_default). apply (op_issues_spec m p) in R as (i & Hi & _ & Hk & _). apply (H i Hi). rewrite Hk. repeat (first [by left|right]).
  - intros [Hb Hd]. split; [done|]. intros i Hi Hk. assert (R : reported (od_comps d) op (is_severity i) (is_kind i) (is_ref i)) by (apply (op_issues_spec m p); by exists i). apply reported_cases in R as [(_ & K & _)|[(_ & K & _)|[(_ & K & _)|[(_ & K)|(_ & _ & l & Hl)]]]]; [| | | |by apply Hd in Hl].
    + apply Hb. exists i. split; [done|]. rewrite K. right; right; by left.
    + apply Hb. exists i. split; [done|]. rewrite K. by left.
    + apply Hb. exists i. split; [done|]. rewrite K. right; by left.
    + rewrite K in Hk. by apply (bool_decide_pack _) in Hk.
Qed.
Lemma split_filter {A} (P Q R : A → Prop) `{∀ x, Decision (P x)} `{∀ x, Decision (Q x)} `{∀ x, Decision (R x)} l : (∀ x, P x ↔ Q x ∨ R x) → (∀ x, Q x → ¬ R x) → length (filter P l) = length (filter Q l) + length (filter R l).
Proof.
  intros E D. induction l as [|x l IH]; [done|]. rewrite !filter_cons. destruct (decide (P x)) as [p|p], (decide (Q x)) as [q|q], (decide (R x)) as [r|r]; cbn; try lia; exfalso.
  - by apply (D x). - apply E in p as [?|?]; done. - by apply (D x). - apply p, E. by left. - apply p, E. by right.
Qed.
(** C105e: every operation is of one state, and the clean ones are those that are not broken. *)
Theorem C105_states d : report_total d = report_state d "full" + report_state d "partial" + report_state d "broken" ∧ report_clean d = report_state d "full" + report_state d "partial".
Proof.
  assert (C : report_clean d = report_state d "full" + report_state d "partial").
  { unfold report_clean, report_state. apply split_filter; [|intros x -> X; done]. intros [[p m] op]. unfold op_issues. cbn [fst snd]. pose proof (warn_iff m p op (od_comps d)) as W. destruct (has_warn _).
    - split; [done|]. rewrite (proj1 W eq_refl). intros [?|?]; done.
    - split; [|done]. intros _. destruct (classify_cases false (operation_issues m p op (od_comps d))) as [?|[?|X]]; [by left|by right|]. by apply W in X. }
  split; [|done]. rewrite <- C. unfold report_total, report_clean, report_state. rewrite <- (split_filter (λ _ : string * string * oop, True) (λ x, has_warn (op_issues d x) = false) (λ x, classify false (op_issues d x) = "broken") (all_operations d)).
  - clear. induction (all_operations d) as [|x l IH]; [done|]. rewrite filter_cons, decide_True by done. cbn. by rewrite <- IH.
  - intros [[p m] op]. unfold op_issues. cbn [fst snd]. pose proof (warn_iff m p op (od_comps d)) as W. split; [|done]. intros _. destruct (has_warn _); [right; by apply W|by left].
  - intros [[p m] op]. unfold op_issues. cbn [fst snd]. pose proof (warn_iff m p op (od_comps d)) as W. intros E X. apply W in X. congruence.
Qed.
(** C105f: the score is at most 100 and the share of the clean ones rounded to the nearest. *)
Theorem C105_score clean total : clean ≤ total → 0 < total → let s := report_score clean total in s ≤ 100 ∧ 2 * total * s ≤ 200 * clean + total ∧ 200 * clean + total < 2 * total * (s + 1).
Proof.
  intros L P. unfold report_score. rewrite decide_True by done. cbn zeta. pose proof (Nat.div_mod (200 * clean + total) (2 * total) ltac:(lia)) as E. pose proof (Nat.mod_upper_bound (200 * clean + total) (2 * total) ltac:(lia)) as B. set (q := (200 * clean + total) / (2 * total)) in *. set (r := (200 * clean + total) mod (2 * total)) in *. split; [|split; nia]. assert (~ 101 ≤ q); [|lia]. intros X. nia.
Qed.

(** ** Bodies *)
(** What a schema says of a body. *)
Inductive says (comps : gmap string osch) : osch → bstate → Prop :=
| says_named n ty de en it ad ne pr al on an t : n ≠ "" → comps !! n = Some t → t ≠ ONil → ¬ placeholder t → says comps (OSch ("#/components/schemas/" +:+ n) ty de en it ad ne pr al on an) BSchema
| says_unnamed n ty de en it ad ne pr al on an : n ≠ "" → (comps !! n = None ∨ ∃ t, comps !! n = Some t ∧ placeholder t) → says comps (OSch ("#/components/schemas/" +:+ n) ty de en it ad ne pr al on an) BUnresolved
| says_list r de en it ad ne pr al on an b : (∀ n, n ≠ "" → r ≠ "#/components/schemas/" +:+ n) → says comps it b → says comps (OSch r "array" de en it ad ne pr al on an) b
| says_parts r ty de en it ad ne pr al on an : (∀ n, n ≠ "" → r ≠ "#/components/schemas/" +:+ n) → ty ≠ "array" → en = true ∨ pr ≠ [] ∨ al ≠ [] ∨ on ≠ [] ∨ an ≠ [] → says comps (OSch r ty de en it ad ne pr al on an) BSchema
| says_map r de it ad ne : (∀ n, n ≠ "" → r ≠ "#/components/schemas/" +:+ n) → ad ≠ ONil → says comps (OSch r "object" de false it ad ne [] [] [] []) BFree
| says_object r de it ne : (∀ n, n ≠ "" → r ≠ "#/components/schemas/" +:+ n) → says comps (OSch r "object" de false it ONil ne [] [] [] []) BUnresolved
| says_scalar r ty de it ad ne : (∀ n, n ≠ "" → r ≠ "#/components/schemas/" +:+ n) → ty ∉ ["array"; "object"; ""] → says comps (OSch r ty de false it ad ne [] [] [] []) BSchema
| says_untyped r de it ad ne : (∀ n, n ≠ "" → r ≠ "#/components/schemas/" +:+ n) → says comps (OSch r "" de false it ad ne [] [] [] []) BUnresolved
| says_nothing : says comps ONil BUnresolved.
Lemma trim_ref r : bool_decide (trim_prefix ref_prefix r ≠ "") && bool_decide (trim_prefix ref_prefix r ≠ r) = true ↔ ∃ n, n ≠ "" ∧ r = ref_prefix +:+ n.
Proof.
  rewrite andb_true_iff, !bool_decide_eq_true. unfold trim_prefix. destruct (has_prefix ref_prefix r) eqn:P.
  - apply has_prefix_spec in P as [n ->]. rewrite str_drop_app. split; [intros [? _]; by exists n|]. intros (n' & Hn & E). apply sapp_inj_l in E as ->. split; [done|]. intros E. assert (L : String.length n' = String.length (ref_prefix +:+ n')) by (by rewrite <- E). rewrite sapp_length in L. cbn in L. lia.
  - split; [by intros [_ ?]|]. intros (n & _ & ->). by rewrite (proj2 (has_prefix_spec ref_prefix (ref_prefix +:+ n))) in P by (by exists n).
Qed.
Lemma trim_none r : (∀ n, n ≠ "" → r ≠ "#/components/schemas/" +:+ n) → bool_decide (trim_prefix ref_prefix r ≠ "") && bool_decide (trim_prefix ref_prefix r ≠ r) = false.
Proof. intros N. destruct (bool_decide _ && _) eqn:T; [|done]. apply trim_ref in T as (n & Hn & E). by apply N in E. Qed.
Lemma trim_some n : n ≠ "" → bool_decide (trim_prefix ref_prefix (ref_prefix +:+ n) ≠ "") && bool_decide (trim_prefix ref_prefix (ref_prefix +:+ n) ≠ ref_prefix +:+ n) = true ∧ trim_prefix ref_prefix (ref_prefix +:+ n) = n.
Proof. intros Hn. split; [apply trim_ref; by exists n|]. unfold trim_prefix. rewrite (proj2 (has_prefix_spec ref_prefix (ref_prefix +:+ n))) by (by exists n). apply str_drop_app. Qed.
Lemma items_same comps it : match it with ONil => Some BUnresolved | OSch _ _ _ _ _ _ _ _ _ _ _ => body_resolution comps it end = body_resolution comps it.
Proof. by destruct it. Qed.
Lemma placeholder_spec t : t ≠ ONil → str_contains placeholder_marker (os_descr t) = true ↔ placeholder t.
Proof.
  destruct t as [|r ty de en it ad ne pr al on an]; [done|]. intros _. cbn [os_descr]. split; [intros P; by repeat eexists|]. intros (? & ? & ? & ? & ? & ? & ? & ? & ? & ? & ? & X & Y). by injection X as -> -> -> -> -> -> -> -> -> -> ->.
Qed.
Lemma says_body comps s b : says comps s b → body_resolution comps s = Some b.
Proof.
  intros H. induction H as [n ty de en it ad ne pr al on an t Hn Ht Hne Hp|n ty de en it ad ne pr al on an Hn Ho|r de en it ad ne pr al on an b N _ IH|r ty de en it ad ne pr al on an N Na Q|r de it ad ne N Q|r de it ne N|r ty de it ad ne N Q|r de it ad ne N|]; cbn [body_resolution]; [..|done].
  - change ("#/components/schemas/" +:+ n) with (ref_prefix +:+ n). destruct (trim_some n Hn) as [-> ->]. rewrite Ht. destruct t as [|r' ty' de' en' it' ad' ne' pr' al' on' an']; [done|]. destruct (str_contains placeholder_marker _) eqn:P; [|done]. by apply placeholder_spec in P.
  - change ("#/components/schemas/" +:+ n) with (ref_prefix +:+ n). destruct (trim_some n Hn) as [-> ->]. destruct Ho as [->|(t & -> & P)]; [done|]. destruct t as [|r' ty' de' en' it' ad' ne' pr' al' on' an']; [by destruct P as (? & ? & ? & ? & ? & ? & ? & ? & ? & ? & ? & ? & _)|]. apply placeholder_spec in P; [|done]. by rewrite P.
  - rewrite trim_none by done. rewrite decide_True by done. by rewrite items_same.
  - rewrite trim_none by done. rewrite decide_False by done. assert (Z : bool_decide (on ≠ []) || bool_decide (an ≠ []) || bool_decide (al ≠ []) || bool_decide (pr ≠ []) || en = true); [|by rewrite Z]. rewrite !orb_true_iff, !bool_decide_eq_true. destruct Q as [?|[?|[?|[?|?]]]]; [by right|left; by right|left; left; by right|left; left; left; by left|left; left; left; by right].
  - rewrite trim_none by done. cbn. by destruct ad.
  - by rewrite trim_none by done.
  - rewrite trim_none by done. rewrite !elem_of_cons in Q. rewrite decide_False by (intros ->; apply Q; by left). cbn. rewrite decide_False by (intros ->; apply Q; right; by left). rewrite decide_False; [done|]. intros ->. apply Q. right. right. by left.
  - by rewrite trim_none by done.
Qed.
(** C105g: what is found of a body is what its schema says, if no component is nil. *)
Theorem C105_body_iff comps s b : (∀ n, comps !! n ≠ Some ONil) → body_resolution comps s = Some b ↔ says comps s b.
Proof.
  intros Hc. split; [|apply says_body]. revert b. induction s as [|r ty de en it ad ne pr al on an I1 _ _ _ _ _ _] using osch_ind'; intros b; cbn [body_resolution]; [intros [= <-]; constructor|].
  destruct (bool_decide (trim_prefix ref_prefix r ≠ "") && bool_decide (trim_prefix ref_prefix r ≠ r)) eqn:T.
  - apply trim_ref in T as (n & Hn & ->). rewrite (proj2 (trim_some n Hn)). destruct (comps !! n) as [t|] eqn:E.
    + assert (Nt : t ≠ ONil) by (intros ->; by apply Hc in E). destruct t as [|r' ty' de' en' it' ad' ne' pr' al' on' an']; [done|]. destruct (str_contains placeholder_marker _) eqn:P; intros [= <-].
      * apply (says_unnamed comps n); [done|]. right. eexists. split; [exact E|]. by apply placeholder_spec.
      * eapply (says_named comps n); [done|exact E|done|]. intros X. apply placeholder_spec in X; congruence.
    + intros [= <-]. apply (says_unnamed comps n); [done|by left].
  - assert (N : ∀ n, n ≠ "" → r ≠ "#/components/schemas/" +:+ n). { intros n Hn ->. change ("#/components/schemas/" +:+ n) with (ref_prefix +:+ n) in T. rewrite (proj1 (trim_some n Hn)) in T. done. }
    clear T. destruct (decide (ty = "array")) as [->|Na]; [rewrite items_same; intros H; by apply says_list, I1|].
    destruct (bool_decide (on ≠ []) || bool_decide (an ≠ []) || bool_decide (al ≠ []) || bool_decide (pr ≠ []) || en) eqn:Z.
    + rewrite !orb_true_iff, !bool_decide_eq_true in Z. intros [= <-]. apply says_parts; [done|done|]. destruct Z as [[[[?|?]|?]|?]|?]; [do 3 right; by left|do 4 right; done|do 2 right; by left|right; by left|by left].
    + rewrite !orb_false_iff, !bool_decide_eq_false in Z. destruct Z as [[[[Z1 Z2] Z3] Z4] ->]. apply dec_stable in Z1, Z2, Z3, Z4. subst. destruct (decide (ty = "object")) as [->|No]; [destruct ad; intros [= <-]; by constructor|].
      destruct (decide (ty = "")) as [->|Ne]; intros [= <-]; [by constructor|]. apply says_scalar; [done|]. intros Q. apply elem_of_cons in Q as [?|Q]; [done|]. apply elem_of_cons in Q as [?|Q]; [done|]. by apply elem_of_list_singleton in Q.
Qed.
Print Assumptions C105_refs. Print Assumptions C105_issue_iff. Print Assumptions C105_order. Print Assumptions C105_broken_iff. Print Assumptions C105_full_iff. Print Assumptions C105_states. Print Assumptions C105_score. Print Assumptions C105_body_iff.
