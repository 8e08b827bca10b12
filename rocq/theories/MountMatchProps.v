(** * C116: which calls mount a router. *)
From Coq Require Import ZArith Lia.
From stdpp Require Import base numbers list strings gmap.
From Verif Require Import MergeModel TvoProps MountMatchModel.

(** ** Specification *)
(** The argument at an index that may be below zero. *)
Definition at_index {A} (args : list A) (i : Z) (a : A) : Prop := ∃ n, i = Z.of_nat n ∧ args !! n = Some a.
(** The argument is a router, or a call that is given one. *)
Definition router_like (m : string → bool) (a : marg) : Prop := m (ma_type a) = true ∨ (ma_call a = true ∧ ∃ t, Some t ∈ ma_args a ∧ m t = true).
(** An edge knows an assignment of the variable: its name, its package, and the type of what it is a field of. *)
Definition knows (e : medge) (a : marg) : Prop := ∃ v l s t, (v, l) ∈ me_assigned e ∧ s ∈ l ∧ ms_var s = ma_name a ∧ ms_pkg s = ma_pkg a ∧ ma_x a = Some (Some t) ∧ ms_type s = t.
(** The first call among arguments. *)
Definition first_call (args : list marg) (f : nat) : Prop := ∃ l t l', args = l ++ t :: l' ∧ ma_call t = true ∧ ma_fun t = Some f ∧ ∀ u, u ∈ l → ma_call u = true → ma_fun u = None.
(** The nodes of a level, from left to right. *)
Fixpoint level (n : nat) (l : list mtree) : list mtree := match n with 0 => l | S n => level n (concat (mt_kids <$> l)) end.

(** ** Lemmas *)
Lemma arg_at_spec {A} (args : list A) i a : arg_at args i = Some a ↔ at_index args i a.
Proof.
  unfold arg_at, at_index. destruct (decide (i < 0)%Z) as [D|D].
  - split; [done|]. intros (n & -> & _). lia.
  - split; [intros H; exists (Z.to_nat i); split; [lia|done]|]. intros (n & -> & H). by rewrite Nat2Z.id.
Qed.
Lemma call_of_spec args f : call_of args = Some f ↔ first_call args f.
Proof.
  unfold call_of, first_call. induction args as [|t args IH].
  - cbn. split; [done|]. intros (l & u & l' & E & _). by destruct l.
  - cbn [omap list_omap]. destruct (if ma_call t then ma_fun t else None) as [g|] eqn:E.
    + cbn. split.
      * intros [= ->]. destruct (ma_call t) eqn:C; [|done]. exists [], t, args. split; [done|]. split; [done|]. split; [done|]. intros u Hu. by apply elem_of_nil in Hu.
      * intros (l & u & l' & El & C & F & N). destruct l as [|v l]; injection El as -> ->; [rewrite C in E; congruence|]. destruct (ma_call v) eqn:Cv; [|done]. specialize (N v ltac:(by left) Cv). congruence.
    + rewrite IH. split.
      * intros (l & u & l' & -> & C & F & N). exists (t :: l), u, l'. split; [done|]. split; [done|]. split; [done|]. intros v [->|Hv]%elem_of_cons Cv; [by rewrite Cv in E|by apply N].
      * intros (l & u & l' & El & C & F & N). destruct l as [|v l]; injection El as -> ->; [rewrite C in E; congruence|]. exists l, u, l'. split; [done|]. split; [done|]. split; [done|]. intros w Hw. apply N. by right.
Qed.
Lemma assigns_spec a s : assigns a s = true ↔ ms_var s = ma_name a ∧ ms_pkg s = ma_pkg a ∧ ma_x a = Some (Some (ms_type s)).
Proof.
  unfold assigns. rewrite !andb_true_iff, !bool_decide_eq_true. destruct (ma_x a) as [[t|]|]; [rewrite bool_decide_eq_true| |]; split; [intros [[? ?] ->]; done|intros (? & ? & [= ->]); done|intros [_ ?]; done|intros (? & ? & ?); done|intros [_ ?]; done|intros (? & ? & ?); done].
Qed.
Lemma each_assignment_spec args a l : each_assignment args a l = if existsb (assigns a) l then call_of args else None.
Proof. induction l as [|s l IH]; [done|]. cbn. rewrite IH. destruct (assigns a s); cbn; [|done]. destruct (call_of args); [done|]. by destruct (existsb _ l). Qed.
Lemma each_variable_spec args a l : each_variable args a l = if existsb (λ v, existsb (assigns a) v.2) l then call_of args else None.
Proof. induction l as [|v l IH]; [done|]. cbn. rewrite IH, each_assignment_spec. destruct (existsb (assigns a) v.2); cbn; [|done]. destruct (call_of args); [done|]. by destruct (existsb _ l). Qed.
Lemma knows_spec e a : existsb (λ v, existsb (assigns a) v.2) (me_assigned e) = true ↔ knows e a.
Proof.
  rewrite existsb_exists. unfold knows. split.
  - intros ([v l] & Hv & H). apply existsb_exists in H as (s & Hs & H). apply assigns_spec in H as (H1 & H2 & H3). exists v, l, s, (ms_type s). apply elem_of_list_In in Hv, Hs. done.
  - intros (v & l & s & t & Hv & Hs & H1 & H2 & H3 & H4). exists (v, l). split; [by apply elem_of_list_In|]. apply existsb_exists. exists s. split; [by apply elem_of_list_In|]. apply assigns_spec. by rewrite H4.
Qed.
Lemma edge_spec e a f : each_variable (me_args e) a (me_assigned e) = Some f ↔ knows e a ∧ first_call (me_args e) f.
Proof.
  rewrite each_variable_spec, <- call_of_spec, <- knows_spec. destruct (existsb _ _); [|split; [done|intros [? _]; done]]. split; [done|by intros [_ ?]].
Qed.

(** ** The property *)
(** C116a: a call mounts a router exactly if the pattern is one for mounting that matches the call, and, where it names a type for routers, its argument is of
    that type or a call given an argument of that type. *)
Theorem C116_matches_iff rx p c args : mount_matches rx p c args = true ↔
  mp_mount p = true ∧ matches (λ r s, match rx r with Some m => m s | None => false end) (mp_base p) c = true ∧
  (mp_router_rx p ≠ "" → ∃ m a, rx (mp_router_rx p) = Some m ∧ at_index args (mp_router_arg p) (Some a) ∧ router_like m a).
Proof.
  unfold mount_matches. rewrite !andb_true_iff, orb_true_iff, bool_decide_eq_true.
  assert (R : router_arg rx p args = true ↔ ∃ m a, rx (mp_router_rx p) = Some m ∧ at_index args (mp_router_arg p) (Some a) ∧ router_like m a).
  { unfold router_arg. destruct (arg_at args (mp_router_arg p)) as [[a|]|] eqn:E.
    - apply arg_at_spec in E. destruct (rx (mp_router_rx p)) as [m|]; [|split; [done|intros (? & ? & ? & _); done]].
      assert (L : m (ma_type a) || (ma_call a && existsb (λ t, match t with Some t => m t | None => false end) (ma_args a)) = true ↔ router_like m a).
      { unfold router_like. rewrite orb_true_iff, andb_true_iff, existsb_exists. split; (intros [H|[C H]]; [by left|right; split; [done|]]).
        - destruct H as ([t|] & Ht & H); [|done]. exists t. split; [by apply elem_of_list_In|done].
        - destruct H as (t & Ht & H). exists (Some t). split; [by apply elem_of_list_In|done]. }
      rewrite L. split; [intros H; by exists m, a|]. intros (m' & a' & [= <-] & H & H'). apply arg_at_spec in E, H. congruence.
    - split; [done|]. intros (m & a & _ & H & _). apply arg_at_spec in H. congruence.
    - split; [done|]. intros (m & a & _ & H & _). apply arg_at_spec in H. congruence. }
  rewrite R. destruct (decide (mp_router_rx p = "")); naive_solver.
Qed.
(** C116b: of two patterns the one that says more of the name called goes first, then of the function around it, then of the receiver. *)
Theorem C116_priority p q : let says (s : string) := if decide (s = "") then 0 else 1 in let recv (p : pat) := if decide (p_recvrx p = "" ∧ p_recv p = "") then 0 else 1 in
  (mount_priority p < mount_priority q)%Z ↔ says (p_call p) < says (p_call q) ∨ says (p_call p) = says (p_call q) ∧ (says (p_fn p) < says (p_fn q) ∨ says (p_fn p) = says (p_fn q) ∧ recv p < recv q).
Proof. cbn zeta. unfold mount_priority. repeat destruct (decide _); lia. Qed.
(** C116c: the router is looked for at the first call of the first edge that knows the variable and has a call among its arguments. *)
Theorem C116_assignment_iff edges a f : find_assignment edges a = Some f ↔
  ∃ l e l', edges = l ++ e :: l' ∧ knows e a ∧ first_call (me_args e) f ∧ ∀ e', e' ∈ l → knows e' a → ∀ g, ¬ first_call (me_args e') g.
Proof.
  induction edges as [|e edges IH]; cbn.
  - split; [done|]. intros (l & e & l' & E & _). by destruct l.
  - destruct (each_variable _ _ _) as [g|] eqn:E.
    + apply edge_spec in E as [K C]. split.
      * intros [= ->]. exists [], e, edges. split; [done|]. split; [done|]. split; [done|]. intros e' H. by apply elem_of_nil in H.
      * intros (l & e0 & l' & El & K' & C' & N). destruct l as [|x l]; injection El as -> ->; [apply call_of_spec in C, C'; congruence|]. destruct (N x ltac:(by left) K g C).
    + rewrite IH. assert (NE : knows e a → ∀ g, ¬ first_call (me_args e) g). { intros K g C. assert (each_variable (me_args e) a (me_assigned e) = Some g) by (by apply edge_spec). congruence. } split.
      * intros (l & e0 & l' & -> & K & C & N). exists (e :: l), e0, l'. split; [done|]. split; [done|]. split; [done|]. intros e' [->|H]%elem_of_cons; [done|by apply N].
      * intros (l & e0 & l' & El & K & C & N). destruct l as [|x l]; injection El as -> ->; [by destruct (NE K f)|]. exists l, e0, l'. split; [done|]. split; [done|]. split; [done|]. intros e' H. apply N. by right.
Qed.
(** C116d: so the order in which the assignments of an edge are visited does not matter. *)
Theorem C116_order edges edges' a : Forall2 (λ e e', me_args e = me_args e' ∧ me_assigned e ≡ₚ me_assigned e') edges edges' → find_assignment edges a = find_assignment edges' a.
Proof.
  induction 1 as [|e e' l l' [Ea Em] F IH]; [done|]. cbn. assert (E : each_variable (me_args e) a (me_assigned e) = each_variable (me_args e') a (me_assigned e')).
  { apply option_eq. intros f. rewrite !edge_spec. rewrite Ea. assert (K : knows e a ↔ knows e' a); [|by rewrite K]. unfold knows. setoid_rewrite Em. done. }
  rewrite E. by rewrite IH.
Qed.
(** C116e: what is read of a call: with an index that is not below zero, never a panic. *)
Theorem C116_extract_iff edges p args path router : extract_mount edges p args = Some (path, router) ↔
  (mp_path p = true → 0 ≤ mp_path_arg p)%Z ∧
  (∀ a, path = Some a ↔ mp_path p = true ∧ at_index args (mp_path_arg p) a) ∧
  (∀ a f, router = Some (a, f) ↔ at_index args (mp_router_arg p) a ∧ f = find_assignment edges a).
Proof.
  assert (RR : ∀ router, router = (λ a, (a, find_assignment edges a)) <$> arg_at args (mp_router_arg p) ↔ ∀ a f, router = Some (a, f) ↔ at_index args (mp_router_arg p) a ∧ f = find_assignment edges a).
  { intros r. split.
    - intros -> a f. rewrite <- arg_at_spec. destruct (arg_at _ _) as [b|]; cbn; [|split; [done|intros [? _]; done]]. split; [intros [= -> <-]; done|intros [[= ->] ->]; done].
    - intros H. apply option_eq. intros [a f]. rewrite H, <- arg_at_spec. destruct (arg_at _ _) as [b|]; cbn; [|split; [intros [? _]; done|done]]. split; [intros [[= ->] ->]; done|intros [= -> <-]; done]. }
  unfold extract_mount. destruct (mp_path p) eqn:P; cbn [andb].
  - case_bool_decide as L.
    + destruct (decide (mp_path_arg p < 0)%Z) as [D|D]; [unfold arg_at at 1; rewrite decide_True by done; split; [done|]; intros (H & _); specialize (H eq_refl); lia|].
      assert (∃ b, arg_at args (mp_path_arg p) = Some b) as [b Eb]. { unfold arg_at. rewrite decide_False by done. apply lookup_lt_is_Some_2. lia. }
      rewrite Eb. rewrite <- RR. pose proof (proj1 (arg_at_spec args (mp_path_arg p) b) Eb) as Ib. split.
      * intros [= <- <-]. split; [intros _; lia|]. split; [|done]. intros a. rewrite <- arg_at_spec, Eb. split; [by intros ->|by intros [_ ?]].
      * intros (_ & H & ->). f_equal. f_equal. symmetry. by apply H.
    + rewrite <- RR. assert (N : ∀ a, ¬ at_index args (mp_path_arg p) a). { intros a (n & E & H). apply lookup_lt_Some in H. lia. } split.
      * intros [= <- <-]. split; [intros _; lia|]. split; [|done]. intros a. split; [done|]. intros [_ H]. by destruct (N a).
      * intros (_ & H & ->). f_equal. f_equal. destruct path as [a|]; [|done]. destruct (proj1 (H a) eq_refl) as [_ X]. by destruct (N a).
  - rewrite <- RR. split.
    + intros [= <- <-]. split; [done|]. split; [|done]. intros a. split; [done|by intros [? _]].
    + intros (_ & H & ->). f_equal. f_equal. destruct path as [a|]; [|done]. destruct (proj1 (H a) eq_refl) as [X _]. done.
Qed.

(** ** Breadth first *)
Lemma size_app a b : sum_list_with mt_size (a ++ b) = sum_list_with mt_size a + sum_list_with mt_size b.
Proof. induction a as [|x a IH]; cbn; [done|]. rewrite IH. lia. Qed.
Lemma size_kids t : mt_size t = S (sum_list_with mt_size (mt_kids t)).
Proof. by destruct t. Qed.
Lemma search_block key a : ∀ n b, sum_list_with mt_size (a ++ b) ≤ n → (∀ t, t ∈ a → mt_key t ≠ key) → ∃ n', sum_list_with mt_size (b ++ concat (mt_kids <$> a)) ≤ n' ∧ search n key (a ++ b) = search n' key (b ++ concat (mt_kids <$> a)).
Proof.
  induction a as [|t a IH]; intros n b Hn Ha.
  - exists n. cbn in *. rewrite app_nil_r. done.
  - cbn [app sum_list_with] in Hn. rewrite size_kids in Hn. destruct n as [|n]; [lia|]. cbn [app search]. rewrite decide_False by (apply Ha; by left). rewrite <- app_assoc. destruct (IH n (b ++ mt_kids t)) as (n' & Hn' & E).
    + rewrite !size_app in *. lia.
    + intros u Hu. apply Ha. by right.
    + exists n'. rewrite fmap_cons. cbn [concat]. rewrite <- app_assoc in Hn', E. split; done.
Qed.
Lemma search_front key a t l b : ∀ n, sum_list_with mt_size ((a ++ t :: l) ++ b) ≤ n → (∀ u, u ∈ a → mt_key u ≠ key) → mt_key t = key → search n key ((a ++ t :: l) ++ b) = Some t.
Proof.
  intros n Hn Ha Ht. rewrite <- app_assoc in *. destruct (search_block key a n ((t :: l) ++ b) Hn Ha) as (n' & Hn' & ->). rewrite <- !app_assoc in *. cbn [app sum_list_with] in *. destruct n' as [|n']; [rewrite size_kids in Hn'; lia|]. cbn [search]. by rewrite decide_True.
Qed.
Lemma search_level key d : ∀ n l, sum_list_with mt_size l ≤ n → (∀ k t, k < d → t ∈ level k l → mt_key t ≠ key) → ∃ n', sum_list_with mt_size (level d l) ≤ n' ∧ search n key l = search n' key (level d l).
Proof.
  induction d as [|d IH]; intros n l Hn H; [by exists n|]. destruct (search_block key l n []) as (n' & Hn' & E); [by rewrite app_nil_r|intros t Ht; apply (H 0 t); [lia|done]|]. rewrite app_nil_r in E. cbn [app] in Hn', E.
  destruct (IH n' (concat (mt_kids <$> l)) Hn') as (n2 & H2 & E2). { intros k t Hk Ht. apply (H (S k) t); [lia|done]. }
  exists n2. split; [done|]. by rewrite E, E2.
Qed.
Lemma level_size d : ∀ l, level d l ≠ [] → d < sum_list_with mt_size l.
Proof.
  induction d as [|d IH]; intros l H.
  - destruct l as [|t l]; [done|]. cbn [sum_list_with]. rewrite size_kids. lia.
  - cbn in H. apply IH in H. assert (Q : ∀ m, m ≠ [] → sum_list_with mt_size (concat (mt_kids <$> m)) < sum_list_with mt_size m).
    { intros m. induction m as [|t m IHm]; [done|]. intros _. rewrite fmap_cons. cbn [concat sum_list_with]. rewrite size_app, size_kids. destruct m as [|u m]; [cbn; lia|]. specialize (IHm ltac:(done)). lia. }
    destruct l as [|t l]; [cbn in H; lia|]. specialize (Q (t :: l) ltac:(done)). lia.
Qed.
(** C116f: the node found is the leftmost with its key on the first level that has one; there is one exactly if some level has one. *)
Theorem C116_target_iff roots key t : find_target roots key = Some t ↔
  ∃ d a l, level d roots = a ++ t :: l ∧ mt_key t = key ∧ (∀ u, u ∈ a → mt_key u ≠ key) ∧ ∀ k u, k < d → u ∈ level k roots → mt_key u ≠ key.
Proof.
  assert (R : ∀ t, (∃ d a l, level d roots = a ++ t :: l ∧ mt_key t = key ∧ (∀ u, u ∈ a → mt_key u ≠ key) ∧ ∀ k u, k < d → u ∈ level k roots → mt_key u ≠ key) → find_target roots key = Some t).
  { intros u (d & a & l & E & K & Ha & Hd). unfold find_target. destruct (search_level key d (sum_list_with mt_size roots) roots ltac:(done) Hd) as (n' & Hn' & ->). rewrite E in *. rewrite <- (app_nil_r (a ++ u :: l)). apply search_front; [by rewrite app_nil_r|done|done]. }
  split; [|apply R]. intros H.
  assert (B : ∀ n, (∃ d, d < n ∧ ∃ u, u ∈ level d roots ∧ mt_key u = key) → ∃ u d a l, level d roots = a ++ u :: l ∧ mt_key u = key ∧ (∀ u, u ∈ a → mt_key u ≠ key) ∧ ∀ k u, k < d → u ∈ level k roots → mt_key u ≠ key).
  { induction n as [|n IH]; [intros (d & ? & _); lia|]. intros (d & Hd & u & Hu & Ku). destruct (decide (Exists (λ d, Exists (λ u, mt_key u = key) (level d roots)) (seq 0 n))) as [X|X].
    - apply IH. apply Exists_exists in X as (d' & Hd' & X). apply Exists_exists in X as (u' & Hu' & K'). apply elem_of_seq in Hd'. exists d'. split; [lia|by exists u'].
    - assert (N : ∀ k v, k < n → v ∈ level k roots → mt_key v ≠ key). { intros k v Hk Hv Kv. apply X. apply Exists_exists. exists k. split; [apply elem_of_seq; lia|]. apply Exists_exists. by exists v. }
      assert (d = n) as ->. { destruct (decide (d < n)); [|lia]. by destruct (N d u). }
      assert (Y : ∀ m : list mtree, u ∈ m → ∃ v a l, m = a ++ v :: l ∧ mt_key v = key ∧ ∀ w, w ∈ a → mt_key w ≠ key).
      { induction m as [|v m IHm]; [intros Z; by apply elem_of_nil in Z|]. intros Hm. destruct (decide (mt_key v = key)) as [Kv|Kv]; [exists v, [], m; split; [done|]; split; [done|]; intros w Hw; by apply elem_of_nil in Hw|].
        apply elem_of_cons in Hm as [->|Hm]; [done|]. destruct (IHm Hm) as (v' & a & l & -> & K' & Ha). exists v', (v :: a), l. split; [done|]. split; [done|]. intros w [->|Hw]%elem_of_cons; [done|by apply Ha]. }
      destruct (Y _ Hu) as (v & a & l & E & Kv & Ha). exists v, n, a, l. done. }
  destruct (decide (Exists (λ d, Exists (λ u, mt_key u = key) (level d roots)) (seq 0 (sum_list_with mt_size roots)))) as [X|X].
  - apply Exists_exists in X as (d & Hd & X). apply Exists_exists in X as (u & Hu & K). destruct (B (S d)) as (v & d' & a & l & Hall); [exists d; split; [lia|by exists u]|]. assert (E : find_target roots key = Some v) by (apply R; by exists d', a, l). rewrite H in E. injection E as ->. by exists d', a, l.
  - exfalso. assert (N : ∀ k v, v ∈ level k roots → mt_key v ≠ key). { intros k v Hv Kv. apply X. apply Exists_exists. exists k. split; [apply elem_of_seq; split; [lia|]; apply level_size; by destruct (level k roots); [apply elem_of_nil in Hv|]|]. apply Exists_exists. by exists v. }
    unfold find_target in H. destruct (search_level key (sum_list_with mt_size roots) (sum_list_with mt_size roots) roots ltac:(done)) as (n' & _ & E). { intros k u _ Hu. by apply (N k). }
    rewrite E in H. assert (Z : level (sum_list_with mt_size roots) roots = []). { destruct (level _ roots) eqn:L; [done|]. assert (sum_list_with mt_size roots < sum_list_with mt_size roots); [|lia]. apply level_size. by rewrite L. }
    rewrite Z in H. by destruct n'.
Qed.

(** ** Examples *)
(** Expressions that match one text. *)
Definition one_rx (r : string) : option (string → bool) := Some (λ s, bool_decide (s = r)).
Definition handle : mpat := MPat (Pat "Handle" "" "" "" "" ([], [], [], []) "") true 0 1 "*net/http.ServeMux" true.
Definition handle_call : call := Call "Handle" "main" ["*net/http.ServeMux"] ("", "", "", "").
Definition a_path : marg := MArg 1 "" "" "string" false None None [].
Definition a_mux : marg := MArg 2 "api" "app" "*net/http.ServeMux" false None (Some (Some "app.Server")) [].
Definition a_strip (inner : list (option string)) : marg := MArg 3 "" "" "net/http.Handler" true (Some 30) None inner.
Example C116_example : mount_matches one_rx handle handle_call [Some a_path; Some a_mux] = true ∧ mount_matches one_rx handle handle_call [Some a_path; Some (a_strip [Some "string"; Some "*net/http.ServeMux"])] = true ∧
  mount_matches one_rx handle handle_call [Some a_path; Some (a_strip [Some "string"])] = false ∧ mount_matches one_rx handle handle_call [Some a_path; None] = false ∧ (mount_priority (mp_base handle) < mount_priority (Pat "Handle" "" "x" "" "" ([], [], [], []) ""))%Z.
Proof. by vm_compute. Qed.
Definition known_edge (args : list marg) : medge := MEdge [("x", [MAsg "x" "app" "int" 7]); ("api", [MAsg "api" "app" "app.Server" 8])] args.
Example C116_assignment_example : find_assignment [known_edge [a_path]; known_edge [a_path; a_strip []]] a_mux = Some 30 ∧ extract_mount [known_edge [a_strip []]] handle [a_path; a_mux] = Some (Some a_path, Some (a_mux, Some 30)) ∧
  find_target [MNode "r" [MNode "a" [MNode "k" []]; MNode "k" [MNode "b" []]]] "k" = Some (MNode "k" [MNode "b" []]).
Proof. by vm_compute. Qed.
(** C116g: a router in two wrappers is not one: [http.StripPrefix("/api", logged(api))]. *)
Theorem C116_wrapped_refuted : ∃ p c a m, mp_mount p = true ∧ matches (λ r s, match one_rx r with Some m => m s | None => false end) (mp_base p) c = true ∧ one_rx (mp_router_rx p) = Some m ∧
  ma_call a = true ∧ Some "net/http.Handler" ∈ ma_args a ∧ mount_matches one_rx p c [Some a_path; Some a] = false.
Proof. exists handle, handle_call, (a_strip [Some "string"; Some "net/http.Handler"]), (λ s, bool_decide (s = "*net/http.ServeMux")). split; [done|]. split; [by vm_compute|]. split; [done|]. split; [done|]. split; [by right; left|by vm_compute]. Qed.
(** C116h: a handler made with a router is one, whatever it does with it: [http.Handle("/docs", swagger(api))]. *)
Theorem C116_given_refuted : ∃ p c a, ma_type a = "*app.Docs" ∧ mp_router_rx p = "*net/http.ServeMux" ∧ mount_matches one_rx p c [Some a_path; Some a] = true.
Proof. exists handle, handle_call, (MArg 3 "" "" "*app.Docs" true (Some 30) None [Some "*net/http.ServeMux"]). by vm_compute. Qed.
(** C116i: what the variable was assigned is not read: the call found is another argument of the edge. *)
Theorem C116_value_refuted : ∃ edges a f, find_assignment edges a = Some f ∧ ∀ e v l s, e ∈ edges → (v, l) ∈ me_assigned e → s ∈ l → ms_value s ≠ f.
Proof.
  exists [known_edge [a_strip []]], a_mux, 30. split; [by vm_compute|]. intros e v l s He Hv Hs. apply elem_of_list_singleton in He as ->. cbn in Hv. apply elem_of_cons in Hv as [[= -> ->]|Hv]; [by apply elem_of_list_singleton in Hs as ->|]. apply elem_of_list_singleton in Hv as [= -> ->]. by apply elem_of_list_singleton in Hs as ->.
Qed.
(** C116j: an index below zero for the path is a panic. *)
Theorem C116_panic_refuted : ∃ p args, mp_path p = true ∧ extract_mount [] p args = None.
Proof. exists (MPat (mp_base handle) true (-1) 1 "" true), [a_path]. by vm_compute. Qed.
Print Assumptions C116_matches_iff. Print Assumptions C116_priority. Print Assumptions C116_assignment_iff. Print Assumptions C116_order. Print Assumptions C116_extract_iff. Print Assumptions C116_target_iff.
Print Assumptions C116_wrapped_refuted. Print Assumptions C116_given_refuted. Print Assumptions C116_value_refuted. Print Assumptions C116_panic_refuted.
