(** * Proofs about the calls of a file. *)
From stdpp Require Import base list strings gmap.
From Verif Require Import GraphModel.

(** ** Specification *)
Definition id_of (n : gnode) : string := match n with NCall i _ _ => gi_id i | _ => "" end.
Definition is_recorded (n : gnode) : Prop := match n with NCall i _ _ => gi_conv i = false ∧ gi_caller i ≠ "" ∧ gi_callee i ≠ "" | _ => False end.
(** The calls of a piece of syntax: function calls, in a function, with a name. *)
Fixpoint calls (n : gnode) : list gnode :=
  let all := fix all (l : list gnode) : list gnode := match l with [] => [] | x :: l => calls x ++ all l end in
  match n with
  | NIdent _ _ => []
  | NSel x => calls x
  | NCall i fn args => (if recordable i then [n] else []) ++ calls fn ++ all args
  | NAssign _ inside rhs => all inside ++ all rhs
  | NNode kids => all kids
  end.
Definition calls_all (l : list gnode) : list gnode := concat (calls <$> l).
(** The call whose result the method is called on: [f(x)] in [f(x).g(y)]. *)
Definition inner (n : gnode) : option gnode := match n with NCall _ (NSel (NCall i f l)) _ => Some (NCall i f l) | _ => None end.
(** The assignments [x := f(...)]. *)
Fixpoint single_assigns (n : gnode) : list (string * gnode) :=
  let all := fix all (l : list gnode) : list (string * gnode) := match l with [] => [] | x :: l => single_assigns x ++ all l end in
  match n with
  | NIdent _ _ => []
  | NSel x => single_assigns x
  | NCall i fn args => single_assigns fn ++ all args
  | NAssign lhs inside rhs => (match lhs, inside, rhs with [x], [], [NCall i f l] => if bool_decide (x ≠ "_") && recordable i then [(x, NCall i f l)] else [] | _, _, _ => [] end) ++ all inside ++ all rhs
  | NNode kids => all kids
  end.
Definition single_assigns_all (l : list gnode) : list (string * gnode) := concat (single_assigns <$> l).

(** ** Unfolding *)
Lemma recordable_spec i fn args : recordable i = true ↔ is_recorded (NCall i fn args).
Proof. unfold recordable. cbn. rewrite !andb_true_iff, !negb_true_iff, !bool_decide_eq_false. tauto. Qed.
Lemma calls_call i fn args : calls (NCall i fn args) = (if recordable i then [NCall i fn args] else []) ++ calls fn ++ calls_all args.
Proof. cbn [calls]. do 2 f_equal. unfold calls_all. induction args as [|x l IH]; [done|]. cbn [fmap list_fmap concat]. by rewrite IH. Qed.
Lemma calls_assign lhs inside rhs : calls (NAssign lhs inside rhs) = calls_all inside ++ calls_all rhs.
Proof. cbn [calls]. f_equal; unfold calls_all; [induction inside as [|x l IH]|induction rhs as [|x l IH]]; try done; cbn [fmap list_fmap concat]; by rewrite IH. Qed.
Lemma calls_node kids : calls (NNode kids) = calls_all kids.
Proof. cbn [calls]. unfold calls_all. induction kids as [|x l IH]; [done|]. cbn [fmap list_fmap concat]. by rewrite IH. Qed.
Lemma sa_call i fn args : single_assigns (NCall i fn args) = single_assigns fn ++ single_assigns_all args.
Proof. cbn [single_assigns]. f_equal. unfold single_assigns_all. induction args as [|x l IH]; [done|]. cbn [fmap list_fmap concat]. by rewrite IH. Qed.
Lemma sa_assign lhs inside rhs : single_assigns (NAssign lhs inside rhs) = (match lhs, inside, rhs with [x], [], [NCall i f l] => if bool_decide (x ≠ "_") && recordable i then [(x, NCall i f l)] else [] | _, _, _ => [] end) ++ single_assigns_all inside ++ single_assigns_all rhs.
Proof. cbn [single_assigns]. f_equal. f_equal; unfold single_assigns_all; [induction inside as [|x l IH]|induction rhs as [|x l IH]]; try done; cbn [fmap list_fmap concat]; by rewrite IH. Qed.
Lemma sa_node kids : single_assigns (NNode kids) = single_assigns_all kids.
Proof. cbn [single_assigns]. unfold single_assigns_all. induction kids as [|x l IH]; [done|]. cbn [fmap list_fmap concat]. by rewrite IH. Qed.
Lemma inspect_call i fn args w : inspect (NCall i fn args) w =
  inspect_all args (inspect fn (match w with Some (a, s) => match process (NCall i fn args) a s with Some s => Some (None, s) | None => None end | None => None end)).
Proof.
  cbn [inspect]. unfold inspect_all. generalize (inspect fn (match w with Some (a, s) => match process (NCall i fn args) a s with Some s => Some (None, s) | None => None end | None => None end)).
  induction args as [|x l IH]; intros w'; [done|]. cbn [foldl]. apply IH.
Qed.
Lemma inspect_assign lhs inside rhs w : inspect (NAssign lhs inside rhs) w = inspect_all rhs (inspect_all inside (match w with Some (_, s) => Some (Some (assigned_names lhs rhs), s) | None => None end)).
Proof.
  cbn [inspect]. assert (∀ l w, (fix all (l : list gnode) (w : gwalk) : gwalk := match l with [] => w | x :: l => all l (inspect x w) end) l w = inspect_all l w) as H.
  { unfold inspect_all. induction l as [|x l IH]; intros w'; [done|]. cbn [foldl]. apply IH. }
  by rewrite !H.
Qed.
Lemma inspect_node kids w : inspect (NNode kids) w = inspect_all kids w.
Proof. cbn [inspect]. unfold inspect_all. revert w. induction kids as [|x l IH]; intros w; [done|]. cbn [foldl]. apply IH. Qed.

Fixpoint gsize (n : gnode) : nat :=
  let all := fix all (l : list gnode) : nat := match l with [] => 0 | x :: l => gsize x + all l end in
  S (match n with NIdent _ _ => 0 | NSel x => gsize x | NCall _ fn args => gsize fn + all args | NAssign _ inside rhs => all inside + all rhs | NNode kids => all kids end).
Definition gsize_all (l : list gnode) : nat := foldr (λ x k, gsize x + k) 0 l.
Lemma gsize_elem x l : x ∈ l → gsize x ≤ gsize_all l.
Proof. induction l as [|y l IH]; intros H; [by apply elem_of_nil in H|]. cbn. apply elem_of_cons in H as [->|H]; [lia|]. specialize (IH H). unfold gsize_all in IH. lia. Qed.
Lemma gsize_call i fn args : gsize (NCall i fn args) = S (gsize fn + gsize_all args).
Proof. done. Qed.
Lemma gsize_assign lhs inside rhs : gsize (NAssign lhs inside rhs) = S (gsize_all inside + gsize_all rhs).
Proof. done. Qed.
Lemma gsize_node kids : gsize (NNode kids) = S (gsize_all kids).
Proof. done. Qed.

(** ** Chains *)
Fixpoint spine (n : gnode) : list gnode := match n with NCall i fn _ => if recordable i then n :: match fn with NSel d => spine d | _ => [] end else [] | _ => [] end.
Definition linked (E : list gedge) (base : nat) (c : gnode) : Prop := ∃ k e, E !! k = Some e ∧ base ≤ k ∧ ge_id e = id_of c ∧
  match inner c with Some d => ∃ j p, ge_chain e = Some j ∧ base ≤ j ∧ E !! j = Some p ∧ ge_id p = id_of d | None => ge_chain e = None end.
Lemma linked_app E new base c : linked E base c → linked (E ++ new) base c.
Proof.
  intros (k & e & Hk & Hb & Hi & H). exists k, e. split; [by apply lookup_app_l_Some|]. split; [done|]. split; [done|]. destruct (inner c); [|done]. destruct H as (j & p & H1 & H2 & H3 & H4). exists j, p. split; [done|]. split; [done|]. split; [by apply lookup_app_l_Some|done].
Qed.
Definition good (n : gnode) : Prop := ∀ c d, c ∈ calls n → inner c = Some d → is_recorded d.
Lemma spine_calls n : ∀ c, c ∈ spine n → c ∈ calls n.
Proof.
  revert n. fix IH 1. intros [|x|i fn args| |]; intros c H; try by apply elem_of_nil in H. rewrite calls_call. cbn [spine] in H. destruct (recordable i); [|by apply elem_of_nil in H]. apply elem_of_cons in H as [->|H]; [rewrite !elem_of_app; left; by left|].
  rewrite !elem_of_app. right. left. destruct fn as [|d| | |]; try by apply elem_of_nil in H. cbn [calls]. by apply IH.
Qed.
Lemma list_to_set_snoc (l : list string) x : (list_to_set (l ++ [x]) : gset string) = {[x]} ∪ list_to_set l.
Proof. set_solver. Qed.
Lemma process_spec : ∀ n a s base, is_recorded n → good n → NoDup (id_of <$> spine n) → (∀ c, c ∈ spine n → id_of c ∉ gs_seen s) → base ≤ length (gs_edges s) →
  ∃ s' new e, process n a s = Some s' ∧ gs_edges s' = gs_edges s ++ new ++ [e] ∧ ge_id <$> (new ++ [e]) = reverse (id_of <$> spine n) ∧ ge_id e = id_of n ∧ ge_assigned e = assigned_var a ∧
    gs_seen s' = list_to_set (id_of <$> spine n) ∪ gs_seen s ∧ (∀ c, c ∈ spine n → linked (gs_edges s') base c).
Proof.
  intros n0. remember (gsize n0) as k eqn:Ek. revert n0 Ek. induction k as [k IH] using lt_wf_ind.
  intros [|x|i fn args| |] Ek; intros a s base Hr Hg Hnd Hs Hb; try done. apply recordable_spec in Hr as Hi.
  assert (bool_decide (gi_id i ∈ gs_seen s) = false) as Hseen. { apply bool_decide_eq_false. apply (Hs (NCall i fn args)). cbn [spine]. rewrite Hi. apply elem_of_cons. by left. }
  assert (∀ v, inner (NCall i fn args) = None → spine (NCall i fn args) = [NCall i fn args] → process (NCall i fn args) a s = Some (add_edge (GEdge (gi_id i) v (assigned_var a) None) s) → ∃ s' new e, process (NCall i fn args) a s = Some s' ∧ gs_edges s' = gs_edges s ++ new ++ [e] ∧ ge_id <$> (new ++ [e]) = reverse (id_of <$> spine (NCall i fn args)) ∧ ge_id e = id_of (NCall i fn args) ∧ ge_assigned e = assigned_var a ∧
    gs_seen s' = list_to_set (id_of <$> spine (NCall i fn args)) ∪ gs_seen s ∧ (∀ c, c ∈ spine (NCall i fn args) → linked (gs_edges s') base c)) as Hplain.
  { intros v Hin Hsp Hp. rewrite Hp, Hsp. eexists _, [], _. split; [reflexivity|]. split; [reflexivity|]. split; [done|]. split; [done|]. split; [done|]. split; [cbn; set_solver|].
    intros c Hc%elem_of_list_singleton. subst c. exists (length (gs_edges s)), (GEdge (gi_id i) v (assigned_var a) None). split; [cbn; by rewrite lookup_app_r, Nat.sub_diag by lia|]. split; [done|]. split; [done|]. by rewrite Hin. }
  assert (∀ b1 b2 : bool, b1 = true → b2 = false → negb b1 || b2 = false) as Hcond by by intros [] [].
  destruct fn as [name obj|d|i' fn' args'|lhs inside rhs|kids].
  - apply (Hplain ""); [done|cbn [spine]; by rewrite Hi|]. cbn [process]. by rewrite (Hcond _ _ Hi Hseen).
  - destruct d as [name obj|d|i' fn' args'|lhs inside rhs|kids].
    + destruct obj; [apply (Hplain name)|apply (Hplain "")]; try done; try (cbn [spine]; by rewrite Hi); cbn [process]; by rewrite (Hcond _ _ Hi Hseen).
    + apply (Hplain ""); [done|cbn [spine]; by rewrite Hi|]. cbn [process]. by rewrite (Hcond _ _ Hi Hseen).
    + set (d := NCall i' fn' args') in *. assert (spine (NCall i (NSel d) args) = NCall i (NSel d) args :: spine d) as Hsp by (cbn [spine]; by rewrite Hi). rewrite Hsp in *. cbn [fmap list_fmap] in Hnd. apply NoDup_cons in Hnd as [Hnotin Hnd].
      assert (is_recorded d) as Hrd. { apply (Hg (NCall i (NSel d) args) d); [|done]. rewrite calls_call, Hi. apply elem_of_app. left. by apply elem_of_list_singleton. }
      assert (gsize d < k) as Hlt by (subst k; cbn; lia). destruct (IH (gsize d) Hlt d eq_refl a s base) as (s1 & new & e1 & Hp & He & Hids & Hid & Has & Hse & Hl); [done| |done| |done|].
      { intros c x Hc. apply Hg. rewrite calls_call, !elem_of_app. right. by left. }
      { intros c Hc. apply Hs. apply elem_of_cons. by right. }
      set (e := GEdge (gi_id i) (if decide (ge_var e1 = "") then root_var d else "") (assigned_var a) (Some (length (gs_edges s1) - 1))).
      exists (add_edge e s1), (new ++ [e1]), e. split.
      { cbn [process]. rewrite (Hcond _ _ Hi Hseen). fold d. rewrite Hp, He. rewrite !last_app. cbn [last]. unfold e. by rewrite He. }
      split; [cbn; by rewrite He, <- !app_assoc|]. split; [cbn [fmap list_fmap]; rewrite reverse_cons, <- Hids, fmap_app; done|]. split; [done|]. split; [done|]. split; [cbn; rewrite Hse; set_solver|].
      assert (gs_edges s1 !! (length (gs_edges s1) - 1) = Some e1) as Hlast. { rewrite He, app_assoc, app_length. cbn [length]. rewrite lookup_app_r by lia. by replace (length (gs_edges s ++ new) + 1 - 1 - length (gs_edges s ++ new)) with 0 by lia. }
      intros c Hc. apply elem_of_cons in Hc as [->|Hc]; [|by apply linked_app, Hl].
      exists (length (gs_edges s1)), e. split; [cbn; by rewrite lookup_app_r, Nat.sub_diag by lia|]. assert (length (gs_edges s) ≤ length (gs_edges s1) - 1) as Hlen by (rewrite He, !app_length; cbn; lia). split; [lia|]. split; [done|].
      cbn [inner]. fold d. exists (length (gs_edges s1) - 1), e1. split; [done|]. split; [lia|]. split; [cbn; by apply lookup_app_l_Some|done].
    + apply (Hplain ""); [done|cbn [spine]; by rewrite Hi|]. cbn [process]. by rewrite (Hcond _ _ Hi Hseen).
    + apply (Hplain ""); [done|cbn [spine]; by rewrite Hi|]. cbn [process]. by rewrite (Hcond _ _ Hi Hseen).
  - apply (Hplain ""); [done|cbn [spine]; by rewrite Hi|]. cbn [process]. by rewrite (Hcond _ _ Hi Hseen).
  - apply (Hplain ""); [done|cbn [spine]; by rewrite Hi|]. cbn [process]. by rewrite (Hcond _ _ Hi Hseen).
  - apply (Hplain ""); [done|cbn [spine]; by rewrite Hi|]. cbn [process]. by rewrite (Hcond _ _ Hi Hseen).
Qed.

(** ** The walk *)
Definition grown (base : nat) (l skip : list gnode) (asg : list (string * gnode)) (s s' : gstate) : Prop :=
  ∃ new, gs_edges s' = gs_edges s ++ new ∧ (ge_id <$> new) ++ (id_of <$> skip) ≡ₚ id_of <$> l ∧ gs_seen s' = list_to_set (id_of <$> l) ∪ gs_seen s ∧
    (∀ c, c ∈ l → c ∈ skip ∨ linked (gs_edges s') base c) ∧ (∀ x c, (x, c) ∈ asg → ∃ e, e ∈ gs_edges s' ∧ ge_id e = id_of c ∧ ge_assigned e = x).
Definition fresh (l : list gnode) (s : gstate) : Prop := ∀ c, c ∈ l → id_of c ∉ gs_seen s.
Lemma grown_nil base s : grown base [] [] [] s s.
Proof. exists []. rewrite app_nil_r. split; [done|]. split; [done|]. split; [cbn; set_solver|]. split; [by intros c ?%elem_of_nil|by intros x c ?%elem_of_nil]. Qed.
Lemma grown_app base l1 l2 k1 asg1 asg2 s s1 s2 : grown base l1 k1 asg1 s s1 → grown base l2 [] asg2 s1 s2 → grown base (l1 ++ l2) k1 (asg1 ++ asg2) s s2.
Proof.
  intros (n1 & E1 & P1 & S1 & L1 & A1) (n2 & E2 & P2 & S2 & L2 & A2). exists (n1 ++ n2). split; [by rewrite E2, E1, app_assoc|]. split.
  { rewrite !fmap_app. cbn in P2. rewrite app_nil_r in P2. rewrite <- P1, <- P2. rewrite <- !app_assoc. f_equiv. apply Permutation_app_comm. }
  split; [rewrite S2, S1, fmap_app, list_to_set_app_L; set_solver|]. split.
  - intros c Hc. apply elem_of_app in Hc as [Hc|Hc].
    + destruct (L1 c Hc) as [?|HL]; [by left|right]. rewrite E2. by apply linked_app.
    + destruct (L2 c Hc) as [?%elem_of_nil|HL]; [done|by right].
  - intros x c Hc. apply elem_of_app in Hc as [Hc|Hc]; [|by apply A2]. destruct (A1 x c Hc) as (e & He & ?). exists e. split; [|done]. rewrite E2, elem_of_app. by left.
Qed.
Lemma grown_length base l k asg s s' : grown base l k asg s s' → length (gs_edges s) ≤ length (gs_edges s').
Proof. intros (n & -> & _). rewrite app_length. lia. Qed.
Definition walks (base : nat) (n : gnode) : Prop := ∀ s a, NoDup (id_of <$> calls n) → good n → base ≤ length (gs_edges s) →
  (fresh (calls n) s → ∃ s' a', inspect n (Some (a, s)) = Some (a', s') ∧ grown base (calls n) [] (single_assigns n) s s' ∧
     (is_recorded n → ∃ e, e ∈ gs_edges s' ∧ ge_id e = id_of n ∧ ge_assigned e = assigned_var a)) ∧
  (is_recorded n → (∀ c, c ∈ spine n → id_of c ∈ gs_seen s) → (∀ c, c ∈ calls n → id_of c ∈ gs_seen s → id_of c ∈ id_of <$> spine n) →
     ∃ s' a', inspect n (Some (a, s)) = Some (a', s') ∧ grown base (calls n) (spine n) (single_assigns n) s s').
Lemma walks_all base l : (∀ x, x ∈ l → walks base x) → ∀ s a, NoDup (id_of <$> calls_all l) → (∀ c d, c ∈ calls_all l → inner c = Some d → is_recorded d) → base ≤ length (gs_edges s) → fresh (calls_all l) s →
  ∃ s' a', inspect_all l (Some (a, s)) = Some (a', s') ∧ grown base (calls_all l) [] (single_assigns_all l) s s'.
Proof.
  induction l as [|x l IH]; intros Hw s a Hnd Hg Hb Hf.
  - exists s, a. split; [done|]. apply grown_nil.
  - assert (calls_all (x :: l) = calls x ++ calls_all l) as Hc by done. rewrite Hc in *. rewrite fmap_app in Hnd. apply NoDup_app in Hnd as (Hn1 & Hn12 & Hn2).
    destruct (Hw x ltac:(apply elem_of_cons; by left) s a Hn1) as [HA _]; [intros c d Hcx; apply Hg; apply elem_of_app; by left|done|]. destruct HA as (s1 & a1 & Hi & Hgr & _); [intros c Hcx; apply Hf; apply elem_of_app; by left|].
    destruct (IH ltac:(intros y Hy; apply Hw; apply elem_of_cons; by right) s1 a1 Hn2) as (s2 & a2 & Hi2 & Hgr2).
    { intros c d Hcl. apply Hg. apply elem_of_app. by right. }
    { pose proof (grown_length _ _ _ _ _ _ Hgr). lia. }
    { destruct Hgr as (n & _ & _ & Hse & _). intros c Hcl. rewrite Hse, elem_of_union, elem_of_list_to_set. intros [H|H]; [|by apply (Hf c ltac:(apply elem_of_app; by right))]. apply (Hn12 (id_of c) H). by apply elem_of_list_fmap_1. }
    exists s2, a2. split; [unfold inspect_all in *; cbn [foldl]; by rewrite Hi|]. unfold single_assigns_all in *. cbn [fmap list_fmap concat]. by eapply grown_app.
Qed.
Lemma grown_skip base l k asg s s1 s2 (n : gnode) new : gs_edges s1 = gs_edges s ++ new → ge_id <$> new ≡ₚ id_of <$> k → gs_seen s1 = list_to_set (id_of <$> k) ∪ gs_seen s →
  (∀ c, c ∈ k → linked (gs_edges s1) base c) → grown base l k asg s1 s2 → (∀ c, c ∈ k → c ∈ l) → grown base l [] asg s s2.
Proof.
  intros E1 P1 S1 L1 (n2 & E2 & P2 & S2 & L2 & A2) Hsub. exists (new ++ n2). split; [by rewrite E2, E1, app_assoc|]. split; [rewrite fmap_app; cbn; rewrite app_nil_r, P1, Permutation_app_comm; done|].
  split; [rewrite S2, S1; apply set_eq; intros x; rewrite !elem_of_union, !elem_of_list_to_set; split; [|tauto]; intros [?|[H|?]]; [by left| |by right]; left; apply elem_of_list_fmap in H as (c & -> & Hc); apply elem_of_list_fmap_1; by apply Hsub|].
  split; [|done]. intros c Hc. right. destruct (L2 c Hc) as [Hk|?]; [|done]. rewrite E2. by apply linked_app, L1.
Qed.
Lemma grown_cons base l k asg s s' n : grown base l k asg s s' → id_of n ∈ gs_seen s → grown base (n :: l) (n :: k) asg s s'.
Proof.
  intros (new & E & P & S & L & A) Hs. exists new. split; [done|]. split; [cbn [fmap list_fmap]; rewrite <- Permutation_middle; by rewrite P|]. split; [rewrite S; cbn; set_solver|]. split; [|done].
  intros c Hc. apply elem_of_cons in Hc as [->|Hc]; [left; apply elem_of_cons; by left|]. destruct (L c Hc) as [?|?]; [left; apply elem_of_cons; by right|by right].
Qed.
Lemma walks_every base : ∀ n, walks base n.
Proof.
  assert (∀ k n, gsize n ≤ k → walks base n) as H; [|intros n; by apply (H (gsize n))].
  induction k as [|k IHk]; intros n Hk; [by destruct n; cbn in Hk; lia|].
  destruct n as [name obj|x|i fn args|lhs inside rhs|kids].
  - intros s a _ _ _. split; [|done]. intros _. exists s, a. split; [done|]. split; [apply grown_nil|done].
  - intros s a Hnd Hg Hb. split; [|done]. intros Hf. destruct (IHk x ltac:(cbn in Hk; lia) s a Hnd) as [HA _]; [done|done|]. destruct (HA Hf) as (s' & a' & H1 & H2 & _). exists s', a'. split; [exact H1|]. split; [exact H2|done].
  - rewrite gsize_call in Hk. assert (walks base fn) as Hwfn by (apply IHk; lia). assert (∀ x, x ∈ args → walks base x) as Hwargs. { intros x Hx. apply IHk. apply gsize_elem in Hx. lia. }
    (* the second mode *)
    assert (∀ s a, NoDup (id_of <$> calls (NCall i fn args)) → good (NCall i fn args) → base ≤ length (gs_edges s) → is_recorded (NCall i fn args) → (∀ c, c ∈ spine (NCall i fn args) → id_of c ∈ gs_seen s) →
      (∀ c, c ∈ calls (NCall i fn args) → id_of c ∈ gs_seen s → id_of c ∈ id_of <$> spine (NCall i fn args)) →
      ∃ s' a', inspect_all args (inspect fn (Some (a, s))) = Some (a', s') ∧ grown base (calls (NCall i fn args)) (spine (NCall i fn args)) (single_assigns (NCall i fn args)) s s') as HB.
    { intros s a Hnd Hg Hb Hr Hsp Hon. apply recordable_spec in Hr as Hi. rewrite calls_call, Hi in Hnd, Hon. cbn [app] in Hnd, Hon. cbn [fmap list_fmap] in Hnd. apply NoDup_cons in Hnd as [Hnot Hnd]. rewrite fmap_app in Hnd. apply NoDup_app in Hnd as (Hnf & Hnfa & Hna).
      assert (∀ c d, c ∈ calls fn → inner c = Some d → is_recorded d) as Hgf. { intros c d Hc. apply Hg. rewrite calls_call, !elem_of_app. auto. }
      assert (∀ c d, c ∈ calls_all args → inner c = Some d → is_recorded d) as Hga. { intros c d Hc. apply Hg. rewrite calls_call, !elem_of_app. auto. }
      assert (∃ s1 a1, inspect fn (Some (a, s)) = Some (a1, s1) ∧ grown base (calls fn) (match fn with NSel d => spine d | _ => [] end) (single_assigns fn) s s1) as (s1 & a1 & Hi1 & Hg1).
      { assert (id_of (NCall i fn args) = gi_id i) as Hid by done. destruct (inner (NCall i fn args)) as [d|] eqn:Ein.
        - assert (fn = NSel d) as ->. { destruct fn as [|[]| | |]; try done. by injection Ein as <-. }
          assert (is_recorded d) as Hrd. { apply (Hg (NCall i (NSel d) args) d); [|done]. rewrite calls_call, Hi. apply elem_of_app. left. by apply elem_of_list_singleton. }
          destruct (IHk d ltac:(cbn in Hk; lia) s a Hnf Hgf Hb) as [_ HB]. destruct HB as (s1 & a1 & H1 & H2); [done| | |by exists s1, a1].
          + intros c Hc. apply Hsp. cbn [spine]. rewrite Hi. apply elem_of_cons. by right.
          + intros c Hc Hsn. assert (id_of c ∈ id_of <$> spine (NCall i (NSel d) args)) as Hin. { apply Hon; [|done]. apply elem_of_cons. right. apply elem_of_app. by left. }
            cbn [spine] in Hin. rewrite Hi in Hin. cbn [fmap list_fmap] in Hin. apply elem_of_cons in Hin as [Hin|Hin]; [|done]. exfalso. apply Hnot. rewrite <- Hin, fmap_app, elem_of_app. left. by apply elem_of_list_fmap_1.
        - assert (match fn with NSel d => spine d | _ => [] end = []) as Esp. { destruct fn as [|[]| | |]; try done. }
          rewrite Esp. assert (spine (NCall i fn args) = [NCall i fn args]) as Esp'. { cbn [spine]. by rewrite Hi, Esp. }
          destruct (Hwfn s a Hnf Hgf Hb) as [HA _]. destruct HA as (s1 & a1 & H1 & H2 & _); [|by exists s1, a1].
          intros c Hc Hsn. assert (id_of c ∈ id_of <$> spine (NCall i fn args)) as Hin. { apply Hon; [|done]. apply elem_of_cons. right. apply elem_of_app. by left. }
          rewrite Esp' in Hin. apply elem_of_list_singleton in Hin. apply Hnot. rewrite <- Hin, fmap_app, elem_of_app. left. by apply elem_of_list_fmap_1. }
      destruct (walks_all base args Hwargs s1 a1 Hna Hga) as (s2 & a2 & Hi2 & Hg2).
      { pose proof (grown_length _ _ _ _ _ _ Hg1). lia. }
      { intros c Hc Hsn. destruct Hg1 as (n1 & _ & _ & S1 & _). rewrite S1, elem_of_union, elem_of_list_to_set in Hsn. destruct Hsn as [Hsn|Hsn]; [apply (Hnfa _ Hsn); by apply elem_of_list_fmap_1|].
        assert (id_of c ∈ id_of <$> spine (NCall i fn args)) as Hin. { apply Hon; [|done]. apply elem_of_cons. right. apply elem_of_app. by right. }
        cbn [spine] in Hin. rewrite Hi in Hin. cbn [fmap list_fmap] in Hin. apply elem_of_cons in Hin as [Hin|Hin].
        - apply Hnot. rewrite <- Hin, fmap_app, elem_of_app. right. by apply elem_of_list_fmap_1.
        - assert (id_of c ∈ id_of <$> calls fn) as Hin'. { destruct fn as [|d| | |]; try by apply elem_of_nil in Hin. apply elem_of_list_fmap in Hin as (y & -> & Hy). apply elem_of_list_fmap_1. cbn [calls]. by apply spine_calls. }
          apply (Hnfa _ Hin'). by apply elem_of_list_fmap_1. }
      exists s2, a2. split; [by rewrite Hi1|]. rewrite calls_call, Hi, sa_call. assert (spine (NCall i fn args) = NCall i fn args :: match fn with NSel d => spine d | _ => [] end) as Esp by (cbn [spine]; by rewrite Hi). rewrite Esp. cbn [app]. apply grown_cons; [by eapply grown_app|].
      apply Hsp. rewrite Esp. apply elem_of_cons. by left. }
    intros s a Hnd Hg Hb. split.
    + intros Hf. rewrite inspect_call. destruct (recordable i) eqn:Hi.
      * assert (is_recorded (NCall i fn args)) as Hr by (by apply (recordable_spec i fn args)).
        assert (NoDup (id_of <$> spine (NCall i fn args))) as Hnds.
        { clear -Hnd. revert Hnd. generalize (NCall i fn args). fix IH 1. intros [| |j f l| |] Hnd; try constructor. cbn [spine]. rewrite calls_call in Hnd. destruct (recordable j); [|constructor]. cbn [app fmap list_fmap] in *. apply NoDup_cons in Hnd as [H1 H2]. apply NoDup_cons.
          rewrite fmap_app in H1, H2. split.
          - intros Hin. apply H1. apply elem_of_app. left. destruct f as [|d| | |]; try by apply elem_of_nil in Hin. apply elem_of_list_fmap in Hin as (y & -> & Hy). apply elem_of_list_fmap_1. cbn [calls]. by apply spine_calls.
          - destruct f as [|d| | |]; try constructor. apply IH. by apply NoDup_app in H2 as [? _]. }
        destruct (process_spec (NCall i fn args) a s base Hr Hg Hnds) as (s1 & new & e & Hp & E1 & I1 & Hid & Has & S1 & L1); [|done|].
        { intros c Hc. by apply Hf, spine_calls. }
        rewrite Hp. destruct (HB s1 None Hnd Hg) as (s2 & a2 & H1 & H2); [|done| | |].
        { rewrite E1, app_length. lia. }
        { intros c Hc. rewrite S1, elem_of_union, elem_of_list_to_set. left. by apply elem_of_list_fmap_1. }
        { intros c Hc. rewrite S1, elem_of_union, elem_of_list_to_set. intros [?|Hx]; [done|]. by destruct (Hf c Hc). }
        exists s2, a2. split; [exact H1|]. split.
        -- eapply (grown_skip _ _ _ _ _ s1 s2 (NCall i fn args) (new ++ [e])); [done| |done|done|done|apply spine_calls]. rewrite I1. apply reverse_Permutation.
        -- intros _. exists e. split; [|done]. destruct H2 as (n2 & -> & _). rewrite E1, !elem_of_app. left. right. right. by apply elem_of_list_singleton.
      * assert (process (NCall i fn args) a s = Some s) as Hp by (cbn [process]; by rewrite Hi). rewrite Hp. rewrite calls_call, Hi in *. cbn [app] in *. rewrite fmap_app in Hnd. apply NoDup_app in Hnd as (Hnf & Hnfa & Hna).
        destruct (Hwfn s None Hnf) as [HA _]; [intros c d Hc; apply Hg; rewrite calls_call, !elem_of_app; auto|done|]. destruct HA as (s1 & a1 & H1 & H2 & _); [intros c Hc; apply Hf, elem_of_app; by left|].
        destruct (walks_all base args Hwargs s1 a1 Hna) as (s2 & a2 & Hi2 & Hg2).
        { intros c d Hc. apply Hg. rewrite calls_call, !elem_of_app. auto. }
        { pose proof (grown_length _ _ _ _ _ _ H2). lia. }
        { intros c Hc Hsn. destruct H2 as (n1 & _ & _ & S1 & _). rewrite S1, elem_of_union, elem_of_list_to_set in Hsn. destruct Hsn as [Hsn|Hsn]; [apply (Hnfa _ Hsn); by apply elem_of_list_fmap_1|]. apply (Hf c); [apply elem_of_app; by right|done]. }
        exists s2, a2. split; [by rewrite H1|]. split; [rewrite sa_call; by eapply grown_app|]. intros Hr. apply recordable_spec in Hr. by rewrite Hr in Hi.
    + intros Hr Hsp Hon. rewrite inspect_call. apply recordable_spec in Hr as Hi. assert (process (NCall i fn args) a s = Some s) as Hp.
      { cbn [process]. rewrite Hi, bool_decide_eq_true_2; [done|]. apply (Hsp (NCall i fn args)). cbn [spine]. rewrite Hi. apply elem_of_cons. by left. }
      rewrite Hp. by apply HB.
  - rewrite gsize_assign in Hk. intros s a Hnd Hg Hb. split; [|done]. intros Hf. rewrite inspect_assign. rewrite calls_assign in *. rewrite fmap_app in Hnd. apply NoDup_app in Hnd as (Hn1 & Hn12 & Hn2).
    assert (∀ x, x ∈ inside → walks base x) as Hw1. { intros x Hx. apply IHk. apply gsize_elem in Hx. lia. }
    assert (∀ x, x ∈ rhs → walks base x) as Hw2. { intros x Hx. apply IHk. apply gsize_elem in Hx. lia. }
    destruct (walks_all base inside Hw1 s (Some (assigned_names lhs rhs)) Hn1) as (s1 & a1 & H1 & G1); [intros c d Hc; apply Hg; rewrite calls_assign, elem_of_app; by left|done|intros c Hc; apply Hf, elem_of_app; by left|].
    assert (fresh (calls_all rhs) s1) as Hf1.
    { intros c Hc Hsn. destruct G1 as (n1 & _ & _ & S1 & _). rewrite S1, elem_of_union, elem_of_list_to_set in Hsn. destruct Hsn as [Hsn|Hsn]; [apply (Hn12 _ Hsn); by apply elem_of_list_fmap_1|]. apply (Hf c); [apply elem_of_app; by right|done]. }
    assert (∀ c d, c ∈ calls_all rhs → inner c = Some d → is_recorded d) as Hg2. { intros c d Hc. apply Hg. rewrite calls_assign, elem_of_app. by right. }
    assert (base ≤ length (gs_edges s1)) as Hb1. { pose proof (grown_length _ _ _ _ _ _ G1). lia. }
    destruct (walks_all base rhs Hw2 s1 a1 Hn2 Hg2 Hb1 Hf1) as (s2 & a2 & H2 & G2).
    exists s2, a2. split; [by rewrite H1|]. split; [|done]. rewrite sa_assign.
    pose proof (grown_app _ _ _ _ _ _ _ _ _ G1 G2) as G. destruct G as (new & E & P & S & L & A). exists new. split; [done|]. split; [done|]. split; [done|]. split; [done|]. intros x c Hxc. apply elem_of_app in Hxc as [Hxc|Hxc]; [|by apply A].
    destruct lhs as [|y [|]]; try by apply elem_of_nil in Hxc. destruct inside as [|]; [|by apply elem_of_nil in Hxc]. destruct rhs as [|[| |i f l| |] [|]]; try by apply elem_of_nil in Hxc.
    destruct (bool_decide (y ≠ "_") && recordable i) eqn:Eb; [|by apply elem_of_nil in Hxc]. apply elem_of_list_singleton in Hxc. injection Hxc as -> ->. apply andb_true_iff in Eb as [Ey Ei]. apply bool_decide_eq_true in Ey.
    cbn [inspect_all foldl] in H1. injection H1 as <- <-. cbn [inspect_all foldl] in H2. unfold inspect_all in H2. cbn [foldl] in H2.
    assert (calls_all [NCall i f l] = calls (NCall i f l)) as Ec by (unfold calls_all; cbn [fmap list_fmap concat]; by rewrite app_nil_r).
    rewrite Ec in *. destruct (Hw2 (NCall i f l) ltac:(by apply elem_of_list_singleton) s (Some (assigned_names [y] [NCall i f l])) Hn2 Hg2 Hb1) as [HA _]. destruct (HA Hf1) as (s3 & a3 & H3 & _ & He).
    assert (s3 = s2) as -> by congruence. destruct He as (e & He & Hid & Hass); [by apply recordable_spec|]. exists e. split; [done|]. split; [done|]. rewrite Hass. unfold assigned_names. rewrite filter_cons, filter_nil, decide_True by done. done.
  - rewrite gsize_node in Hk. intros s a Hnd Hg Hb. split; [|done]. intros Hf. rewrite inspect_node. rewrite calls_node in *.
    destruct (walks_all base kids) with (s := s) (a := a) as (s' & a' & H1 & H2); [|done|intros c d Hc; apply Hg; by rewrite calls_node|done|done|].
    { intros x Hx. apply IHk. apply gsize_elem in Hx. lia. }
    exists s', a'. split; [done|]. split; [by rewrite sa_node|done].
Qed.
