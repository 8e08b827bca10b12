(** * C22, C23, C48, C49: response pairing, keys, depths, positions. *)
From Coq Require Import Ascii.
From stdpp Require Import base numbers list strings gmap relations.
From Verif Require Import StrOrder StrLib StrSplit DecLib IdModel RouteModel PairModel PairSpec PairProofs PairProofs2.

(** ** C23 *)
Theorem C23_candidate_key_injective : ∀ chain callee chain' callee',
  candidate_key chain callee = candidate_key chain' callee' → chain = chain' ∧ callee = callee'.
Proof.
  intros chain callee chain' callee' H. rewrite !candidate_key_parts in H. apply write_parts_inj in H.
  by apply app_inj_tail in H.
Qed.
Print Assumptions C23_candidate_key_injective.

(** The key that groups a status write with its body is the part of the chain up
    to the innermost frame of the function that contains the call, and nothing for
    a call outside all frames. *)
Theorem C23_frame_chain_is_the_enclosing_frames : ∀ chain caller,
  (∀ f, f ∈ chain → strip_to_base f ≠ caller) ∧ frame_chain_key chain caller = "" ∨
  ∃ outer f inner, chain = outer ++ f :: inner ∧ strip_to_base f = caller ∧
    (∀ g, g ∈ inner → strip_to_base g ≠ caller) ∧
    frame_chain_key chain caller = str_join (String chain_sep "") (outer ++ [f]).
Proof.
  intros chain caller. unfold frame_chain_key. rewrite <- (reverse_involutive chain).
  generalize (reverse chain). clear chain. intros l. rewrite reverse_involutive.
  induction l as [|f l IH].
  - left. split; [intros f Hf; by apply not_elem_of_nil in Hf|done].
  - simpl. destruct (decide (strip_to_base f = caller)) as [Hf|Hf].
    + right. exists (reverse l), f, []. rewrite reverse_cons. split; [done|]. split; [done|]. split; [|done].
      intros g Hg. by apply not_elem_of_nil in Hg.
    + rewrite reverse_cons. destruct IH as [[H1 H2]|(outer & g & inner & H1 & H2 & H3 & H4)].
      * left. split; [|done]. intros g [Hg| ->%elem_of_list_singleton]%elem_of_app; [by apply H1|done].
      * right. exists outer, g, (inner ++ [f]). rewrite H1, <- app_assoc. split; [done|]. split; [done|]. split; [|done].
        intros h [Hh| ->%elem_of_list_singleton]%elem_of_app; [by apply H3|done].
Qed.
Print Assumptions C23_frame_chain_is_the_enclosing_frames.

(** As long as no instance identity contains the separator byte, distinct
    enclosing frames have distinct keys. *)
Theorem C23_frame_chain_injective : ∀ a b, a ≠ [] → b ≠ [] →
  Forall (λ x, contains_byte chain_sep x = false) a → Forall (λ x, contains_byte chain_sep x = false) b →
  str_join (String chain_sep "") a = str_join (String chain_sep "") b → a = b.
Proof.
  intros a b Ha Hb Fa Fb H. apply (f_equal (split_byte chain_sep)) in H. by rewrite !split_join in H.
Qed.
Print Assumptions C23_frame_chain_injective.

Example C23_example :
  candidate_key ["m.h@a.go:1:2"; "1:x"] "m.w@a.go:3:4" = "12:m.h@a.go:1:23:1:x12:m.w@a.go:3:4" ∧
  candidate_key ["m.h@a.go:1:2"; "1:x"] "m.w@a.go:3:4" ≠ candidate_key ["m.h@a.go:1:23:1:x"] "m.w@a.go:3:4".
Proof. split; [by vm_compute|by vm_compute]. Qed.

(** ** C22 *)

(** Discovery order does not matter when the calls found are written at different
    places (and no identity or type name contains the separator byte). *)
Theorem C22_order_independent : ∀ depths saved cands cands',
  cands ≡ₚ cands' →
  NoDup ((λ c, callee_position (cd_site c)) <$> cands) →
  (∀ c, c ∈ cands → contains_byte chain_sep (cd_site c) = false ∧
     ∀ r i u, Some (r, i, u) ∈ cd_resps c → contains_byte chain_sep (rp_body r) = false) →
  pair_and_fill depths saved cands = pair_and_fill depths saved cands'.
Proof.
  intros depths saved cands cands' Hp Hnd Hs. apply pair_order; [done|done|]. apply Forall_forall. exact Hs.
Qed.
Print Assumptions C22_order_independent.

(** Each call, in source order, has exactly the outcome the specification gives. *)
Theorem C22_pairing_exact : ∀ l, ∃ os,
  length os = length l ∧
  (∀ i f o, l !! i = Some f → os !! i = Some o → outcome (take i l) f o) ∧
  ps_stored (pair_loop l) = omap left_of os ∧ ps_unpaired (pair_loop l) = omap right_of os.
Proof. intros l. destruct (pair_loop_paired l) as [os [H1 H2 H3 H4 _ _]]. by exists os. Qed.
Print Assumptions C22_pairing_exact.

(** A written status is used for at most one body. *)
Theorem C22_status_used_once : ∀ l i i' f f' j g g',
  l !! i = Some f → l !! i' = Some f' → open_body f → open_body f' →
  claims (take i l) f j g → claims (take i' l) f' j g' → i = i'.
Proof.
  assert (∀ l i i' f f' j g g', i < i' → l !! i = Some f → l !! i' = Some f' → open_body f → open_body f' →
    claims (take i l) f j g → claims (take i' l) f' j g' → False) as H.
  { intros l i i' f f' j g g' Hlt Hi Hi' Ho Ho' (Hj & _ & Hc & _) (Hj' & _ & Hc' & Hk').
    assert (j < i) as Hji by (apply lookup_lt_Some in Hj; rewrite take_length in Hj; lia).
    rewrite lookup_take in Hj, Hj' by lia. assert (g = g') as <- by congruence.
    destruct (Hk' i f) as [_ Hn]; [done|by rewrite lookup_take|congruence|]. by apply Hn. }
  intros l i i' f f' j g g' Hi Hi' Ho Ho' Hcl Hcl'. destruct (lt_eq_lt_dec i i') as [[Hlt|Heq]|Hlt]; [|done|].
  - exfalso. exact (H l i i' f f' j g g' Hlt Hi Hi' Ho Ho' Hcl Hcl').
  - exfalso. exact (H l i' i f' f j g' g Hlt Hi' Hi Ho' Ho Hcl' Hcl).
Qed.
Print Assumptions C22_status_used_once.

(** What is documented for the bodies left over: exactly those written closest to
    the handler; the implicit status when they carry one, else a status of their
    own below zero. *)
Theorem C22_left_over_bodies : ∀ depths l h, h ∈ final_unpaired depths l ↔
  (∃ f, f ∈ l ∧ shallowest depths l f ∧ (0 < fr_implicit f)%Z ∧ h = with_status (fr_implicit f) f) ∨
  (∃ k f, filter (λ f, shallowest depths l f ∧ ¬ (0 < fr_implicit f)%Z) l !! k = Some f ∧
          h = with_status (- (Z.of_nat k + 1)) f).
Proof.
  intros depths l h. unfold final_unpaired. rewrite filter_shallowest, final_elem.
  rewrite list_filter_filter. split.
  - intros [(f & [Hs Hf]%elem_of_list_filter & H)|(k & f & Hk & ->)]; [left; eauto|right].
    exists k, f. split; [|by rewrite Z.add_0_l]. rewrite <- Hk. f_equal. apply list_filter_iff. naive_solver.
  - intros [(f & Hf & Hs & H)|(k & f & Hk & ->)].
    + left. exists f. split; [by apply elem_of_list_filter|done].
    + right. exists k, f. split; [|by rewrite Z.add_0_l]. rewrite <- Hk. f_equal. apply list_filter_iff. naive_solver.
Qed.
Print Assumptions C22_left_over_bodies.

(** A body written after an unreadable status write on the same chain does not get
    the framework's implicit status. *)
Theorem C22_no_implicit_after_unreadable : ∀ l i f depths, l !! i = Some f → open_body f →
  after_unreadable (take i l) f →
  (∃ j g, claims (take i l) f j g ∧ with_status (fr_status g) (no_implicit f) ∈ ps_stored (pair_loop l)) ∨
  (no_implicit f ∈ ps_unpaired (pair_loop l) ∧
   ∀ n, n ∈ final_unpaired depths (ps_unpaired (pair_loop l)) →
     (∃ z, n = with_status z (no_implicit f)) → (fr_status n < 0)%Z).
Proof.
  intros l i f depths Hi Ho Ha. destruct (pair_loop_paired l) as [os [H1 H2 H3 H4 _ _]].
  destruct (os !! i) as [o|] eqn:Hoi.
  2:{ apply lookup_ge_None in Hoi. apply lookup_lt_Some in Hi. lia. }
  destruct (H2 _ _ _ Hi Hoi) as [[Hk _]|[(_ & f' & Hf' & Hout)|(_ & ? & _)]]; [by destruct Ho| |done].
  destruct Hf' as [[_ ->]|[? _]]; [|done].
  assert (∀ x, os !! i = Some (Some (inl x)) → x ∈ omap left_of os) as Hl.
  { intros x Hx. apply elem_of_list_omap. exists (Some (inl x)). split; [by eapply elem_of_list_lookup_2|done]. }
  assert (∀ x, os !! i = Some (Some (inr x)) → x ∈ omap right_of os) as Hr.
  { intros x Hx. apply elem_of_list_omap. exists (Some (inr x)). split; [by eapply elem_of_list_lookup_2|done]. }
  destruct Hout as [(j & g & Hcl & ->)|[_ ->]].
  - left. exists j, g. split; [done|]. rewrite H3. by apply Hl.
  - right. split; [rewrite H4; by apply Hr|]. intros n Hn [z Hz].
    apply C22_left_over_bodies in Hn as [(g & _ & _ & Hpos & Heq)|(k & g & _ & ->)].
    + exfalso. assert (fr_implicit n = fr_implicit g) as E by (by rewrite Heq).
      rewrite Hz in E. simpl in E. lia.
    + unfold fr_status. simpl. lia.
Qed.
Print Assumptions C22_no_implicit_after_unreadable.

(** Bodies of unknown status each keep a slot of their own. *)
Theorem C22_unknown_statuses_kept_apart : ∀ depths saved cands,
  (∀ z, (z < 0)%Z → saved !! z = None) →
  let left_over := ps_unpaired (pair_loop (sort_frags (collect_frags cands))) in
  let unknown := filter (λ f, shallowest depths left_over f ∧ ¬ (0 < fr_implicit f)%Z) left_over in
  ∀ z, (z < 0)%Z → pair_and_fill depths saved cands !! z =
    with_status z <$> unknown !! Z.to_nat (- z - 1).
Proof.
  intros depths saved cands Hsaved left_over unknown z Hz. unfold pair_and_fill.
  destruct (pair_loop_paired (sort_frags (collect_frags cands))) as [os [H1 H2 H3 H4 _ _]].
  fold left_over. rewrite fold_left_app.
  set (m := fold_left store (ps_stored _) saved).
  assert (∀ z, (z < 0)%Z → m !! z = None) as Hm.
  { intros y Hy. unfold m. rewrite fold_store_other; [by apply Hsaved|].
    intros f Hf. rewrite H3 in Hf. apply elem_of_list_omap in Hf as (o & Ho & Hof).
    destruct o as [[f'|]|]; [|done|done]. injection Hof as ->.
    apply elem_of_list_lookup in Ho as [i Hi].
    destruct (sort_frags (collect_frags cands) !! i) as [x|] eqn:Hx.
    2:{ apply lookup_ge_None in Hx. apply lookup_lt_Some in Hi. lia. }
    destruct (H2 _ _ _ Hx Hi) as [[Hk [= ->]]|[(_ & f' & _ & [(j & g & Hcl & [= ->])|[_ ?]])|(_ & _ & ?)]]; try done.
    - unfold http_status in Hk. intros Heq. lia.
    - destruct Hcl as (_ & [Hs _] & _). unfold http_status in Hs. intros <-. unfold fr_status in *. simpl in *. lia. }
  clearbody m. clear H1 H2 H3 H4 os Hsaved saved.
  unfold unknown, final_unpaired. rewrite filter_shallowest.
  assert (filter (λ f, shallowest depths left_over f ∧ ¬ (0 < fr_implicit f)%Z) left_over =
    filter (λ f, ¬ (0 < fr_implicit f)%Z) (filter (shallowest depths left_over) left_over)) as ->.
  { rewrite list_filter_filter. apply list_filter_iff. naive_solver. }
  generalize (filter (shallowest depths left_over) left_over). clear unknown left_over. intros l.
  assert (∀ n m, (0 ≤ n)%Z → (∀ z, (z < - n)%Z → m !! z = None) → (z < - n)%Z →
    fold_left store (fold_left final_step l (n, [])).2 m !! z =
    with_status z <$> filter (λ f, ¬ (0 < fr_implicit f)%Z) l !! Z.to_nat (- z - n - 1)) as Hgen.
  { clear m Hm. induction l as [|f l IH]; intros n m Hn Hm Hzn.
    - simpl. by apply Hm.
    - cbn [fold_left]. rewrite final_steps. cbn [snd]. rewrite fold_left_app.
      unfold final_step. rewrite filter_cons. case_bool_decide as Hf; cbn [fst snd app fold_left].
      + rewrite decide_False by lia. apply IH; [done| |done].
        intros y Hy. rewrite store_other; [by apply Hm|]. unfold fr_status. simpl. lia.
      + rewrite decide_True by lia. destruct (decide (z = - (n + 1))%Z) as [->|Hne].
        * replace (Z.to_nat _) with 0 by lia. simpl.
          rewrite fold_store_other.
          -- unfold store. unfold fr_status. cbn [rp_status fr_resp with_status]. rewrite Hm by lia. by rewrite lookup_insert.
          -- intros g Hg. apply final_elem in Hg as [(h & _ & Hpos & ->)|(k & h & _ & ->)]; unfold fr_status; simpl; lia.
        * rewrite IH; [|lia| |lia].
          -- replace (Z.to_nat (- z - n - 1)) with (S (Z.to_nat (- z - (n + 1) - 1))) by lia. done.
          -- intros y Hy. rewrite store_other; [apply Hm; lia|]. unfold fr_status. simpl. lia. }
  rewrite (Hgen 0%Z); [|lia|by intros; apply Hm; lia|lia]. by rewrite Z.sub_0_r.
Qed.
Print Assumptions C22_unknown_statuses_kept_apart.

(** One statement in a helper reached through two calls of that helper has one
    source position: then discovery order does decide which body gets which slot. *)
Definition ex_resp (body : string) (status : Z) : resp := Resp None body "application/json" status.
Theorem C22_shared_statement_order_refuted : ∃ depths cands cands',
  cands ≡ₚ cands' ∧ NoDup (cd_chain <$> cands) ∧
  pair_and_fill depths ∅ cands ≠ pair_and_fill depths ∅ cands'.
Proof.
  exists {["m.write" := 1]},
    [Cand "m.write@h.go:3:2" "json.Encode@w.go:9:4" "m.write" [Some (ex_resp "User" (-1), 0%Z, false)];
     Cand "m.write@h.go:5:2" "json.Encode@w.go:9:4" "m.write" [Some (ex_resp "Order" (-1), 0%Z, false)]],
    [Cand "m.write@h.go:5:2" "json.Encode@w.go:9:4" "m.write" [Some (ex_resp "Order" (-1), 0%Z, false)];
     Cand "m.write@h.go:3:2" "json.Encode@w.go:9:4" "m.write" [Some (ex_resp "User" (-1), 0%Z, false)]].
  split; [apply Permutation_swap|]. split.
  { repeat constructor; set_solver. }
  intros H. apply (f_equal (λ m, fr_body <$> m !! (-1)%Z)) in H. vm_compute in H. done.
Qed.
Print Assumptions C22_shared_statement_order_refuted.

Definition ex_cands : list cand :=
  [Cand "" "gin.JSON@h.go:9:4" "m.h" [Some (ex_resp "Err" (-1), 0%Z, false)];
   Cand "" "gin.Status@h.go:8:4" "m.h" [Some (ex_resp "" 400, 0%Z, false)];
   Cand "" "gin.JSON@h.go:12:2" "m.h" [Some (ex_resp "User" (-1), 200%Z, false); None]].
Example C22_example :
  (λ p : Z * frag, (p.1, fr_body p.2)) <$> map_to_list (pair_and_fill {["m.h" := 0]} ∅ ex_cands) ≡ₚ [(400%Z, "Err"); (200%Z, "User")].
Proof. vm_compute. apply Permutation_swap || reflexivity. Qed.
Example C22_example_hyp : NoDup ((λ c, callee_position (cd_site c)) <$> ex_cands).
Proof. vm_compute. repeat constructor; set_solver. Qed.

(** ** C48 *)
Theorem C48_depth_is_distance : ∀ edges handler, handler ≠ "" → ∀ fuel, S (length edges) ≤ fuel →
  ∃ depths, handler_call_depths edges fuel handler = Some depths ∧
    ∀ f n, depths !! f = Some n ↔ distance edges handler f n.
Proof. intros edges handler Hne fuel Hf. by apply bfs_depths. Qed.
Print Assumptions C48_depth_is_distance.

Example C48_example :
  (λ m : gmap string nat, (m !! "a", m !! "d", m !! "z")) <$>
  handler_call_depths [("a", "b"); ("b", "a"); ("b", "c"); ("c", "d"); ("a", "c"); ("y", "z")] 7 "a" =
  Some (Some 0, Some 2, None).
Proof. by vm_compute. Qed.

(** ** C49 *)
Theorem C49_position_round_trip_partial : ∀ base file line col,
  contains_byte "@" file = false → file ≠ "" → (0 < line)%Z → col ≠ 0%Z →
  callee_position (base +:+ "@" +:+ format_position file line col) = (file, line, col).
Proof. exact position_round_trip. Qed.
Print Assumptions C49_position_round_trip_partial.

(** Files of the module cache have an '@' in their path: the position loses the
    module, and calls in two different modules become calls in one file. *)
Theorem C49_module_cache_file_refuted : ∃ base f1 f2, f1 ≠ f2 ∧
  callee_position (base +:+ "@" +:+ format_position f1 7 3) =
  callee_position (base +:+ "@" +:+ format_position f2 7 3) ∧
  callee_position (base +:+ "@" +:+ format_position f1 7 3) ≠ (f1, 7%Z, 3%Z).
Proof.
  exists "x.Write", "/go/pkg/mod/example.com/a@v1.2.3/w.go", "/go/pkg/mod/example.com/b@v1.2.3/w.go".
  split; [done|]. by vm_compute.
Qed.
Print Assumptions C49_module_cache_file_refuted.

Example C49_example : callee_position ("m.Handler.Get@" +:+ format_position "C:/src/h.go" 12 5) = ("C:/src/h.go", 12%Z, 5%Z).
Proof. by vm_compute. Qed.

(** ** C22, C24: what a slot ends up with. Every body written with a known status is represented: its slot holds a body that is concrete if this
    one is, and among equally concrete ones comes no later by name. *)
Definition represents (g f : frag) : Prop :=
  fr_body g ≠ "" ∧ (response_concrete (fr_resp f) = true → response_concrete (fr_resp g) = true)
  ∧ (response_concrete (fr_resp g) = response_concrete (fr_resp f) → string_le (fr_body g) (fr_body f)).
Lemma represents_self f : fr_body f ≠ "" → represents f f.
Proof. intros H. split; [done|]. split; [done|]. intros _. apply string_lt_not_le, string_lt_irrefl. Qed.
Lemma represents_prefer e h f : fr_body h ≠ "" → represents e f → represents (prefer_frag e h) f.
Proof.
  intros Hh (He1 & He2 & He3). unfold prefer_frag.
  destruct (eqb (response_concrete (fr_resp h)) (response_concrete (fr_resp e))) eqn:E.
  - apply Bool.eqb_prop in E. destruct (string_lt (fr_body h) (fr_body e)) eqn:El; [|done].
    split; [done|]. split; [rewrite E; done|]. intros Hc. rewrite E in Hc. specialize (He3 Hc).
    apply string_lt_le. by eapply string_lt_le_trans.
  - apply Bool.eqb_false_iff in E. destruct (response_concrete (fr_resp h)) eqn:Eh; [|done].
    split; [done|]. split; [done|]. intros Hc. rewrite <-Hc in He2. rewrite Eh in He2. exfalso. apply E. by rewrite He2.
Qed.
Lemma prefer_represents e f : fr_body e ≠ "" → fr_body f ≠ "" → represents (prefer_frag e f) f.
Proof.
  intros He Hf. unfold prefer_frag. destruct (eqb (response_concrete (fr_resp f)) (response_concrete (fr_resp e))) eqn:E.
  - apply Bool.eqb_prop in E. destruct (string_lt (fr_body f) (fr_body e)) eqn:El; [by apply represents_self|].
    split; [done|]. split; [by rewrite E|]. intros _. by apply string_lt_not_le.
  - apply Bool.eqb_false_iff in E. destruct (response_concrete (fr_resp f)) eqn:Ef; [by apply represents_self|].
    split; [done|]. split; [by rewrite Ef|]. intros Hc. exfalso. apply E. by rewrite Hc, Ef.
Qed.
Lemma store_represents m h f : (∃ e, m !! fr_status f = Some e ∧ represents e f) → ∃ e, store m h !! fr_status f = Some e ∧ represents e f.
Proof.
  intros (e & He & Hr). destruct (decide (fr_status f = fr_status h)) as [Es|Es]; [|exists e; by rewrite store_other].
  unfold store. rewrite <-Es, He. pose proof Hr as (Hb & _). rewrite (bool_decide_eq_false_2 (fr_body e = "")) by done. cbn [andb negb].
  destruct (decide (fr_body h = "")) as [E|E].
  - rewrite bool_decide_eq_true_2 by done. eauto.
  - rewrite bool_decide_eq_false_2 by done. exists (prefer_frag e h). rewrite lookup_insert. split; [done|]. by apply represents_prefer.
Qed.
Lemma store_self m f : fr_body f ≠ "" → ∃ e, store m f !! fr_status f = Some e ∧ represents e f.
Proof.
  intros Hf. unfold store. destruct (m !! fr_status f) as [e|] eqn:E.
  - rewrite (bool_decide_eq_false_2 (fr_body f = "")) by done. destruct (decide (fr_body e = "")) as [He|He].
    + rewrite bool_decide_eq_true_2 by done. cbn. exists f. rewrite lookup_insert. split; [done|]. by apply represents_self.
    + rewrite bool_decide_eq_false_2 by done. cbn. exists (prefer_frag e f). rewrite lookup_insert. split; [done|]. by apply prefer_represents.
  - exists f. rewrite lookup_insert. split; [done|]. by apply represents_self.
Qed.
Lemma fold_represents l : ∀ m f, fr_body f ≠ "" → f ∈ l ∨ (∃ e, m !! fr_status f = Some e ∧ represents e f) →
  ∃ e, fold_left store l m !! fr_status f = Some e ∧ represents e f.
Proof.
  induction l as [|h l IH]; intros m f Hf H.
  - destruct H as [H|H]; [by apply elem_of_nil in H|done].
  - cbn [fold_left]. apply IH; [done|]. destruct H as [[->|H]%elem_of_cons|H].
    + right. by apply store_self.
    + by left.
    + right. by apply store_represents.
Qed.
Lemma pair_step_keeps st h f : f ∈ ps_stored st → f ∈ ps_stored (pair_step st h).
Proof.
  intros H. unfold pair_step. destruct (status_known _ && _); [cbn; apply elem_of_app; by left|].
  destruct (status_known _); [cbn; apply elem_of_app; by left|]. destruct (fr_unres h); [done|].
  destruct (negb _); [|done]. destruct (ps_pending st !! _); cbn; [apply elem_of_app; by left|done].
Qed.
Lemma pair_loop_stores l f : f ∈ l → status_known (fr_status f) = true → f ∈ ps_stored (pair_loop l).
Proof.
  intros Hin Hk. unfold pair_loop. generalize (PState [] ∅ ∅ []).
  assert (Hkeep : ∀ l st, f ∈ ps_stored st → f ∈ ps_stored (fold_left pair_step l st)).
  { clear. induction l as [|h l IH]; intros st H; [done|]. cbn. apply IH. by apply pair_step_keeps. }
  induction l as [|h l IH]; intros st; [by apply elem_of_nil in Hin|]. cbn [fold_left]. apply elem_of_cons in Hin as [->|Hin]; [|by apply IH].
  apply Hkeep. unfold pair_step. rewrite Hk. destruct (_ && _); cbn; apply elem_of_app; right; left.
Qed.
Theorem C22_known_bodies_are_represented : ∀ depths saved cands f,
  f ∈ collect_frags cands → (100 ≤ fr_status f < 600)%Z → fr_body f ≠ "" →
  ∃ g, pair_and_fill depths saved cands !! fr_status f = Some g ∧ represents g f.
Proof.
  intros depths saved cands f Hin Hk Hb. unfold pair_and_fill. apply fold_represents; [done|]. left. apply elem_of_app. left.
  apply pair_loop_stores.
  - unfold sort_frags. by rewrite StableSort.stable_sort_perm.
  - unfold status_known. rewrite !bool_decide_eq_true_2 by lia. done.
Qed.
Print Assumptions C22_known_bodies_are_represented.
Example C22_represented_example : let cands := [Cand "" "gin.JSON@h.go:9:4" "m.h" [Some (ex_resp "User" 200, 0%Z, false)];
   Cand "" "gin.JSON@h.go:12:4" "m.h" [Some (ex_resp "Admin" 200, 0%Z, false)]; Cand "" "gin.Status@h.go:14:4" "m.h" [Some (ex_resp "" 200, 0%Z, false)]] in
  (λ f, (fr_status f, fr_body f)) <$> collect_frags cands = [(200%Z, "User"); (200%Z, "Admin"); (200%Z, "")] ∧
  fr_body <$> pair_and_fill ∅ ∅ cands !! 200%Z = Some "Admin".
Proof. split; by vm_compute. Qed.
