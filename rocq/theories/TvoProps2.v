(** * C108 Where a variable comes from: the trace, its caches and its end. *)
From Coq Require Import Ascii ZArith Lia.
From stdpp Require Import sorting.
From stdpp Require Import base numbers list strings gmap relations.
From Verif Require Import StrLib PairModel PairProofs MountProofs TvoModel TvoProps.

Section trace.
  Context (md : vmeta) (b : bool) (P : plain_calls md).
  Notation nxt := (next md b).
  (** The trace without caches. *)
  Fixpoint run (depth : nat) (q : vask) (visited : gset string) : vout :=
    match depth with
    | 0 => Deeper
    | S depth =>
        let none := VRes (q_var q) (q_pkg q) None (q_func q) in
        if decide (q_var q = "") then Done none
        else if decide (ask_key q ∈ visited) then Done none
        else match step md b q with
             | Answer r | Found r => Done r
             | Ask q' => run depth q' ({[ask_key q]} ∪ visited)
             | AskFor q' => as_of q' (run depth q' ({[ask_key q]} ∪ visited))
             | Crash => Panic
             end
    end.
  (** A set of questions closed under the steps, told apart by their keys. *)
  Definition closed (U : vask → Prop) : Prop := ∀ q q', U q → nxt q q' → U q'.
  Definition distinct (U : vask → Prop) : Prop := ∀ q q', U q → U q' → ask_key q = ask_key q' → q = q'.
  Section states.
    Context (U : vask → Prop) (CU : closed U) (DU : distinct U).
    Definition good (st : vstate) : Prop :=
      good_meths md (s_meths st) ∧ caching_of (s_meths st) = b ∧ ∀ c q r, s_asked st = Some c → U q → q_var q ≠ "" → c !! ask_key q = Some r → step md b q = Answer r.
    Lemma trace_run depth : ∀ q visited st, U q → good st → (trace depth md q visited st).1 = run depth q visited ∧ good (trace depth md q visited st).2.
    Proof.
      induction depth as [|d IH]; intros q visited st Uq G; [done|]. cbn [trace run]. destruct (decide (q_var q = "")) as [|N]; [done|]. destruct (decide (ask_key q ∈ visited)); [done|].
      destruct G as (G1 & G2 & G3). destruct (c ← s_asked st; c !! ask_key q) as [r|] eqn:E.
      - apply bind_Some in E as (c & E1 & E2). rewrite (G3 c q r E1 Uq N E2). done.
      - destruct (ask_step_good md q (s_meths st) P G1) as (A1 & A2 & A3). rewrite G2 in A1, A3. destruct (ask_step md q (s_meths st)) as [s mc]. cbn in A1, A2, A3. subst s.
        assert (G' : good (VState (s_asked st) mc)) by (split_and!; done).
        assert (C := step_cases md b q N). destruct (step md b q) as [r|r|q'|q'|] eqn:S1.
        + split; [done|]. cbn. split_and!; [done|done|]. cbn. intros c q' r' Ec U' N' Hc. destruct (s_asked st) as [c0|] eqn:E0; [|done]. injection Ec as <-.
          apply lookup_insert_Some in Hc as [[Ek <-]|[_ Hc]]; [|by apply (G3 c0 q' r')]. by rewrite <- (DU q q' Uq U' Ek).
        + done.
        + apply IH; [|done]. apply (CU q); [done|by left].
        + destruct (IH q' ({[ask_key q]} ∪ visited) (VState (s_asked st) mc)) as [I1 I2]; [apply (CU q); [done|by right]|done|]. destruct (trace d md q' _ _) as [o st']. cbn in *. by rewrite I1.
        + done.
    Qed.
    Lemma good_fresh : b = true → good fresh.
    Proof. intros ->. split_and!; [|done|]; [intros a m ? Hl; by rewrite lookup_empty in Hl|intros c q r [= <-] _ _ Hl; by rewrite lookup_empty in Hl]. Qed.
    Lemma good_loaded : b = false → good loaded.
    Proof. intros ->. by split_and!. Qed.
    Lemma origin_acyclic q r : origin md b q r → ¬ tc nxt q q.
    Proof.
      assert (K : ∀ q, tc nxt q q → q_var q ≠ "" ∧ ∃ q', nxt q q' ∧ (step md b q = Ask q' ∨ step md b q = AskFor q') ∧ rtc nxt q' q).
      { intros x T. inversion T as [y z H|y z w H T1]; subst.
        - destruct H as [H|H]; [split; [by apply (leads_ne md x x)|]; exists x; split_and!; [by left|left; by apply leads_step|done]|split; [by apply (returns_ne md b x x)|]; exists x; split_and!; [by right|right; by apply returns_step|done]].
        - destruct H as [H|H]; [split; [by apply (leads_ne md x z)|]; exists z; split_and!; [by left|left; by apply leads_step|by apply tc_rtc]|split; [by apply (returns_ne md b x z)|]; exists z; split_and!; [by right|right; by apply returns_step|by apply tc_rtc]]. }
      induction 1 as [q r H|q q' r H O IH|q q' r H O IH]; intros T; destruct (K q T) as (N & q1 & Hn & Hs & R).
      - destruct (says_step md b q r N H) as [E|E]; rewrite E in Hs; by destruct Hs.
      - rewrite (leads_step md b q q' H) in Hs. destruct Hs as [Hs|Hs]; [|done]. injection Hs as <-. apply IH. eapply tc_rtc_l; [done|]. apply tc_once. by left.
      - rewrite (returns_step md b q q' H) in Hs. destruct Hs as [Hs|Hs]; [done|]. injection Hs as <-. apply IH. eapply tc_rtc_l; [done|]. apply tc_once. by right.
    Qed.
    Lemma closed_rtc q q' : U q → rtc nxt q q' → U q'.
    Proof. intros Uq. induction 1 as [|x y z H R IH]; [done|]. apply IH. by apply (CU x). Qed.
    Lemma run_origin q r : origin md b q r → U q → ∀ visited, (∀ c, rtc nxt q c → ask_key c ∉ visited) → ∃ n, ∀ d, n ≤ d → run d q visited = Done r.
    Proof.
      intros O. assert (Ac := origin_acyclic q r O). revert Ac. induction O as [q r H|q q' r H O IH|q q' r H O IH]; intros Ac Uq visited V.
      - exists 1. intros [|d] Hd; [lia|]. cbn [run]. destruct (decide (q_var q = "")) as [E|N].
        + destruct H; try (by destruct (assigned_ne md _ _ H)); try done. by rewrite E.
        + rewrite decide_False by (by apply V). destruct (says_step md b q r N H) as [-> | ->]; done.
      - assert (Nx : nxt q q') by (by left). destruct (IH (origin_acyclic q' r O)) with (visited := {[ask_key q]} ∪ visited) as [n Hn].
        + by apply (CU q).
        + intros c R. apply not_elem_of_union. split; [|apply V; by eapply rtc_l]. intros E%elem_of_singleton. apply Ac. rewrite (DU c q) in R; [|by apply (closed_rtc q'); [by apply (CU q)|]|done|done]. by eapply tc_rtc_r; [apply tc_once|].
        + exists (S n). intros [|d] Hd; [lia|]. cbn [run]. rewrite decide_False by (by apply (leads_ne md q q')). rewrite decide_False by (by apply V). rewrite (leads_step md b q q' H). apply Hn. lia.
      - assert (Nx : nxt q q') by (by right). destruct (IH (origin_acyclic q' r O)) with (visited := {[ask_key q]} ∪ visited) as [n Hn].
        + by apply (CU q).
        + intros c R. apply not_elem_of_union. split; [|apply V; by eapply rtc_l]. intros E%elem_of_singleton. apply Ac. rewrite (DU c q) in R; [|by apply (closed_rtc q'); [by apply (CU q)|]|done|done]. by eapply tc_rtc_r; [apply tc_once|].
        + exists (S n). intros [|d] Hd; [lia|]. cbn [run]. rewrite decide_False by (by apply (returns_ne md b q q')). rewrite decide_False by (by apply V). rewrite (returns_step md b q q' H). rewrite Hn by lia. done.
    Qed.
    Lemma run_sound d : ∀ q visited r, U q → run d q visited = Done r → origin md b q r ∨ ∃ c, rtc nxt q c ∧ (ask_key c ∈ visited ∨ tc nxt c c).
    Proof.
      induction d as [|d IH]; intros q visited r Uq H; [done|]. cbn [run] in H. destruct (decide (q_var q = "")) as [E|N].
      { injection H as <-. left. apply o_here. rewrite E. by apply s_empty. }
      destruct (decide (ask_key q ∈ visited)) as [V|V]; [right; exists q; split; [done|by left]|]. assert (C := step_cases md b q N).
      assert (K : ∀ q', nxt q q' → (∃ c, rtc nxt q' c ∧ (ask_key c ∈ ({[ask_key q]} ∪ visited : gset string) ∨ tc nxt c c)) → ∃ c, rtc nxt q c ∧ (ask_key c ∈ visited ∨ tc nxt c c)).
      { intros q' Nx (c & R & [Hc|Hc]); [|exists c; split; [by eapply rtc_l|by right]]. apply elem_of_union in Hc as [Hc%elem_of_singleton|Hc]; [|exists c; split; [by eapply rtc_l|by left]].
        assert (c = q) as -> by (apply DU; [by apply (closed_rtc q'); [by apply (CU q)|]|done|done]). exists q. split; [done|]. right. by eapply tc_rtc_r; [apply tc_once|]. }
      destruct (step md b q) as [r'|r'|q'|q'|]; [injection H as <-; left; by apply o_here|injection H as <-; left; by apply o_here| | |done].
      - destruct (IH q' _ r (CU q q' Uq (or_introl C)) H) as [O|O]; [left; by eapply o_on|]. right. by apply (K q'); [left|].
      - destruct (run d q' _) as [r'| |] eqn:R; [|done|done]. injection H as <-. destruct (IH q' _ r' (CU q q' Uq (or_intror C)) R) as [O|O]; [left; by apply o_returned|]. right. by apply (K q'); [right|].
    Qed.
  End states.

  (** The end of the trace: only finitely many questions follow from others. *)
  Definition all_assigned : list (string * string * vasn) :=
    kv ← map_to_list (vt_pkgs md); f ← kv.2; g ← map_to_list (vf_funcs f); v ← map_to_list (fn_asn g.2); a ← v.2; [(kv.1, g.1, a)].
  Definition all_returned : list varg :=
    kv ← map_to_list (vt_pkgs md); f ← kv.2; (g ← map_to_list (vf_funcs f); fn_rets g.2) ++ (m ← concat (vf_types f); vm_rets m).
  Definition targets : list vask :=
    (c ← vt_calls md; t ← map_to_list (vc_params c); [VAsk (arg_name t.2) (vc_caller c).1 (vc_caller c).2]) ++
    ((λ x, VAsk (v_name (va_value x.2)) x.1.2 x.1.1) <$> all_assigned) ++
    (x ← all_assigned; r ← all_returned; match peel r with Some r' => [VAsk (v_name r') (va_func x.2) (va_pkg x.2)] | None => [] end).
  Lemma files_in p f : f ∈ vt_files md p → ∃ fs, (p, fs) ∈ map_to_list (vt_pkgs md) ∧ f ∈ fs.
  Proof. unfold vt_files. destruct (vt_pkgs md !! p) as [fs|] eqn:E; cbn; [|by intros ?%elem_of_nil]. intros H. exists fs. split; [by apply elem_of_map_to_list|done]. Qed.
  Lemma assigned_in q a : assigned md q a → (q_pkg q, q_func q, a) ∈ all_assigned.
  Proof.
    intros (_ & _ & f & (pre & post & E & _) & (_ & fn & l & E1 & E2)). destruct (files_in (q_pkg q) f) as (fs & Hp & Hf); [rewrite E; apply elem_of_app; right; by left|].
    unfold all_assigned. apply elem_of_list_bind. exists (q_pkg q, fs). split; [|done]. apply elem_of_list_bind. exists f. split; [|done]. apply elem_of_list_bind. exists (q_func q, fn). split; [|by apply elem_of_map_to_list].
    apply elem_of_list_bind. exists (q_var q, l ++ [a]). split; [|by apply elem_of_map_to_list]. apply elem_of_list_bind. exists a. cbn. split; [by left|]. apply elem_of_app. right. by left.
  Qed.
  Lemma returned_in a r : returned md b a r → r ∈ all_returned.
  Proof.
    intros (_ & _ & pre & f & post & E & G & _). unfold all_returned.
    assert (In : ∀ g, g ∈ vt_files md (va_pkg a) → r ∈ (g ← map_to_list (vf_funcs g); fn_rets g.2) ++ (m ← concat (vf_types g); vm_rets m) → r ∈ (kv ← map_to_list (vt_pkgs md); f ← kv.2; (g ← map_to_list (vf_funcs f); fn_rets g.2) ++ (m ← concat (vf_types f); vm_rets m))).
    { intros g Hg H. apply files_in in Hg as (fs & Hp & Hf). apply elem_of_list_bind. exists (va_pkg a, fs). split; [|done]. apply elem_of_list_bind. by exists g. }
    assert (Hf : f ∈ vt_files md (va_pkg a)) by (rewrite E; apply elem_of_app; right; by left).
    destruct G as [(fn & E1 & E2)|(_ & g & m & Mf & (pre' & post' & Em & _) & Er)].
    - apply (In f Hf). apply elem_of_app. left. apply elem_of_list_bind. exists (va_func a, fn). split; [by eapply elem_of_list_lookup_2|by apply elem_of_map_to_list].
    - apply (In g).
      + unfold method_file in Mf. destruct b; [|by subst]. destruct (vt_files md (va_pkg a)); [done|]. injection Mf as <-. by left.
      + apply elem_of_app. right. apply elem_of_list_bind. exists m. split; [by eapply elem_of_list_lookup_2|]. rewrite Em. apply elem_of_app. right. by left.
  Qed.
  Lemma next_in q q' : nxt q q' → q' ∈ targets.
  Proof.
    unfold targets. intros [[c t N (pre & post & E & _) _ Pt|a A Al]|[a r r' n A Al R W [_ Hn]]].
    - apply elem_of_app. left. apply elem_of_list_bind. exists c. split; [|rewrite E; apply elem_of_app; right; by left]. apply elem_of_list_bind. exists (q_var q, t). split; [by left|by apply elem_of_map_to_list].
    - apply elem_of_app. right. apply elem_of_app. left. apply elem_of_list_fmap. exists (q_pkg q, q_func q, a). split; [done|by apply assigned_in].
    - apply elem_of_app. right. apply elem_of_app. right. apply elem_of_list_bind. exists (q_pkg q, q_func q, a). split; [|by apply assigned_in]. apply elem_of_list_bind. exists r. split; [|by apply (returned_in a)].
      apply within_peel in W. rewrite W. cbn. apply elem_of_list_singleton. unfold v_name. by rewrite Hn.
  Qed.
  Definition target_keys : gset string := list_to_set (ask_key <$> targets).
  Lemma next_key q q' : nxt q q' → ask_key q' ∈ target_keys.
  Proof. intros H. apply elem_of_list_to_set, elem_of_list_fmap. exists q'. split; [done|by apply (next_in q)]. Qed.
  Lemma run_ends_in n : ∀ d q visited, ask_key q ∈ target_keys → size (target_keys ∖ visited) ≤ n → n < d → run d q visited ≠ Deeper.
  Proof.
    induction n as [|n IH]; intros d q visited Hq Hs Hd; (destruct d as [|d]; [lia|]); cbn [run]; (destruct (decide (q_var q = "")) as [|N]; [done|]); (destruct (decide (ask_key q ∈ visited)) as [|V]; [done|]).
    - assert (E : target_keys ∖ visited ≡ ∅) by (apply size_empty_inv; lia). destruct (not_elem_of_empty (C := gset string) (ask_key q)). rewrite <- E. by apply elem_of_difference.
    - assert (Sz : size (target_keys ∖ ({[ask_key q]} ∪ visited)) ≤ n).
      { assert (L : size (target_keys ∖ ({[ask_key q]} ∪ visited)) < size (target_keys ∖ visited)); [|lia]. apply subset_size. split.
        - intros x [H1 H2]%elem_of_difference. apply not_elem_of_union in H2 as [_ H2]. by apply elem_of_difference.
        - intros H. assert (Hx : ask_key q ∈ target_keys ∖ visited) by (by apply elem_of_difference). apply H in Hx. apply elem_of_difference in Hx as [_ Hx]. apply Hx. apply elem_of_union. left. by apply elem_of_singleton. }
      assert (C := step_cases md b q N). destruct (step md b q) as [r|r|q'|q'|]; [done|done| | |done].
      + apply IH; [by apply (next_key q); left|done|lia].
      + assert (R : run d q' ({[ask_key q]} ∪ visited) ≠ Deeper) by (apply IH; [by apply (next_key q); right|done|lia]). by destruct (run d q' _).
  Qed.
  Lemma run_ends q visited d : size target_keys + 2 ≤ d → run d q visited ≠ Deeper.
  Proof.
    intros Hd. destruct d as [|d]; [lia|]. cbn [run]. destruct (decide (q_var q = "")) as [|N]; [done|]. destruct (decide (ask_key q ∈ visited)) as [|V]; [done|].
    assert (Sz : ∀ X : gset string, size (target_keys ∖ X) ≤ size target_keys) by (intros X; apply subseteq_size; intros x [? _]%elem_of_difference; done).
    assert (C := step_cases md b q N). destruct (step md b q) as [r|r|q'|q'|]; [done|done| | |done].
    - apply (run_ends_in (size target_keys)); [by apply (next_key q); left|apply Sz|lia].
    - assert (R : run d q' ({[ask_key q]} ∪ visited) ≠ Deeper) by (apply (run_ends_in (size target_keys)); [by apply (next_key q); right|apply Sz|lia]). by destruct (run d q' _).
  Qed.
End trace.

(** ** The theorems *)
(** The caches as earlier traces leave them. *)
Inductive history (md : vmeta) (U : vask → Prop) (st0 : vstate) : vstate → Prop :=
| h_start : history md U st0 st0
| h_trace depth q st : U q → history md U st0 st → history md U st0 (trace depth md q ∅ st).2.
Definition start (b : bool) : vstate := if b then fresh else loaded.
Lemma start_good md b U : good md b U (start b).
Proof. destruct b; [by apply good_fresh|by apply good_loaded]. Qed.
Lemma history_good md b U st : plain_calls md → closed md b U → distinct U → history md U (start b) st → good md b U st.
Proof. intros P C D. induction 1 as [|depth q st Uq H IH]; [apply start_good|]. by apply trace_run. Qed.
(** A variable's origin, as the records have it, is what the trace answers; earlier traces do not change that. *)
Theorem C108_origin md b U q r st :
  plain_calls md → closed md b U → distinct U → U q → history md U (start b) st → origin md b q r → ∃ n, ∀ depth, n ≤ depth → (trace depth md q ∅ st).1 = Done r.
Proof.
  intros P C D Uq H O. destruct (run_origin md b U C D q r O Uq ∅) as [n Hn]; [intros c _; apply not_elem_of_empty|]. exists n. intros d Hd. destruct (trace_run md b P U C D d q ∅ st Uq) as [-> _]; [by apply history_good|]. by apply Hn.
Qed.
Print Assumptions C108_origin.
(** What the trace answers is the origin, unless the records lead in a circle. *)
Theorem C108_sound md b U q r st depth :
  plain_calls md → closed md b U → distinct U → U q → history md U (start b) st → (trace depth md q ∅ st).1 = Done r → origin md b q r ∨ ∃ c, rtc (next md b) q c ∧ tc (next md b) c c.
Proof.
  intros P C D Uq H E. destruct (trace_run md b P U C D depth q ∅ st Uq) as [E' _]; [by apply history_good|]. rewrite E' in E.
  destruct (run_sound md b U C D depth q ∅ r Uq E) as [O|(c & R & [Hc|Hc])]; [by left|by apply not_elem_of_empty in Hc|right; by exists c].
Qed.
Print Assumptions C108_sound.
(** Every trace ends, whatever the records, even in circles; the depth needed depends on the metadata only. *)
Theorem C108_terminates md b U :
  plain_calls md → closed md b U → distinct U → ∃ n, ∀ q st depth, U q → history md U (start b) st → n ≤ depth → (trace depth md q ∅ st).1 ≠ Deeper.
Proof.
  intros P C D. exists (size (target_keys md) + 2). intros q st d Uq H Hd. destruct (trace_run md b P U C D d q ∅ st Uq) as [-> _]; [by apply history_good|]. by apply run_ends.
Qed.
Print Assumptions C108_terminates.
(** Earlier traces never change an answer, in circles neither. *)
Theorem C108_history md b U q st depth :
  plain_calls md → closed md b U → distinct U → U q → history md U (start b) st → (trace depth md q ∅ st).1 = (trace depth md q ∅ (start b)).1.
Proof.
  intros P C D Uq H. destruct (trace_run md b P U C D depth q ∅ st Uq) as [-> _]; [by apply history_good|]. by destruct (trace_run md b P U C D depth q ∅ (start b) Uq) as [-> _]; [apply start_good|].
Qed.
Print Assumptions C108_history.
(** Keys tell questions apart if packages have no colon, and functions neither colon nor dot. *)
Definition plain_ask (q : vask) : Prop := contains_byte ":" (q_pkg q) = false ∧ contains_byte ":" (q_func q) = false ∧ contains_byte "." (q_func q) = false.
Theorem C108_keys : distinct plain_ask.
Proof.
  intros [v f p] [v' f' p'] (H1 & H2 & H3) (H1' & H2' & H3') E. unfold ask_key in E. cbn [q_var q_func q_pkg] in *.
  change (":" +:+ v) with (String ":" v) in E. change (":" +:+ v') with (String ":" v') in E. change ("." +:+ (f +:+ String ":" v)) with (String "." (f +:+ String ":" v)) in E. change ("." +:+ (f' +:+ String ":" v')) with (String "." (f' +:+ String ":" v')) in E.
  assert (K : ∀ p f v, p +:+ String "." (f +:+ String ":" v) = (p +:+ String "." f) +:+ String ":" v) by (intros; rewrite sapp_assoc; by rewrite sapp_cons). rewrite !K in E.
  apply first_split_inj in E as [E ->]; [|rewrite contains_app, contains_cons, H1, H2; done|rewrite contains_app, contains_cons, H1', H2'; done].
  assert (S1 := split_last_app "." p f H3). rewrite E, split_last_app in S1 by done. by injection S1 as -> ->.
Qed.
Print Assumptions C108_keys.
Theorem C108_closed md b : (∀ q q', next md b q q' → plain_ask q') → closed md b plain_ask.
Proof. intros H q q' _ N. by apply (H q). Qed.
Print Assumptions C108_closed.

(** ** A case: an argument, made by a function of another package that returns a variable of its own. *)
Definition thing : varg := VArg VOther (Some "Thing") "lib.Thing" None None.
Definition shop_md : vmeta :=
  VMeta [VCall ("serve", "app") "" ("main", "app") ∅ {["h" := "handler"]}]
    {["app" := [VFile ∅ {["main" := VFn {["handler" := [VAsn (VArg VOther None "" None None) "make" "lib" 0]]} []; "serve" := VFn ∅ []]} []];
      "lib" := [VFile ∅ {["make" := VFn {["x" := [VAsn thing "" "" 0]]} [VArg VUnary None "" None (Some (VArg VIdent (Some "x") "" None None))]]} []]]}.
Example shop_trace : (trace 5 shop_md (VAsk "h" "serve" "app") ∅ fresh).1 = Done (VRes "x" "lib" (Some thing) "make").
Proof. by vm_compute. Qed.
Lemma shop_plain : plain_calls shop_md.
Proof.
  intros p f g fn v l a. unfold vt_files, shop_md. cbn [vt_pkgs]. destruct (decide (p = "app")) as [->|N1]; [|destruct (decide (p = "lib")) as [->|N2]].
  - rewrite lookup_insert. cbn. intros ->%elem_of_list_singleton. cbn. intros [[<- <-]|[_ [<- <-]%lookup_singleton_Some]]%lookup_insert_Some; cbn.
    + intros [<- <-]%lookup_singleton_Some ->%elem_of_list_singleton. done.
    + by rewrite lookup_empty.
  - rewrite lookup_insert_ne by done. rewrite lookup_singleton. cbn. intros ->%elem_of_list_singleton. cbn. intros [<- <-]%lookup_singleton_Some. cbn. intros [<- <-]%lookup_singleton_Some ->%elem_of_list_singleton. done.
  - rewrite lookup_insert_ne, lookup_singleton_ne by done. by intros ?%elem_of_nil.
Qed.
Lemma shop_closed b : closed shop_md b plain_ask.
Proof.
  apply C108_closed. intros q q' H%next_in. revert H. assert (F : Forall (λ q, (contains_byte ":" (q_pkg q) || contains_byte ":" (q_func q) || contains_byte "." (q_func q)) = false) (targets shop_md)) by (vm_compute; repeat constructor).
  intros H. rewrite Forall_forall in F. specialize (F q' H). apply orb_false_iff in F as [[F1 F2]%orb_false_iff F3]. done.
Qed.
(** So the theorems apply to it, after any history. *)
Example shop_history st : history shop_md plain_ask (start true) st → ∃ n, ∀ depth, n ≤ depth → (trace depth shop_md (VAsk "h" "serve" "app") ∅ st).1 = Done (VRes "x" "lib" (Some thing) "make").
Proof.
  intros H. assert (Uq : plain_ask (VAsk "h" "serve" "app")) by done.
  destruct (C108_sound shop_md true plain_ask (VAsk "h" "serve" "app") _ fresh 5 shop_plain (shop_closed true) C108_keys Uq (h_start _ _ _) shop_trace) as [O|(c & R & T)].
  - by apply (C108_origin shop_md true plain_ask _ _ st shop_plain (shop_closed true) C108_keys Uq H O).
  - exfalso. assert (S1 : step shop_md true (VAsk "h" "serve" "app") = Ask (VAsk "handler" "main" "app")) by (by vm_compute).
    assert (S2 : step shop_md true (VAsk "handler" "main" "app") = AskFor (VAsk "x" "make" "lib")) by (by vm_compute).
    assert (S3 : step shop_md true (VAsk "x" "make" "lib") = Answer (VRes "x" "lib" (Some thing) "make")) by (by vm_compute).
    assert (Nx : ∀ q q', next shop_md true q q' → step shop_md true q = Ask q' ∨ step shop_md true q = AskFor q') by (intros q q' [?%(leads_step _ true)|?%returns_step]; auto).
    assert (T1 : ∀ q q', tc (next shop_md true) q q' → ∃ x, next shop_md true q x ∧ rtc (next shop_md true) x q') by (intros q q' T'; inversion T' as [? ? Hx|? z ? Hx Hy]; subst; [by exists q'|exists z; split; [done|by apply tc_rtc]]).
    assert (E3 : ∀ y, rtc (next shop_md true) (VAsk "x" "make" "lib") y → y = VAsk "x" "make" "lib") by (intros y Hy; inversion Hy as [|? z ? Hz]; subst; [done|]; apply Nx in Hz as [Hz|Hz]; by rewrite S3 in Hz).
    assert (E2 : ∀ y, rtc (next shop_md true) (VAsk "handler" "main" "app") y → y = VAsk "handler" "main" "app" ∨ y = VAsk "x" "make" "lib").
    { intros y Hy; inversion Hy as [|? z ? Hz Hr]; subst; [by left|]; apply Nx in Hz as [Hz|Hz]; rewrite S2 in Hz; [done|]. injection Hz as <-. right. by apply E3. }
    assert (E1 : c = VAsk "h" "serve" "app" ∨ c = VAsk "handler" "main" "app" ∨ c = VAsk "x" "make" "lib").
    { inversion R as [|? z ? Hz Hr]; subst; [by left|]; apply Nx in Hz as [Hz|Hz]; rewrite S1 in Hz; [|done]. injection Hz as <-. right. by apply E2. }
    apply T1 in T as (x & Hx & Hr). apply Nx in Hx. destruct E1 as [-> |[-> | ->]].
    + rewrite S1 in Hx. destruct Hx as [[= <-]|Hx]; [|done]. by apply E2 in Hr as [?|?].
    + rewrite S2 in Hx. destruct Hx as [Hx|[= <-]]; [done|]. by apply E3 in Hr.
    + rewrite S3 in Hx. by destruct Hx.
Qed.

(** ** What one would expect, and is not so *)
(** A local assignment does not hide a package variable of the name: the package variable's type is answered. *)
Theorem C108_shadow_refuted :
  ∃ md q f fn a t, plain_calls md ∧ vt_calls md = [] ∧ vt_pkgs md = {[q_pkg q := [f]]} ∧ vf_funcs f !! q_func q = Some fn ∧ fn_asn fn !! q_var q = Some [a] ∧
    (trace 2 md q ∅ fresh).1 = Done (VRes (q_var q) (q_pkg q) (Some (v_typed t)) (q_func q)) ∧ va_value a ≠ v_typed t.
Proof.
  exists (VMeta [] {["app" := [VFile {["db" := "*sql.DB"]} {["main" := VFn {["db" := [VAsn (VArg VOther None "*mock.DB" None None) "" "" 0]]} []]} []]]}), (VAsk "db" "main" "app").
  eexists _, _, _, _. split_and!; [|done|done|done|done|by vm_compute|done].
  intros p f g fn v l a. unfold vt_files. cbn [vt_pkgs]. destruct (decide (p = "app")) as [->|N]; [|rewrite lookup_singleton_ne by done; by intros ?%elem_of_nil].
  rewrite lookup_singleton. cbn. intros ->%elem_of_list_singleton. cbn. intros [<- <-]%lookup_singleton_Some. cbn. intros [<- <-]%lookup_singleton_Some ->%elem_of_list_singleton. done.
Qed.
Print Assumptions C108_shadow_refuted.
(** Metadata that was saved and loaded does not give the answers of the metadata that was generated: a method declared in a file other than the package's first is found in the loaded metadata only, the cache of methods being filled from the first file. *)
Theorem C108_method_file_refuted : ∃ md q r r', (trace 3 md q ∅ fresh).1 = Done r ∧ (trace 3 md q ∅ loaded).1 = Done r' ∧ r_type r = Some (VArg VOther None "func()" None None) ∧ r_type r' = Some thing.
Proof.
  exists (VMeta [] {["app" := [VFile ∅ {["main" := VFn {["h" := [VAsn (VArg VOther None "func()" None None) "Build" "lib" 0]]} []]} []];
                     "lib" := [VFile ∅ ∅ []; VFile ∅ ∅ [[VMeth "Build" [thing]]]]]}), (VAsk "h" "main" "app"). eexists _, _. split_and!; by vm_compute.
Qed.
Print Assumptions C108_method_file_refuted.
(** The receiver of a method is not looked at: the parameter of B's method gets the argument of a call of A's method of the same name. *)
Theorem C108_receiver_refuted :
  ∃ a b files q, vc_callee a = vc_callee b ∧ vc_recv a = "A" ∧ vc_recv b = "B" ∧ (trace 3 (VMeta [a; b] files) q ∅ fresh).1 ≠ (trace 3 (VMeta [b] files) q ∅ fresh).1 ∧
    (trace 3 (VMeta [a; b] files) q ∅ fresh).1 = (trace 3 (VMeta [a] files) q ∅ fresh).1.
Proof.
  exists (VCall ("Handle", "app") "A" ("main", "app") ∅ {["x" := "one"]}), (VCall ("Handle", "app") "B" ("main", "app") ∅ {["x" := "two"]}), ∅, (VAsk "x" "Handle" "app").
  split_and!; [done|done|done|intros E; vm_compute in E; discriminate|by vm_compute].
Qed.
Print Assumptions C108_receiver_refuted.
(** Of several calls only the first recorded counts, so the order of the calls decides. *)
Theorem C108_call_order_refuted : ∃ a b files q, (trace 3 (VMeta [a; b] files) q ∅ fresh).1 ≠ (trace 3 (VMeta [b; a] files) q ∅ fresh).1.
Proof.
  exists (VCall ("serve", "app") "" ("main", "app") ∅ {["h" := "one"]}), (VCall ("serve", "app") "" ("test", "app") ∅ {["h" := "two"]}), ∅, (VAsk "h" "serve" "app"). intros E; vm_compute in E; discriminate.
Qed.
Print Assumptions C108_call_order_refuted.
(** An argument passed by its address is not traced to the variable, though the variable's origin is known. *)
Theorem C108_address_refuted :
  ∃ md r, (trace 3 md (VAsk "x" "main" "app") ∅ fresh).1 = Done r ∧ r_type r = Some thing ∧ vc_params <$> vt_calls md = [{["h" := "&x"]}] ∧ (trace 3 md (VAsk "h" "serve" "app") ∅ fresh).1 = Done (VRes "&x" "app" None "main").
Proof.
  exists (VMeta [VCall ("serve", "app") "" ("main", "app") ∅ {["h" := "&x"]}] {["app" := [VFile ∅ {["main" := VFn {["x" := [VAsn thing "" "" 0]]} []]} []]]}). eexists. split_and!; [by vm_compute|done|done|by vm_compute].
Qed.
Print Assumptions C108_address_refuted.
(** Variables assigned to each other: the trace ends, with no type, although one of them was given a value before. *)
Theorem C108_circle_refuted :
  ∃ md a b v, (∃ fn, vt_files md "app" = [VFile ∅ {["main" := fn]} []] ∧ fn_asn fn = {["a" := [v; b]; "b" := [a]]}) ∧ va_value v = thing ∧ (trace 9 md (VAsk "a" "main" "app") ∅ fresh).1 = Done (VRes "a" "app" None "main").
Proof.
  exists (VMeta [] {["app" := [VFile ∅ {["main" := VFn {["a" := [VAsn thing "" "" 0; VAsn (VArg VIdent (Some "b") "" None None) "" "" 0]; "b" := [VAsn (VArg VIdent (Some "a") "" None None) "" "" 0]]} []]} []]]}).
  eexists _, _, _. split_and!; [eexists; split; [done|cbn; done]|done|by vm_compute].
Qed.
Print Assumptions C108_circle_refuted.
