(** * Proofs about value wrappers. *)
From Coq Require Import Ascii.
From stdpp Require Import sorting.
From stdpp Require Import base list strings gmap relations.
From Coq Require Import ZArith.
From Verif Require Import StrLib StrOrder SccSpec StatModel WrapModel WrapSpec WrapProofs WrapProofs2 WrapProps ValModel ValSpec.

(** A fold whose steps only grow the state keeps what a step achieves. *)
Lemma foldl_grow {A B} (G : A → A → Prop) `{!PreOrder G} (f : A → B → A) l : (∀ a x, G a (f a x)) → ∀ a, G a (foldl f a l).
Proof. intros H. induction l as [|x l IH]; intros a; cbn [foldl]; [done|]. etrans; [apply H|apply IH]. Qed.
Lemma foldl_reaches {A B} (G : A → A → Prop) `{!PreOrder G} (f : A → B → A) l x a : (∀ a x, G a (f a x)) → x ∈ l → ∃ a0, G a a0 ∧ G (f a0 x) (foldl f a l).
Proof.
  intros H Hx. revert a. induction l as [|y l IH]; intros a; [by apply elem_of_nil in Hx|]. cbn [foldl].
  apply elem_of_cons in Hx as [->|Hx].
  - exists a. split; [done|]. by apply foldl_grow.
  - destruct (IH Hx (f a y)) as (a0 & H1 & H2). exists a0. split; [|done]. etrans; [apply H|done].
Qed.
Lemma foldl_inv {A B} (I : A → Prop) (f : A → B → A) l : (∀ a x, x ∈ l → I a → I (f a x)) → ∀ a, I a → I (foldl f a l).
Proof.
  induction l as [|x l IH]; intros H a Ha; cbn [foldl]; [done|]. apply IH; [|apply H; [left|done]]. intros b y Hy. apply H. by right.
Qed.

Global Instance within_preorder : PreOrder within.
Proof.
  split.
  - intros r. by repeat split.
  - intros a b c (A1 & A2 & A3 & A4 & A5) (B1 & B2 & B3 & B4 & B5). split; [congruence|]. split; [congruence|]. split; [|split].
    + intros H. destruct (A3 H) as [H1 E1]. destruct (B3 H1) as [? ?]. split; [done|congruence].
    + intros H. destruct (A4 H) as (H1 & E1 & E2). destruct (B4 H1) as (? & ? & ?). split; [done|]. split; congruence.
    + intros H. pose proof (A5 H) as E. rewrite B5; [done|]. by rewrite E.
Qed.

Section values.
Context (method_of : wmethod → option (list string * (string → list sarg))) (function_of : wmethod → option (string → list sarg)).
Context (m_resp : rspat → wedge → bool) (m_req : rqpat → wedge → bool) (m_par : prpat → wedge → bool) (modpath : string) (embed : wmethod → string).
Notation index w e i := (index_of method_of function_of w (arg_at e i)).
Notation passes := (passes method_of function_of).
Notation merge_roles := (merge_roles method_of function_of).
Notation merge_response := (merge_response method_of function_of embed).
Notation derive_request := (derive_request method_of function_of embed).
Notation derive_param := (derive_param method_of function_of embed).
Notation value_edge := (value_edge method_of function_of m_resp m_req m_par modpath embed).
Notation value_round := (value_round method_of function_of m_resp m_req m_par modpath embed).
Notation value_rounds := (value_rounds method_of function_of m_resp m_req m_par modpath embed).

Lemma index_some w e j i : index w e j = Some i → passes w e j i.
Proof. intros H. pose proof (index_arg method_of function_of w e j) as H'. by rewrite H in H'. Qed.
Lemma passes_index w e j i : passes w e j i → ∃ i', index w e j = Some i'.
Proof. intros H. pose proof (index_arg method_of function_of w e j) as H'. destruct (index w e j) as [i'|]; [by exists i'|]. by apply H' in H. Qed.

(** ** Growth *)
Definition entry_grows (d d' : vwrap) : Prop :=
  vw_recv d = vw_recv d' ∧ vw_name d = vw_name d' ∧ vw_via d = vw_via d' ∧
  (∀ r, vw_resp d = Some r → ∃ r', vw_resp d' = Some r' ∧ within r r') ∧
  (is_Some (vw_req d) → is_Some (vw_req d')) ∧ (is_Some (vw_par d) → is_Some (vw_par d')).
Definition grows (m m' : gmap string vwrap) : Prop := ∀ k d, m !! k = Some d → ∃ d', m' !! k = Some d' ∧ entry_grows d d'.
Global Instance entry_grows_preorder : PreOrder entry_grows.
Proof.
  split.
  - intros d. split; [done|]. split; [done|]. split; [done|]. split; [intros r Hr; exists r; done|done].
  - intros a b c (A1 & A2 & A3 & A4 & A5 & A6) (B1 & B2 & B3 & B4 & B5 & B6). split; [congruence|]. split; [congruence|]. split; [congruence|].
    split; [|split; [by intros H; apply B5, A5|by intros H; apply B6, A6]]. intros r Hr. destruct (A4 r Hr) as (r1 & H1 & W1). destruct (B4 r1 H1) as (r2 & H2 & W2). exists r2. split; [done|]. by etrans.
Qed.
Global Instance grows_preorder : PreOrder grows.
Proof.
  split.
  - intros m k d H. by exists d.
  - intros a b c HA HB k d H. destruct (HA k d H) as (d1 & H1 & G1). destruct (HB k d1 H1) as (d2 & H2 & G2). exists d2. split; [done|]. by etrans.
Qed.
Lemma grows_insert m k d' : (∀ d, m !! k = Some d → entry_grows d d') → grows m (<[ k := d' ]> m).
Proof.
  intros H k0 d Hk. destruct (decide (k = k0)) as [<-|Hne].
  - rewrite lookup_insert. exists d'. split; [done|]. by apply H.
  - rewrite lookup_insert_ne by done. by exists d.
Qed.
Lemma shell_known m w e d : m !! method_key w = Some d → shell m w e = d.
Proof. intros H. unfold shell. by rewrite H. Qed.

(** One merge: what is there stays, and what the call gives is there. *)
Lemma merge_roles_within r w q e : within r (merge_roles r w q e).
Proof.
  unfold ValModel.merge_roles.
  set (r1 := if rs_status q && negb (rs_status r) then _ else r).
  assert (within r r1) as H1.
  { subst r1. destruct (rs_status q); cbn [andb]; [|done]. destruct (rs_status r) eqn:E; cbn [negb]; [done|].
    destruct (index w e (rs_status_idx q)) as [i|]; [|done]. repeat split; cbn; try done. all: intros; congruence. }
  set (r2 := if rs_type q && negb (rs_type r1) then _ else r1).
  assert (within r1 r2) as H2.
  { subst r2. destruct (rs_type q); cbn [andb]; [|done]. destruct (rs_type r1) eqn:E; cbn [negb]; [done|].
    destruct (index w e (rs_type_idx q)) as [i|]; [|done]. repeat split; cbn; try done. all: intros; congruence. }
  assert (within r2 (if negb (bool_decide (rs_default q = 0%Z)) && bool_decide (rs_default r2 = 0%Z)
    then RsPat (rs_call r2) (rs_recv r2) (rs_status r2) (rs_status_idx r2) (rs_type r2) (rs_type_idx r2) (rs_deref r2) (rs_default q) else r2)) as H3.
  { destruct (decide (rs_default r2 = 0%Z)) as [E|E].
    - rewrite (bool_decide_eq_true_2 (rs_default r2 = 0%Z)) by done. destruct (negb (bool_decide (rs_default q = 0%Z))); cbn [andb]; [|done]. by repeat split.
    - rewrite (bool_decide_eq_false_2 (rs_default r2 = 0%Z)) by done. by rewrite andb_false_r. }
  etrans; [exact H1|]. etrans; [exact H2|exact H3].
Qed.
Lemma merge_roles_gives r w q e : let r' := merge_roles r w q e in
  (∀ i, rs_status q = true → passes w e (rs_status_idx q) i → rs_status r' = true) ∧
  (∀ i, rs_type q = true → passes w e (rs_type_idx q) i → rs_type r' = true) ∧
  (rs_default q ≠ 0%Z → rs_default r' ≠ 0%Z).
Proof.
  cbv zeta. unfold ValModel.merge_roles.
  set (r1 := if rs_status q && negb (rs_status r) then _ else r).
  set (r2 := if rs_type q && negb (rs_type r1) then _ else r1).
  assert (rs_status r2 = rs_status r1) as E2.
  { subst r2. destruct (rs_type q && negb (rs_type r1)); [|done]. by destruct (index w e (rs_type_idx q)). }
  assert (∀ b, rs_status (if b : bool then RsPat (rs_call r2) (rs_recv r2) (rs_status r2) (rs_status_idx r2) (rs_type r2) (rs_type_idx r2) (rs_deref r2) (rs_default q) else r2) = rs_status r2 ∧
     rs_type (if b then RsPat (rs_call r2) (rs_recv r2) (rs_status r2) (rs_status_idx r2) (rs_type r2) (rs_type_idx r2) (rs_deref r2) (rs_default q) else r2) = rs_type r2) as Hb by (by intros []).
  split; [|split].
  - intros i Hs Hp. rewrite (proj1 (Hb _)), E2. subst r1. rewrite Hs. cbn [andb]. destruct (rs_status r) eqn:E; cbn [negb]; [done|].
    destruct (passes_index _ _ _ _ Hp) as [i' ->]. done.
  - intros i Ht Hp. rewrite (proj2 (Hb _)). subst r2. rewrite Ht. cbn [andb]. destruct (rs_type r1) eqn:E; cbn [negb]; [done|].
    destruct (passes_index _ _ _ _ Hp) as [i' ->]. done.
  - intros Hd. rewrite (bool_decide_eq_false_2 (rs_default q = 0%Z)) by done. cbn [negb andb]. destruct (decide (rs_default r2 = 0%Z)) as [E|E].
    + by rewrite (bool_decide_eq_true_2 (rs_default r2 = 0%Z)).
    + by rewrite (bool_decide_eq_false_2 (rs_default r2 = 0%Z)).
Qed.

Lemma merge_response_grows m w q e : grows m (merge_response m w q e).
Proof.
  unfold ValModel.merge_response. apply grows_insert. intros d Hd. rewrite (shell_known _ _ _ _ Hd).
  split; [done|]. split; [done|]. split; [done|]. cbn [vw_resp vw_req vw_par]. split; [|done]. intros r ->. eexists. split; [done|]. apply merge_roles_within.
Qed.
Lemma derive_request_grows m w q e : grows m (derive_request m w q e).
Proof.
  unfold ValModel.derive_request. destruct (rq_type q); [|done]. destruct (index w e (rq_type_idx q)) as [i|]; [|done].
  apply grows_insert. intros d Hd. rewrite (shell_known _ _ _ _ Hd). split; [done|]. split; [done|]. split; [done|]. cbn [vw_resp vw_req vw_par].
  split; [intros r Hr; by exists r|]. split; [by eexists|done].
Qed.
Lemma derive_param_grows m w q e : grows m (derive_param m w q e).
Proof.
  unfold ValModel.derive_param. destruct (_ || _); [done|]. destruct (index w e (pr_idx q)) as [i|]; [|done].
  apply grows_insert. intros d Hd. rewrite (shell_known _ _ _ _ Hd). split; [done|]. split; [done|]. split; [done|]. cbn [vw_resp vw_req vw_par].
  split; [intros r Hr; by exists r|]. split; [done|by eexists].
Qed.
Lemma if_grows (b : bool) (m m' : gmap string vwrap) : grows m m' → grows m (if b then m' else m).
Proof. by destruct b. Qed.
Lemma value_edge_grows c m e : grows m (value_edge c m e).
Proof.
  unfold ValModel.value_edge. destruct (wrapper_method_of modpath e) as [w|]; [|done].
  etrans; [|apply (foldl_grow grows); intros a q; apply if_grows, derive_param_grows].
  etrans; [|apply (foldl_grow grows); intros a q; apply if_grows, derive_request_grows].
  apply (foldl_grow grows); intros a q; apply if_grows, merge_response_grows.
Qed.
Lemma value_round_grows c es m : grows m (value_round c es m).
Proof. apply (foldl_grow grows). intros a e. apply value_edge_grows. Qed.
Lemma value_rounds_grows n iters : ∀ c es m, grows m (value_rounds n iters c es m).
Proof.
  induction n as [|n IH]; intros c es m; cbn [ValModel.value_rounds]; [done|].
  destruct (bool_decide _); [apply value_round_grows|]. etrans; [apply value_round_grows|apply IH].
Qed.
Lemma first_round_grows n iters c es m : grows (value_round c es m) (value_rounds (S n) iters c es m).
Proof. cbn [ValModel.value_rounds]. destruct (bool_decide _); [done|]. apply value_rounds_grows. Qed.

(** What an edge does in a round is there after it. *)
Lemma round_resp c es m e w q : e ∈ es → written_in modpath e w → q ∈ vc_resps c → m_resp q e = true →
  ∃ m0, grows (merge_response m0 w q e) (value_round c es m).
Proof.
  intros He Hw Hq Hm. destruct (foldl_reaches grows (value_edge c) es e m (value_edge_grows c) He) as (m0 & _ & H).
  unfold ValModel.value_edge in H at 1. apply (written_spec method_of function_of) in Hw. rewrite Hw in H.
  destruct (foldl_reaches grows (λ m q, if m_resp q e then merge_response m w q e else m) (vc_resps c) q m0) as (m1 & _ & H1); [|done|].
  { intros a x. apply if_grows, merge_response_grows. }
  cbv beta in H1. rewrite Hm in H1. exists m1. etrans; [exact H1|]. etrans; [|exact H].
  etrans; [|apply (foldl_grow grows); intros a x; apply if_grows, derive_param_grows].
  apply (foldl_grow grows); intros a x; apply if_grows, derive_request_grows.
Qed.
Lemma round_req c es m e w q : e ∈ es → written_in modpath e w → q ∈ vc_reqs c → m_req q e = true →
  ∃ m0, grows (derive_request m0 w q e) (value_round c es m).
Proof.
  intros He Hw Hq Hm. destruct (foldl_reaches grows (value_edge c) es e m (value_edge_grows c) He) as (m0 & _ & H).
  unfold ValModel.value_edge in H at 1. apply (written_spec method_of function_of) in Hw. rewrite Hw in H.
  set (m2 := foldl (λ m q, if m_resp q e then merge_response m w q e else m) m0 (vc_resps c)) in H.
  destruct (foldl_reaches grows (λ m q, if m_req q e then derive_request m w q e else m) (vc_reqs c) q m2) as (m1 & _ & H1); [|done|].
  { intros a x. apply if_grows, derive_request_grows. }
  cbv beta in H1. rewrite Hm in H1. exists m1. etrans; [exact H1|]. etrans; [|exact H]. apply (foldl_grow grows).
  intros a x. apply if_grows, derive_param_grows.
Qed.
Lemma round_par c es m e w q : e ∈ es → written_in modpath e w → q ∈ vc_pars c → m_par q e = true →
  ∃ m0, grows (derive_param m0 w q e) (value_round c es m).
Proof.
  intros He Hw Hq Hm. destruct (foldl_reaches grows (value_edge c) es e m (value_edge_grows c) He) as (m0 & _ & H).
  unfold ValModel.value_edge in H at 1. apply (written_spec method_of function_of) in Hw. rewrite Hw in H.
  set (m2 := foldl (λ m q, if m_req q e then derive_request m w q e else m) _ (vc_reqs c)) in H.
  destruct (foldl_reaches grows (λ m q, if m_par q e then derive_param m w q e else m) (vc_pars c) q m2) as (m1 & _ & H1); [|done|].
  { intros a x. apply if_grows, derive_param_grows. }
  cbv beta in H1. rewrite Hm in H1. exists m1. by etrans.
Qed.

(** ** Soundness *)
Context (es : list wedge) (Hdot : ∀ e, e ∈ es → dotless (we_recv e) ∧ dotless (we_name e)).
Definition method (w : wmethod) : Prop := ∃ e, e ∈ es ∧ written_in modpath e w.
Lemma method_key_inj w w' : method w → method w' → method_key w = method_key w' → w = w'.
Proof.
  intros (e & He & _ & _ & _ & _ & ->) (e' & He' & _ & _ & _ & _ & ->). destruct (Hdot e He) as [D1 D2]. destruct (Hdot e' He') as [D1' D2'].
  unfold method_key, fq_recv. cbn [wm_pkg wm_recv wm_name]. intros E.
  apply last_dot_inj in E as [E1 E2]; [|done|done]. apply last_dot_inj in E1 as [E0 E1]; [|done|done]. congruence.
Qed.

Context (RK : rspat → Prop) (QK : rqpat → Prop) (PK : prpat → Prop).
Definition rcall (w : wmethod) (e : wedge) (q : rspat) : Prop := e ∈ es ∧ written_in modpath e w ∧ m_resp q e = true ∧ RK q.
Definition qcall (w : wmethod) (e : wedge) (q : rqpat) : Prop := e ∈ es ∧ written_in modpath e w ∧ m_req q e = true ∧ QK q.
Definition pcall (w : wmethod) (e : wedge) (q : prpat) : Prop := e ∈ es ∧ written_in modpath e w ∧ m_par q e = true ∧ PK q.
Definition entry_ok (w : wmethod) (d : vwrap) : Prop :=
  vw_recv d = fq_recv w ∧ vw_name d = wm_name w ∧
  (∀ r, vw_resp d = Some r → resp_reading method_of function_of embed w (rcall w) r) ∧
  (∀ r, vw_req d = Some r → req_reading method_of function_of embed w (qcall w) r) ∧
  (∀ r, vw_par d = Some r → par_reading method_of function_of embed w (pcall w) r) ∧
  (vw_complete d = true → (∃ r, vw_resp d = Some r ∧ rs_type r = true) ∨ is_Some (vw_req d) ∨ is_Some (vw_par d)).
Definition inv (m : gmap string vwrap) : Prop := ∀ k d, m !! k = Some d → ∃ w, k = method_key w ∧ method w ∧ entry_ok w d.

Lemma shell_ok m w e : inv m → method w → entry_ok w (shell m w e).
Proof.
  intros Hi Hw. unfold shell. destruct (m !! method_key w) as [d|] eqn:E.
  - apply Hi in E as (w' & Hk & Hw' & Hok). by rewrite (method_key_inj _ _ Hw Hw' Hk).
  - split; [done|]. split; [done|]. split; [done|]. done.
Qed.
Lemma inv_insert m w d : inv m → method w → entry_ok w d → inv (<[ method_key w := d ]> m).
Proof.
  intros Hi Hw Hok k d' Hk. destruct (decide (method_key w = k)) as [<-|Hne].
  - rewrite lookup_insert in Hk. injection Hk as <-. by exists w.
  - rewrite lookup_insert_ne in Hk by done. by apply Hi.
Qed.
Lemma merge_roles_ok r w q e : rcall w e q →
  rs_call r = call_regex w → rs_recv r = embed w →
  (rs_status r = true → ∃ e q i, rcall w e q ∧ rs_status q = true ∧ passes w e (rs_status_idx q) i ∧ rs_status_idx r = Z.of_nat i) →
  (rs_type r = true → ∃ e q i, rcall w e q ∧ rs_type q = true ∧ passes w e (rs_type_idx q) i ∧ rs_type_idx r = Z.of_nat i ∧ rs_deref r = rs_deref q) →
  (rs_default r ≠ 0%Z → ∃ e q, rcall w e q ∧ rs_default q = rs_default r) →
  resp_reading method_of function_of embed w (rcall w) (merge_roles r w q e).
Proof.
  intros Hc H1 H2 H3 H4 H5. unfold ValModel.merge_roles.
  set (r1 := if rs_status q && negb (rs_status r) then _ else r).
  assert (rs_call r1 = rs_call r ∧ rs_recv r1 = rs_recv r ∧ rs_type r1 = rs_type r ∧ rs_type_idx r1 = rs_type_idx r ∧ rs_deref r1 = rs_deref r ∧ rs_default r1 = rs_default r ∧
    (rs_status r1 = true → ∃ e q i, rcall w e q ∧ rs_status q = true ∧ passes w e (rs_status_idx q) i ∧ rs_status_idx r1 = Z.of_nat i)) as (A1 & A2 & A3 & A4 & A5 & A6 & A7).
  { subst r1. destruct (rs_status q) eqn:Eq; cbn [andb]; [|done]. destruct (rs_status r) eqn:E; cbn [negb]; [repeat (split; [done|]); intros _; by apply H3|].
    destruct (index w e (rs_status_idx q)) as [i|] eqn:Ei; [|repeat (split; [done|]); intros; congruence]. cbn [rs_call rs_recv rs_type rs_type_idx rs_deref rs_default rs_status rs_status_idx].
    repeat (split; [done|]). intros _. exists e, q, i. split; [done|]. split; [done|]. split; [by apply index_some|done]. }
  set (r2 := if rs_type q && negb (rs_type r1) then _ else r1).
  assert (rs_call r2 = rs_call r1 ∧ rs_recv r2 = rs_recv r1 ∧ rs_status r2 = rs_status r1 ∧ rs_status_idx r2 = rs_status_idx r1 ∧ rs_default r2 = rs_default r1 ∧
    (rs_type r2 = true → ∃ e q i, rcall w e q ∧ rs_type q = true ∧ passes w e (rs_type_idx q) i ∧ rs_type_idx r2 = Z.of_nat i ∧ rs_deref r2 = rs_deref q)) as (B1 & B2 & B3 & B4 & B5 & B6).
  { assert (rs_type r1 = true → ∃ e q i, rcall w e q ∧ rs_type q = true ∧ passes w e (rs_type_idx q) i ∧ rs_type_idx r1 = Z.of_nat i ∧ rs_deref r1 = rs_deref q) as H4'.
    { rewrite A3, A4, A5. exact H4. }
    subst r2. destruct (rs_type q) eqn:Eq; cbn [andb]; [|done]. destruct (rs_type r1) eqn:E; cbn [negb]; [repeat (split; [done|]); intros _; by apply H4'|].
    destruct (index w e (rs_type_idx q)) as [i|] eqn:Ei; [|repeat (split; [done|]); intros; congruence].
    cbn [rs_call rs_recv rs_type rs_type_idx rs_deref rs_default rs_status rs_status_idx].
    repeat (split; [done|]). intros _. exists e, q, i. split; [done|]. split; [done|]. split; [by apply index_some|done]. }
  set (r3 := if _ : bool then _ else r2).
  assert (rs_call r3 = rs_call r2 ∧ rs_recv r3 = rs_recv r2 ∧ rs_status r3 = rs_status r2 ∧ rs_status_idx r3 = rs_status_idx r2 ∧ rs_type r3 = rs_type r2 ∧
    rs_type_idx r3 = rs_type_idx r2 ∧ rs_deref r3 = rs_deref r2 ∧ (rs_default r3 ≠ 0%Z → ∃ e q, rcall w e q ∧ rs_default q = rs_default r3)) as (C1 & C2 & C3 & C4 & C5 & C6 & C7 & C8).
  { assert (rs_default r2 ≠ 0%Z → ∃ e q, rcall w e q ∧ rs_default q = rs_default r2) as H5' by (rewrite B5, A6; exact H5).
    subst r3. destruct (negb _ && _); [|done]. cbn [rs_call rs_recv rs_type rs_type_idx rs_deref rs_default rs_status rs_status_idx]. repeat (split; [done|]). intros _. by exists e, q. }
  split; [rewrite C1, B1, A1; exact H1|]. split; [rewrite C2, B2, A2; exact H2|]. split; [by exists e, q|].
  split; [rewrite C3, C4, B3, B4; exact A7|]. split; [rewrite C5, C6, C7; exact B6|exact C8].
Qed.
Lemma merge_response_inv m w q e : inv m → rcall w e q → inv (merge_response m w q e).
Proof.
  intros Hi Hc. assert (method w) as Hw by (destruct Hc as (? & ? & _); by exists e). unfold ValModel.merge_response. apply inv_insert; [done|done|].
  pose proof (shell_ok m w e Hi Hw) as (O1 & O2 & O3 & O4 & O5 & O6). set (d := shell m w e) in *.
  split; [done|]. split; [done|]. cbn [vw_resp vw_req vw_par vw_complete]. split; [|split; [done|split; [done|]]].
  - intros r [= <-]. destruct (vw_resp d) as [r0|].
    + destruct (O3 r0 eq_refl) as (R1 & R2 & _ & R3 & R4 & R5). by apply merge_roles_ok.
    + apply merge_roles_ok; cbn; done.
  - intros H. left. eexists. split; [done|exact H].
Qed.
Lemma derive_request_inv m w q e : inv m → qcall w e q → inv (derive_request m w q e).
Proof.
  intros Hi Hc. assert (method w) as Hw by (destruct Hc as (? & ? & _); by exists e). unfold ValModel.derive_request.
  destruct (rq_type q) eqn:Et; [|done]. destruct (index w e (rq_type_idx q)) as [i|] eqn:Ei; [|done]. apply inv_insert; [done|done|].
  pose proof (shell_ok m w e Hi Hw) as (O1 & O2 & O3 & O4 & O5 & O6). set (d := shell m w e) in *.
  split; [done|]. split; [done|]. cbn [vw_resp vw_req vw_par vw_complete]. split; [done|]. split; [|split; [done|]].
  - intros r [= <-]. exists e, q, i. split; [done|]. split; [done|]. split; [by apply index_some|done].
  - intros _. right. left. by eexists.
Qed.
Lemma derive_param_inv m w q e : inv m → pcall w e q → inv (derive_param m w q e).
Proof.
  intros Hi Hc. assert (method w) as Hw by (destruct Hc as (? & ? & _); by exists e). unfold ValModel.derive_param.
  destruct (bool_decide (pr_in q = "") || pr_mapkey q) eqn:Et; [done|]. apply orb_false_iff in Et as [Et1%bool_decide_eq_false Et2].
  destruct (index w e (pr_idx q)) as [i|] eqn:Ei; [|done]. apply inv_insert; [done|done|].
  pose proof (shell_ok m w e Hi Hw) as (O1 & O2 & O3 & O4 & O5 & O6). set (d := shell m w e) in *.
  split; [done|]. split; [done|]. cbn [vw_resp vw_req vw_par vw_complete]. split; [done|]. split; [done|]. split.
  - intros r [= <-]. exists e, q, i. split; [done|]. split; [done|]. split; [done|]. split; [by apply index_some|done].
  - intros _. right. right. by eexists.
Qed.
Lemma value_round_inv c m : (∀ q, q ∈ vc_resps c → RK q) → (∀ q, q ∈ vc_reqs c → QK q) → (∀ q, q ∈ vc_pars c → PK q) → inv m → inv (value_round c es m).
Proof.
  intros HR HQ HP. unfold ValModel.value_round. apply (foldl_inv inv). intros a e He Ha. unfold ValModel.value_edge.
  destruct (wrapper_method_of modpath e) as [w|] eqn:Ew; [|done]. apply (written_spec method_of function_of) in Ew.
  apply (foldl_inv inv); [|apply (foldl_inv inv); [|apply (foldl_inv inv); [|done]]].
  - intros b q Hq Hb. destruct (m_par q e) eqn:Em; [|done]. apply derive_param_inv; [done|]. split; [done|]. split; [done|]. split; [done|by apply HP].
  - intros b q Hq Hb. destruct (m_req q e) eqn:Em; [|done]. apply derive_request_inv; [done|]. split; [done|]. split; [done|]. split; [done|by apply HQ].
  - intros b q Hq Hb. destruct (m_resp q e) eqn:Em; [|done]. apply merge_response_inv; [done|]. split; [done|]. split; [done|]. split; [done|by apply HR].
Qed.
End values.

Section final.
Context (method_of : wmethod → option (list string * (string → list sarg))) (function_of : wmethod → option (string → list sarg)).
Context (m_resp : rspat → wedge → bool) (m_req : rqpat → wedge → bool) (m_par : prpat → wedge → bool) (modpath : string) (embed : wmethod → string).
Context (es : list wedge) (Hdot : ∀ e, e ∈ es → dotless (we_recv e) ∧ dotless (we_name e)).
Notation value_rounds := (value_rounds method_of function_of m_resp m_req m_par modpath embed).
Notation inv := (inv method_of function_of m_resp m_req m_par modpath embed es).

Lemma rounds_inv c0 F n iters : (∀ n, is_order (iters n)) → ∀ c m, value_rounds n iters c es m = F →
  (∀ q, q ∈ vc_resps c → resp_known c0 F q) → (∀ q, q ∈ vc_reqs c → req_known embed c0 F q) → (∀ q, q ∈ vc_pars c → par_known embed c0 F q) →
  inv (resp_known c0 F) (req_known embed c0 F) (par_known embed c0 F) m → inv (resp_known c0 F) (req_known embed c0 F) (par_known embed c0 F) F.
Proof.
  intros Ho. induction n as [|n IH]; intros c m E HR HQ HP Hi; cbn [ValModel.value_rounds] in E; [by subst F|].
  pose proof (value_round_inv method_of function_of m_resp m_req m_par modpath embed es Hdot _ _ _ c m HR HQ HP Hi) as Hi'.
  set (m' := value_round method_of function_of m_resp m_req m_par modpath embed c es m) in *.
  destruct (bool_decide (size m' = size m)); [by subst F|].
  assert (grows m' F) as HG by (rewrite <- E; apply value_rounds_grows).
  assert (∀ d, d ∈ filter (λ d, vw_complete d = true) (iters n (map_to_list m')).*2 → ∃ k, m' !! k = Some d) as Hin.
  { intros d Hd. apply elem_of_list_filter in Hd as [_ Hd]. apply elem_of_list_fmap in Hd as ([k d'] & -> & Hd). rewrite (Ho n _) in Hd.
    apply elem_of_map_to_list in Hd. by exists k. }
  apply (IH _ _ E); [| | |done].
  - intros q Hq. cbn [seeds_from vc_resps] in Hq. apply elem_of_list_omap in Hq as (d & Hd & Hq). apply Hin in Hd as [k Hk].
    destruct (HG k d Hk) as (d' & Hk' & _ & _ & _ & G & _). destruct (G q Hq) as (r & Hr & Hw). right. by exists k, d', r.
  - intros q Hq. cbn [seeds_from vc_reqs] in Hq. apply elem_of_list_omap in Hq as (d & Hd & Hq). apply Hin in Hd as [k Hk].
    destruct (HG k d Hk) as (d' & Hk' & _ & _ & _ & _ & G & _). destruct (vw_resp d); [done|]. destruct G as [r Hr]; [by eexists|].
    destruct (Hi' k d Hk) as (w & -> & _ & _ & _ & _ & O & _). destruct (O q Hq) as (e & q' & i & _ & _ & _ & ->). right. by exists w, d', r.
  - intros q Hq. cbn [seeds_from vc_pars] in Hq. apply elem_of_list_omap in Hq as (d & Hd & Hq). apply Hin in Hd as [k Hk].
    destruct (HG k d Hk) as (d' & Hk' & _ & _ & _ & _ & _ & G). destruct (vw_resp d); [done|]. destruct (vw_req d); [done|]. destruct G as [r Hr]; [by eexists|].
    destruct (Hi' k d Hk) as (w & -> & _ & _ & _ & _ & _ & O & _). destruct (O q Hq) as (e & q' & i & _ & _ & _ & _ & ->). right. by exists w, d', r.
Qed.
End final.
