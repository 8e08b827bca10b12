(** * Lemmas about security resolution. *)
From Coq Require Import Ascii.
From stdpp Require Import sorting.
From stdpp Require Import base list strings gmap relations.
From Verif Require Import StrLib StrOrder SccSpec SecModel SecSpec.

(** ** Requirement maps *)
Lemma put_all_lookup iter acc r k : is_order iter →
  put_all iter acc r !! k = match r !! k with Some v => Some v | None => acc !! k end.
Proof.
  intros Hit. unfold put_all.
  assert (∀ (l : list (string * list string)) acc, NoDup l.*1 →
    (fold_left (λ acc kv, <[kv.1 := kv.2]> acc) l acc : gmap string (list string)) !! k =
    match (list_to_map l : gmap string (list string)) !! k with Some v => Some v | None => acc !! k end) as H.
  { clear. induction l as [|[a v] l IH]; intros acc Hnd; [done|].
    rewrite fmap_cons in Hnd. apply NoDup_cons in Hnd as [Ha Hnd]. cbn [fold_left list_to_map fst snd foldr]. rewrite IH by done.
    change (foldr (λ p : string * list string, <[p.1:=p.2]>) ∅ l) with (list_to_map l : gmap string (list string)).
    destruct (decide (k = a)) as [->|Hne].
    - rewrite !lookup_insert. by rewrite (not_elem_of_list_to_map_1 l a).
    - rewrite !lookup_insert_ne by done. done. }
  rewrite H.
  - assert ((list_to_map (iter (map_to_list r)) : gmap string (list string)) = r) as ->; [|done].
    rewrite <- (list_to_map_to_list r) at 2. apply list_to_map_proper; [|done].
    rewrite (Hit (map_to_list r)). apply NoDup_fst_map_to_list.
  - rewrite (Hit (map_to_list r)). apply NoDup_fst_map_to_list.
Qed.
Lemma put_fold_inv iter rs : is_order iter → ∀ acc k v,
  fold_left (put_all iter) rs acc !! k = Some v → (∃ r, r ∈ rs ∧ r !! k = Some v) ∨ acc !! k = Some v.
Proof.
  intros Hit. induction rs as [|r rs IH]; intros acc k v; [by right|]. cbn [fold_left]. intros [(r' & Hr & Hk)|H]%IH.
  - left. exists r'. split; [by right|done].
  - rewrite put_all_lookup in H by done. destruct (r !! k) eqn:E; [|by right].
    left. exists r. split; [left|congruence].
Qed.
Lemma put_fold_has iter rs : is_order iter → ∀ acc k,
  (∃ r, r ∈ rs ∧ is_Some (r !! k)) ∨ is_Some (acc !! k) → is_Some (fold_left (put_all iter) rs acc !! k).
Proof.
  intros Hit. induction rs as [|r rs IH]; intros acc k.
  - intros [(r & Hr & _)|H]; [by apply elem_of_nil in Hr|done].
  - intros H. cbn [fold_left]. apply IH. rewrite put_all_lookup by done. destruct H as [(r' & Hr & Hk)|Hk].
    + apply elem_of_cons in Hr as [->|Hr].
      * right. destruct Hk as [v ->]. eauto.
      * left. eauto.
    + right. destruct (r !! k); [eauto|done].
Qed.
Lemma satisfies_fold iter rs c : is_order iter → compatible rs →
  satisfies c (fold_left (put_all iter) rs ∅) ↔ ∀ r, r ∈ rs → satisfies c r.
Proof.
  intros Hit Hc. split.
  - intros H r Hr k v Hk. destruct (put_fold_has iter rs Hit ∅ k) as [v' Hv']; [left; exists r; by rewrite Hk|].
    destruct (put_fold_inv iter rs Hit _ _ _ Hv') as [(r' & Hr' & Hk')|H0]; [|by rewrite lookup_empty in H0].
    rewrite (Hc r r' k v v') by done. by apply H.
  - intros H k v Hk. destruct (put_fold_inv iter rs Hit _ _ _ Hk) as [(r' & Hr' & Hk')|H0]; [|by rewrite lookup_empty in H0].
    by apply (H r').
Qed.
Lemma fold_empty iter rs r : is_order iter → fold_left (put_all iter) rs ∅ = ∅ → r ∈ rs → r = ∅.
Proof.
  intros Hit H Hr. apply map_empty. intros k. destruct (r !! k) as [v|] eqn:E; [|done].
  destruct (put_fold_has iter rs Hit ∅ k) as [v' Hv']; [left; exists r; by rewrite E|].
  by rewrite H, lookup_empty in Hv'.
Qed.
Lemma satisfies_empty c : satisfies c ∅.
Proof. intros k v H. by rewrite lookup_empty in H. Qed.

(** ** The loops *)
Section loops.
Context (re : string → string → option bool) (iter : list (string * list string) → list (string * list string)).
Notation mt := (sm_matches re).

Lemma mapping_loop_eq mappings r : ∀ matched st,
  mapping_loop re iter mappings r matched st =
  (matched || any_mapping_matches re r mappings,
   fold_left (apply_mapping iter) (filter (λ m, mt m r = true ∧ sm_skip m = false) mappings) st).
Proof.
  induction mappings as [|m ms IH]; intros matched st; cbn [mapping_loop any_mapping_matches existsb].
  - by rewrite orb_false_r.
  - rewrite filter_cons. destruct (mt m r) eqn:E.
    + rewrite IH. cbn [orb]. rewrite orb_true_r. f_equal. destruct (sm_skip m) eqn:Es.
      * rewrite decide_False by (by intros [_ ?]). unfold apply_mapping. by rewrite Es.
      * rewrite decide_True by done. done.
    + rewrite IH, decide_False by (by intros [? _]). done.
Qed.
Lemma ref_loop_eq mappings refs : ∀ st un,
  ref_loop re iter refs mappings st un =
  (fold_left (apply_mapping iter) (contributing mt refs mappings) st,
   un ++ filter (λ r, any_mapping_matches re r mappings = false) refs).
Proof.
  induction refs as [|r refs IH]; intros st un; cbn [ref_loop].
  - by rewrite app_nil_r.
  - rewrite mapping_loop_eq, IH. cbn [orb]. unfold contributing. cbn [mbind list_bind]. rewrite fold_left_app.
    f_equal. rewrite filter_cons. destruct (any_mapping_matches re r mappings).
    + by rewrite decide_False.
    + rewrite decide_True by done. by rewrite <- app_assoc.
Qed.
Lemma apply_fold l : ∀ st, Forall (λ m, sm_skip m = false) l →
  fold_left (apply_mapping iter) l st =
  RState (fold_left (put_all iter) (all_schemes l) (rs_combined st))
         (fold_left (add_group iter) (m ← l; sm_anyof m) (rs_alts st))
         (rs_public st || existsb sm_public l).
Proof.
  induction l as [|m l IH]; intros st Hs.
  - cbn. rewrite orb_false_r. by destruct st.
  - apply Forall_cons in Hs as [Hm Hs]. cbn [fold_left]. rewrite IH by done. unfold apply_mapping. rewrite Hm.
    cbn [rs_combined rs_alts rs_public all_schemes mbind list_bind existsb].
    rewrite !fold_left_app. by rewrite orb_assoc.
Qed.
Lemma contributing_noskip refs mappings : Forall (λ m, sm_skip m = false) (contributing mt refs mappings).
Proof.
  apply Forall_forall. intros m Hm. unfold contributing in Hm. apply elem_of_list_bind in Hm as (r & Hm & _).
  apply elem_of_list_filter in Hm. tauto.
Qed.
Lemma elem_of_contributing m refs mappings :
  m ∈ contributing mt refs mappings ↔ m ∈ mappings ∧ sm_skip m = false ∧ ∃ r, r ∈ refs ∧ mt m r = true.
Proof.
  unfold contributing. rewrite elem_of_list_bind. split.
  - intros (r & Hm & Hr). apply elem_of_list_filter in Hm as ([H1 H2] & H3). split; [done|]. split; [done|]. eauto.
  - intros (Hm & Hs & r & Hr & Ht). exists r. split; [|done]. apply elem_of_list_filter. done.
Qed.

Lemma dedup_go_sub keys reqs : ∀ seen r, r ∈ dedup_reqs_go keys seen reqs → r ∈ reqs.
Proof.
  induction reqs as [|x reqs IH]; intros seen r; cbn [dedup_reqs_go]; [done|].
  case_decide; [intros Hin; right; by eapply IH|]. rewrite !elem_of_cons. intros [->|Hin]; [by left|right; by eapply IH].
Qed.
Lemma dedup_sub keys reqs r : r ∈ dedup_reqs keys reqs → r ∈ reqs.
Proof. destruct reqs as [|x [|y reqs]]; [done|done|]. apply dedup_go_sub. Qed.
Lemma dedup_nil keys reqs : dedup_reqs keys reqs = [] ↔ reqs = [].
Proof.
  destruct reqs as [|x [|y reqs]]; [done|done|]. cbn [dedup_reqs dedup_reqs_go].
  rewrite decide_False by apply not_elem_of_nil. done.
Qed.

Lemma resolve_eq keys refs mappings :
  resolve_security re iter keys refs mappings =
  let l := contributing mt refs mappings in
  let combined := fold_left (put_all iter) (all_schemes l) ∅ in
  let alts := fold_left (add_group iter) (m ← l; sm_anyof m) [] in
  (dedup_reqs keys ((if decide (combined = ∅) then [] else [combined]) ++ alts),
   existsb sm_public l, filter (λ r, any_mapping_matches re r mappings = false) refs).
Proof.
  unfold resolve_security. rewrite ref_loop_eq, apply_fold by apply contributing_noskip. done.
Qed.
Lemma add_group_fold grps : ∀ alts, fold_left (add_group iter) grps alts =
  alts ++ filter (λ a, a ≠ ∅) ((λ g, fold_left (put_all iter) g ∅) <$> grps).
Proof.
  induction grps as [|g grps IH]; intros alts; [by rewrite app_nil_r|].
  cbn [fold_left]. rewrite IH, fmap_cons, filter_cons. unfold add_group. case_decide as H.
  - by rewrite decide_False by (by intros ?).
  - rewrite decide_True by done. by rewrite <- app_assoc.
Qed.
End loops.

(** ** Deduplication of middleware *)
Lemma dedup_refs_go_sub refs : ∀ seen r, r ∈ dedup_refs_go seen refs → r ∈ refs.
Proof.
  induction refs as [|x refs IH]; intros seen r; cbn [dedup_refs_go]; [done|].
  case_decide; [intros Hin; right; by eapply IH|]. rewrite !elem_of_cons. intros [->|Hin]; [by left|right; by eapply IH].
Qed.
Lemma dedup_refs_sub refs r : r ∈ dedup_refs refs → r ∈ refs.
Proof. apply dedup_refs_go_sub. Qed.
Lemma dedup_refs_go_listed refs : ∀ seen r, r ∈ refs → mref_string r ∈ seen ∨ listed r (dedup_refs_go seen refs).
Proof.
  induction refs as [|x refs IH]; intros seen r Hr; cbn [dedup_refs_go]; [by apply elem_of_nil in Hr|].
  apply elem_of_cons in Hr as [->|Hr].
  - case_decide; [by left|]. right. exists x. split; [left|done].
  - case_decide as Hx.
    + destruct (IH seen r Hr); [by left|by right].
    + destruct (IH (mref_string x :: seen) r Hr) as [[Heq|H]%elem_of_cons|(r' & H1 & H2)].
      * right. exists x. split; [left|done].
      * by left.
      * right. exists r'. split; [by right|done].
Qed.
Lemma dedup_refs_listed refs r : r ∈ refs → listed r (dedup_refs refs).
Proof. intros H. destruct (dedup_refs_go_listed refs [] r H) as [H0|]; [by apply elem_of_nil in H0|done]. Qed.
Lemma listed_dedup refs r : listed r refs ↔ listed r (dedup_refs refs).
Proof.
  split.
  - intros (r' & Hr & Heq). destruct (dedup_refs_listed _ _ Hr) as (r2 & H2 & Heq2). exists r2. split; [done|congruence].
  - intros (r' & Hr & Heq). exists r'. split; [by apply dedup_refs_sub|done].
Qed.
Lemma listed_app r a b : listed r (a ++ b) ↔ listed r a ∨ listed r b.
Proof.
  unfold listed. split.
  - intros (x & [H|H]%elem_of_app & E); [left|right]; eauto.
  - intros [(x & H & E)|(x & H & E)]; exists x; rewrite elem_of_app; eauto.
Qed.

(** ** Looking through *)
Section through.
Context (re : string → string → option bool) (mappings : list smapping) (callers parents : gmap string (list mref)).
Notation mt := (λ r, any_mapping_matches re r mappings).
Notation edges := (mw_edges callers parents).
Notation memo := (gmap string (list mref)).
Notation run := (matches_through re mappings callers parents).
Notation pass := (passes mt edges).

(** Scanning a list of edges with a recursive call [rec]: a general induction. *)
Lemma scan_ind (rec : string → memo → option (list mref * memo)) (P : list mref → list mref → memo → Prop) (es : list mref) :
  ∀ done0 found0 mm0 found mm,
  P done0 found0 mm0 →
  (∀ dn e fd m, P dn fd m → e ∈ es → (mref_empty e = true ∨ mt e = false ∧ mref_empty e = false ∧ middleware_base_id e = "") → P (dn ++ [e]) fd m) →
  (∀ dn e fd m, P dn fd m → e ∈ es → mref_empty e = false → mt e = true → P (dn ++ [e]) (fd ++ [e]) m) →
  (∀ dn e fd m l m', P dn fd m → e ∈ es → mref_empty e = false → mt e = false → middleware_base_id e ≠ "" →
     rec (middleware_base_id e) m = Some (l, m') → P (dn ++ [e]) (fd ++ l) m') →
  fold_left (scan_edge re mappings rec) es (Some (found0, mm0)) = Some (found, mm) →
  P (done0 ++ es) found mm.
Proof.
  induction es as [|e es IH]; intros dn fd0 m0 fd m HP Hskip Hhit Hrec Hrun.
  - cbn in Hrun. injection Hrun as -> ->. by rewrite app_nil_r.
  - cbn [fold_left] in Hrun. rewrite cons_middle, app_assoc.
    assert (∀ fd1 m1, P (dn ++ [e]) fd1 m1 → fold_left (scan_edge re mappings rec) es (Some (fd1, m1)) = Some (fd, m) →
      P ((dn ++ [e]) ++ es) fd m) as Hnext.
    { intros fd1 m1 HP1 Hr. eapply IH; [exact HP1|..|exact Hr].
      - intros. apply Hskip; [done|by right|done].
      - intros. apply Hhit; [done|by right|done|done].
      - intros. eapply Hrec; [done|by right|done..]. }
    unfold scan_edge in Hrun at 2. cbn [mbind option_bind] in Hrun.
    destruct (mref_empty e) eqn:E1; [eapply Hnext; [|exact Hrun]; apply Hskip; [done|left|by left]|].
    destruct (any_mapping_matches re e mappings) eqn:E2; [eapply Hnext; [|exact Hrun]; apply Hhit; [done|left|done|done]|].
    case_decide as E3; [eapply Hnext; [|exact Hrun]; apply Hskip; [done|left|right; done]|].
    destruct (rec (middleware_base_id e) m0) as [[l m']|] eqn:E4; cbn in Hrun.
    + eapply Hnext; [|exact Hrun]. eapply Hrec; [done|left|done..].
    + exfalso. clear -Hrun. assert (∀ es, fold_left (scan_edge re mappings rec) es None = None) as H.
      { clear. induction es; [done|]. cbn [fold_left]. done. }
      by rewrite H in Hrun.
Qed.

(** *** Termination *)
Notation U := (dom callers ∪ dom parents).
Lemma edges_out k : k ∉ U → edges k = [].
Proof.
  intros Hk. unfold mw_edges. apply not_elem_of_union in Hk as [H1%not_elem_of_dom H2%not_elem_of_dom]. by rewrite H1, H2.
Qed.
Lemma scan_total (rec : string → memo → option (list mref * memo)) es :
  (∀ e mm, e ∈ es → is_Some (rec (middleware_base_id e) mm)) →
  ∀ st, is_Some st → is_Some (fold_left (scan_edge re mappings rec) es st).
Proof.
  induction es as [|e es IH]; intros Hrec st [[fd mm] ->]; [by eexists|]. cbn [fold_left]. apply IH.
  - intros e' m' He. apply Hrec. by right.
  - unfold scan_edge. cbn [mbind option_bind]. destruct (mref_empty e); [by eexists|].
    destruct (any_mapping_matches re e mappings); [by eexists|]. case_decide; [by eexists|].
    destruct (Hrec e mm ltac:(left)) as [[l m'] ->]. by eexists.
Qed.
Lemma run_total n : ∀ stack key mm fuel, size (U ∖ stack) ≤ n → n < fuel → is_Some (run fuel stack key mm).
Proof.
  induction n as [|n IH]; intros stack key mm fuel Hn Hf; (destruct fuel as [|fuel]; [lia|]); cbn [matches_through];
    (destruct (mm !! key); [by eexists|]); (case_decide as Hst; [by eexists|]).
  - assert (key ∉ U) as HU.
    { intros Hin. assert (key ∈ U ∖ stack) as H by (apply elem_of_difference; done).
      apply (size_non_empty_iff (U ∖ stack)); [|lia]. intros Heq. rewrite (Heq key) in H. by apply elem_of_empty in H. }
    rewrite edges_out by done. cbn. by eexists.
  - destruct (decide (key ∈ U)) as [HU|HU]; [|rewrite edges_out by done; cbn; by eexists].
    assert (size (U ∖ ({[key]} ∪ stack)) < size (U ∖ stack)) as Hlt.
    { apply subset_size. split.
      - intros x [Hx1 Hx2]%elem_of_difference. apply elem_of_difference. split; [done|]. intros Hx. apply Hx2, elem_of_union. by right.
      - intros H. assert (key ∈ U ∖ ({[key]} ∪ stack)) as H1.
        { apply H. apply elem_of_difference. done. }
        apply elem_of_difference in H1 as [_ H1]. apply H1. apply elem_of_union. left. by apply elem_of_singleton. }
    destruct (scan_total (run fuel ({[key]} ∪ stack)) (edges key)) with (st := Some ([] : list mref, mm)) as [[fd m'] Heq].
    { intros e mm' _. apply IH; lia. }
    { by eexists. }
    rewrite Heq. cbn. by eexists.
Qed.

(** *** Soundness *)
Definition memo_sound (mm : memo) : Prop := ∀ k l r, mm !! k = Some l → r ∈ l → leads mt edges k r.
Lemma leads_direct k r : r ∈ edges k → mref_empty r = false → mt r = true → leads mt edges k r.
Proof. intros H1 H2 H3. exists k. done. Qed.
Lemma leads_step k e r : e ∈ edges k → mref_empty e = false → mt e = false → middleware_base_id e ≠ "" →
  leads mt edges (middleware_base_id e) r → leads mt edges k r.
Proof.
  intros H1 H2 H3 H4 (k' & H5 & H6). exists k'. split; [|done]. eapply rtc_l; [|exact H5]. by exists e.
Qed.
Lemma run_sound fuel : ∀ stack key mm found mm', memo_sound mm → run fuel stack key mm = Some (found, mm') →
  memo_sound mm' ∧ ∀ r, r ∈ found → leads mt edges key r.
Proof.
  induction fuel as [|fuel IH]; intros stack key mm found mm' Hs Hrun; cbn [matches_through] in Hrun;
    (destruct (mm !! key) as [l|] eqn:E; [injection Hrun as -> ->; split; [done|]; intros r Hr; by eapply Hs|]);
    (case_decide; [injection Hrun as <- <-; split; [done|]; by intros r Hr%elem_of_nil|]); [done|].
  destruct (fold_left _ (edges key) (Some ([], mm))) as [[fd m1]|] eqn:Efold; [|done]. cbn in Hrun. injection Hrun as <- <-.
  assert (memo_sound m1 ∧ ∀ r, r ∈ fd → leads mt edges key r) as [Hm1 Hfd].
  { refine (scan_ind _ (λ _ fd m, memo_sound m ∧ ∀ r, r ∈ fd → leads mt edges key r) _ [] _ _ _ _ _ _ _ _ Efold).
    - split; [done|]. by intros r Hr%elem_of_nil.
    - done.
    - intros _ e fd' m' [H1 H2] He H3 H4. split; [done|]. intros r [Hr| ->%elem_of_list_singleton]%elem_of_app; [by apply H2|].
      by apply leads_direct.
    - intros _ e fd' m' l m2 [H1 H2] He H3 H4 H5 Hr. apply IH in Hr as [H6 H7]; [|done]. split; [done|].
      intros r [Hin|Hin]%elem_of_app; [by apply H2|]. eapply leads_step; [done..|]. by apply H7. }
  split.
  - intros k l r. destruct (decide (k = key)) as [->|Hk].
    + rewrite lookup_insert. intros [= <-] Hr. by apply Hfd, dedup_refs_sub.
    + rewrite lookup_insert_ne by done. apply Hm1.
  - intros r Hr. by apply Hfd, dedup_refs_sub.
Qed.

(** *** A walk that starts with an empty memo is complete *)
(** What a walk adds to the memo. *)
Definition walk_ok (stack : gset string) (mm mm' : memo) (found : list mref) : Prop :=
  mm ⊆ mm' ∧
  (∀ k l r, mm' !! k = Some l → mm !! k = None → r ∈ l → listed r found) ∧
  (∀ k l, mm' !! k = Some l → mm !! k = None →
     (∀ r, r ∈ edges k → mref_empty r = false → mt r = true → listed r l) ∧
     ∀ k', pass k k' → is_Some (mm' !! k') ∨ k' ∈ stack ∨ k' = k).
Lemma run_walk fuel : ∀ stack key mm found mm', run fuel stack key mm = Some (found, mm') →
  walk_ok stack mm mm' found ∧ (is_Some (mm' !! key) ∨ key ∈ stack).
Proof.
  induction fuel as [|fuel IH]; intros stack key mm found mm' Hrun; cbn [matches_through] in Hrun;
    (destruct (mm !! key) as [l|] eqn:E;
       [injection Hrun as -> <-; split; [|left; by eexists]; split; [done|]; split; intros; congruence|]);
    (case_decide as Hst; [injection Hrun as <- <-; split; [|by right]; split; [done|]; split; intros; congruence|]); [done|].
  destruct (fold_left _ (edges key) (Some ([], mm))) as [[fd m1]|] eqn:Efold; [|done]. cbn in Hrun. injection Hrun as <- <-.
  set (P := λ (dn : list mref) (fd : list mref) (m : memo),
    walk_ok ({[key]} ∪ stack) mm m fd ∧ 
    (∀ r, r ∈ dn → mref_empty r = false → mt r = true → listed r fd) ∧
    (∀ e, e ∈ dn → mref_empty e = false → mt e = false → middleware_base_id e ≠ "" →
       is_Some (m !! middleware_base_id e) ∨ middleware_base_id e ∈ stack ∨ middleware_base_id e = key)).
  assert (P (edges key) fd m1) as ((Hsub & Hfl & Hcl) & Hhits & Hnext).
  { refine (scan_ind _ P _ [] _ _ _ _ _ _ _ _ Efold).
    - split; [|split; by intros ? ?%elem_of_nil]. split; [done|]. split; intros; congruence.
    - intros dn e fd' m' (H1 & H2 & H3) He Hsk. split; [done|]. split.
      + intros r [Hr| ->%elem_of_list_singleton]%elem_of_app Hem Hmt; [by apply H2|]. destruct Hsk as [?|(? & _)]; congruence.
      + intros r [Hr| ->%elem_of_list_singleton]%elem_of_app Hem Hmt Hid; [by apply H3|]. destruct Hsk as [?|(? & ? & ?)]; congruence.
    - intros dn e fd' m' ((Ha & Hb & Hc) & H2 & H3) He Hem Hmt. split; [|split].
      + split; [done|]. split; [|done]. intros k l r Hk Hn Hr. apply listed_app. left. by eapply Hb.
      + intros r [Hr| ->%elem_of_list_singleton]%elem_of_app Hem' Hmt'; apply listed_app; [left; by apply H2|right].
        exists e. split; [left|done].
      + intros r [Hr| ->%elem_of_list_singleton]%elem_of_app Hem' Hmt' Hid; [by apply H3|congruence].
    - intros dn e fd' m' l m2 ((Ha & Hb & Hc) & H2 & H3) He Hem Hmt Hid Hrun.
      apply IH in Hrun as [(Hd & He1 & Hf) Hg]. split; [|split].
      + split; [by etrans|]. split.
        * intros k l' r Hk Hn Hr. apply listed_app. destruct (m' !! k) as [l2|] eqn:Ek.
          -- left. assert (m2 !! k = Some l2) as Hk2 by (by eapply lookup_weaken). assert (l' = l2) as -> by congruence.
             by eapply Hb.
          -- right. by eapply He1.
        * intros k l' Hk Hn. destruct (m' !! k) as [l2|] eqn:Ek.
          -- assert (m2 !! k = Some l2) as Hk2 by (by eapply lookup_weaken). assert (l' = l2) as -> by congruence.
             destruct (Hc k l2 Ek Hn) as [Hx Hy]. split; [done|]. intros k' Hp. destruct (Hy k' Hp) as [[v Hv]|H]; [|by right].
             left. exists v. by eapply lookup_weaken.
          -- destruct (Hf k l' Hk Ek) as [Hx Hy]. split; [done|]. intros k' Hp. by apply Hy.
      + intros r [Hr| ->%elem_of_list_singleton]%elem_of_app Hem' Hmt'; [|congruence]. apply listed_app. left. by apply H2.
      + intros r [Hr| ->%elem_of_list_singleton]%elem_of_app Hem' Hmt' Hid'.
        * destruct (H3 r Hr Hem' Hmt' Hid') as [[v Hv]|H]; [|by right]. left. exists v. by eapply lookup_weaken.
        * destruct Hg as [Hg|Hg]; [by left|]. right. apply elem_of_union in Hg as [->%elem_of_singleton|Hg]; [by right|by left]. }
  split; [|left; rewrite lookup_insert; by eexists].
  assert (m1 ⊆ <[key:=dedup_refs fd]> m1 ∨ is_Some (m1 !! key)) as Hm1.
  { destruct (m1 !! key) eqn:Ek; [by right; eexists|left]. by apply insert_subseteq. }
  assert (∀ k, is_Some (m1 !! k) → is_Some (<[key:=dedup_refs fd]> m1 !! k)) as Hdom.
  { intros k Hk. destruct (decide (k = key)) as [->|Hne]; [rewrite lookup_insert; by eexists|by rewrite lookup_insert_ne]. }
  split; [|split].
  - apply map_subseteq_spec. intros k v Hk. destruct (decide (k = key)) as [->|Hne]; [congruence|].
    rewrite lookup_insert_ne by done. by eapply lookup_weaken.
  - intros k l r. destruct (decide (k = key)) as [->|Hne].
    + rewrite lookup_insert. intros [= <-] _ Hr. exists r. done.
    + rewrite lookup_insert_ne by done. intros Hk Hn Hr. apply (proj1 (listed_dedup fd r)). by eapply Hfl.
  - intros k l. destruct (decide (k = key)) as [->|Hne].
    + rewrite lookup_insert. intros [= <-] _. split.
      * intros r Hr Hem Hmt. apply (proj1 (listed_dedup fd r)). by apply Hhits.
      * intros k' (e & He & Hem & Hmt & Hid & Hnz). subst k'.
        destruct (Hnext e He Hem Hmt Hnz) as [H|[H|H]]; [left; by apply Hdom|right; by left|by right; right].
    + rewrite lookup_insert_ne by done. intros Hk Hn. destruct (Hcl k l Hk Hn) as [Hx Hy]. split; [done|].
      intros k' Hp. destruct (Hy k' Hp) as [H|[H|H]]; [left; by apply Hdom| |by right; right].
      apply elem_of_union in H as [->%elem_of_singleton|H]; [left; rewrite lookup_insert; by eexists|right; by left].
Qed.
Lemma run_fresh fuel key found mm' r : run fuel ∅ key ∅ = Some (found, mm') → leads mt edges key r → listed r found.
Proof.
  intros Hrun (k' & Hreach & Hr & Hem & Hmt). destruct (run_walk _ _ _ _ _ _ Hrun) as [(_ & Hfl & Hcl) Hroot].
  assert (is_Some (mm' !! k')) as [l Hk'].
  { destruct Hroot as [Hroot|Hroot]; [|by apply elem_of_empty in Hroot].
    clear Hr Hem Hmt Hrun. revert Hroot. induction Hreach as [|a b c Hab _ IH]; [done|]. intros [la Ha]. apply IH.
    destruct (Hcl a la Ha (lookup_empty _)) as [_ Hx]. destruct (Hx b Hab) as [H|[H|H]]; [done|by apply elem_of_empty in H|].
    subst. by eexists. }
  destruct (Hcl k' l Hk' (lookup_empty _)) as [Hx _]. destruct (Hx r Hr Hem Hmt) as (r' & Hr' & Heq).
  destruct (Hfl k' l r' Hk' (lookup_empty _) Hr') as (r2 & H2 & Heq2). exists r2. split; [done|congruence].
Qed.

(** *** Without cycles, any history is complete *)
Definition memo_complete (mm : memo) : Prop := ∀ k l r, mm !! k = Some l → leads mt edges k r → listed r l.
Lemma run_complete fuel : acyclic mt edges → ∀ stack key mm found mm',
  (∀ s, s ∈ stack → tc pass s key) → memo_complete mm → run fuel stack key mm = Some (found, mm') →
  memo_complete mm' ∧ ∀ r, leads mt edges key r → listed r found.
Proof.
  intros Hac. induction fuel as [|fuel IH]; intros stack key mm found mm' Hst Hs Hrun; cbn [matches_through] in Hrun;
    (destruct (mm !! key) as [l|] eqn:E; [injection Hrun as -> ->; split; [done|]; intros r Hr; by eapply Hs|]);
    (case_decide as Hin; [by destruct (Hac key); apply Hst|]); [done|].
  destruct (fold_left _ (edges key) (Some ([], mm))) as [[fd m1]|] eqn:Efold; [|done]. cbn in Hrun. injection Hrun as <- <-.
  set (P := λ (dn : list mref) (fd : list mref) (m : memo), memo_complete m ∧
    (∀ r, r ∈ dn → mref_empty r = false → mt r = true → listed r fd) ∧
    (∀ e r, e ∈ dn → mref_empty e = false → mt e = false → middleware_base_id e ≠ "" →
       leads mt edges (middleware_base_id e) r → listed r fd)).
  assert (P (edges key) fd m1) as (Hm1 & Hhits & Hnext).
  { refine (scan_ind _ P _ [] _ _ _ _ _ _ _ _ Efold).
    - split; [done|]. split; [by intros ? ?%elem_of_nil|by intros ? ? ?%elem_of_nil].
    - intros dn e fd' m' (H1 & H2 & H3) He Hsk. split; [done|]. split.
      + intros r [Hr| ->%elem_of_list_singleton]%elem_of_app Hem Hmt; [by apply H2|]. destruct Hsk as [?|(? & _)]; congruence.
      + intros e' r [Hr| ->%elem_of_list_singleton]%elem_of_app Hem Hmt Hid; [by apply H3|]. destruct Hsk as [?|(? & ? & ?)]; congruence.
    - intros dn e fd' m' (H1 & H2 & H3) He Hem Hmt. split; [done|]. split.
      + intros r [Hr| ->%elem_of_list_singleton]%elem_of_app Hem' Hmt'; apply listed_app; [left; by apply H2|right].
        exists e. split; [left|done].
      + intros e' r [Hr| ->%elem_of_list_singleton]%elem_of_app Hem' Hmt' Hid Hl; [|congruence]. apply listed_app. left. by eapply H3.
    - intros dn e fd' m' l m2 (H1 & H2 & H3) He Hem Hmt Hid Hrun.
      assert (pass key (middleware_base_id e)) as Hp by (by exists e).
      apply IH in Hrun as [H4 H5]; [|..|done].
      2:{ intros s [->%elem_of_singleton|Hs']%elem_of_union; [by apply tc_once|]. eapply tc_r; [by apply Hst|done]. }
      split; [done|]. split.
      + intros r [Hr| ->%elem_of_list_singleton]%elem_of_app Hem' Hmt'; [|congruence]. apply listed_app. left. by apply H2.
      + intros e' r [Hr| ->%elem_of_list_singleton]%elem_of_app Hem' Hmt' Hid' Hl; apply listed_app.
        * left. by eapply H3.
        * right. by apply H5. }
  assert (∀ r, leads mt edges key r → listed r (dedup_refs fd)) as Hall.
  { intros r (k' & Hreach & Hr & Hem & Hmt). apply (proj1 (listed_dedup fd r)). inversion Hreach as [|? b ? Hab Hbk]; subst.
    - by apply Hhits.
    - destruct Hab as (e & He & Hem' & Hmt' & Hid & Hnz). subst b. apply (Hnext e); try done. by exists k'. }
  split; [|done]. intros k l r. destruct (decide (k = key)) as [->|Hk].
  - rewrite lookup_insert. intros [= <-]. apply Hall.
  - rewrite lookup_insert_ne by done. apply Hm1.
Qed.
Lemma queries_sound fuel keys : ∀ mm mm', memo_sound mm → query_all re mappings callers parents fuel keys mm = Some mm' → memo_sound mm'.
Proof.
  induction keys as [|k keys IH]; intros mm mm' Hs H; cbn [query_all] in H; [by injection H as <-|].
  destruct (run fuel ∅ k mm) as [[l m1]|] eqn:E; [|done]. cbn in H. apply (IH m1); [|done]. by eapply run_sound.
Qed.
Lemma queries_complete fuel keys : acyclic mt edges → ∀ mm mm', memo_complete mm →
  query_all re mappings callers parents fuel keys mm = Some mm' → memo_complete mm'.
Proof.
  intros Hac. induction keys as [|k keys IH]; intros mm mm' Hs H; cbn [query_all] in H; [by injection H as <-|].
  destruct (run fuel ∅ k mm) as [[l m1]|] eqn:E; [|done]. cbn in H. apply (IH m1); [|done].
  eapply run_complete; [done| |done|done]. by intros s Hx%elem_of_empty.
Qed.
End through.
