(** * The pairing loop and the call depths meet their specification. *)
From Coq Require Import Ascii.
From stdpp Require Import base numbers list strings gmap relations.
From Verif Require Import StrOrder StrLib RouteModel PairModel PairSpec.

Lemma status_known_spec z : status_known z = true ↔ http_status z.
Proof. unfold status_known, http_status. rewrite andb_true_iff, !bool_decide_eq_true. done. Qed.
Lemma status_known_false z : status_known z = false ↔ ¬ http_status z.
Proof. rewrite <- status_known_spec. by destruct (status_known z). Qed.

Record paired (l : list frag) (st : pstate) (os : list (option (frag + frag))) : Prop := {
  pd_len : length os = length l;
  pd_out : ∀ i f o, l !! i = Some f → os !! i = Some o → outcome (take i l) f o;
  pd_stored : ps_stored st = omap left_of os;
  pd_unpaired : ps_unpaired st = omap right_of os;
  pd_pending : ∀ c z, ps_pending st !! c = Some z ↔ ∃ j g,
     l !! j = Some g ∧ status_write g ∧ fr_chain g = c ∧ fr_status g = z ∧
     ∀ k h, j < k → l !! k = Some h → fr_chain h = c → ¬ status_write h ∧ ¬ open_body h;
  pd_unres : ∀ c, c ∈ ps_unres st ↔ ∃ h, h ∈ l ∧ fr_chain h = c ∧ unreadable_status h
}.

Lemma lookup_snoc_cases {A} (l : list A) x i y : (l ++ [x]) !! i = Some y →
  (i < length l ∧ l !! i = Some y) ∨ (i = length l ∧ y = x).
Proof.
  intros [H|[Hi H]]%lookup_app_Some; [left; split; [by eapply lookup_lt_Some|done]|].
  apply list_lookup_singleton_Some in H as [Hi' <-]. right. split; [lia|done].
Qed.
Lemma paired_snoc l x st st' os o :
  paired l st os → outcome l x o →
  ps_stored st' = ps_stored st ++ option_list (left_of o) →
  ps_unpaired st' = ps_unpaired st ++ option_list (right_of o) →
  (∀ c z, ps_pending st' !! c = Some z ↔
     (c = fr_chain x ∧ status_write x ∧ z = fr_status x) ∨
     (ps_pending st !! c = Some z ∧ (c = fr_chain x → ¬ status_write x ∧ ¬ open_body x))) →
  (∀ c, c ∈ ps_unres st' ↔ c ∈ ps_unres st ∨ (c = fr_chain x ∧ unreadable_status x)) →
  paired (l ++ [x]) st' (os ++ [o]).
Proof.
  intros [H1 H2 H3 H4 H5 H6] Ho Hs Hu Hp Hr. split.
  - rewrite !app_length. simpl. lia.
  - intros i f o' Hi Ho'. apply lookup_snoc_cases in Hi as [[Hlt Hi]|[-> ->]].
    + apply lookup_snoc_cases in Ho' as [[Hlt' Hi']|[-> ->]]; [|lia].
      rewrite take_app_le by lia. by eapply H2.
    + apply lookup_snoc_cases in Ho' as [[Hlt' Hi']|[Heq ->]]; [lia|]. by rewrite take_app.
  - rewrite Hs, H3, omap_app. simpl. by destruct (left_of o).
  - rewrite Hu, H4, omap_app. simpl. by destruct (right_of o).
  - intros c z. rewrite Hp, H5. split.
    + intros [(-> & Hx & ->)|[(j & g & Hj & Hg & Hc & Hz & Hk) Hx]].
      * exists (length l), x. split; [by apply list_lookup_middle|]. do 3 (split; [done|]).
        intros k h Hlt Hkh. apply lookup_lt_Some in Hkh. rewrite app_length in Hkh. simpl in Hkh. lia.
      * exists j, g. split; [by apply lookup_app_l_Some|]. split; [done|]. split; [done|]. split; [done|].
        intros k h Hjk Hkh Hch. apply lookup_snoc_cases in Hkh as [[_ Hkh]|[-> ->]]; [by eapply Hk|]. by apply Hx.
    + intros (j & g & Hj & Hg & Hc & Hz & Hk).
      apply lookup_snoc_cases in Hj as [[Hlt Hj]|[-> ->]].
      * right. split.
        -- exists j, g. do 4 (split; [done|]). intros k h Hjk Hkh. apply (Hk k h Hjk). by apply lookup_app_l_Some.
        -- intros ->. apply (Hk (length l) x); [done|by apply list_lookup_middle|done].
      * left. done.
  - intros c. rewrite Hr, H6. split.
    + intros [(h & Hh & Hc & Hu')|[-> Hx]].
      * exists h. split; [apply elem_of_app; by left|done].
      * exists x. split; [apply elem_of_app; right; by apply elem_of_list_singleton|done].
    + intros (h & [Hh| ->%elem_of_list_singleton]%elem_of_app & Hc & Hu').
      * left. eauto.
      * right. done.
Qed.

Lemma not_sw_body f : fr_body f ≠ "" → ¬ status_write f.
Proof. by intros H [_ ?]. Qed.

Lemma pair_loop_paired l : ∃ os, paired l (pair_loop l) os.
Proof.
  induction l as [|x l [os IH]] using rev_ind.
  - exists []. split; simpl; try done.
    + intros c z. rewrite lookup_empty. split; [done|]. by intros (j & g & ? & _).
    + intros c. split; [set_solver|]. intros (h & Hh & _). by apply not_elem_of_nil in Hh.
  - unfold pair_loop. rewrite fold_left_app. fold (pair_loop l). cbn [fold_left].
    set (st := pair_loop l) in *. unfold pair_step.
    destruct (status_known (fr_status x)) eqn:Hk.
    + pose proof (proj1 (status_known_spec _) Hk) as Hk'.
      exists (os ++ [Some (inl x)]). cbn [andb]. destruct (bool_decide (fr_body x = "")) eqn:Hb.
      * apply bool_decide_eq_true in Hb.
        eapply paired_snoc; [done|by left|done|by rewrite app_nil_r| |].
        -- intros c z. cbn [ps_pending]. rewrite lookup_insert_Some. split.
           ++ intros [[<- <-]|[Hne Hp]]; [by left|]. right. split; [done|]. by intros ->.
           ++ intros [(-> & _ & ->)|[Hp Hx]]; [by left|]. right. split; [|done].
              intros Heq. destruct (Hx (eq_sym Heq)) as [Hx' _]. apply Hx'. done.
        -- intros c. cbn [ps_unres]. split; [by left|]. intros [?|[_ [? _]]]; done.
      * apply bool_decide_eq_false in Hb.
        eapply paired_snoc; [done|by left|done|by rewrite app_nil_r| |].
        -- intros c z. cbn [ps_pending]. split.
           ++ intros Hp. right. split; [done|]. intros _. split; [by intros [_ ?]|by intros [? _]].
           ++ intros [(-> & [_ ?] & ->)|[Hp _]]; done.
        -- intros c. cbn [ps_unres]. split; [by left|]. intros [?|[_ [? _]]]; done.
    + pose proof (proj1 (status_known_false _) Hk) as Hk'. cbn [andb].
      assert (¬ status_write x) as Hsw by (by intros [? _]).
      destruct (fr_unres x) eqn:Hu.
      * exists (os ++ [None]). assert (¬ open_body x) as Hob by (intros (_ & ? & _); congruence).
        eapply paired_snoc; [done|by right; right|by rewrite app_nil_r|by rewrite app_nil_r| |].
        -- intros c z. cbn [ps_pending]. split; [by right|]. by intros [(_ & ? & _)|[? _]].
        -- intros c. cbn [ps_unres]. rewrite elem_of_union, elem_of_singleton. split.
           ++ intros [->|?]; [by right|by left].
           ++ intros [?|[-> _]]; [by right|by left].
      * assert (¬ unreadable_status x) as Hur by (intros [_ ?]; congruence).
        destruct (bool_decide (fr_body x = "")) eqn:Hb; cbn [negb].
        { apply bool_decide_eq_true in Hb. exists (os ++ [None]).
          assert (¬ open_body x) as Hob by (by intros (_ & _ & ?)).
          eapply paired_snoc; [done|by right; right|by rewrite app_nil_r|by rewrite app_nil_r| |].
          - intros c z. split; [by right|]. by intros [(_ & ? & _)|[? _]].
          - intros c. split; [by left|]. by intros [?|[_ ?]]. }
        apply bool_decide_eq_false in Hb.
        assert (open_body x) as Hob by done.
        set (x' := if decide (fr_chain x ∈ ps_unres st) then no_implicit x else x).
        assert (fr_chain x' = fr_chain x) as Hch by (unfold x'; by case_decide).
        assert ((after_unreadable l x ∧ x' = no_implicit x) ∨ (¬ after_unreadable l x ∧ x' = x)) as Hx'.
        { unfold x'. case_decide as Hin; rewrite (pd_unres _ _ _ IH) in Hin; [by left|by right]. }
        rewrite Hch.
        destruct (ps_pending st !! fr_chain x) as [z|] eqn:Hp.
        -- exists (os ++ [Some (inl (with_status z x'))]).
           eapply paired_snoc; [done| |done|by rewrite app_nil_r| |].
           ++ right. left. split; [done|]. exists x'. split; [done|]. left.
              apply (pd_pending _ _ _ IH) in Hp as (j & g & Hj & Hg & Hc & Hz & Hkk). exists j, g. rewrite Hz. done.
           ++ intros c z'. cbn [ps_pending]. rewrite lookup_delete_Some. split.
              ** intros [Hne Hp']. right. split; [done|]. by intros ->.
              ** intros [(-> & ? & _)|[Hp' Hx]]; [done|]. split; [|done]. intros Heq. by destruct (Hx (eq_sym Heq)).
           ++ intros c. cbn [ps_unres]. split; [by left|]. by intros [?|[_ ?]].
        -- exists (os ++ [Some (inr x')]).
           eapply paired_snoc; [done| |by rewrite app_nil_r|done| |].
           ++ right. left. split; [done|]. exists x'. split; [done|]. right. split; [|done].
              intros j g (Hj & Hg & Hc & Hkk).
              assert (ps_pending st !! fr_chain x = Some (fr_status g)) as Hp'; [|congruence].
              apply (pd_pending _ _ _ IH). exists j, g. done.
           ++ intros c z'. cbn [ps_pending]. split.
              ** intros Hp'. right. split; [done|]. intros ->. congruence.
              ** intros [(-> & ? & _)|[Hp' Hx]]; done.
           ++ intros c. cbn [ps_unres]. split; [by left|]. by intros [?|[_ ?]].
Qed.

(** ** The unpaired bodies *)
Lemma min_depth_spec l : ∀ best d, min_depth best l = Some d ↔
  (best = Some d ∨ d ∈ l) ∧ (∀ e, e ∈ l ∨ best = Some e → d ≤ e).
Proof.
  induction l as [|e l IH]; intros best d; simpl.
  - split.
    + intros ->. split; [by left|]. intros e [He|[= ->]]; [by apply not_elem_of_nil in He|done].
    + intros [[?|He] _]; [done|by apply not_elem_of_nil in He].
  - rewrite IH. clear IH. setoid_rewrite elem_of_cons. destruct best as [b|]; [case_decide as Hlt|].
    + split.
      * intros [[[= ->]|Hd] Hall].
        -- split; [by right; left|]. intros e [[->|He]|[= ->]]; [done|apply Hall; by left|lia].
        -- split; [by right; right|]. intros e' [[->|He]|[= ->]]; [apply Hall; by right|apply Hall; by left|].
           specialize (Hall e (or_intror eq_refl)). lia.
      * intros [[[= ->]|[->|Hd]] Hall].
        -- specialize (Hall e (or_introl (or_introl eq_refl))). lia.
        -- split; [by left|]. intros e' [He|[= ->]]; [apply Hall; by left; right|done].
        -- split; [by right|]. intros e' [He|[= ->]]; [apply Hall; by left; right|apply Hall; by left; left].
    + split.
      * intros [[[= ->]|Hd] Hall].
        -- split; [by left|]. intros e' [[->|He]|[= ->]]; [lia|apply Hall; by left|done].
        -- split; [by right; right|]. intros e' [[->|He]|[= ->]]; [|apply Hall; by left|apply Hall; by right].
           specialize (Hall b (or_intror eq_refl)). lia.
      * intros [[[= ->]|[->|Hd]] Hall].
        -- split; [by left|]. intros e' [He|[= ->]]; [apply Hall; by left; right|done].
        -- assert (e = b) as -> by (specialize (Hall b (or_intror eq_refl)); lia).
           split; [by left|]. intros e' [He|[= ->]]; [apply Hall; by left; right|done].
        -- split; [by right|]. intros e' [He|[= ->]]; [apply Hall; by left; right|apply Hall; by right].
    + split.
      * intros [[[= ->]|Hd] Hall].
        -- split; [by right; left|]. intros e' [[->|He]|?]; [done|apply Hall; by left|done].
        -- split; [by right; right|]. intros e' [[->|He]|?]; [apply Hall; by right|apply Hall; by left|done].
      * intros [[?|[->|Hd]] Hall]; [done| |].
        -- split; [by left|]. intros e' [He|[= ->]]; [apply Hall; by left; right|done].
        -- split; [by right|]. intros e' [He|[= ->]]; [apply Hall; by left; right|apply Hall; by left; left].
Qed.
Lemma filter_shallowest depths l :
  filter (λ f, min_depth None (depth_of depths <$> l) = Some (depth_of depths f)) l = filter (shallowest depths l) l.
Proof.
  assert (∀ l' : list frag, (∀ f, f ∈ l' → f ∈ l) →
    filter (λ f, min_depth None (depth_of depths <$> l) = Some (depth_of depths f)) l' = filter (shallowest depths l) l') as H.
  { induction l' as [|f l' IH]; intros Hin; [done|]. rewrite !filter_cons, IH by (intros g Hg; apply Hin; by right).
    assert (min_depth None (depth_of depths <$> l) = Some (depth_of depths f) ↔ shallowest depths l f) as E.
    { rewrite min_depth_spec. split.
      - intros [_ H] g Hg. apply H. left. by apply elem_of_list_fmap_1.
      - intros H. split; [right; apply elem_of_list_fmap_1, Hin; left|].
        intros e [(g & -> & Hg)%elem_of_list_fmap|?]; [by apply H|done]. }
    case_decide as H1; case_decide as H2; [done|by apply E in H1|by apply E in H2|done]. }
  by apply H.
Qed.

(** Numbering. *)
Lemma final_steps l : ∀ st, fold_left final_step l st =
  (st.1 + Z.of_nat (length (filter (λ f, ¬ (0 < fr_implicit f)%Z) l)),
   st.2 ++ (fold_left final_step l (st.1, [])).2)%Z.
Proof.
  induction l as [|f l IH]; intros st; simpl.
  - rewrite app_nil_r. destruct st; simpl. f_equal. lia.
  - rewrite IH. rewrite (IH (final_step (st.1, []) f)). unfold final_step. rewrite filter_cons.
    case_bool_decide; simpl.
    + rewrite decide_False by lia. f_equal. by rewrite <- app_assoc.
    + rewrite decide_True by lia. simpl. f_equal; [lia|]. by rewrite <- app_assoc.
Qed.
Lemma final_elem l n : ∀ h, h ∈ (fold_left final_step l (n, [])).2 ↔
  (∃ f, f ∈ l ∧ (0 < fr_implicit f)%Z ∧ h = with_status (fr_implicit f) f) ∨
  (∃ k f, filter (λ f, ¬ (0 < fr_implicit f)%Z) l !! k = Some f ∧ h = with_status (- (n + Z.of_nat k + 1)) f).
Proof.
  revert n. induction l as [|f l IH]; intros n h; simpl.
  - split; [intros H; by apply not_elem_of_nil in H|]. intros [(f & Hf & _)|(k & f & Hf & _)]; [by apply not_elem_of_nil in Hf|done].
  - rewrite final_steps. cbn [snd]. rewrite elem_of_app, filter_cons. unfold final_step. case_bool_decide as Hf; cbn [fst snd app].
    + rewrite decide_False by lia. rewrite IH, elem_of_list_singleton. split.
      * intros [->|[(g & Hg & Hh)|H]]; [left; exists f; split; [left|done]|left; exists g; split; [by right|done]|by right].
      * intros [(g & [->|Hg]%elem_of_cons & Hi & ->)|H]; [by left|right; left; eauto|by right; right].
    + rewrite decide_True by lia. rewrite IH, elem_of_list_singleton. split.
      * intros [->|[(g & Hg & Hh)|(k & g & Hk & ->)]].
        -- right. exists 0, f. split; [done|]. do 2 f_equal. lia.
        -- left. exists g. split; [by right|done].
        -- right. exists (S k), g. split; [done|]. do 2 f_equal. lia.
      * intros [(g & [->|Hg]%elem_of_cons & Hi & ->)|([|k] & g & Hk & ->)].
        -- lia.
        -- right. left. eauto.
        -- left. simpl in Hk. injection Hk as ->. f_equal. lia.
        -- right. right. exists k, g. split; [done|]. f_equal. lia.
Qed.

(** ** Storing *)
Lemma store_other m f z : z ≠ fr_status f → store m f !! z = m !! z.
Proof.
  intros H. unfold store. destruct (m !! fr_status f); [|by rewrite lookup_insert_ne].
  repeat case_bool_decide; simpl; try done; by rewrite lookup_insert_ne.
Qed.
Lemma fold_store_other l : ∀ m z, (∀ f, f ∈ l → fr_status f ≠ z) → fold_left store l m !! z = m !! z.
Proof.
  induction l as [|f l IH]; intros m z H; [done|]. simpl. rewrite IH by (intros g Hg; apply H; by right).
  apply store_other. intros ->. by apply (H f); [left|].
Qed.
Lemma prefer_frag_or e f : prefer_frag e f = e ∨ prefer_frag e f = f.
Proof. unfold prefer_frag. destruct (eqb _ _); [destruct (string_lt _ _)|destruct (response_concrete (fr_resp f))]; auto. Qed.

(** ** Call depths *)
Lemma elem_callees_of edges x y : y ∈ callees_of edges x ↔ (x, y) ∈ edges.
Proof.
  unfold callees_of. rewrite elem_of_list_fmap. split.
  - intros ([a b] & -> & [Ha Hin]%elem_of_list_filter). simpl in *. by subst.
  - intros H. exists (x, y). split; [done|]. by apply elem_of_list_filter.
Qed.

Lemma size_list_to_set_le (l : list string) : size (list_to_set (C := gset string) l) ≤ length l.
Proof.
  induction l as [|x l IH]; [done|]. simpl. rewrite size_union_alt, size_singleton.
  pose proof (subseteq_size (list_to_set (C := gset string) l ∖ {[x]}) (list_to_set l) ltac:(set_solver)). lia.
Qed.

Section bfs.
Context (edges : list (string * string)) (start : string).

Record bfs_inv (st : gmap string nat * list string) (k : nat) (rest : list string) (cur : option string) : Prop := {
  bi_start : st.1 !! start = Some 0;
  bi_sound : ∀ x d, st.1 !! x = Some d → nsteps (calls edges) d start x;
  bi_max : ∀ x d, st.1 !! x = Some d → d ≤ S k;
  bi_queue : ∃ q1 q2, st.2 = q1 ++ q2 ∧ (∀ x, x ∈ q1 → st.1 !! x = Some k) ∧ (∀ x, x ∈ q2 → st.1 !! x = Some (S k));
  bi_done : ∀ x d y, st.1 !! x = Some d → x ∉ st.2 → (x, y) ∈ edges → (cur = Some x ∧ y ∈ rest) ∨ ∃ e, st.1 !! y = Some e ∧ e ≤ S d;
  bi_cur : ∀ x, cur = Some x → st.1 !! x = Some k ∧ ∀ y, y ∈ rest → (x, y) ∈ edges
}.

Lemma bfs_visit st k y rest x :
  bfs_inv st k (y :: rest) (Some x) → bfs_inv (visit_callee (k + 1) st y) k rest (Some x).
Proof.
  intros [H1 H2 H3 (q1 & q2 & Hq & Hq1 & Hq2) H5 H6]. destruct (H6 x eq_refl) as [Hx Hrest].
  unfold visit_callee. destruct (st.1 !! y) as [e|] eqn:Hy.
  - split; try done; [eauto| |].
    + intros x' d y' Hx' Hn He. destruct (H5 x' d y' Hx' Hn He) as [[[= <-] [->|Hin]%elem_of_cons]|?]; [|by left|by right].
      right. exists e. split; [done|]. assert (d = k) as -> by congruence. by eapply H3.
    + intros x' [= <-]. split; [done|]. intros y' Hy'. apply Hrest. by right.
  - assert (start ≠ y) as Hsy by congruence. split; cbn [fst snd].
    + by rewrite lookup_insert_ne.
    + intros x' d. rewrite lookup_insert_Some. intros [[<- <-]|[_ Hx']]; [|by apply H2].
      replace (k + 1) with (S k) by lia. eapply nsteps_r; [by apply H2|]. apply Hrest. by left.
    + intros x' d. rewrite lookup_insert_Some. intros [[<- <-]|[_ Hx']]; [lia|by eapply H3].
    + exists q1, (q2 ++ [y]). rewrite Hq, app_assoc. split; [done|]. split.
      * intros x' Hx'. rewrite lookup_insert_ne; [by apply Hq1|]. intros ->. specialize (Hq1 _ Hx'). congruence.
      * intros x' [Hx'| ->%elem_of_list_singleton]%elem_of_app.
        -- rewrite lookup_insert_ne; [by apply Hq2|]. intros ->. specialize (Hq2 _ Hx'). congruence.
        -- rewrite lookup_insert. f_equal. lia.
    + intros x' d y'. rewrite lookup_insert_Some. intros [[<- <-]|[Hne Hx']] Hn He.
      * exfalso. apply Hn. apply elem_of_app. right. by apply elem_of_list_singleton.
      * destruct (decide (y' = y)) as [->|Hy'].
        -- destruct (decide (x' = x)) as [->|Hxx].
           ++ right. exists (k + 1). rewrite lookup_insert. split; [done|]. assert (d = k) as -> by congruence. lia.
           ++ destruct (H5 x' d y Hx') as [[[= <-] _]|(e & He' & _)]; [|done|done|congruence].
              intros Hin. apply Hn. apply elem_of_app. by left.
        -- destruct (H5 x' d y' Hx') as [[[= <-] [->|Hin]%elem_of_cons]|(e & He' & Hle)]; [|done|done|by left|].
           ++ intros Hin. apply Hn. apply elem_of_app. by left.
           ++ right. exists e. by rewrite lookup_insert_ne.
    + intros x' [= <-]. rewrite lookup_insert_ne by congruence. split; [done|]. intros y' Hy'. apply Hrest. by right.
Qed.
Lemma bfs_visits rest : ∀ st k x, bfs_inv st k rest (Some x) →
  bfs_inv (fold_left (visit_callee (k + 1)) rest st) k [] (Some x).
Proof. induction rest as [|y rest IH]; intros st k x H; [done|]. simpl. apply IH. by apply bfs_visit. Qed.

Lemma visits_size next ys : ∀ st, let st' := fold_left (visit_callee next) ys st in
  length st'.2 + size st.1 = length st.2 + size st'.1 ∧
  (∀ x, x ∈ dom st'.1 ↔ x ∈ dom st.1 ∨ x ∈ ys).
Proof.
  induction ys as [|y ys IH]; intros st; simpl.
  - split; [done|]. intros x. split; [by left|]. intros [?|Hx]; [done|by apply not_elem_of_nil in Hx].
  - destruct (IH (visit_callee next st y)) as [H1 H2]. unfold visit_callee in *. destruct (st.1 !! y) as [e|] eqn:Hy.
    + split; [done|]. intros x. rewrite H2, elem_of_cons. split; [tauto|]. intros [?|[->|?]]; [tauto| |tauto].
      left. by apply elem_of_dom_2 in Hy.
    + cbn [fst snd] in *. rewrite map_size_insert_None in H1 by done. rewrite app_length in H1. simpl in H1. split; [lia|].
      intros x. rewrite H2, dom_insert, elem_of_union, elem_of_singleton, elem_of_cons. tauto.
Qed.

Lemma bfs_loop fuel : ∀ st k, bfs_inv st k [] None →
  (∀ x, x ∈ dom st.1 → x ∈ start :: (snd <$> edges)) →
  S (length edges) + length st.2 ≤ fuel + size st.1 →
  ∃ m, depth_loop (callees_of edges) fuel st = Some m ∧
    m !! start = Some 0 ∧ (∀ x d, m !! x = Some d → nsteps (calls edges) d start x) ∧
    (∀ x d y, m !! x = Some d → (x, y) ∈ edges → ∃ e, m !! y = Some e ∧ e ≤ S d).
Proof.
  induction fuel as [|fuel IH]; intros st k Hinv Hdom Hfuel.
  - assert (size st.1 ≤ S (length edges)) as Hsz.
    { rewrite <- (size_dom (D := gset string)). transitivity (size (list_to_set (C := gset string) (start :: (snd <$> edges)))).
      - apply subseteq_size. intros x Hx. apply elem_of_list_to_set. by apply Hdom.
      - etransitivity; [apply size_list_to_set_le|]. simpl. by rewrite fmap_length. }
    destruct st as [m q]; simpl in *. destruct q as [|x q]; [|simpl in *; lia].
    exists m. destruct Hinv as [H1 H2 _ _ H5 _]. simpl in *. split; [done|]. split; [done|]. split; [done|].
    intros x d y Hx He. destruct (H5 x d y Hx) as [[? _]|?]; try done. by apply not_elem_of_nil.
  - destruct st as [m q]; simpl in *. destruct q as [|x q].
    + exists m. destruct Hinv as [H1 H2 _ _ H5 _]. simpl in *. split; [done|]. split; [done|]. split; [done|].
      intros x d y Hx He. destruct (H5 x d y Hx) as [[? _]|?]; try done. by apply not_elem_of_nil.
    + assert (∃ k', m !! x = Some k' ∧ bfs_inv (m, q) k' (callees_of edges x) (Some x)) as (k' & Hx & Hinv').
      { destruct Hinv as [H1 H2 H3 (q1 & q2 & Hq & Hq1 & Hq2) H5 _]. simpl in *.
        destruct q1 as [|x1 q1]; simpl in Hq.
        - subst q2. assert (m !! x = Some (S k)) as Hx by (apply Hq2; left). exists (S k). split; [done|].
          split; simpl; try done.
          + intros x' d Hx'. specialize (H3 _ _ Hx'). lia.
          + exists q, []. rewrite app_nil_r. split; [done|]. split; [intros x' Hx'; apply Hq2; by right|].
            intros x' Hx'. by apply not_elem_of_nil in Hx'.
          + intros x' d y Hx' Hn He. destruct (decide (x' = x)) as [->|Hne].
            * left. split; [done|]. by apply elem_callees_of.
            * destruct (H5 x' d y Hx') as [[? _]|?]; [|done|done|by right]. by intros [->|?]%elem_of_cons.
          + intros x' [= <-]. split; [done|]. intros y. by rewrite elem_callees_of.
        - injection Hq as <- ->. assert (m !! x = Some k) as Hx by (apply Hq1; left). exists k. split; [done|].
          split; simpl; try done.
          + exists q1, q2. split; [done|]. split; [intros x' Hx'; apply Hq1; by right|done].
          + intros x' d y Hx' Hn He. destruct (decide (x' = x)) as [->|Hne].
            * left. split; [done|]. by apply elem_callees_of.
            * destruct (H5 x' d y Hx') as [[? _]|?]; [|done|done|by right]. by intros [->|?]%elem_of_cons.
          + intros x' [= <-]. split; [done|]. intros y. by rewrite elem_callees_of. }
      rewrite Hx. cbn [default]. change (id k') with k'.
      pose proof (bfs_visits _ _ _ _ Hinv') as Hinv2.
      destruct (visits_size (k' + 1) (callees_of edges x) (m, q)) as [Hs1 Hs2]. cbn [fst snd] in Hs1, Hs2.
      set (st' := fold_left _ _ _) in *. eapply (IH _ k').
      * destruct Hinv2 as [G1 G2 G3 G4 G5 _]. split; try done.
        intros x' d y Hx' Hn He. destruct (G5 x' d y Hx' Hn He) as [[_ Hin]|?]; [by apply not_elem_of_nil in Hin|by right].
      * intros y Hy. apply Hs2 in Hy as [Hy|Hy]; [by apply Hdom|]. apply elem_callees_of in Hy.
        right. apply elem_of_list_fmap. by exists (x, y).
      * cbn [length] in Hfuel. lia.
Qed.
Lemma bfs_depths fuel : start ≠ "" → S (length edges) ≤ fuel →
  ∃ m, handler_call_depths edges fuel start = Some m ∧ ∀ y n, m !! y = Some n ↔ distance edges start y n.
Proof.
  intros Hne Hf. unfold handler_call_depths. rewrite decide_False by done.
  destruct (bfs_loop fuel ({[start := 0]}, [start]) 0) as (m & Hm & H0 & Hs & Hc).
  - split; simpl.
    + by rewrite lookup_singleton.
    + intros x d [<- <-]%lookup_singleton_Some. constructor.
    + intros x d [<- <-]%lookup_singleton_Some. lia.
    + exists [start], []. split; [done|]. split; [intros x ->%elem_of_list_singleton; by rewrite lookup_singleton|].
      intros x Hx. by apply not_elem_of_nil in Hx.
    + intros x d y [<- <-]%lookup_singleton_Some Hn. exfalso. apply Hn. left.
    + done.
  - simpl. intros x. rewrite dom_singleton, elem_of_singleton. intros ->. left.
  - simpl. rewrite map_size_singleton. lia.
  - exists m. split; [done|].
    assert (∀ n x y d, nsteps (calls edges) n x y → m !! x = Some d → ∃ e, m !! y = Some e ∧ e ≤ d + n) as Hreach.
    { induction n as [|n IH]; intros x y d Hn Hx.
      - inversion Hn; subst. exists d. split; [done|lia].
      - inversion Hn as [|? ? z ? Hxz Hzy]; subst. destruct (Hc _ _ _ Hx Hxz) as (e & He & Hle).
        destruct (IH _ _ _ Hzy He) as (e' & He' & Hle'). exists e'. split; [done|lia]. }
    intros y n. split.
    + intros Hy. split; [by apply Hs|]. intros k Hk. destruct (Hreach _ _ _ _ Hk H0) as (e & He & Hle).
      assert (e = n) as -> by congruence. lia.
    + intros [Hn Hmin]. destruct (Hreach _ _ _ _ Hn H0) as (e & He & Hle). rewrite He. f_equal.
      specialize (Hmin e (Hs _ _ He)). lia.
Qed.
End bfs.
