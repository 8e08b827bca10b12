(** * Proofs about operations, responses and form values. *)
From Coq Require Import Ascii.
From stdpp Require Import sorting.
From stdpp Require Import base list strings gmap.
From Verif Require Import StrOrder StrLib StrSplit DecLib SccSpec RouteModel RouteProofs PathModel PathSpec PathProofs.

(** ** The path table *)
Section table.
Context (plain : string → bool) (txt : Z → string) (iter : list string → list string).
Local Notation bp := (build_paths plain txt iter).
Local Notation op := (operation_of plain txt iter).
Lemma build_snoc rs r : bp (rs ++ [r]) = add_route plain txt iter (bp rs) r.
Proof. unfold build_paths. by rewrite fold_left_app. Qed.
Lemma last_for_snoc rs r p m x : last_for (rs ++ [r]) p m x ↔
  (route_path r = p ∧ to_upper (o_method r) = m ∧ x = r) ∨
  (¬ (route_path r = p ∧ to_upper (o_method r) = m) ∧ last_for rs p m x).
Proof.
  split.
  - intros (a & b & E & H1 & H2 & H3). destruct b as [|y b' _] using rev_ind.
    + apply app_inj_tail in E as [-> ->]. left. auto.
    + change (a ++ x :: b' ++ [y]) with (a ++ (x :: b') ++ [y]) in E. rewrite app_assoc in E. apply app_inj_tail in E as [-> ->]. right. split.
      * apply H3. apply elem_of_app. right. by left.
      * exists a, b'. split; [done|]. split; [done|]. split; [done|]. intros r' Hr. apply H3. apply elem_of_app. by left.
  - intros [(H1 & H2 & ->)|(H1 & a & b & -> & H2 & H3 & H4)].
    + exists rs, []. split; [done|]. split; [done|]. split; [done|]. by intros ? ?%elem_of_nil.
    + exists a, (b ++ [r]). split; [by rewrite <- app_assoc|]. split; [done|]. split; [done|].
      intros r' [Hr| ->%elem_of_list_singleton]%elem_of_app; [by apply H4|done].
Qed.
Lemma table_path rs p : is_Some (bp rs !! p) ↔ ∃ r, r ∈ rs ∧ route_path r = p.
Proof.
  induction rs as [|r rs IH] using rev_ind.
  - unfold build_paths. cbn. rewrite lookup_empty. split; [by intros []|]. by intros (r & ?%elem_of_nil & _).
  - rewrite build_snoc. unfold add_route. rewrite lookup_insert_is_Some, IH. split.
    + intros [<-|[_ (x & Hx & Hp)]]; [exists r|exists x]; (split; [apply elem_of_app|done]); [right; left|by left].
    + intros (x & [Hx| ->%elem_of_list_singleton]%elem_of_app & Hp).
      * destruct (decide (route_path r = p)); [by left|]. right. eauto.
      * by left.
Qed.
Lemma table_op rs p m o : (bp rs !! p ≫= (λ i, i !! m)) = Some o ↔ m ∈ methods ∧ ∃ r, last_for rs p m r ∧ o = op r.
Proof.
  revert o. induction rs as [|r rs IH] using rev_ind; intros o.
  - unfold build_paths. cbn. rewrite lookup_empty. split; [done|]. intros (_ & r & (a & b & E & _) & _). by destruct a.
  - rewrite build_snoc. unfold add_route. destruct (decide (route_path r = p)) as [Hp|Hp].
    + rewrite Hp, lookup_insert. cbn [mbind option_bind]. unfold set_operation.
      assert ((default ∅ (bp rs !! p) : gmap string oper) !! m = bp rs !! p ≫= (λ i, i !! m)) as E.
      { destruct (bp rs !! p) as [i|]; [done|]. cbn. apply lookup_empty. }
      destruct (decide (to_upper (o_method r) ∈ methods)) as [Hm|Hm]; [destruct (decide (to_upper (o_method r) = m)) as [<-|Hne]|].
      * rewrite lookup_insert. split.
        -- intros [= <-]. split; [done|]. exists r. split; [|done]. apply last_for_snoc. by left.
        -- intros (_ & x & Hx & ->). apply last_for_snoc in Hx as [(_ & _ & ->)|[H _]]; [done|]. by destruct H.
      * rewrite lookup_insert_ne by done. rewrite E, IH. split; intros (H & x & Hx & Ho); (split; [done|]); exists x; (split; [|done]).
        -- apply last_for_snoc. right. split; [|done]. by intros [_ ?].
        -- by apply last_for_snoc in Hx as [(_ & ? & _)|[_ Hx]].
      * rewrite E, IH. split; intros (H & x & Hx & Ho); (split; [done|]); exists x; (split; [|done]).
        -- apply last_for_snoc. right. split; [|done]. intros [_ ?]. congruence.
        -- apply last_for_snoc in Hx as [(_ & ? & _)|[_ Hx]]; [|done]. congruence.
    + rewrite lookup_insert_ne by done. rewrite IH. split; intros (H & x & Hx & Ho); (split; [done|]); exists x; (split; [|done]).
      * apply last_for_snoc. right. split; [|done]. by intros [? _].
      * by apply last_for_snoc in Hx as [(? & _)|[_ Hx]].
Qed.
End table.

(** ** Responses *)
Definition unknown_at (info : gmap string resp) (k : string) : option resp :=
  match info !! k with Some r => if bool_decide (rp_status r < 0)%Z then Some r else None | None => None end.
Definition known_at (info : gmap string resp) (k : string) : option resp :=
  match info !! k with Some r => if bool_decide (rp_status r < 0)%Z then None else Some r | None => None end.
Section chosen.
Context (info : gmap string resp) (Hdef : ∀ r, info !! "default" = Some r → (rp_status r < 0)%Z).
Lemma prefer_some c n : ∃ w, prefer_response c (Some n) = Some w.
Proof. destruct c as [c|]; [|by eexists]. destruct (prefer_pair c n) as (b & Hb & _). eauto. Qed.
Lemma choose_fold ks : let ch := fold_left (choose info) ks ∅ in
  (∀ k, k ≠ "default" → ch !! k = (if decide (k ∈ ks) then known_at info k else None)) ∧
  ch !! "default" = fold_left prefer_response (unknown_at info <$> ks) None.
Proof.
  induction ks as [|k ks IH] using rev_ind.
  - cbn. split; [|by rewrite lookup_empty]. intros k Hk. rewrite lookup_empty. by destruct (decide (k ∈ [])) as [?%elem_of_nil|].
  - cbv zeta in *. destruct IH as [IH1 IH2]. rewrite fold_left_app, fmap_app, fold_left_app. cbn [fold_left fmap list_fmap].
    set (ch := fold_left (choose info) ks ∅) in *. rewrite <- IH2. unfold choose.
    assert (∀ k', k' ≠ k → (if decide (k' ∈ ks ++ [k]) then known_at info k' else None) = (if decide (k' ∈ ks) then known_at info k' else None)) as Hother.
    { intros k' Hne. destruct (decide (k' ∈ ks)) as [H|H].
      - rewrite decide_True; [done|]. apply elem_of_app. by left.
      - rewrite decide_False; [done|]. intros [?| ?%elem_of_list_singleton]%elem_of_app; done. }
    assert (∀ x, (if decide (k ∈ ks ++ [k]) then x else None) = (x : option resp)) as Hself.
    { intros x. rewrite decide_True; [done|]. apply elem_of_app. right. left. }
    destruct (info !! k) as [r|] eqn:Ek.
    + destruct (bool_decide (rp_status r < 0)%Z) eqn:Es.
      * assert (unknown_at info k = Some r) as Hu by (unfold unknown_at; by rewrite Ek, Es). rewrite Hu.
        destruct (prefer_some (ch !! "default") r) as [w Hw]. rewrite Hw. split; [|by rewrite lookup_insert].
        intros k' Hk'. rewrite lookup_insert_ne by done. destruct (decide (k' = k)) as [->|Hne].
        -- rewrite Hself, IH1 by done. unfold known_at. rewrite Ek, Es. by destruct (decide (k ∈ ks)).
        -- by rewrite Hother, IH1.
      * assert (unknown_at info k = None) as Hu by (unfold unknown_at; by rewrite Ek, Es). rewrite Hu.
        assert (k ≠ "default") as Hkd.
        { intros ->. apply Hdef in Ek. by rewrite bool_decide_true in Es. }
        split.
        -- intros k' Hk'. destruct (decide (k' = k)) as [->|Hne].
           ++ rewrite lookup_insert, Hself. unfold known_at. by rewrite Ek, Es.
           ++ by rewrite lookup_insert_ne, Hother, IH1 by done.
        -- rewrite lookup_insert_ne by done. by destruct (ch !! "default").
    + assert (unknown_at info k = None) as Hu by (unfold unknown_at; by rewrite Ek). rewrite Hu.
      split; [|by destruct (ch !! "default")]. intros k' Hk'. destruct (decide (k' = k)) as [->|Hne].
      * rewrite Hself, IH1 by done. unfold known_at. rewrite Ek. by destruct (decide (k ∈ ks)).
      * by rewrite Hother, IH1.
Qed.
Context (plain : string → bool) (txt : Z → string) (iter : list string → list string) (Hiter : is_order iter) (Hne : info ≠ ∅).
Local Notation ks := (ssort (iter (fst <$> map_to_list info))).
Lemma keys_spec k : k ∈ ks ↔ is_Some (info !! k).
Proof.
  rewrite ssort_perm, (Hiter _), elem_of_list_fmap. split.
  - intros ([k' r] & -> & H%elem_of_map_to_list). eauto.
  - intros [r Hr]. exists (k, r). split; [done|]. by apply elem_of_map_to_list.
Qed.
Local Notation ch := (fold_left (choose info) ks ∅).
Local Notation out := (build_responses plain txt iter info).
Lemma out_other k : k ≠ "default" → out !! k = render_response txt <$> known_at info k.
Proof.
  intros Hk. unfold build_responses. rewrite decide_False by done. cbv zeta. rewrite lookup_fmap.
  assert (ch !! k = known_at info k) as E.
  { destruct (choose_fold ks) as [H _]. rewrite H by done. case_decide as Hd; [done|]. unfold known_at.
    destruct (info !! k) eqn:E; [|done]. exfalso. apply Hd, keys_spec. by rewrite E. }
  f_equal. destruct (ch !! "default"); [|done]. destruct (Nat.ltb 1 _ && _); [|done]. by rewrite lookup_delete_ne.
Qed.
Lemma chosen_default : match ch !! "default" with
  | None => ∀ k r, info !! k = Some r → known r
  | Some w => (∃ k, info !! k = Some w) ∧ (rp_status w < 0)%Z ∧
      ∀ k r, info !! k = Some r → (rp_status r < 0)%Z → preferred w r
  end.
Proof.
  destruct (choose_fold ks) as [_ H]. rewrite H. pose proof (best_ok (unknown_at info <$> ks) None) as Hb.
  assert (∀ k r, info !! k = Some r → (rp_status r < 0)%Z → Some r ∈ unknown_at info <$> ks) as Hin.
  { intros k r Hr Hs. apply elem_of_list_fmap. exists k. split; [|apply keys_spec; eauto]. unfold unknown_at. rewrite Hr. by rewrite bool_decide_true. }
  destruct (fold_left prefer_response _ None) as [w|].
  - destruct Hb as [[?|Hw] Hall]; [done|]. apply elem_of_list_fmap in Hw as (k & Hk & _). unfold unknown_at in Hk.
    destruct (info !! k) as [r|] eqn:Er; [|done]. destruct (bool_decide (rp_status r < 0)%Z) eqn:Es; [|done]. injection Hk as ->.
    apply bool_decide_eq_true in Es. split; [eauto|]. split; [done|]. intros k' r' Hr' Hs'. apply Hall. right. by eapply Hin.
  - destruct Hb as [_ Hall]. intros k r Hr. unfold known. destruct (decide (rp_status r < 0)%Z) as [Hs|]; [|lia].
    pose proof (Hin k r Hr Hs) as Hx. rewrite Forall_forall in Hall. by apply Hall in Hx.
Qed.
Lemma chosen_eq k : k ≠ "default" → ch !! k = known_at info k.
Proof.
  intros Hk. destruct (choose_fold ks) as [H _]. rewrite H by done. case_decide as Hd; [done|]. unfold known_at.
  destruct (info !! k) eqn:E; [|done]. exfalso. apply Hd, keys_spec. by rewrite E.
Qed.
Lemma out_default : out !! "default" = match ch !! "default" with
  | Some w => if Nat.ltb 1 (size ch) && uninformative plain w ch then None else Some (render_response txt w)
  | None => None
  end.
Proof.
  unfold build_responses. rewrite decide_False by done. cbv zeta. rewrite lookup_fmap.
  destruct (ch !! "default") as [w|] eqn:E; [|by rewrite E]. destruct (Nat.ltb 1 _ && _); [by rewrite lookup_delete|by rewrite E].
Qed.
Lemma size_gt_1 (m : gmap string resp) k v : m !! k = Some v → Nat.ltb 1 (size m) = true ↔ ∃ k' v', k' ≠ k ∧ m !! k' = Some v'.
Proof.
  intros Hk. rewrite Nat.ltb_lt.
  assert (size m = S (size (delete k m))) as ->.
  { rewrite <- (insert_delete m k v Hk) at 1. apply map_size_insert_None. apply lookup_delete. }
  split.
  - intros H. destruct (map_choose (delete k m)) as (k' & v' & Hv).
    { intros E. rewrite E, map_size_empty in H. lia. }
    apply lookup_delete_Some in Hv as [? ?]. exists k', v'. done.
  - intros (k' & v' & Hne' & Hv). assert (delete k m !! k' = Some v') as Hd by by rewrite lookup_delete_ne.
    assert (size (delete k m) ≠ 0); [|lia]. intros E%map_size_empty_inv. by rewrite E, lookup_empty in Hd.
Qed.
Lemma known_at_Some k r : known_at info k = Some r ↔ info !! k = Some r ∧ known r.
Proof.
  unfold known_at, known. destruct (info !! k) as [x|]; [|split; [done|by intros []]].
  destruct (bool_decide (rp_status x < 0)%Z) eqn:E.
  - apply bool_decide_eq_true in E. split; [done|]. intros [[= ->] H]. lia.
  - apply bool_decide_eq_false in E. split; [intros [= ->]; split; [done|lia]|by intros [[= ->] _]].
Qed.
Lemma dropped_spec w : ch !! "default" = Some w →
  Nat.ltb 1 (size ch) && uninformative plain w ch = true ↔
  (∃ k r, info !! k = Some r ∧ known r) ∧
  (generic_response plain w = true ∨ ∃ k r, info !! k = Some r ∧ known r ∧ rp_schema r = rp_schema w).
Proof.
  intros Hw.
  assert (∀ k r, k ≠ "default" → ch !! k = Some r ↔ info !! k = Some r ∧ known r) as Hch.
  { intros k r Hk. rewrite chosen_eq by done. apply known_at_Some. }
  assert (∀ k r, info !! k = Some r → known r → k ≠ "default") as Hnd.
  { intros k r Hr Hkn ->. apply Hdef in Hr. unfold known in Hkn. lia. }
  rewrite andb_true_iff, (size_gt_1 ch "default" w Hw). unfold uninformative. rewrite orb_true_iff, existsb_exists. split.
  - intros [(k & r & Hk & Hr) Ho]. split; [exists k, r; by apply Hch|]. destruct Ho as [Ho|([k' r'] & Hin & Ho)]; [by left|]. right.
    apply elem_of_list_In, elem_of_map_to_list in Hin. cbn [fst snd] in Ho. apply andb_true_iff in Ho as [H1 H2].
    apply negb_true_iff, bool_decide_eq_false in H1. apply bool_decide_eq_true in H2. exists k', r'. apply Hch in Hin as [? ?]; done.
  - intros [(k & r & Hr & Hk) Ho]. split; [exists k, r; split; [by eapply Hnd|]; apply Hch; [by eapply Hnd|done]|].
    destruct Ho as [Ho|(k' & r' & Hr' & Hk' & Hs)]; [by left|]. right. exists (k', r'). split.
    + apply elem_of_list_In, elem_of_map_to_list. apply Hch; [by eapply Hnd|done].
    + cbn [fst snd]. rewrite (bool_decide_false (k' = "default")) by by eapply Hnd. by rewrite bool_decide_true.
Qed.
End chosen.
Lemma responses_order plain txt iter iter' info : is_order iter → is_order iter' →
  build_responses plain txt iter info = build_responses plain txt iter' info.
Proof.
  intros H H'. unfold build_responses. by rewrite (ssort_unique (iter _) (iter' (fst <$> map_to_list info))) by by rewrite H, H'.
Qed.

(** ** ServeMux patterns *)
Lemma mem_app c s t : mem_byte c (s +:+ t) = mem_byte c s || mem_byte c t.
Proof. induction s as [|d s IH]; [done|]. rewrite sapp_cons. cbn [mem_byte]. by rewrite IH, orb_assoc. Qed.
Lemma mem_spec c s : mem_byte c s = true ↔ ∃ x y, s = x +:+ String c y.
Proof.
  split.
  - induction s as [|d s IH]; [done|]. cbn [mem_byte]. intros [H|H]%orb_true_iff.
    + apply bool_decide_eq_true in H as ->. exists "", s. done.
    + destruct (IH H) as (x & y & ->). exists (String d x), y. by rewrite sapp_cons.
  - intros (x & y & ->). rewrite mem_app. cbn [mem_byte]. rewrite bool_decide_true by done. by rewrite orb_true_r.
Qed.
Lemma not_mem_spec c s : mem_byte c s = false ↔ free_of c s.
Proof. unfold free_of. rewrite <- mem_spec. by destruct (mem_byte c s). Qed.
Lemma all_of_cons cs c s : all_of cs (String c s) → mem_byte c cs = true ∧ all_of cs s.
Proof.
  intros H. split; [apply mem_spec, (H c "" s); done|]. intros d a b ->. apply (H d (String c a) b). by rewrite sapp_cons.
Qed.
Lemma trim_left_all cs q s : all_of cs q → trim_left_any cs (q +:+ s) = trim_left_any cs s.
Proof.
  induction q as [|c q IH]; intros H; [done|]. apply all_of_cons in H as [H1 H2]. rewrite sapp_cons. cbn [trim_left_any]. rewrite H1. by apply IH.
Qed.
Lemma trim_left_stop cs c s : mem_byte c cs = false → trim_left_any cs (String c s) = String c s.
Proof. intros H. cbn. by rewrite H. Qed.
Lemma trim_right_all cs q : all_of cs q → trim_right_any cs q = "".
Proof. induction q as [|c q IH]; intros H; [done|]. apply all_of_cons in H as [H1 H2]. cbn. by rewrite IH, H1. Qed.
Lemma trim_right_app cs s c q : mem_byte c cs = false → all_of cs q → trim_right_any cs (s +:+ String c q) = s +:+ String c "".
Proof.
  intros Hc Hq. induction s as [|d s IH].
  - change ("" +:+ String c q) with (String c q). cbn. rewrite (trim_right_all _ _ Hq). by rewrite Hc.
  - rewrite !sapp_cons. cbn [trim_right_any]. rewrite IH. destruct s; cbn; done.
Qed.
Lemma all_of_nil cs : all_of cs "".
Proof. intros c a b H. by destruct a. Qed.
Lemma trim_any_stop cs s c p d : mem_byte c cs = false → mem_byte d cs = false → String c s = p +:+ String d "" →
  trim_any cs (String c s) = String c s.
Proof.
  intros Hc Hd E. unfold trim_any. rewrite trim_left_stop by done. rewrite E. apply trim_right_app; [done|apply all_of_nil].
Qed.
Lemma method_facts m : m ∈ http_methods →
  str_any (λ c, bool_decide (c = " "%char)) m = false ∧ to_upper (trim_any spaces m) = m ∧ ∃ c s, m = String c s ∧ mem_byte c quotes = false.
Proof.
  intros H. unfold http_methods in H. repeat (apply elem_of_cons in H as [->|H]; [split; [vm_compute; done|split; [vm_compute; done|do 2 eexists; split; [done|vm_compute; done]]]|]).
  by apply elem_of_nil in H.
Qed.
Lemma split_method_ok m p gap q1 q2 : m ∈ http_methods → pattern_path p → all_of spaces gap → all_of quotes q1 → all_of quotes q2 →
  split_method (q1 +:+ m +:+ " " +:+ gap +:+ p +:+ q2) = (m, p).
Proof.
  intros Hm [[s1 Hp1] (s2 & c2 & Hp2 & Hc2)] Hg H1 H2.
  apply not_mem_spec in Hc2. assert (mem_byte c2 quotes = false ∧ mem_byte c2 spaces = false) as [Hcq Hcs].
  { rewrite mem_app in Hc2. by apply orb_false_iff in Hc2. }
  destruct (method_facts m Hm) as (Hsp & Hup & c & s & Hmc & Hq). unfold split_method.
  assert (trim_any quotes (q1 +:+ m +:+ " " +:+ gap +:+ p +:+ q2) = m +:+ " " +:+ gap +:+ p) as ->.
  { unfold trim_any. rewrite trim_left_all by done. rewrite Hmc at 1. rewrite sapp_cons, trim_left_stop by done.
    rewrite <- sapp_cons, <- Hmc. rewrite Hp2.
    replace (m +:+ " " +:+ gap +:+ (s2 +:+ String c2 "") +:+ q2) with ((m +:+ " " +:+ gap +:+ s2) +:+ String c2 q2) by by rewrite !sapp_assoc.
    rewrite trim_right_app by done. by rewrite !sapp_assoc. }
  assert (take_until (λ c, bool_decide (c = " "%char)) (m +:+ " " +:+ gap +:+ p) = m) as Ht.
  { change (" " +:+ gap +:+ p) with (String " " (gap +:+ p)). rewrite take_until_app, Hsp. cbn [take_until]. rewrite bool_decide_true by done. apply sapp_nil. }
  rewrite Ht, Hup. rewrite (bool_decide_false (m = "")) by by rewrite Hmc.
  assert (contains_byte " " (m +:+ " " +:+ gap +:+ p) = true) as ->.
  { unfold contains_byte. rewrite str_any_app. cbn. by rewrite orb_true_r. }
  cbn [negb orb]. rewrite decide_True by done. f_equal.
  change (" " +:+ gap +:+ p) with (String " " (gap +:+ p)).
  replace (str_drop (S (String.length m)) (m +:+ String " " (gap +:+ p))) with (gap +:+ p).
  2:{ replace (m +:+ String " " (gap +:+ p)) with ((m +:+ " ") +:+ (gap +:+ p)) by by rewrite sapp_assoc.
      replace (S (String.length m)) with (String.length (m +:+ " ")) by (rewrite sapp_length; cbn; lia). by rewrite str_drop_app. }
  unfold trim_any. rewrite trim_left_all by done. rewrite Hp1. change ("/" +:+ s1) with (String "/" s1).
  rewrite trim_left_stop by (vm_compute; done). change (String "/" s1) with ("/" +:+ s1). rewrite <- Hp1, Hp2. apply trim_right_app; [done|apply all_of_nil].
Qed.
Lemma split_method_plain p q1 q2 : pattern_path p → free_of " "%char p → all_of quotes q1 → all_of quotes q2 →
  split_method (q1 +:+ p +:+ q2) = ("", p).
Proof.
  intros [[s1 Hp1] (s2 & c2 & Hp2 & Hc2)] Hf H1 H2.
  apply not_mem_spec in Hc2. assert (mem_byte c2 quotes = false) as Hcq.
  { rewrite mem_app in Hc2. by apply orb_false_iff in Hc2 as [? _]. }
  unfold split_method.
  assert (trim_any quotes (q1 +:+ p +:+ q2) = p) as ->.
  { unfold trim_any. rewrite trim_left_all by done. rewrite Hp1 at 1. rewrite sapp_assoc. change ("/" +:+ s1 +:+ q2) with (String "/" (s1 +:+ q2)).
    rewrite trim_left_stop by (vm_compute; done). change (String "/" (s1 +:+ q2)) with ("/" +:+ s1 +:+ q2). rewrite <- sapp_assoc, <- Hp1, Hp2, sapp_assoc.
    by apply trim_right_app. }
  apply free_of_spec in Hf. by rewrite Hf.
Qed.

Lemma ident_run_length s : String.length (ident_run s) ≤ String.length s.
Proof. induction s as [|c s IH]; cbn; [lia|]. destruct (ident_char c); cbn; lia. Qed.
Lemma unwild_enough f f' s : String.length s ≤ f → String.length s ≤ f' → unwild f s = unwild f' s.
Proof.
  revert f' s. induction f as [|f IH]; intros f' s H1 H2.
  - destruct s; [|cbn in H1; lia]. by destruct f'.
  - destruct f' as [|f']; [destruct s; [done|cbn in H2; lia]|]. destruct s as [|c s]; [done|]. cbn in H1, H2. cbn [unwild].
    assert (String.length (str_drop 4 (str_drop (String.length (ident_run s)) s)) ≤ String.length s) by (rewrite !str_drop_length; lia).
    destruct (_ && _); [|f_equal; apply IH; lia]. do 3 f_equal. apply IH; lia.
Qed.
Definition unwild_all (s : string) : string := unwild (String.length s) s.
Lemma unwild_text s t : free_of c_lbrace s → unwild_all (s +:+ t) = s +:+ unwild_all t.
Proof.
  intros H. unfold unwild_all. rewrite sapp_length. induction s as [|c s IH]; [done|]. apply free_cons in H as [H1 H2].
  rewrite !sapp_cons. cbn [String.length plus unwild]. rewrite (bool_decide_false (c = c_lbrace)) by done. cbn [andb]. by rewrite IH.
Qed.
Lemma ident_run_ident n t : ident n → (match t with String c _ => ident_char c = false | "" => True end) → ident_run (n +:+ t) = n ∧ starts_ident (n +:+ t) = true.
Proof.
  intros (c & s & -> & Hc & Hs) Ht. split; [|done]. apply ident_run_app; [|done]. cbn. by rewrite (ident_start_char _ Hc), Hs.
Qed.
Lemma unwild_var n t : ident n → unwild_all ("{" +:+ n +:+ "}" +:+ t) = "{" +:+ n +:+ "}" +:+ unwild_all t.
Proof.
  intros Hn. unfold unwild_all at 1. change ("{" +:+ n +:+ "}" +:+ t) with (String c_lbrace (n +:+ String c_rbrace t)).
  cbn [String.length unwild]. destruct (ident_run_ident n (String c_rbrace t) Hn eq_refl) as [-> ->]. rewrite str_drop_app. cbn [has_prefix].
  replace (has_prefix "...}" (String c_rbrace t)) with false by done. rewrite andb_false_r.
  change (unwild (String.length (n +:+ String c_rbrace t)) (n +:+ String c_rbrace t)) with (unwild_all (n +:+ String c_rbrace t)).
  replace (n +:+ String c_rbrace t) with ((n +:+ "}") +:+ t) by by rewrite sapp_assoc. rewrite unwild_text; [by rewrite sapp_assoc|].
  apply free_app. split; [by apply ident_free|]. apply free_of_spec. vm_compute. done.
Qed.
Lemma unwild_rest n t : ident n → unwild_all ("{" +:+ n +:+ "...}" +:+ t) = "{" +:+ n +:+ "}" +:+ unwild_all t.
Proof.
  intros Hn. unfold unwild_all at 1. change ("{" +:+ n +:+ "...}" +:+ t) with (String c_lbrace (n +:+ "...}" +:+ t)).
  cbn [String.length unwild]. destruct (ident_run_ident n ("...}" +:+ t) Hn eq_refl) as [-> ->]. rewrite str_drop_app.
  rewrite bool_decide_true by done. replace (has_prefix "...}" ("...}" +:+ t)) with true by done. cbn [andb].
  change ("{" +:+ n +:+ "}" +:+ unwild_all t) with (String c_lbrace (n +:+ String c_rbrace (unwild_all t))). do 3 f_equal.
  change (str_drop 4 ("...}" +:+ t)) with t. apply unwild_enough; [|done]. rewrite !sapp_length. lia.
Qed.
Lemma unwild_end t : unwild_all ("{$}" +:+ t) = "{$}" +:+ unwild_all t.
Proof. unfold unwild_all at 1. change ("{$}" +:+ t) with (String "{" (String "$" (String "}" t))). cbn [String.length unwild]. vm_compute ident_run. reflexivity. Qed.
Definition drop_all (s : string) : string := drop_anchor (String.length s) s.
Lemma drop_enough f f' s : String.length s ≤ f → String.length s ≤ f' → drop_anchor f s = drop_anchor f' s.
Proof.
  revert f' s. induction f as [|f IH]; intros f' s H1 H2.
  - destruct s; [|cbn in H1; lia]. by destruct f'.
  - destruct f' as [|f']; [destruct s; [done|cbn in H2; lia]|]. cbn [drop_anchor].
    destruct (has_prefix "{$}" s) eqn:E.
    + apply has_prefix_spec in E as [t ->]. rewrite sapp_length in H1, H2. cbn [String.length] in H1, H2. change (str_drop 3 ("{$}" +:+ t)) with t. apply IH; lia.
    + destruct s as [|c s]; [done|]. cbn in H1, H2. f_equal. apply IH; lia.
Qed.
Lemma drop_text s t : free_of c_lbrace s → drop_all (s +:+ t) = s +:+ drop_all t.
Proof.
  intros H. unfold drop_all. rewrite sapp_length. induction s as [|c s IH]; [done|]. apply free_cons in H as [H1 H2].
  rewrite !sapp_cons. cbn [String.length plus drop_anchor]. destruct (has_prefix "{$}" _) eqn:E; [|by rewrite IH].
  apply has_prefix_spec in E as [u E]. by injection E as -> _.
Qed.
Lemma drop_var n t : ident n → drop_all ("{" +:+ n +:+ "}" +:+ t) = "{" +:+ n +:+ "}" +:+ drop_all t.
Proof.
  intros Hn. unfold drop_all at 1. change ("{" +:+ n +:+ "}" +:+ t) with (String c_lbrace (n +:+ String c_rbrace t)).
  cbn [String.length drop_anchor]. destruct (has_prefix "{$}" _) eqn:E.
  - apply has_prefix_spec in E as [u E]. destruct Hn as (c & s & -> & Hc & _). injection E as -> _. done.
  - change (drop_anchor (String.length (n +:+ String c_rbrace t)) (n +:+ String c_rbrace t)) with (drop_all (n +:+ String c_rbrace t)).
    replace (n +:+ String c_rbrace t) with ((n +:+ "}") +:+ t) by by rewrite sapp_assoc. rewrite drop_text; [by rewrite sapp_assoc|].
    apply free_app. split; [by apply ident_free|]. apply free_of_spec. vm_compute. done.
Qed.
Lemma drop_end t : drop_all ("{$}" +:+ t) = drop_all t.
Proof.
  unfold drop_all at 1. rewrite sapp_length. change (String.length "{$}" + String.length t) with (S (S (S (String.length t)))).
  remember (S (S (String.length t))) as f eqn:Hf. cbn [drop_anchor].
  replace (has_prefix "{$}" ("{$}" +:+ t)) with true by done. change (str_drop 3 ("{$}" +:+ t)) with t. apply drop_enough; lia.
Qed.
Definition show_muxes (ms : list mux) : string := foldr (λ m s, show_mux m +:+ s) "" ms.
Lemma normalize_show ms : (∀ m, m ∈ ms → mux_ok m) →
  normalize_servemux (foldr (λ m s, show_mux m +:+ s) "" ms) = foldr (λ m s, openapi_mux m +:+ s) "" ms.
Proof.
  intros H. unfold normalize_servemux. fold (show_muxes ms). fold (unwild_all (show_muxes ms)). fold (drop_all (unwild_all (show_muxes ms))).
  induction ms as [|m ms IH]; [done|]. cbn [show_muxes foldr]. fold (show_muxes ms).
  assert (mux_ok m) as Hm by (apply H; left). rewrite <- IH by (intros x Hx; apply H; by right).
  destruct m as [s|n|n|]; cbn [show_mux openapi_mux mux_ok] in *; rewrite ?sapp_assoc.
  - by rewrite unwild_text, drop_text.
  - by rewrite unwild_var, drop_var.
  - by rewrite unwild_rest, drop_var.
  - by rewrite unwild_end, drop_end.
Qed.
