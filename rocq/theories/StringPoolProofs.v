From stdpp Require Import base list strings gmap.
From Verif Require Import StringPoolModel StringPoolSpec.

Definition pool_inv (p : pool) : Prop :=
  NoDup (pool_values p) ∧ "" ∉ pool_values p ∧
  ∃ m, pool_strings p = Some m ∧
    ∀ s i, m !! s = Some i ↔ (0 ≤ i)%Z ∧ pool_values p !! Z.to_nat i = Some s.

Lemma index_from_spec vs : ∀ i m s j,
  NoDup vs → (0 ≤ i)%Z →
  (index_from i vs m !! s = Some j ↔
   (i ≤ j)%Z ∧ vs !! Z.to_nat (j - i) = Some s ∨ s ∉ vs ∧ m !! s = Some j).
Proof.
  induction vs as [|v vs IH]; intros i m s j Hnd Hi; simpl.
  - split.
    + intros H. right. split; [apply not_elem_of_nil|done].
    + intros [[_ H]|[_ H]]; [by rewrite lookup_nil in H|done].
  - apply NoDup_cons in Hnd as [Hv Hnd].
    rewrite IH by (auto; lia).
    destruct (decide (s = v)) as [->|Hne].
    + rewrite lookup_insert. split.
      * intros [[Hle Hl]|[_ [= ->]]].
        { exfalso. apply Hv. by eapply elem_of_list_lookup_2. }
        left. split; [lia|]. by replace (j - j)%Z with 0%Z by lia.
      * intros [[Hle Hl]|[Hni _]].
        { right. split; [done|].
          destruct (decide (j = i)) as [->|Hji]; [done|].
          exfalso. apply Hv.
          replace (Z.to_nat (j - i)) with (S (Z.to_nat (j - (i+1)))) in Hl by lia.
          simpl in Hl. by eapply elem_of_list_lookup_2. }
        exfalso. apply Hni. left.
    + rewrite lookup_insert_ne by done. rewrite elem_of_cons. split.
      * intros [[Hle Hl]|[Hni Hm]].
        { left. split; [lia|].
          by replace (Z.to_nat (j - i)) with (S (Z.to_nat (j - (i+1)))) by lia. }
        right. split; [tauto|done].
      * intros [[Hle Hl]|[Hni Hm]]; [|right; tauto].
        left. destruct (decide (j = i)) as [->|Hji].
        { replace (i - i)%Z with 0%Z in Hl by lia. simpl in Hl. congruence. }
        split; [lia|].
        by replace (Z.to_nat (j - i)) with (S (Z.to_nat (j - (i+1)))) in Hl by lia.
Qed.

Lemma pool_inv_unmarshal vs : NoDup vs → "" ∉ vs → pool_inv (pool_unmarshal vs).
Proof.
  intros Hnd He. split; [done|]. split; [done|]. eexists; split; [reflexivity|].
  intros s i. rewrite index_from_spec by (auto; lia).
  rewrite Z.sub_0_r, lookup_empty. simpl. split; [|tauto].
  intros [?|[_ ?]]; [done|discriminate].
Qed.

Lemma pool_inv_new : pool_inv new_pool.
Proof.
  split; [constructor|]. split; [apply not_elem_of_nil|].
  exists ∅. split; [done|]. intros s i. rewrite lookup_empty. simpl.
  rewrite lookup_nil. split; [discriminate|intros [_ ?]; discriminate].
Qed.

Lemma pool_find_inv p s i : pool_inv p →
  (pool_find p s = Some i ↔ (0 ≤ i)%Z ∧ pool_values p !! Z.to_nat i = Some s).
Proof.
  intros (_ & _ & m & Hm & H). unfold pool_find. rewrite Hm. apply H.
Qed.

Lemma pool_find_None p s : pool_inv p → pool_find p s = None → s ∉ pool_values p.
Proof.
  intros Hp Hn Hin. apply elem_of_list_lookup_1 in Hin as [i Hi].
  assert (pool_find p s = Some (Z.of_nat i)) as H.
  { apply pool_find_inv; [done|]. rewrite Nat2Z.id. split; [lia|done]. }
  congruence.
Qed.

Lemma pool_get_inv p s : pool_inv p → pool_inv (fst (pool_get p s)).
Proof.
  intros Hp. unfold pool_get.
  case_decide as Hs; [done|].
  destruct (pool_find p s) as [i|] eqn:Hf; [done|].
  pose proof (pool_find_None _ _ Hp Hf) as Hnin.
  destruct Hp as (Hnd & He & m & Hm & H). rewrite Hm. simpl.
  split; simpl.
  { apply NoDup_app. split; [done|]. split; [|apply NoDup_singleton].
    intros x Hx Hx'. apply elem_of_list_singleton in Hx' as ->. done. }
  split.
  { rewrite elem_of_app, elem_of_list_singleton. intros [?|?]; [done|congruence]. }
  eexists; split; [reflexivity|].
  intros s' i. destruct (decide (s' = s)) as [->|Hne].
  - rewrite lookup_insert. split.
    + intros [= <-]. split; [lia|]. rewrite Nat2Z.id.
      by rewrite list_lookup_middle.
    + intros [Hi Hl]. apply lookup_app_Some in Hl as [Hl|[Hge Hl]].
      { exfalso. apply Hnin. by eapply elem_of_list_lookup_2. }
      apply list_lookup_singleton_Some in Hl as [Hl _]. f_equal. lia.
  - rewrite lookup_insert_ne by done. rewrite H. split.
    + intros [Hi Hl]. split; [done|]. by apply lookup_app_l_Some.
    + intros [Hi Hl]. split; [done|].
      apply lookup_app_Some in Hl as [Hl|[Hge Hl]]; [done|].
      apply list_lookup_singleton_Some in Hl as [_ Hl]. congruence.
Qed.

Lemma pool_step_inv p o : pool_inv p → pool_inv (pool_step p o).
Proof.
  intros Hp. destruct o as [s|]; simpl.
  - by apply pool_get_inv.
  - destruct Hp as (Hnd & He & _). by apply pool_inv_unmarshal.
Qed.

Lemma pool_run_inv h p : pool_inv p → pool_inv (pool_run p h).
Proof.
  revert p. induction h as [|o h IH]; intros p Hp; [done|].
  simpl. apply IH. by apply pool_step_inv.
Qed.

Lemma pool_get_values p s : pool_inv p →
  pool_values (fst (pool_get p s)) = intern (pool_values p) s.
Proof.
  intros Hp. unfold pool_get, intern.
  case_decide as Hs.
  { rewrite decide_True by tauto. done. }
  destruct (pool_find p s) as [i|] eqn:Hf.
  - apply pool_find_inv in Hf as [_ Hf]; [|done].
    rewrite decide_True; [done|]. right. by eapply elem_of_list_lookup_2.
  - pose proof (pool_find_None _ _ Hp Hf) as Hnin.
    rewrite decide_False by tauto.
    destruct Hp as (_ & _ & m & Hm & _). by rewrite Hm.
Qed.

Lemma pool_run_values h : ∀ p, pool_inv p →
  pool_values (pool_run p h) =
  fold_left (fun acc o => match o with OpGet s => intern acc s | OpReload => acc end) h (pool_values p).
Proof.
  induction h as [|o h IH]; intros p Hp; simpl; [done|].
  change (pool_run p (o :: h)) with (pool_run (pool_step p o) h).
  rewrite IH by (by apply pool_step_inv).
  f_equal. destruct o as [s|]; simpl; [|done]. by apply pool_get_values.
Qed.

Lemma pool_get_index p s : pool_inv p → s ≠ "" →
  ∃ i : nat, snd (pool_get p s) = Z.of_nat i ∧
    pool_values (fst (pool_get p s)) !! i = Some s.
Proof.
  intros Hp Hs. unfold pool_get.
  rewrite decide_False by done.
  destruct (pool_find p s) as [j|] eqn:Hf.
  - apply pool_find_inv in Hf as [Hj Hf]; [|done].
    exists (Z.to_nat j). simpl. split; [lia|done].
  - destruct Hp as (_ & _ & m & Hm & _). rewrite Hm. simpl.
    eexists; split; [reflexivity|]. by rewrite list_lookup_middle.
Qed.

Lemma intern_prefix acc s : acc `prefix_of` intern acc s.
Proof. unfold intern. case_decide; [done|]. by apply prefix_app_r. Qed.

Lemma intern_fold_prefix h : ∀ acc,
  acc `prefix_of` fold_left (fun acc o => match o with OpGet s => intern acc s | OpReload => acc end) h acc.
Proof.
  induction h as [|o h IH]; intros acc; simpl; [done|].
  etrans; [|apply IH]. destruct o; [apply intern_prefix|done].
Qed.

Lemma interned_spec_elem h : ∀ acc s,
  s ∈ fold_left (fun acc o => match o with OpGet s => intern acc s | OpReload => acc end) h acc ↔
  s ∈ acc ∨ s ≠ "" ∧ OpGet s ∈ h.
Proof.
  induction h as [|o h IH]; intros acc s; simpl.
  - split; [tauto|]. intros [?|[_ H]]; [done|by apply not_elem_of_nil in H].
  - rewrite IH. destruct o as [t|].
    + unfold intern. rewrite elem_of_cons. case_decide as Hd.
      * split; [tauto|]. intros [?|[Hs [[= ->]|?]]]; [tauto| |tauto].
        destruct Hd; [done|tauto].
      * rewrite elem_of_app, elem_of_list_singleton. split.
        { intros [[?| ->]|?]; tauto. }
        intros [?|[Hs [[= ->]|?]]]; tauto.
    + rewrite elem_of_cons. split; [tauto|]. intros [?|[? [?|?]]]; [tauto|congruence|tauto].
Qed.

Lemma pool_get_string_lookup p i s :
  pool_values p !! i = Some s → pool_get_string p (Z.of_nat i) = s.
Proof.
  intros H. unfold pool_get_string.
  apply lookup_lt_Some in H as Hlt.
  replace ((0 <=? Z.of_nat i)%Z && (Z.of_nat i <? Z.of_nat (length (pool_values p)))%Z)%bool with true.
  - by rewrite Nat2Z.id, H.
  - symmetry. apply andb_true_intro. split; [apply Z.leb_le|apply Z.ltb_lt]; lia.
Qed.

Lemma pool_run_app p h1 h2 : pool_run p (h1 ++ h2) = pool_run (pool_run p h1) h2.
Proof. apply fold_left_app. Qed.

Lemma pool_get_resolves h s h' : s ≠ "" →
  let p := pool_run new_pool h in
  pool_get_string (pool_run (fst (pool_get p s)) h') (snd (pool_get p s)) = s.
Proof.
  intros Hs p. assert (pool_inv p) as Hp by (apply pool_run_inv, pool_inv_new).
  destruct (pool_get_index p s Hp Hs) as (i & -> & Hi).
  apply pool_get_string_lookup.
  rewrite pool_run_values by (by apply pool_get_inv).
  eapply prefix_lookup; [exact Hi|]. apply intern_fold_prefix.
Qed.

Lemma pool_get_same h s h' t : s ≠ "" → t ≠ "" →
  let p := pool_run new_pool h in
  let p' := pool_run (fst (pool_get p s)) h' in
  snd (pool_get p s) = snd (pool_get p' t) ↔ s = t.
Proof.
  intros Hs Ht p p'.
  assert (pool_inv p) as Hp by (apply pool_run_inv, pool_inv_new).
  assert (pool_inv p') as Hp' by (apply pool_run_inv, pool_get_inv, Hp).
  destruct (pool_get_index p s Hp Hs) as (i & Ei & Hi).
  destruct (pool_get_index p' t Hp' Ht) as (j & Ej & Hj).
  rewrite Ei, Ej.
  assert (pool_values (fst (pool_get p' t)) !! i = Some s) as Hi'.
  { eapply prefix_lookup; [exact Hi|].
    rewrite (pool_get_values p') by done.
    etrans; [|apply intern_prefix]. unfold p'.
    rewrite pool_run_values by (by apply pool_get_inv). apply intern_fold_prefix. }
  pose proof (pool_get_inv p' t Hp') as (Hnd & _).
  split.
  - intros E. assert (i = j) as -> by lia. congruence.
  - intros ->. f_equal. eapply NoDup_lookup; eauto.
Qed.

Lemma pool_values_interned h : pool_values (pool_run new_pool h) = interned h.
Proof. rewrite pool_run_values by apply pool_inv_new. done. Qed.

Lemma pool_reload_same h :
  let p := pool_run new_pool h in
  let q := pool_unmarshal (pool_marshal p) in
  (∀ i, pool_get_string q i = pool_get_string p i) ∧
  (∀ s, snd (pool_get q s) = snd (pool_get p s)) ∧
  (∀ s, pool_values (fst (pool_get q s)) = pool_values (fst (pool_get p s))).
Proof.
  intros p q.
  assert (pool_inv p) as Hp by (apply pool_run_inv, pool_inv_new).
  assert (pool_inv q) as Hq by (destruct Hp as (?&?&_); by apply pool_inv_unmarshal).
  split; [done|]. split.
  - intros s. destruct (decide (s = "")) as [->|Hs]; [done|].
    unfold pool_get. rewrite !decide_False by done.
    assert (pool_find q s = pool_find p s) as ->.
    { apply option_eq. intros i. by rewrite !pool_find_inv by done. }
    destruct (pool_find p s); [done|].
    destruct Hp as (_ & _ & m & Hm & _). rewrite Hm. done.
  - intros s. by rewrite !pool_get_values.
Qed.

Lemma pool_get_string_range p i :
  (i < 0)%Z ∨ (Z.of_nat (pool_size p) ≤ i)%Z → pool_get_string p i = "".
Proof.
  intros H. unfold pool_get_string, pool_size in *.
  destruct (0 <=? i)%Z eqn:E1; [|done].
  destruct (i <? Z.of_nat (length (pool_values p)))%Z eqn:E2; [|done].
  apply Z.leb_le in E1. apply Z.ltb_lt in E2. lia.
Qed.

Lemma zero_pool_stuck h s :
  OpReload ∉ h →
  pool_run zero_pool h = zero_pool ∧ pool_get zero_pool s = (zero_pool, -1)%Z.
Proof.
  induction h as [|o h IH]; intros Hr.
  - split; [done|]. unfold pool_get. by case_decide.
  - apply not_elem_of_cons in Hr as [Ho Hr]. destruct (IH Hr) as [IH1 IH2].
    split; [|done]. simpl. destruct o as [t|]; [|done].
    assert (pool_step zero_pool (OpGet t) = zero_pool) as ->; [|done].
    simpl. unfold pool_get. by case_decide.
Qed.
