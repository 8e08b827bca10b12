(** * Proofs about group mounts and the application of wrappers. *)
From Coq Require Import Ascii.
From stdpp Require Import sorting.
From stdpp Require Import base list strings gmap.
From Coq Require Import ZArith.
From Verif Require Import StrLib StrOrder StrSplit PairModel PairProofs SccSpec SecProps StatModel WrapModel WrapSpec WrapProofs2 MountModel MountSpec.

(** ** Shapes *)
Lemma first_with_cons {A} (K : A → Prop) x l i y : first_with K (x :: l) i y ↔ (K x ∧ i = 0 ∧ y = x) ∨ (¬ K x ∧ ∃ i', i = S i' ∧ first_with K l i' y).
Proof.
  unfold first_with. split.
  - intros (Hi & Hy & Hj). destruct i as [|i].
    + cbn in Hi. injection Hi as <-. by left.
    + right. split; [apply (Hj 0 x); [lia|done]|]. exists i. split; [done|]. split; [done|]. split; [done|]. intros j z Hlt Hz. apply (Hj (S j)); [lia|done].
  - intros [(Hx & -> & ->)|(Hx & i' & -> & Hi & Hy & Hj)].
    + split; [done|]. split; [done|]. intros j z Hlt. lia.
    + split; [done|]. split; [done|]. intros [|j] z Hlt Hz; [cbn in Hz; by injection Hz as <-|]. apply (Hj j); [lia|done].
Qed.
Lemma group_scan_spec ps : ∀ i path f path' f', group_scan i ps path f = (path', f') →
  (∀ k, path' = Some k ↔ path = Some k ∨ (path = None ∧ ∃ j p, k = i + j ∧ first_with path_param ps j p)) ∧
  (f' ≠ "" → ∀ g, f' = g ↔ (f ≠ "" ∧ f = g) ∨ (f = "" ∧ ∃ j q, first_with func_param ps j q ∧ gp_name q = g)) ∧
  (f' = "" ↔ f = "" ∧ ∀ j q, ¬ first_with func_param ps j q).
Proof.
  induction ps as [|p ps IH]; intros i path f path' f' E; cbn [group_scan] in E.
  { injection E as <- <-. split; [|split].
    - intros k. split; [by left|]. intros [?|(_ & j & p & _ & Hp & _)]; [done|]. by rewrite lookup_nil in Hp.
    - intros Hf g. split; [by left|]. intros [[_ ?]|[? _]]; done.
    - split; [|by intros [? _]]. intros ->. split; [done|]. intros j q (Hq & _). by rewrite lookup_nil in Hq. }
  assert (∀ (K : gparam → Prop) (Q : nat → gparam → Prop), ¬ K p → (∃ j y, Q j y ∧ first_with K (p :: ps) j y) ↔ ∃ j y, Q (S j) y ∧ first_with K ps j y) as Hskip.
  { intros K Q HK. split.
    - intros (j & y & HQ & [(? & _)|(_ & i' & -> & H)]%first_with_cons); [done|]. eauto.
    - intros (j & y & HQ & H). exists (S j), y. split; [done|]. apply first_with_cons. right. split; [done|]. eauto. }
  assert (∀ (K : gparam → Prop) (Q : nat → gparam → Prop), K p → (∃ j y, Q j y ∧ first_with K (p :: ps) j y) ↔ Q 0 p) as Hhit.
  { intros K Q HK. split.
    - intros (j & y & HQ & [(_ & -> & ->)|(? & _)]%first_with_cons); done.
    - intros HQ. exists 0, p. split; [done|]. apply first_with_cons. by left. }
  assert (¬ path_param p → ∀ k, (∃ j q, k = i + j ∧ first_with path_param (p :: ps) j q) ↔ ∃ j q, k = S i + j ∧ first_with path_param ps j q) as Hp1.
  { intros HK k. rewrite (Hskip path_param (λ j _, k = i + j) HK). split; intros (j & q & Hk & H); exists j, q; (split; [lia|done]). }
  assert (¬ func_param p → ∀ g, (∃ j q, first_with func_param (p :: ps) j q ∧ gp_name q = g) ↔ ∃ j q, first_with func_param ps j q ∧ gp_name q = g) as Hf1.
  { intros HK g. split.
    - intros (j & q & [(? & _)|(_ & i' & -> & H)]%first_with_cons & Hg); [done|]. eauto.
    - intros (j & q & H & Hg). exists (S j), q. split; [|done]. apply first_with_cons. right. split; [done|]. eauto. }
  assert (¬ func_param p → (∀ j q, ¬ first_with func_param (p :: ps) j q) ↔ ∀ j q, ¬ first_with func_param ps j q) as Hf2.
  { intros HK. split; intros H j q Hfw.
    - apply (H (S j) q). apply first_with_cons. right. split; [done|]. eauto.
    - apply first_with_cons in Hfw as [(? & _)|(_ & i' & -> & Hfw)]; [done|]. by apply (H i' q). }
  destruct (gp_kind p) eqn:Ek.
  - assert (¬ path_param p) as Hnp by (intros [? _]; congruence).
    apply IH in E as (I1 & I2 & I3). split; [intros k; rewrite I1, Hp1 by done; done|].
    destruct (decide (f = "")) as [->|Hf].
    + rewrite bool_decide_eq_true_2 in I2, I3 by done. destruct (decide (gp_name p = "")) as [En|En].
      * assert (¬ func_param p) as Hnf by (by intros [_ ?]). rewrite En in I2, I3. split; [|by rewrite Hf2].
        intros Hne g. by rewrite (I2 Hne g), Hf1.
      * assert (func_param p) as Hfp by done. split.
        -- intros Hne g. rewrite (I2 Hne g). split.
           ++ intros [[_ <-]|[? _]]; [|done]. right. split; [done|]. exists 0, p. split; [|done]. apply first_with_cons. by left.
           ++ intros [[? _]|(_ & j & q & [(_ & -> & ->)|(? & _)]%first_with_cons & <-)]; [done| |done]. by left.
        -- rewrite I3. split; [by intros [? _]|]. intros [_ H]. exfalso. apply (H 0 p). apply first_with_cons. by left.
    + rewrite bool_decide_eq_false_2 in I2, I3 by done. split.
      * intros Hne g. rewrite (I2 Hne g). split; (intros [?|[? _]]; [by left|done]).
      * rewrite I3. split; by intros [? _].
  - assert (¬ func_param p) as Hnf by (intros [? _]; congruence).
    apply IH in E as (I1 & I2 & I3). split; [|split; [intros Hne g; rewrite (I2 Hne g), Hf1; done|by rewrite Hf2]].
    intros k. rewrite I1. destruct path as [j0|]; [split; (intros [?|[? _]]; [by left|done])|].
    destruct (decide (gp_type p = "string")) as [Es|Es].
    + rewrite bool_decide_eq_true_2 by done. assert (path_param p) as Hpp by done. split.
      * intros [[= <-]|[? _]]; [|done]. right. split; [done|]. exists 0, p. split; [lia|]. apply first_with_cons. by left.
      * intros [?|(_ & j & q & -> & [(_ & -> & ->)|(? & _)]%first_with_cons)]; [done| |done]. left. f_equal. lia.
    + rewrite bool_decide_eq_false_2 by done. assert (¬ path_param p) as Hnp by (by intros [_ ?]). by rewrite Hp1.
  - assert (¬ path_param p) as Hnp by (intros [? _]; congruence). assert (¬ func_param p) as Hnf by (intros [? _]; congruence).
    apply IH in E as (I1 & I2 & I3). split; [intros k; rewrite I1, Hp1 by done; done|].
    split; [intros Hne g; rewrite (I2 Hne g), Hf1; done|by rewrite Hf2].
Qed.
Lemma group_shape_spec ps i f : group_shape ps = Some (i, f) ↔ takes_group ps i f.
Proof.
  unfold group_shape, takes_group. destruct (group_scan 0 ps None "") as [path f0] eqn:E.
  apply group_scan_spec in E as (I1 & I2 & I3).
  assert (∀ k, path = Some k ↔ ∃ p, first_with path_param ps k p) as Hp.
  { intros k. rewrite I1. split.
    - intros [?|(_ & j & p & -> & H)]; [done|]. by exists p.
    - intros [p H]. right. split; [done|]. by exists k, p. }
  assert (f0 = f ∧ f0 ≠ "" ↔ ∃ j q, first_with func_param ps j q ∧ gp_name q = f) as Hf.
  { split.
    - intros [-> Hne]. by destruct (proj1 (I2 Hne f) eq_refl) as [[? _]|[_ ?]].
    - intros (j & q & Hfw & Hn). assert (f0 ≠ "") as Hne. { intros E. apply I3 in E as [_ H]. by apply (H j q). }
      split; [|done]. apply (I2 Hne f). right. split; [done|]. eauto. }
  rewrite <- Hf, <- Hp. destruct path as [k|].
  - destruct (decide (f0 = "")) as [En|En].
    + rewrite bool_decide_eq_true_2 by done. split; [done|]. by intros [_ [_ ?]].
    + rewrite bool_decide_eq_false_2 by done. split; [by intros [= -> ->]|]. by intros [[= ->] [-> _]].
  - split; [done|]. by intros [? _].
Qed.
Lemma split_last_some c s a b : split_last c s = Some (a, b) → s = a +:+ String c b ∧ contains_byte c b = false.
Proof.
  revert a b. induction s as [|x s IH]; intros a b E; [done|]. cbn [split_last] in E.
  destruct (split_last c s) as [[a0 b0]|] eqn:Es.
  - injection E as <- <-. destruct (IH a0 b0 eq_refl) as [-> H]. split; [by rewrite sapp_cons|done].
  - destruct (decide (x = c)) as [->|Hx]; [|done]. injection E as <- <-. split; [done|].
    clear IH. revert Es. induction s as [|y s IH]; [done|]. cbn [split_last]. destruct (split_last c s) as [[? ?]|] eqn:E2; [done|].
    destruct (decide (y = c)); [done|]. intros _. unfold contains_byte in *. cbn [str_any]. rewrite (IH eq_refl). by rewrite bool_decide_eq_false_2.
Qed.
Lemma split_fq_spec fq pkg recv : split_fq fq = Some (pkg, recv) ↔ fq = pkg +:+ "." +:+ recv ∧ pkg ≠ "" ∧ recv ≠ "" ∧ dotless recv.
Proof.
  unfold split_fq. split.
  - destruct (split_last "." fq) as [[a b]|] eqn:E; [|done]. apply split_last_some in E as [-> Hd].
    destruct (decide (a = "")) as [Ha|Ha]; [rewrite (bool_decide_eq_true_2 (a = "")) by done; done|].
    destruct (decide (b = "")) as [Hb|Hb]; [rewrite (bool_decide_eq_true_2 (b = "")) by done; rewrite orb_true_r; done|].
    rewrite (bool_decide_eq_false_2 (a = "")), (bool_decide_eq_false_2 (b = "")) by done. cbn. by intros [= <- <-].
  - intros (-> & Hp & Hr & Hd). change ("." +:+ recv) with (String "." recv). rewrite split_last_app by done.
    by rewrite (bool_decide_eq_false_2 (pkg = "")), (bool_decide_eq_false_2 (recv = "")) by done.
Qed.
Lemma calls_by_name_spec es fq name f : calls_by_name es (fq +:+ "." +:+ name) f = true ↔ runs es fq name f.
Proof.
  unfold calls_by_name, runs. rewrite existsb_exists. split.
  - intros (e & He & H). rewrite !andb_true_iff, negb_true_iff, bool_decide_eq_false, !bool_decide_eq_true in H. destruct H as [[? ?] ?].
    exists e. by rewrite elem_of_list_In.
  - intros (e & He & H1 & H2 & H3). exists e. rewrite <- elem_of_list_In, !andb_true_iff, negb_true_iff, bool_decide_eq_false, !bool_decide_eq_true. done.
Qed.

(** ** Mounts *)
Section mounts.
Context (methods_of : string → string → list (string * list gparam)) (es : list wedge).
Lemma elem_of_mounts_of fq mt : mt ∈ mounts_of methods_of es fq ↔
  ∃ pkg recv name ps i f, fq = pkg +:+ "." +:+ recv ∧ pkg ≠ "" ∧ recv ≠ "" ∧ dotless recv ∧
    (name, ps) ∈ methods_of pkg (trim_prefix "*" recv) ∧ takes_group ps i f ∧ runs es fq name f ∧
    mt = GMount fq name ("^" +:+ quote_meta name +:+ "$") (recv_regex (WMethod pkg recv name)) i.
Proof.
  unfold mounts_of. destruct (split_fq fq) as [[pkg recv]|] eqn:E.
  - apply split_fq_spec in E as Hs. destruct Hs as (Hfq & Hp & Hr & Hd). rewrite elem_of_list_omap. split.
    + intros ([name ps] & Hin & H). cbn [fst snd] in H. destruct (group_shape ps) as [[i f]|] eqn:Eg; [|done].
      destruct (calls_by_name es (fq +:+ "." +:+ name) f) eqn:Ec; [|done]. injection H as <-.
      exists pkg, recv, name, ps, i, f. split; [done|]. split; [done|]. split; [done|]. split; [done|]. split; [done|].
      split; [by apply group_shape_spec|]. split; [by apply calls_by_name_spec|done].
    + intros (pkg' & recv' & name & ps & i & f & Hfq' & Hp' & Hr' & Hd' & Hin & Hg & Hc & ->).
      assert (split_fq fq = Some (pkg', recv')) as E' by (by apply split_fq_spec). rewrite E' in E. injection E as -> ->.
      exists (name, ps). split; [done|]. cbn [fst snd]. apply group_shape_spec in Hg as ->. apply calls_by_name_spec in Hc as ->. done.
  - split; [by intros ?%elem_of_nil|]. intros (pkg & recv & name & ps & i & f & Hfq & Hp & Hr & Hd & _).
    assert (split_fq fq = Some (pkg, recv)) as E' by (by apply split_fq_spec). congruence.
Qed.
Lemma elem_of_group_mounts iter routers mt : is_order iter →
  mt ∈ group_mounts methods_of es iter routers ↔ ∃ r, r ∈ routers ∧ dw_complete r = true ∧ mt ∈ mounts_of methods_of es (dw_recv r).
Proof.
  intros Hi. unfold group_mounts. rewrite merge_sort_Permutation, elem_of_concat. split.
  - intros (l & Hl & Hm). apply elem_of_list_fmap in Hl as (fq & -> & Hfq). rewrite (Hi _) in Hfq. apply elem_of_elements in Hfq.
    unfold router_types in Hfq. apply elem_of_list_to_set in Hfq. apply elem_of_list_fmap in Hfq as (r & -> & Hr).
    apply elem_of_list_filter in Hr as [Hc Hr]. eauto.
  - intros (r & Hr & Hc & Hm). exists (mounts_of methods_of es (dw_recv r)). split; [|done]. apply elem_of_list_fmap. exists (dw_recv r). split; [done|].
    rewrite (Hi _). apply elem_of_elements. unfold router_types. apply elem_of_list_to_set. apply elem_of_list_fmap. exists r. split; [done|].
    by apply elem_of_list_filter.
Qed.
Lemma mount_le_trans : Transitive mount_le.
Proof.
  intros a b c. unfold mount_le. destruct (decide (mt_recv a = mt_recv b)) as [E|E].
  - rewrite E. destruct (decide (mt_recv b = mt_recv c)); [apply transitivity|done].
  - destruct (decide (mt_recv b = mt_recv c)) as [E'|E'].
    + rewrite <- E'. by rewrite decide_False.
    + intros H1 H2. destruct (decide (mt_recv a = mt_recv c)) as [E''|E''].
      * exfalso. apply E. apply (anti_symm string_le); [done|by rewrite E''].
      * by etrans.
Qed.
Lemma mount_le_total : Total mount_le.
Proof.
  intros a b. unfold mount_le. destruct (decide (mt_recv a = mt_recv b)) as [E|E].
  - rewrite decide_True by done. apply (total string_le).
  - rewrite decide_False by congruence. apply (total string_le).
Qed.
Lemma group_mounts_sorted iter routers : StronglySorted mount_le (group_mounts methods_of es iter routers).
Proof. unfold group_mounts. apply Sorted_StronglySorted; [apply mount_le_trans|]. apply Sorted_merge_sort, mount_le_total. Qed.
Lemma group_mounts_same iter iter2 routers : is_order iter → is_order iter2 →
  (∀ pkg recv, router_type routers pkg recv → NoDup (methods_of pkg (trim_prefix "*" recv)).*1) →
  group_mounts methods_of es iter routers = group_mounts methods_of es iter2 routers.
Proof.
  intros Hi Hi2 Hnd. apply (sorted_perm_eq mount_le); [|apply group_mounts_sorted|apply group_mounts_sorted|].
  - intros a b (r & Hr & Hc & Ha)%elem_of_group_mounts (r' & Hr' & Hc' & Hb)%elem_of_group_mounts Hab Hba; [|done|done].
    apply elem_of_mounts_of in Ha as (pkg & recv & name & ps & i & f & Hfq & Hp & Hrr & Hd & Hin & Hg & Hrun & ->).
    apply elem_of_mounts_of in Hb as (pkg' & recv' & name' & ps' & i' & f' & Hfq' & Hp' & Hrr' & Hd' & Hin' & Hg' & Hrun' & ->).
    unfold mount_le in Hab, Hba. cbn [mt_recv mt_name] in Hab, Hba.
    destruct (decide (dw_recv r = dw_recv r')) as [E|E].
    2: { exfalso. rewrite decide_False in Hba by congruence. apply E. by apply (anti_symm string_le). }
    rewrite decide_True in Hba by done. assert (name = name') as <- by (by apply (anti_symm string_le)).
    rewrite Hfq, Hfq' in E. apply last_dot_inj in E as [<- <-]; [|done|done].
    assert (ps = ps') as <-.
    { assert (router_type routers pkg recv) as Hrt by (split; [done|]; split; [done|]; split; [done|]; eauto).
      specialize (Hnd _ _ Hrt). apply elem_of_list_lookup in Hin as [n Hn]. apply elem_of_list_lookup in Hin' as [m Hm].
      assert (n = m) as <-; [|congruence]. eapply NoDup_lookup; [exact Hnd| |]; rewrite list_lookup_fmap; [by rewrite Hn|by rewrite Hm]. }
    apply group_shape_spec in Hg. apply group_shape_spec in Hg'. assert (i = i') as <- by congruence. by rewrite Hfq, Hfq'.
  - unfold group_mounts. rewrite !merge_sort_Permutation. by rewrite (Hi _), (Hi2 _).
Qed.
End mounts.

(** ** Applying *)
Section once.
Context {A : Type} (identity : A → string * string).
Definition add_all (l : list A) (xs : list A) : list A := foldl (λ l x, (add_once identity l x).1) l xs.
Lemma add_once_spec l x : (∃ y, y ∈ l ∧ identity y = identity x ∧ add_once identity l x = (l, false)) ∨
  ((∀ y, y ∈ l → identity y ≠ identity x) ∧ add_once identity l x = (x :: l, true)).
Proof.
  unfold add_once. destruct (existsb (λ y, bool_decide (identity y = identity x)) l) eqn:E.
  - left. apply existsb_exists in E as (y & Hy & E). apply bool_decide_eq_true in E. exists y. by rewrite elem_of_list_In.
  - right. split; [|done]. intros y Hy Hyx. apply elem_of_list_In in Hy.
    assert (existsb (λ y, bool_decide (identity y = identity x)) l = true); [|congruence].
    apply existsb_exists. exists y. split; [done|]. by apply bool_decide_eq_true.
Qed.
Lemma add_all_snoc l xs x : add_all l (xs ++ [x]) = (add_once identity (add_all l xs) x).1.
Proof. unfold add_all. by rewrite foldl_snoc. Qed.
Lemma add_all_spec l xs : grown identity (λ x, x ∈ xs) l (add_all l xs).
Proof.
  induction xs as [|x xs IH] using rev_ind.
  - exists []. split; [done|]. split; [by intros x ?%elem_of_nil|]. split; [constructor|]. split; [by intros x y ?%elem_of_nil|by intros x ?%elem_of_nil].
  - rewrite add_all_snoc. destruct IH as (added & E & Hg & Hnd & Hnew & Hall).
    destruct (add_once_spec (add_all l xs) x) as [(y & Hy & Hyx & ->)|(Hno & ->)]; cbn [fst].
    + exists added. split; [done|]. split; [intros z Hz; apply elem_of_app; left; by apply Hg|]. split; [done|]. split; [done|].
      intros z [Hz|Hz%elem_of_list_singleton]%elem_of_app; [by apply Hall|]. subst z. by exists y.
    + exists (x :: added). split; [by rewrite E|]. split.
      { intros z [->|Hz]%elem_of_cons; apply elem_of_app; [right; left|left; by apply Hg]. }
      split.
      { rewrite fmap_cons. apply NoDup_cons. split; [|done]. intros Hx. apply elem_of_list_fmap in Hx as (z & Hxz & Hz).
        apply (Hno z); [rewrite E; apply elem_of_app; by left|done]. }
      split.
      { intros z y [->|Hz]%elem_of_cons Hy; [|by apply Hnew]. intros Hxy. apply (Hno y); [rewrite E; apply elem_of_app; by right|done]. }
      intros z [Hz|Hz%elem_of_list_singleton]%elem_of_app.
      * destruct (Hall z Hz) as (y & Hy & Hyz). exists y. split; [by right|done].
      * subst z. exists x. split; [left|done].
Qed.
Lemma add_all_id l xs : (∀ x, x ∈ xs → ∃ y, y ∈ l ∧ identity y = identity x) → add_all l xs = l.
Proof.
  induction xs as [|x xs IH] using rev_ind; intros H; [done|]. rewrite add_all_snoc, IH.
  - destruct (add_once_spec l x) as [(y & _ & _ & ->)|(Hno & _)]; [done|]. destruct (H x) as (y & Hy & E); [apply elem_of_app; right; left|]. by apply Hno in Hy.
  - intros z Hz. apply H. apply elem_of_app. by left.
Qed.
Lemma add_role_spec l o : (add_role identity l o).1 = add_all l (option_list o) ∧ length (add_role identity l o).1 = length l + (add_role identity l o).2.
Proof.
  destruct o as [x|]; cbn [add_role]; [|split; [done|cbn; lia]]. unfold add_all. change (option_list (Some x)) with [x]. cbn [foldl].
  destruct (add_once_spec l x) as [(y & _ & _ & ->)|(_ & ->)]; cbn; (split; [done|lia]).
Qed.
Lemma add_all_app l xs ys : add_all l (xs ++ ys) = add_all (add_all l xs) ys.
Proof. unfold add_all. by rewrite foldl_app. Qed.
End once.

Section apply.
Context {M R Q P T : Type} (idM : M → string * string) (idR : R → string * string) (idQ : Q → string * string)
  (idP : P → string * string) (idT : T → string * string) (described : R → bool).
Notation apply_ := (apply_wrappers idM idR idQ idP idT described).
Definition roles_of {A} (role : awrap → option A) (ws : list (@awrap M R Q P T)) : list A :=
  concat ((λ w, if aw_complete w then option_list (role w) else []) <$> ws).
Lemma roles_of_snoc {A} (role : awrap → option A) ws w : roles_of role (ws ++ [w]) = roles_of role ws ++ (if aw_complete w then option_list (role w) else []).
Proof. unfold roles_of. rewrite fmap_app, concat_app. cbn. by rewrite app_nil_r. Qed.
Lemma elem_of_roles {A} (role : awrap → option A) ws x : x ∈ roles_of role ws ↔ ∃ w, w ∈ ws ∧ aw_complete w = true ∧ role w = Some x.
Proof.
  unfold roles_of. rewrite elem_of_concat. split.
  - intros (l & Hl & Hx). apply elem_of_list_fmap in Hl as (w & -> & Hw). exists w. split; [done|]. destruct (aw_complete w); [|by apply elem_of_nil in Hx].
    split; [done|]. destruct (role w) as [y|]; cbn in Hx; [|by apply elem_of_nil in Hx]. apply elem_of_list_singleton in Hx as ->. done.
  - intros (w & Hw & Hc & Hr). exists [x]. split; [|left]. apply elem_of_list_fmap. exists w. split; [|done]. by rewrite Hc, Hr.
Qed.
Lemma apply_spec c ws : let r := apply_ c ws in
  fc_mounts r.1 = add_all idM (fc_mounts c) (roles_of aw_mount ws) ∧
  fc_resps r.1 = add_all idR (fc_resps c) (roles_of (resp_role described) ws) ∧
  fc_reqs r.1 = add_all idQ (fc_reqs c) (roles_of aw_req ws) ∧
  fc_params r.1 = add_all idP (fc_params c) (roles_of aw_param ws) ∧
  fc_routes r.1 = add_all idT (fc_routes c) (roles_of (route_role described) ws) ∧
  length (fc_mounts r.1) + length (fc_resps r.1) + length (fc_reqs r.1) + length (fc_params r.1) + length (fc_routes r.1) =
  length (fc_mounts c) + length (fc_resps c) + length (fc_reqs c) + length (fc_params c) + length (fc_routes c) + r.2.
Proof.
  cbv zeta. unfold apply_wrappers. induction ws as [|w ws IH] using rev_ind; [cbn; repeat (split; [done|]); lia|].
  rewrite foldl_snoc, !roles_of_snoc. destruct (foldl (apply_one idM idR idQ idP idT described) (c, 0) ws) as [c1 n]. cbn [fst snd] in IH.
  destruct IH as (I1 & I2 & I3 & I4 & I5 & I6). unfold apply_one. destruct (aw_complete w); [|rewrite !app_nil_r; done]. cbn [fst snd].
  pose proof (add_role_spec idM (fc_mounts c1) (aw_mount w)) as [A1 B1]. pose proof (add_role_spec idR (fc_resps c1) (resp_role described w)) as [A2 B2].
  pose proof (add_role_spec idQ (fc_reqs c1) (aw_req w)) as [A3 B3]. pose proof (add_role_spec idP (fc_params c1) (aw_param w)) as [A4 B4].
  pose proof (add_role_spec idT (fc_routes c1) (route_role described w)) as [A5 B5].
  destruct (add_role idM (fc_mounts c1) (aw_mount w)) as [l1 n1], (add_role idR (fc_resps c1) (resp_role described w)) as [l2 n2],
    (add_role idQ (fc_reqs c1) (aw_req w)) as [l3 n3], (add_role idP (fc_params c1) (aw_param w)) as [l4 n4], (add_role idT (fc_routes c1) (route_role described w)) as [l5 n5].
  cbn [fst snd fc_mounts fc_resps fc_reqs fc_params fc_routes] in *. rewrite !add_all_app, <- I1, <- I2, <- I3, <- I4, <- I5.
  repeat (split; [done|]). lia.
Qed.
End apply.
