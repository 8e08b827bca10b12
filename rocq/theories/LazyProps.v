(** * Properties C33 and C34: the call tree expanded on demand. *)
From stdpp Require Import base list strings gmap relations.
From Verif Require Import LazyModel LazyProofs.

(** Sums over a range and over a list. *)
Fixpoint total (f : nat → nat) (n : nat) : nat := match n with 0 => 0 | S n => total f n + f n end.
Lemma total_ext f g n : (∀ i, i < n → f i = g i) → total f n = total g n.
Proof. induction n as [|n IH]; intros H; [done|]. cbn. rewrite IH, (H n) by (try lia; intros; apply H; lia). done. Qed.
Lemma total_zeros f n m : (∀ i, n ≤ i → i < n + m → f i = 0) → total f (n + m) = total f n.
Proof.
  induction m as [|m IH]; intros H; [by rewrite Nat.add_0_r|]. rewrite Nat.add_succ_r. cbn. rewrite IH by (intros; apply H; lia).
  rewrite H by lia. lia.
Qed.
Lemma total_bump f g n i : i < n → f i = 0 → (∀ j, j < n → j ≠ i → g j = f j) → total g n = total f n + g i.
Proof.
  induction n as [|n IH]; intros Hi H0 He; [lia|]. cbn. destruct (decide (i = n)) as [->|Hn].
  - rewrite H0, (total_ext g f n) by (intros; apply He; lia). lia.
  - rewrite IH by (try lia; try done; intros; apply He; lia). rewrite (He n) by lia. lia.
Qed.
Lemma sum_bump {A} `{EqDecision A} (f g : A → nat) (l : list A) (a : A) (n : nat) : NoDup l → a ∈ l →
  (∀ x, x ∈ l → g x = f x + (if decide (x = a) then n else 0)) → sum_list_with g l = sum_list_with f l + n.
Proof.
  induction l as [|x l IH]; intros Hnd Ha Hg; [by apply elem_of_nil in Ha|]. apply NoDup_cons in Hnd as [Hx Hnd]. cbn.
  rewrite (Hg x) by left. apply elem_of_cons in Ha as [->|Ha].
  - rewrite decide_True by done. replace (sum_list_with g l) with (sum_list_with f l); [lia|].
    clear IH Hnd. induction l as [|y l IH]; [done|]. cbn. rewrite (Hg y) by (right; left). rewrite decide_False by (intros ->; apply Hx; left).
    rewrite IH; [lia| |]. { intros H; apply Hx; by right. }
    intros z Hz. apply Hg. apply elem_of_cons in Hz as [->|Hz]; [left|right; by right].
  - rewrite IH; [|done..|intros; apply Hg; by right]. rewrite decide_False by (intros ->; done). lia.
Qed.
Lemma sum_at_most {A} (f : A → nat) (l : list A) (n : nat) : (∀ x, f x ≤ n) → sum_list_with f l ≤ length l * n.
Proof. intros H. induction l as [|x l IH]; cbn; [lia|]. specialize (H x). lia. Qed.
Lemma total_flat {A} (f : nat → list A) n : length (flat_map f (seq 0 n)) = total (λ i, length (f i)) n.
Proof. induction n as [|n IH]; [done|]. rewrite seq_S, flat_map_app, app_length, IH. cbn. by rewrite app_nil_r. Qed.

(** ** What a reader can see of a tree. *)
Section spec.
  Context {C : Type}.
  Implicit Types (t : tree C) (s : state C).
  (** The trees a client can meet: any number of expansions, of any nodes, in any order. *)
  Definition expands t s s' : Prop := ∃ i, s' = (get_children t s i).1.
  Definition history t (c : C) (roots : list string) s : Prop := rtc (expands t) (new_tree c roots) s.
  Definition at_node s (i : nat) (nd : node C) : Prop := st_nodes s !! i = Some nd.
  (** [i] hangs directly below [j]; [i] has [j] somewhere above it. *)
  Definition below s (i j : nat) : Prop := ∃ nd, at_node s i nd ∧ nd_parent nd = Some j.
  Definition above s (i j : nat) : Prop := tc (below s) i j.
  (** [j] is among the children [i] reports. *)
  Definition listed s (i j : nat) : Prop := ∃ nd kids, at_node s i nd ∧ nd_children nd = Some kids ∧ j ∈ kids.
  Definition has_key s (i : nat) (k : string) : Prop := ∃ nd, at_node s i nd ∧ nd_key nd = k.
  Definition in_route s (i : nat) (k : nat) : Prop := ∃ nd, at_node s i nd ∧ nd_scope nd = k.
  (** The nearest argument at or above a node: the scope copies are counted in. *)
  Inductive nearest s : nat → string → Prop :=
  | near_arg i nd : at_node s i nd → nd_arg nd = true → nearest s i (nd_key nd)
  | near_up i nd p sc : at_node s i nd → nd_arg nd = false → nd_parent nd = Some p → nearest s p sc → nearest s i sc
  | near_root i nd : at_node s i nd → nd_arg nd = false → nd_parent nd = None → nearest s i "".
  (** What an expansion shows of the children. *)
  Definition shown s (kids : list nat) : list (string * C * bool) :=
    flat_map (λ j, match st_nodes s !! j with Some nd => [(nd_key nd, nd_content nd, nd_arg nd)] | None => [] end) kids.
  Definition shows t s (i : nat) : list (string * C * bool) := shown (get_children t s i).1 (get_children t s i).2.
End spec.

Section lemmas.
  Context {C : Type}.
  Implicit Types (t : tree C) (s : state C) (nd : node C).

  Definition contrib (nodes : list (node C)) (sc k : string) (i : nat) : list nat :=
    match nodes !! i with
    | Some nd => if decide (instance_scope nodes i = sc)
                 then filter (λ j, nd_key <$> nodes !! j = Some k) (default [] (nd_children nd)) else []
    | None => []
    end.

  Record good t (roots : list string) s : Prop := {
    g_wf : wf (st_nodes s);
    g_nodup : ∀ i, i < length (st_nodes s) → NoDup (nd_key <$> lineage (st_nodes s) i);
    g_kids : ∀ i nd kids, st_nodes s !! i = Some nd → nd_children nd = Some kids → Forall (λ j, j < length (st_nodes s)) kids;
    g_copies : ∀ sc k, total (λ i, length (contrib (st_nodes s) sc k i)) (length (st_nodes s)) = cnt (st_counts s) (sc, k);
    g_cap : ∀ p, cnt (st_counts s) p ≤ instance_budget (tr_limits t);
    g_made : length (st_nodes s) = length roots + st_made s;
    g_range : ∀ j nd, st_nodes s !! j = Some nd → nd_scope nd = 0 ∨ is_Some (st_scopes s !! nd_scope nd);
    g_exact : ∀ k v, 0 < k → st_scopes s !! k = Some v → v = length (filter (λ nd, nd_scope nd = k) (st_nodes s)) }.

  (** The nodes after an expansion. *)
  Definition put (kids : list nat) nd : node C := Node (nd_key nd) (nd_parent nd) (nd_content nd) (nd_arg nd) (nd_scope nd) (Some kids).
  Lemma skel_put kids nd : skel (put kids nd) = skel nd.
  Proof. done. Qed.
  Lemma nodes_after (nodes new : list (node C)) i kids : i < length nodes →
    alter (put kids) i (nodes ++ new) = alter (put kids) i nodes ++ new.
  Proof.
    intros Hi. apply list_eq. intros j. destruct (decide (i = j)) as [->|Hj].
    - rewrite list_lookup_alter, !lookup_app_l by (rewrite ?alter_length; done). by rewrite list_lookup_alter.
    - rewrite list_lookup_alter_ne by done. destruct (decide (j < length nodes)) as [Hl|Hl].
      + rewrite !lookup_app_l by (rewrite ?alter_length; done). by rewrite list_lookup_alter_ne.
      + rewrite !lookup_app_r by (rewrite ?alter_length; lia). by rewrite alter_length.
  Qed.

  Section expansion.
    Context (t : tree C) (roots : list string) (s : state C) (i : nat) (nd : node C) (r : state C * list nat) (mk : list (spec C)).
    Context (Hg : good t roots s) (Hi : st_nodes s !! i = Some nd) (Hk : nd_children nd = None).
    Context (Hl : looped t (nd_key <$> lineage (st_nodes s) i) i nd (instance_scope (st_nodes s) i) (scope_of t s nd).2
        (tr_plan t (nd_content nd) (nd_key nd) (nd_arg nd)) (scope_of t s nd).1 0 [] r mk).
    Let cs := (scope_of t s nd).2.
    Let s' := set_children r.1 i r.2.

    Lemma ex_nodes : st_nodes s' = alter (put r.2) i (st_nodes s) ++ (child_of i nd cs <$> mk).
    Proof.
      unfold s'. change (st_nodes (set_children r.1 i r.2)) with (alter (put r.2) i (st_nodes r.1)).
      rewrite (lp_nodes _ _ _ _ _ _ _ _ _ _ _ _ Hl). destruct (scope_of_state t s nd) as (-> & _). apply nodes_after. by eapply lookup_lt_Some.
    Qed.
    Lemma ex_len : length (st_nodes s') = length (st_nodes s) + length mk.
    Proof. by rewrite ex_nodes, app_length, alter_length, fmap_length. Qed.
    Lemma ex_old j : j < length (st_nodes s) → j ≠ i → st_nodes s' !! j = st_nodes s !! j.
    Proof. intros Hj Hne. rewrite ex_nodes, lookup_app_l by (by rewrite alter_length). by rewrite list_lookup_alter_ne. Qed.
    Lemma ex_self : st_nodes s' !! i = Some (put r.2 nd).
    Proof. rewrite ex_nodes, lookup_app_l by (rewrite alter_length; by eapply lookup_lt_Some). by rewrite list_lookup_alter, Hi. Qed.
    Lemma ex_new j : length (st_nodes s) ≤ j → st_nodes s' !! j = child_of i nd cs <$> mk !! (j - length (st_nodes s)).
    Proof. intros Hj. rewrite ex_nodes, lookup_app_r by (by rewrite alter_length). by rewrite alter_length, list_lookup_fmap. Qed.
    Lemma ex_skel j x : st_nodes s !! j = Some x → skel <$> st_nodes s' !! j = Some (skel x).
    Proof.
      intros Hj. destruct (decide (j = i)) as [->|Hne].
      - rewrite ex_self. cbn. rewrite skel_put. congruence.
      - rewrite ex_old by (try done; by eapply lookup_lt_Some). by rewrite Hj.
    Qed.
    Lemma ex_kids : r.2 = seq (length (st_nodes s)) (length mk).
    Proof. rewrite (lp_kids _ _ _ _ _ _ _ _ _ _ _ _ Hl). destruct (scope_of_state t s nd) as (-> & _). done. Qed.
    Lemma ex_cases j x : st_nodes s' !! j = Some x →
      (j = i ∧ x = put r.2 nd) ∨ (j ≠ i ∧ st_nodes s !! j = Some x) ∨ (length (st_nodes s) ≤ j ∧ ∃ sp, mk !! (j - length (st_nodes s)) = Some sp ∧ x = child_of i nd cs sp).
    Proof.
      intros Hj. destruct (decide (j < length (st_nodes s))) as [Hlt|Hge].
      - destruct (decide (j = i)) as [->|Hne]; [left; rewrite ex_self in Hj; split; congruence|].
        right; left. by rewrite ex_old in Hj.
      - right; right. split; [lia|]. rewrite ex_new in Hj by lia. destruct (mk !! _) as [sp|]; [|done]. exists sp. split; [done|]. cbn in Hj. congruence.
    Qed.
    Lemma hangs_lt sp : hangs i nd sp ≤ i.
    Proof.
      unfold hangs. destruct (_ && _); [|done]. destruct (nd_parent nd) as [p|] eqn:Ep; [|done].
      pose proof (g_wf _ _ _ Hg _ _ _ Hi Ep). lia.
    Qed.
    Lemma ex_wf : wf (st_nodes s').
    Proof.
      pose proof (lookup_lt_Some _ _ _ Hi) as Hlt.
      intros j x p Hj Hp. apply ex_cases in Hj as [[-> ->]|[[_ Hj]|(Hge & sp & _ & ->)]].
      - cbn in Hp. by eapply (g_wf _ _ _ Hg).
      - by eapply (g_wf _ _ _ Hg).
      - cbn in Hp. injection Hp as <-. pose proof (hangs_lt sp). lia.
    Qed.
    Lemma ex_lineage j : j < length (st_nodes s) → skel <$> lineage (st_nodes s') j = skel <$> lineage (st_nodes s) j.
    Proof. intros Hj. apply lineage_ext; [apply Hg|apply ex_skel|done]. Qed.
    Lemma ex_nodup j : j < length (st_nodes s') → NoDup (nd_key <$> lineage (st_nodes s') j).
    Proof.
      intros Hj. destruct (decide (j < length (st_nodes s))) as [Hlt|Hge].
      - rewrite (keys_of_skel _ _ (ex_lineage j Hlt)). by apply (g_nodup _ _ _ Hg).
      - destruct (lookup_lt_is_Some_2 _ _ Hj) as [x Ex]. pose proof Ex as Ex'. rewrite ex_new in Ex by lia. destruct (mk !! _) as [sp|] eqn:Em; [|done].
        cbn in Ex. injection Ex as Ex. rewrite (lineage_eq _ _ _ ex_wf Ex'). rewrite <-Ex.
        change (NoDup (sp_key sp :: (nd_key <$> lineage (st_nodes s') (hangs i nd sp)))).
        pose proof (lookup_lt_Some _ _ _ Hi) as Hlt.
        assert (Hh : hangs i nd sp < length (st_nodes s)) by (pose proof (hangs_lt sp); lia).
        rewrite (keys_of_skel _ _ (ex_lineage _ Hh)). apply NoDup_cons. split; [|by apply (g_nodup _ _ _ Hg)].
        pose proof (lp_path _ _ _ _ _ _ _ _ _ _ _ _ Hl) as Hp. rewrite Forall_forall in Hp. apply elem_of_list_lookup_2 in Em. destruct (Hp _ Em) as [Hp' _].
        intros Hin. apply Hp'. rewrite (lineage_eq _ _ _ (g_wf _ _ _ Hg) Hi), fmap_cons. unfold hangs in Hin. destruct (_ && _).
        + destruct (nd_parent nd) as [p|] eqn:Ep; [right; done|]. rewrite (lineage_eq _ _ _ (g_wf _ _ _ Hg) Hi), Ep in Hin. done.
        + rewrite (lineage_eq _ _ _ (g_wf _ _ _ Hg) Hi) in Hin. done.
    Qed.
    Lemma ex_scope j : j < length (st_nodes s) → instance_scope (st_nodes s') j = instance_scope (st_nodes s) j.
    Proof. intros Hj. by apply scope_of_skel, ex_lineage. Qed.
    Lemma ex_key j : j < length (st_nodes s) → nd_key <$> st_nodes s' !! j = nd_key <$> st_nodes s !! j.
    Proof.
      intros Hj. destruct (lookup_lt_is_Some_2 _ _ Hj) as [x E]. pose proof (ex_skel _ _ E) as E2. rewrite E.
      destruct (st_nodes s' !! j); [|done]. cbn [fmap option_fmap option_map] in *. unfold skel in E2. congruence.
    Qed.
    Lemma filter_same {A} (P Q : A → Prop) `{∀ x, Decision (P x)} `{∀ x, Decision (Q x)} (l : list A) :
      (∀ x, x ∈ l → P x ↔ Q x) → filter P l = filter Q l.
    Proof.
      induction l as [|a l IH]; intros HPQ; [done|]. rewrite !filter_cons. destruct (HPQ a (elem_of_list_here _ _)) as [H1 H2].
      rewrite IH by (intros; apply HPQ; by right). destruct (decide (P a)), (decide (Q a)); tauto || done.
    Qed.
    Lemma filter_new k : ∀ (l : list (spec C)) (n : nat), (∀ j, j < length l → nd_key <$> st_nodes s' !! (n + j) = sp_key <$> l !! j) →
      length (filter (λ j, nd_key <$> st_nodes s' !! j = Some k) (seq n (length l))) = length (filter (λ sp, sp_key sp = k) l).
    Proof.
      induction l as [|sp l IH]; intros n H; [done|]. cbn [length seq]. rewrite !filter_cons.
      pose proof (H 0 ltac:(cbn; lia)) as H0. rewrite Nat.add_0_r in H0. cbn [lookup list_lookup] in H0.
      assert (IH' : length (filter (λ j, nd_key <$> st_nodes s' !! j = Some k) (seq (S n) (length l))) = length (filter (λ sp, sp_key sp = k) l)).
      { apply IH. intros j Hj. specialize (H (S j) ltac:(cbn; lia)). rewrite Nat.add_succ_r in H. exact H. }
      destruct (decide (nd_key <$> st_nodes s' !! n = Some k)) as [Hd|Hd], (decide (sp_key sp = k)) as [He|He]; cbn [length]; rewrite ?IH'; try done.
      - exfalso. apply He. rewrite H0 in Hd. cbn in Hd. congruence.
      - exfalso. apply Hd. rewrite H0. cbn. congruence.
    Qed.
    Lemma ex_copies sc k : total (λ i, length (contrib (st_nodes s') sc k i)) (length (st_nodes s')) = cnt (st_counts s') (sc, k).
    Proof.
      pose proof (lookup_lt_Some _ _ _ Hi) as Hlt.
      rewrite ex_len, total_zeros.
      2: { intros j H1 H2. unfold contrib. rewrite ex_new by lia. destruct (mk !! _); [|done]. cbn. destruct (decide _); done. }
      rewrite (total_bump (λ i, length (contrib (st_nodes s) sc k i)) _ _ i); [|done|..].
      - rewrite (g_copies _ _ _ Hg). change (st_counts s') with (st_counts r.1). rewrite (lp_counts _ _ _ _ _ _ _ _ _ _ _ _ Hl).
        destruct (scope_of_state t s nd) as (_ & -> & _). f_equal. unfold contrib. rewrite ex_self, ex_scope by done.
        destruct (decide (instance_scope (st_nodes s) i = sc)) as [<-|Hne].
        + rewrite decide_True by done. cbn [put nd_children default from_option id]. change (default [] (Some r.2)) with r.2. rewrite ex_kids. apply filter_new.
          intros j Hj. rewrite ex_new by lia. replace (length (st_nodes s) + j - length (st_nodes s)) with j by lia. destruct (mk !! j); done.
        + rewrite decide_False by done. done.
      - unfold contrib. rewrite Hi, Hk. destruct (decide _); done.
      - intros j Hj Hne. f_equal. unfold contrib. rewrite ex_old by done. destruct (st_nodes s !! j) as [x|] eqn:Ex; [|done].
        rewrite ex_scope by done. destruct (decide _); [|done]. apply filter_same. intros q Hq.
        destruct (nd_children x) as [kids|] eqn:Ec; [|by apply elem_of_nil in Hq]. pose proof (g_kids _ _ _ Hg _ _ _ Ex Ec) as Hf.
        rewrite Forall_forall in Hf. rewrite ex_key by (by apply Hf). done.
    Qed.
    Lemma scope_new : (cs = nd_scope nd ∧ (scope_of t s nd).1 = s)
      ∨ (0 < cs ∧ nd_scope nd = 0 ∧ tr_terminal t (nd_content nd) = true ∧ st_scopes (scope_of t s nd).1 !! cs = Some 0 ∧ st_scopes s !! cs = None
         ∧ length (st_scopes (scope_of t s nd).1) = S cs ∧ ∀ k, 0 < k → k ≠ cs → st_scopes (scope_of t s nd).1 !! k = st_scopes s !! k).
    Proof.
      unfold cs, scope_of. destruct (bool_decide (nd_scope nd = 0)) eqn:H0; [|by left]. apply bool_decide_eq_true in H0.
      destruct (tr_terminal t (nd_content nd)) eqn:Ht; [|by left]. right. cbn. set (base := match st_scopes s with [] => [0] | l => l end).
      assert (Hb : 0 < length base) by (unfold base; destruct (st_scopes s); cbn; lia).
      assert (Hsame : ∀ k, 0 < k → base !! k = st_scopes s !! k).
      { intros k Hk0. unfold base. destruct (st_scopes s); [|done]. destruct k; [lia|]. done. }
      rewrite app_length. cbn. replace (length base + 1 - 1) with (length base) by lia. split_and!; try done.
      - rewrite lookup_app_r by lia. by rewrite Nat.sub_diag.
      - rewrite <-Hsame by done. apply lookup_ge_None_2. lia.
      - lia.
      - intros k Hk0 Hne. rewrite <-Hsame by done. destruct (decide (k < length base)); [by rewrite lookup_app_l|].
        rewrite lookup_app_r by lia. rewrite (lookup_ge_None_2 base k) by lia. destruct (k - length base) eqn:E; [lia|]. done.
    Qed.
    Lemma add_scope_lookup k c0 n l : add_scope c0 n l !! k = if decide (0 < c0 ∧ k = c0) then (λ v, v + n) <$> l !! k else l !! k.
    Proof.
      unfold add_scope. destruct (decide (0 < c0)) as [H|H].
      - destruct (decide (k = c0)) as [->|Hne].
        + rewrite decide_True by done. apply list_lookup_alter.
        + rewrite decide_False by tauto. by rewrite list_lookup_alter_ne.
      - rewrite decide_False by tauto. done.
    Qed.
    Lemma ex_scopes : st_scopes s' = add_scope cs (length mk) (st_scopes (scope_of t s nd).1).
    Proof. apply (lp_scopes _ _ _ _ _ _ _ _ _ _ _ _ Hl). Qed.
    Lemma filter_scope k : length (filter (λ x : node C, nd_scope x = k) (st_nodes s'))
      = length (filter (λ x : node C, nd_scope x = k) (st_nodes s)) + (if decide (cs = k) then length mk else 0).
    Proof.
      rewrite ex_nodes, filter_app, app_length. f_equal.
      - generalize (st_nodes s). clear. intros l. revert i. induction l as [|x l IH]; intros [|i]; try done.
        + change (alter (put r.2) 0 (x :: l)) with (put r.2 x :: l). rewrite !filter_cons. change (nd_scope (put r.2 x)) with (nd_scope x). by destruct (decide _).
        + change (alter (put r.2) (S i) (x :: l)) with (x :: alter (put r.2) i l). rewrite !filter_cons. destruct (decide _); cbn [length]; by rewrite IH.
      - clear. induction mk as [|sp l IH]; [by destruct (decide _)|]. rewrite fmap_cons, filter_cons. change (nd_scope (child_of i nd cs sp)) with cs.
        destruct (decide (cs = k)); cbn [length]; rewrite IH; done.
    Qed.
    Lemma ex_range j x : st_nodes s' !! j = Some x → nd_scope x = 0 ∨ is_Some (st_scopes s' !! nd_scope x).
    Proof.
      assert (Hkeep : ∀ k, k = 0 ∨ is_Some (st_scopes s !! k) → k = 0 ∨ is_Some (st_scopes s' !! k)).
      { intros k [->|Hs]; [by left|]. destruct (decide (k = 0)) as [->|Hk0]; [by left|]. right. rewrite ex_scopes, add_scope_lookup.
        assert (Hs2 : is_Some (st_scopes (scope_of t s nd).1 !! k)).
        { destruct scope_new as [[_ ->]|(_ & _ & _ & _ & Hn & _ & Hsame)]; [done|]. rewrite Hsame; [done|lia|]. intros ->. rewrite Hn in Hs. by destruct Hs. }
        destruct (decide _); [|done]. destruct Hs2 as [v ->]. eauto. }
      intros Hj. apply ex_cases in Hj as [[-> ->]|[[_ Hj]|(_ & sp & _ & ->)]].
      - apply Hkeep. exact (g_range _ _ _ Hg _ _ Hi).
      - apply Hkeep. exact (g_range _ _ _ Hg _ _ Hj).
      - change (nd_scope (child_of i nd cs sp)) with cs. destruct scope_new as [[E _]|(Hpos & _ & _ & Hz & _)].
        + rewrite E. apply Hkeep. exact (g_range _ _ _ Hg _ _ Hi).
        + right. rewrite ex_scopes, add_scope_lookup, decide_True by done. rewrite Hz. eauto.
    Qed.
    Lemma ex_exact k v : 0 < k → st_scopes s' !! k = Some v → v = length (filter (λ x : node C, nd_scope x = k) (st_nodes s')).
    Proof.
      intros Hk0. rewrite ex_scopes, add_scope_lookup, filter_scope. destruct scope_new as [[E Es]|(Hpos & H0 & _ & Hz & Hn & _ & Hsame)].
      - rewrite Es. destruct (decide (cs = k)) as [Hc|Hc].
        + rewrite decide_True by (split; [lia|done]). destruct (st_scopes s !! k) as [w|] eqn:Ew; [|done]. cbn. intros [= <-].
          by rewrite <-(g_exact _ _ _ Hg k w).
        + rewrite decide_False by (intros [_ ?]; done). intros Hv. rewrite <-(g_exact _ _ _ Hg k v) by done. lia.
      - destruct (decide (cs = k)) as [<-|Hc].
        + rewrite decide_True by done. rewrite Hz. cbn. intros [= <-].
          replace (length (filter (λ x : node C, nd_scope x = cs) (st_nodes s))) with 0; [done|].
                    assert (Hnone : ∀ l : list (node C), (∀ x, x ∈ l → nd_scope x ≠ cs) → filter (λ x : node C, nd_scope x = cs) l = []).
          { induction l as [|x l IH]; intros H; [done|]. rewrite filter_cons, decide_False by (apply H; left). apply IH. intros; apply H; by right. }
          rewrite Hnone; [done|]. intros x Hx. apply elem_of_list_lookup in Hx as [j Hj]. intros Hxc.
          destruct (g_range _ _ _ Hg _ _ Hj) as [Hx0|Hsome]; [lia|]. rewrite Hxc, Hn in Hsome. by destruct Hsome.
        + rewrite decide_False by (intros [_ ?]; done). rewrite Hsame by (try done; congruence). intros Hv. rewrite <-(g_exact _ _ _ Hg k v) by done. lia.
    Qed.
    Lemma ex_good : good t roots s'.
    Proof.
      pose proof (scope_of_state t s nd) as (_ & Ec & _ & Em & _).
      split.
      - apply ex_wf.
      - apply ex_nodup.
      - intros j x kids Hj Hc. rewrite ex_len. apply ex_cases in Hj as [[-> ->]|[[_ Hj]|(_ & sp & _ & ->)]].
        + cbn in Hc. injection Hc as <-. rewrite ex_kids. apply Forall_forall. intros q Hq. apply elem_of_seq in Hq. lia.
        + eapply Forall_impl; [by eapply (g_kids _ _ _ Hg)|]. cbn. intros; lia.
        + done.
      - apply ex_copies.
      - intros p. change (st_counts s') with (st_counts r.1). pose proof (lp_cap _ _ _ _ _ _ _ _ _ _ _ _ Hl p) as H. rewrite Ec in H.
        pose proof (g_cap _ _ _ Hg p). lia.
      - rewrite ex_len. change (st_made s') with (st_made r.1). rewrite (lp_made _ _ _ _ _ _ _ _ _ _ _ _ Hl), Em, (g_made _ _ _ Hg). lia.
      - apply ex_range.
      - apply ex_exact.
    Qed.
  End expansion.

  Lemma good_new t c roots : good t roots (new_tree c roots).
  Proof.
    assert (Hlk : ∀ j nd, st_nodes (new_tree c roots) !! j = Some nd → nd_parent nd = None ∧ nd_children nd = None ∧ nd_scope nd = 0).
    { intros j nd H. cbn in H. apply list_lookup_fmap_Some in H as (k & _ & ->). done. }
    assert (Hwf : wf (st_nodes (new_tree c roots))) by (intros i nd p H Hp; destruct (Hlk _ _ H) as [E _]; congruence).
    split.
    - done.
    - intros i Hi. destruct (lookup_lt_is_Some_2 _ _ Hi) as [nd E]. rewrite (lineage_eq _ _ _ Hwf E). destruct (Hlk _ _ E) as [-> _]. apply NoDup_singleton.
    - intros i nd kids H Hc. destruct (Hlk _ _ H) as (_ & E & _). congruence.
    - intros sc k. change (cnt (st_counts (new_tree c roots)) (sc, k)) with 0.
      apply (total_zeros (λ i, length (contrib (st_nodes (new_tree c roots)) sc k i)) 0 (length (st_nodes (new_tree c roots)))).
      intros i _ _. unfold contrib. destruct (_ !! i) as [nd|] eqn:E; [|done]. destruct (Hlk _ _ E) as (_ & -> & _). by destruct (decide _).
    - intros p. change (cnt (st_counts (new_tree c roots)) p) with 0. lia.
    - cbn. rewrite fmap_length. lia.
    - intros j nd H. left. by destruct (Hlk _ _ H) as (_ & _ & ->).
    - intros k v _ H. done.
  Qed.
  Lemma good_step t roots s i : good t roots s → good t roots (get_children t s i).1.
  Proof.
    intros Hg. destruct (get_outcome t s i) as [|?|?|?|nd r mk Hi Hk _ _ Hl]; try done; try (destruct Hg; split; done).
    by eapply ex_good.
  Qed.
  Lemma good_history t c roots s : history t c roots s → good t roots s.
  Proof.
    intros H. unfold history in H. remember (new_tree c roots) as s0 eqn:E0. assert (Hg : good t roots s0) by (subst; apply good_new). clear E0.
    induction H as [|x y z [i ->] _ IH]; [done|]. apply IH. by apply good_step.
  Qed.

  (** The relational readings of the helpers. *)
  Lemma near_scope s i sc : wf (st_nodes s) → nearest s i sc → instance_scope (st_nodes s) i = sc.
  Proof.
    intros Hwf H. unfold instance_scope. induction H as [i nd Hi Ha|i nd p sc Hi Ha Hp _ IH|i nd Hi Ha Hp]; rewrite (lineage_eq _ _ _ Hwf Hi).
    - cbn. rewrite decide_True by (by rewrite Ha). done.
    - rewrite Hp. cbn. rewrite decide_False by (rewrite Ha; intros []). destruct (list_find _ _) as [[? ?]|]; done.
    - rewrite Hp. cbn. by rewrite decide_False by (rewrite Ha; intros []).
  Qed.
  Lemma above_key s i j k : wf (st_nodes s) → above s i j → has_key s j k → k ∈ nd_key <$> tail (lineage (st_nodes s) i).
  Proof.
    intros Hwf H. induction H as [i j (nd & Hi & Hp)|i j l (nd & Hi & Hp) _ IH]; intros Hk.
    - destruct Hk as (nd' & Hj & <-). rewrite (lineage_eq _ _ _ Hwf Hi), Hp. cbn [tail]. rewrite (lineage_eq _ _ _ Hwf Hj), fmap_cons. left.
    - specialize (IH Hk). rewrite (lineage_eq _ _ _ Hwf Hi), Hp. cbn [tail]. destruct (lineage (st_nodes s) j); [done|].
      rewrite fmap_cons. right. exact IH.
  Qed.

  (** Growing. *)
  Record grown s s' : Prop := {
    gr_nodes : ∀ j nd, st_nodes s !! j = Some nd → ∃ nd', st_nodes s' !! j = Some nd' ∧ skel nd' = skel nd ∧ ∀ kids, nd_children nd = Some kids → nd_children nd' = Some kids;
    gr_wiring : st_wiring s ≤ st_wiring s';
    gr_scopes : ∀ k v, 0 < k → st_scopes s !! k = Some v → ∃ v', st_scopes s' !! k = Some v' ∧ v ≤ v' }.
  Lemma grown_refl s : grown s s.
  Proof. split; [|done|]; eauto. Qed.
  Lemma grown_trans s1 s2 s3 : grown s1 s2 → grown s2 s3 → grown s1 s3.
  Proof.
    intros [A1 B1 D1] [A2 B2 D2]. split.
    - intros j nd H. destruct (A1 _ _ H) as (nd2 & H2 & E2 & K2). destruct (A2 _ _ H2) as (nd3 & H3 & E3 & K3). exists nd3. split_and!; [done|congruence|auto].
    - lia.
    - intros k v Hk H. destruct (D1 _ _ Hk H) as (v2 & H2 & L2). destruct (D2 _ _ Hk H2) as (v3 & H3 & L3). exists v3. split; [done|lia].
  Qed.
  Lemma grown_step t s i : grown s (get_children t s i).1.
  Proof.
    destruct (get_outcome t s i) as [|?|?|?|nd r mk Hi Hk _ _ Hl]; try apply grown_refl; try (split; [|done|]; cbn; eauto).
    pose proof (scope_of_state t s nd) as (En & Ec & Ew & Em & _). split.
    - intros j x Hj. destruct (decide (j = i)) as [->|Hne].
      + exists (put r.2 nd). split_and!; [by eapply ex_self|rewrite skel_put; congruence|congruence].
      + exists x. split_and!; [|done|auto]. by erewrite (ex_old t s i nd r mk Hi Hl) by (try done; by eapply lookup_lt_Some).
    - change (st_wiring (set_children r.1 i r.2)) with (st_wiring r.1). pose proof (lp_wiring _ _ _ _ _ _ _ _ _ _ _ _ Hl). lia.
    - intros k v Hk0 Hv. rewrite (ex_scopes t s i nd r mk Hl), add_scope_lookup.
      assert (Hv2 : st_scopes (scope_of t s nd).1 !! k = Some v).
      { destruct (scope_new t s nd) as [[_ ->]|(_ & _ & _ & _ & Hn & _ & Hsame)]; [done|]. rewrite Hsame; [done..|]. intros ->. congruence. }
      rewrite Hv2. destruct (decide _); cbn; eexists; (split; [done|lia]).
  Qed.
  Lemma grown_run t s s' : rtc (expands t) s s' → grown s s'.
  Proof. induction 1 as [|x y z [i ->] _ IH]; [apply grown_refl|]. eapply grown_trans; [apply grown_step|done]. Qed.

  (** The answer for a node is fixed: it has its children, or its budget is spent. *)
  Definition refused t s nd : Prop :=
    (nd_scope nd = 0 ∧ budget_exhausted (tr_limits t) s = true) ∨ route_exhausted (tr_limits t) s (nd_scope nd) = true.
  Definition settled t s (i : nat) (kids : list nat) : Prop :=
    ∃ nd, st_nodes s !! i = Some nd ∧ (nd_children nd = Some kids ∨ (nd_children nd = None ∧ kids = [] ∧ refused t s nd)).
  Lemma settled_answer t s i kids : settled t s i kids → (get_children t s i).2 = kids.
  Proof.
    intros (nd & Hi & [Hk|(Hk & -> & Hr)]); unfold get_children; rewrite Hi, Hk; [done|].
    destruct (bool_decide (nd_scope nd = 0) && budget_exhausted (tr_limits t) s) eqn:Hb; [done|].
    destruct Hr as [[H0 Hr]|Hr].
    - rewrite bool_decide_eq_true_2, Hr in Hb by done. done.
    - by rewrite Hr.
  Qed.
  Lemma refused_grown t s s' nd nd' : grown s s' → skel nd' = skel nd → refused t s nd → refused t s' nd'.
  Proof.
    intros Hgr Hsk Hr. assert (Hsc : nd_scope nd' = nd_scope nd) by (unfold skel in Hsk; congruence). unfold refused. rewrite Hsc. destruct Hr as [[H0 Hr]|Hr].
    - left. split; [done|]. unfold budget_exhausted in *. apply andb_true_iff in Hr as [Hb1 Hb2]. apply bool_decide_eq_true in Hb2. rewrite Hb1. cbn.
      apply bool_decide_eq_true. pose proof (gr_wiring _ _ Hgr) as Hw. lia.
    - right. unfold route_exhausted in *. apply andb_true_iff in Hr as [Hb1 Hb2]. rewrite Hb1. cbn. apply bool_decide_eq_true in Hb1.
      destruct (st_scopes s !! nd_scope nd) as [v|] eqn:Ev; [|done]. destruct (gr_scopes _ _ Hgr _ _ Hb1 Ev) as (v' & -> & Hle).
      apply bool_decide_eq_true in Hb2. apply bool_decide_eq_true. lia.
  Qed.
  Lemma refused_step t s i nd : st_nodes s !! i = Some nd → nd_children nd = None → refused t s nd → (get_children t s i).1.(st_nodes) = st_nodes s.
  Proof.
    intros Hi Hk Hr. unfold get_children. rewrite Hi, Hk. destruct (bool_decide (nd_scope nd = 0) && budget_exhausted (tr_limits t) s) eqn:Hb; [done|].
    destruct Hr as [[H0 Hr]|Hr].
    - rewrite bool_decide_eq_true_2, Hr in Hb by done. done.
    - by rewrite Hr.
  Qed.
  Lemma settled_step t s i j kids : settled t s i kids → settled t (get_children t s j).1 i kids.
  Proof.
    intros (nd & Hi & Hs). pose proof (grown_step t s j) as Hgr. destruct (gr_nodes _ _ Hgr _ _ Hi) as (nd' & Hi' & Hsk & Hk').
    exists nd'. split; [done|]. destruct Hs as [Hk|(Hk & -> & Hr)]; [left; auto|]. right. split_and!; [|done|by eapply refused_grown].
    destruct (decide (j = i)) as [->|Hne].
    - rewrite (refused_step _ _ _ _ Hi Hk Hr) in Hi'. congruence.
    - destruct (get_outcome t s j) as [|?|?|?|x r mk Hj Hkj _ _ Hl]; cbn in Hi'; try congruence.
      change (st_nodes (set_children r.1 j r.2) !! i = Some nd') in Hi'.
      rewrite (ex_old t s j x r mk Hj Hl) in Hi' by (try done; by eapply lookup_lt_Some). congruence.
  Qed.
  Lemma settled_run t s s' i kids : rtc (expands t) s s' → settled t s i kids → settled t s' i kids.
  Proof. induction 1 as [|x y z [j ->] _ IH]; [done|]. intros H. apply IH. by apply settled_step. Qed.
  Lemma settles t s i : is_Some (st_nodes s !! i) → settled t (get_children t s i).1 i (get_children t s i).2.
  Proof.
    intros [nd0 Hn]. destruct (get_outcome t s i) as [H|nd kids Hi Hk|nd Hi Hk H0 Hb|nd Hi Hk H0 Hr|nd r mk Hi Hk _ _ Hl].
    - congruence.
    - exists nd. split; [done|]. by left.
    - exists nd. split; [done|]. right. split_and!; [done..|]. left. done.
    - exists nd. split; [done|]. right. split_and!; [done..|]. right. done.
    - exists (put r.2 nd). split; [by eapply ex_self|]. by left.
  Qed.

  (** What an expansion shows, when no copy was refused. *)
  Lemma shown_seq s (l : list (spec C)) (n : nat) (f : spec C → node C) :
    (∀ j, j < length l → st_nodes s !! (n + j) = f <$> l !! j) →
    shown s (seq n (length l)) = (λ sp, (nd_key (f sp), nd_content (f sp), nd_arg (f sp))) <$> l.
  Proof.
    revert n. induction l as [|sp l IH]; intros n H; [done|]. unfold shown. cbn [length seq flat_map]. pose proof (H 0 ltac:(cbn; lia)) as H0.
    rewrite Nat.add_0_r in H0. rewrite H0. cbn. f_equal. apply IH. intros j Hj. specialize (H (S j) ltac:(cbn; lia)). by rewrite Nat.add_succ_r in H.
  Qed.
  Definition show_spec (sp : spec C) := (sp_key sp, sp_content sp, sp_arg sp).
  Lemma shows_select t s i nd : st_nodes s !! i = Some nd → nd_children nd = None → ¬ refused t s nd →
    st_instance_cuts (get_children t s i).1 = st_instance_cuts s →
    shows t s i = show_spec <$> select t (nd_key <$> lineage (st_nodes s) i) (tr_plan t (nd_content nd) (nd_key nd) (nd_arg nd)) 0.
  Proof.
    intros Hi Hk Hr. unfold shows. destruct (get_outcome t s i) as [H|x kids Hx Hkx|x Hx Hkx H0 Hb|x Hx Hkx H0 Hb|x r mk Hx Hkx H0 Hb Hl]; intros Hc.
    - congruence.
    - congruence.
    - exfalso. apply Hr. left. split; congruence.
    - exfalso. apply Hr. right. assert (x = nd) as -> by congruence. done.
    - assert (x = nd) as -> by congruence. destruct (scope_of_state t s nd) as (En & _ & _ & _ & Ei & _).
      rewrite <-(lp_select _ _ _ _ _ _ _ _ _ _ _ _ Hl) by (rewrite Ei; exact Hc).
      rewrite (ex_kids t s i nd r mk Hl). rewrite <-(ex_kids t s i nd r mk Hl) at 1.
      rewrite (shown_seq _ mk _ (child_of i nd (scope_of t s nd).2)); [done|].
      intros j Hj. rewrite (ex_new t s i nd r mk Hx Hl) by lia. f_equal. f_equal. lia.
  Qed.
End lemmas.

(** ** The number of nodes. *)
Section bound.
  Context {C : Type} (t : tree C) (U : gset string).
  Context (HU : ∀ c k a sp, sp ∈ tr_plan t c k a → sp_key sp ∈ U).
  Implicit Types (s : state C) (nd : node C).
  Let scopes : list string := elements ({[""]} ∪ U).
  Let sum (m : gmap (string * string) nat) : nat := sum_list_with (λ sc, sum_list_with (λ k, cnt m (sc, k)) (elements U)) scopes.
  Definition closed s : Prop := (∀ j nd, st_nodes s !! j = Some nd → nd_arg nd = true → nd_key nd ∈ U) ∧ st_made s = sum (st_counts s).
  Lemma sum_keys (mk : list (spec C)) (f g : string → nat) : Forall (λ sp, sp_key sp ∈ U) mk →
    (∀ k, g k = f k + length (filter (λ sp, sp_key sp = k) mk)) → sum_list_with g (elements U) = sum_list_with f (elements U) + length mk.
  Proof.
    revert f. induction mk as [|sp mk IH]; intros f Hf Hg.
    - assert (E : ∀ l : list string, sum_list_with g l = sum_list_with f l + 0).
      { induction l as [|x l IHl]; [done|]. cbn. rewrite Hg, IHl. cbn. lia. } apply E.
    - apply Forall_cons in Hf as [Hsp Hf]. rewrite (IH (λ k, f k + (if decide (k = sp_key sp) then 1 else 0)) Hf).
      + rewrite (sum_bump f (λ k, f k + (if decide (k = sp_key sp) then 1 else 0)) _ (sp_key sp) 1); [cbn; lia|apply NoDup_elements|by apply elem_of_elements|done].
      + intros k. rewrite Hg, filter_cons. destruct (decide (sp_key sp = k)) as [<-|Hne]; [rewrite decide_True by done; cbn; lia|].
        rewrite decide_False by congruence. lia.
  Qed.
  Lemma scope_in s i : wf (st_nodes s) → closed s → instance_scope (st_nodes s) i ∈ scopes.
  Proof.
    intros Hwf [Ha _]. unfold instance_scope. apply elem_of_elements. destruct (list_find _ _) as [[q nd]|] eqn:E; [|set_solver].
    apply list_find_Some in E as (Hq & Harg & _). apply elem_of_list_lookup_2 in Hq.
    assert (Hin : ∃ j, st_nodes s !! j = Some nd).
    { revert Hq. unfold lineage. generalize (S i). intros f. revert i. induction f as [|f IH]; intros i Hq; [by apply elem_of_nil in Hq|].
      cbn in Hq. destruct (st_nodes s !! i) as [x|] eqn:Ex; [|by apply elem_of_nil in Hq]. apply elem_of_cons in Hq as [->|Hq]; [eauto|].
      destruct (nd_parent x); [by eapply IH|by apply elem_of_nil in Hq]. }
    destruct Hin as [j Hj]. apply elem_of_union_r. apply (Ha j nd Hj). by destruct (nd_arg nd).
  Qed.
  Lemma closed_step roots s i : good t roots s → closed s → closed (get_children t s i).1.
  Proof.
    intros Hg Hc. destruct (get_outcome t s i) as [|?|?|?|nd r mk Hi Hk _ _ Hl]; try done.
    assert (HmkU : Forall (λ sp, sp_key sp ∈ U) mk).
    { apply Forall_forall. intros sp Hsp. pose proof (lp_sub _ _ _ _ _ _ _ _ _ _ _ _ Hl) as Hsub. eapply HU. by eapply elem_of_submseteq; [|apply sublist_submseteq]. }
    pose proof (scope_in s i (g_wf _ _ _ Hg) Hc) as Hsc. destruct Hc as [Ha Hm]. split.
    - intros j x Hj Harg. destruct (ex_cases t s i nd r mk Hi Hl j x Hj) as [[-> ->]|[[_ Hj']|(_ & sp & Hsp & ->)]].
      + by eapply (Ha i nd Hi).
      + by eapply Ha.
      + rewrite Forall_forall in HmkU. apply HmkU. by eapply elem_of_list_lookup_2.
    - change (st_made (set_children r.1 i r.2)) with (st_made r.1). change (st_counts (set_children r.1 i r.2)) with (st_counts r.1).
      rewrite (lp_made _ _ _ _ _ _ _ _ _ _ _ _ Hl). destruct (scope_of_state t s nd) as (_ & Ec & _ & -> & _). rewrite Hm. unfold sum.
      symmetry. apply (sum_bump _ _ _ (instance_scope (st_nodes s) i)); [apply NoDup_elements|done|].
      intros sc _. destruct (decide (sc = instance_scope (st_nodes s) i)) as [->|Hne].
      + apply sum_keys; [done|]. intros k. rewrite (lp_counts _ _ _ _ _ _ _ _ _ _ _ _ Hl), Ec, decide_True by done. done.
      + rewrite Nat.add_0_r. generalize (elements U). intros l. induction l as [|k l IH]; [done|]. cbn. rewrite IH.
        rewrite (lp_counts _ _ _ _ _ _ _ _ _ _ _ _ Hl), Ec, decide_False by done. lia.
  Qed.
  Lemma closed_new c roots : closed (new_tree c roots).
  Proof.
    split.
    - intros j nd H. cbn in H. apply list_lookup_fmap_Some in H as (k & _ & ->). done.
    - cbn. unfold sum. assert (E : ∀ l : list string, sum_list_with (λ sc, sum_list_with (λ k, cnt ∅ (sc, k)) (elements U)) l = 0).
      { induction l as [|x l IH]; [done|]. cbn. rewrite IH. assert (E2 : ∀ q : list string, sum_list_with (λ k, cnt ∅ (x, k)) q = 0) by (induction q; done).
        by rewrite E2. } by rewrite E.
  Qed.
  Lemma closed_history c roots s : history t c roots s → closed s.
  Proof.
    intros H. unfold history in H. remember (new_tree c roots) as s0 eqn:E0.
    assert (Hg : good t roots s0) by (subst; apply good_new). assert (Hc : closed s0) by (subst; apply closed_new). clear E0.
    induction H as [|x y z [i ->] _ IH]; [done|]. apply IH; [by apply good_step|by eapply closed_step].
  Qed.
  Lemma nodes_bound c roots s : history t c roots s →
    length (st_nodes s) ≤ length roots + (size U + 1) * (size U * instance_budget (tr_limits t)).
  Proof.
    intros H. pose proof (good_history _ _ _ _ H) as Hg. rewrite (g_made _ _ _ Hg). destruct (closed_history _ _ _ H) as [_ ->]. unfold sum.
    assert (Hle : sum_list_with (λ sc, sum_list_with (λ k, cnt (st_counts s) (sc, k)) (elements U)) scopes ≤ length scopes * (size U * instance_budget (tr_limits t))).
    { apply sum_at_most. intros sc. change (size U) with (length (elements U)). apply sum_at_most. intros k. apply (g_cap _ _ _ Hg). }
    assert (Hs : length scopes ≤ size U + 1).
    { unfold scopes. change (length (elements ({[""]} ∪ U))) with (size (({[""]} : gset string) ∪ U)). rewrite size_union_alt. rewrite size_singleton.
      assert (size (U ∖ {[""]}) ≤ size U) by (apply subseteq_size; set_solver). lia. }
    apply Nat.add_le_mono_l. etransitivity; [exact Hle|]. by apply Nat.mul_le_mono_r.
  Qed.
End bound.

(** ** C33. Whatever is expanded, in whatever order: the copies of one function reported below the nodes of one
    scope never exceed the cap. *)
Section c33.
  Context {C : Type}.
  Implicit Types (t : tree C) (s : state C).
  Theorem C33_copies_bounded t c roots s (scope k : string) (l : list nat) : history t c roots s → NoDup l →
    (∀ j, j ∈ l → has_key s j k ∧ ∃ i, listed s i j ∧ nearest s i scope) → length l ≤ instance_budget (tr_limits t).
  Proof.
    intros H Hnd Hl. pose proof (good_history _ _ _ _ H) as Hg. rewrite <-(g_cap _ _ _ Hg (scope, k)). rewrite <-(g_copies _ _ _ Hg), <-total_flat.
    apply submseteq_length, NoDup_submseteq; [done|]. intros j Hj. destruct (Hl j Hj) as ((x & Hx & Hkx) & i & (nd & kids & Hi & Hk & Hin) & Hn).
    apply elem_of_list_In, in_flat_map. exists i. split.
    - apply elem_of_list_In, elem_of_seq. pose proof (lookup_lt_Some _ _ _ Hi). lia.
    - apply elem_of_list_In. unfold contrib. unfold at_node in *. rewrite Hi, Hk, (near_scope _ _ _ (g_wf _ _ _ Hg) Hn), decide_True by done.
      apply elem_of_list_filter. split; [|done]. rewrite Hx. cbn. by rewrite Hkx.
  Qed.
  (** With finitely many functions in the call graph, the tree stops growing, cyclic or not. *)
  Theorem C33_nodes_bounded t c roots s (U : gset string) : (∀ c k a sp, sp ∈ tr_plan t c k a → sp_key sp ∈ U) → history t c roots s →
    length (st_nodes s) ≤ length roots + (size U + 1) * (size U * instance_budget (tr_limits t)).
  Proof. intros HU H. by eapply nodes_bound. Qed.
  (** Expanding again, later and after anything else, returns the same children; at once, it changes nothing at all. *)
  Theorem C33_same_answer_again t c roots s s' i : history t c roots s → is_Some (st_nodes s !! i) →
    rtc (expands t) (get_children t s i).1 s' → (get_children t s' i).2 = (get_children t s i).2.
  Proof. intros _ Hi Hr. apply settled_answer. eapply settled_run; [done|]. by apply settles. Qed.
  Theorem C33_expanding_twice_is_once t s i : get_children t (get_children t s i).1 i = get_children t s i.
  Proof.
    destruct (st_nodes s !! i) as [nd|] eqn:Hi; [|by unfold get_children; rewrite Hi; cbn; rewrite Hi].
    destruct (get_children t s i) as [s1 kids] eqn:E. pose proof (get_outcome t s i) as Ho. rewrite E in Ho. cbn in Ho. cbn [fst].
    inversion Ho as [H|x kids' Hx Hkx|x Hx Hkx H0 Hb|x Hx Hkx H0 Hb|x r mk Hx Hkx H0 Hb Hl]; subst.
    - congruence.
    - done.
    - unfold get_children. cbn. rewrite Hx, Hkx, bool_decide_eq_true_2 by done.
      change (budget_exhausted (tr_limits t) _) with (budget_exhausted (tr_limits t) s) at 1. rewrite Hb. done.
    - unfold get_children. cbn. rewrite Hx, Hkx. change (budget_exhausted (tr_limits t) (State _ _ _ _ _ _ _ _ _ _)) with (budget_exhausted (tr_limits t) s).
      change (route_exhausted (tr_limits t) (State _ _ _ _ _ _ _ _ _ _) (nd_scope x)) with (route_exhausted (tr_limits t) s (nd_scope x)). rewrite Hb.
      assert (Hs : bool_decide (nd_scope x = 0) = false). { unfold route_exhausted in Hb. apply andb_true_iff in Hb as [Hb _]. apply bool_decide_eq_true in Hb. apply bool_decide_eq_false. lia. }
      rewrite Hs. cbn. f_equal. f_equal. set_solver.
    - unfold get_children. rewrite (ex_self t s i x r mk Hx Hl). done.
  Qed.
  (** No function hangs below itself. *)
  Theorem C33_never_below_itself t c roots s i j k : history t c roots s → above s i j → has_key s i k → ¬ has_key s j k.
  Proof.
    intros H Ha (nd & Hi & Hk) Hj. pose proof (good_history _ _ _ _ H) as Hg. pose proof (above_key _ _ _ _ (g_wf _ _ _ Hg) Ha Hj) as Hin.
    pose proof (g_nodup _ _ _ Hg i (lookup_lt_Some _ _ _ Hi)) as Hnd. rewrite (lineage_eq _ _ _ (g_wf _ _ _ Hg) Hi) in Hnd, Hin.
    rewrite fmap_cons in Hnd. apply NoDup_cons in Hnd as [Hnd _]. apply Hnd. rewrite Hk. exact Hin.
  Qed.
  (** A node reports at most the configured number of called functions. *)
  Theorem C33_children_bounded t s i nd : at_node s i nd → nd_children nd = None →
    length (filter (λ q, q.2 = false) (shows t s i)) ≤ max_children (tr_limits t).
  Proof.
    intros Hi Hk. unfold shows. destruct (get_outcome t s i) as [H|x kids Hx Hkx|x Hx Hkx H0 Hb|x Hx Hkx H0 Hb|x r mk Hx Hkx H0 Hb Hl]; unfold at_node in *; try (cbn; lia).
    - congruence.
    - rewrite (ex_kids t s i x r mk Hl). rewrite <-(ex_kids t s i x r mk Hl) at 1.
      rewrite (shown_seq _ mk _ (child_of i x (scope_of t s x).2)) by (intros j Hj; rewrite (ex_new t s i x r mk Hx Hl) by lia; f_equal; f_equal; lia).
      pose proof (lp_children _ _ _ _ _ _ _ _ _ _ _ _ Hl) as Hm. cbn in Hm.
      etransitivity; [|exact Hm]. clear. induction mk as [|sp l IH]; [done|]. rewrite fmap_cons, !filter_cons. cbn [snd nd_arg child_of].
      destruct (decide (sp_arg sp = false)); cbn [length]; [by apply le_n_S|done].
  Qed.
End c33.
Print Assumptions C33_copies_bounded.
Print Assumptions C33_nodes_bounded.
Print Assumptions C33_same_answer_again.
Print Assumptions C33_expanding_twice_is_once.
Print Assumptions C33_never_below_itself.
Print Assumptions C33_children_bounded.

(** ** Two ways the tree differs from the plain reading. The tree a small call graph unfolds to: *)
Definition lim (instances : nat) : limits := Limits 1000 100 instances 50.
Definition call (k : string) : spec string := Spec k k false false.
Definition chained (k : string) : spec string := Spec k k false true.
Definition argument (k : string) : spec string := Spec k k true false.
(** The calls of each function. *)
Definition table (tab : list (string * list (spec string))) (c : string) (_ : string) (_ : bool) : list (spec string) := flat_map snd (filter (λ p, p.1 = c) tab).
Lemma table_in tab c k a sp : sp ∈ table tab c k a → sp ∈ flat_map snd tab.
Proof.
  unfold table. intros H. apply elem_of_list_In, in_flat_map in H as (p & Hp & Hs). apply elem_of_list_In, elem_of_list_filter in Hp as [_ Hp].
  apply elem_of_list_In, in_flat_map. exists p. split; [by apply elem_of_list_In|done].
Qed.
Definition run_all {C} (t : tree C) (s : state C) (l : list nat) : state C := foldl (λ s i, (get_children t s i).1) s l.
Lemma run_all_history {C} (t : tree C) s l : rtc (expands t) s (run_all t s l).
Proof. revert s. induction l as [|i l IH]; intros s; [done|]. eapply rtc_l; [by exists i|]. apply IH. Qed.

(** main calls F, which calls a().b(); b calls F again. *)
Definition chain_tree : tree string :=
  Tree (lim 100) (table [("main", [call "F@1"]); ("F@1", [call "a@2"]); ("a@2", [chained "b@3"]); ("b@3", [call "F@4"]); ("F@4", [call "a@2"])])
    (λ _, true) (λ _, false).
Definition chain_state : state string := run_all chain_tree (new_tree "main" ["main"]) [0; 1; 2; 3; 4].
(** Below a chained call, the call it is chained to may be reported again: the children a client walks repeat
    a function although nothing hangs below itself. *)
Theorem C33_listed_below_itself_refuted : ∃ (t : tree string) c roots s i j k,
  history t c roots s ∧ tc (listed s) i j ∧ has_key s i k ∧ has_key s j k.
Proof.
  exists chain_tree, "main", ["main"], chain_state, 2, 5, "a@2". split; [apply run_all_history|].
  assert (L : ∀ i j nd kids, st_nodes chain_state !! i = Some nd → nd_children nd = Some kids → j ∈ kids → listed chain_state i j).
  { generalize chain_state. intros s i j nd kids H1 H2 H3. exists nd, kids. exact (conj H1 (conj H2 H3)). }
  split_and!.
  - eapply tc_l; [eapply (L 2 3); [vm_compute; reflexivity|reflexivity|left]|].
    eapply tc_l; [eapply (L 3 4); [vm_compute; reflexivity|reflexivity|left]|].
    apply tc_once. eapply (L 4 5); [vm_compute; reflexivity|reflexivity|left].
  - eexists. split; [vm_compute; reflexivity|reflexivity].
  - eexists. split; [vm_compute; reflexivity|reflexivity].
Qed.
Print Assumptions C33_listed_below_itself_refuted.

(** Two arguments that are calls with a chained call: each copy is counted with its argument but hangs next to it. *)
Definition next_tree : tree string :=
  Tree (lim 1) (table [("main", [argument "x@1"; argument "y@2"]); ("x@1", [chained "b"]); ("y@2", [chained "b"])]) (λ _, true) (λ _, false).
Definition next_state : state string := run_all next_tree (new_tree "main" ["main"]) [0; 1; 2].
Theorem C33_copies_by_position_refuted : ∃ (t : tree string) c roots s (scope k : string) (l : list nat),
  history t c roots s ∧ NoDup l ∧ (∀ j, j ∈ l → has_key s j k ∧ ∃ i, below s j i ∧ nearest s i scope) ∧ instance_budget (tr_limits t) < length l.
Proof.
  exists next_tree, "main", ["main"], next_state, "", "b", [3; 4]. split; [apply run_all_history|]. split; [by repeat constructor; set_solver|]. split; [|vm_compute; lia].
  assert (N : nearest next_state 0 "") by (eapply near_root; [vm_compute; reflexivity|reflexivity|reflexivity]).
  intros j Hj. assert (j = 3 ∨ j = 4) as [->| ->] by set_solver.
  - split; [eexists; split; [vm_compute; reflexivity|reflexivity]|]. exists 0. split; [|done]. eexists; split; [vm_compute; reflexivity|reflexivity].
  - split; [eexists; split; [vm_compute; reflexivity|reflexivity]|]. exists 0. split; [|done]. eexists; split; [vm_compute; reflexivity|reflexivity].
Qed.
Print Assumptions C33_copies_by_position_refuted.

(** A recursive function: main calls f, f calls itself and g from everywhere; the tree is finite. *)
Definition loop_tree : tree string :=
  Tree (lim 2) (table [("main", [call "f"; call "g"]); ("f", [call "f"; call "g"]); ("g", [call "f"; call "g"])]) (λ _, true) (λ _, false).
Example C33_recursive : let s := run_all loop_tree (new_tree "main" ["main"]) [0; 1; 2; 3; 4; 5; 6] in
  nd_key <$> st_nodes s = ["main"; "f"; "g"; "g"; "f"] ∧ st_instance_cuts s = 0 ∧ (get_children loop_tree s 3).2 = [] ∧ (get_children loop_tree s 1).2 = [3].
Proof. vm_compute. done. Qed.
Example C33_recursive_bound : length (st_nodes (run_all loop_tree (new_tree "main" ["main"]) [0; 1; 2; 3; 4])) ≤ 1 + (size ({["f"; "g"]} : gset string) + 1) * (size ({["f"; "g"]} : gset string) * 2).
Proof.
  assert (HU : ∀ c k a sp, sp ∈ tr_plan loop_tree c k a → sp_key sp ∈ ({["f"; "g"]} : gset string)).
  { intros c k a sp H. apply (table_in _ _ k a) in H. cbn in H.
    repeat (apply elem_of_cons in H as [->|H]; [cbn; set_solver|]). by apply elem_of_nil in H. }
  exact (C33_nodes_bounded loop_tree "main" ["main"] _ _ HU (run_all_history _ _ _)).
Qed.

(** ** C34 *)
Section c34.
  Context {C : Type}.
  Implicit Types (t : tree C) (s : state C) (nd : node C).
  (** Any expansions except of the nodes of one route (0: of the nodes above the routes). *)
  Definition expands_outside t (k : nat) s s' : Prop := ∃ i k', in_route s i k' ∧ k' ≠ k ∧ s' = (get_children t s i).1.

  Lemma outside_expands t k s s' : rtc (expands_outside t k) s s' → rtc (expands t) s s'.
  Proof. induction 1 as [|x y z (i & k' & _ & _ & ->) _ IH]; [done|]. eapply rtc_l; [by exists i|done]. Qed.

  (** Expanding a node of one route moves neither the counter of another nor that of the wiring. *)
  Theorem C34_own_counter_only t c roots s i k : history t c roots s → in_route s i k →
    (∀ k', 0 < k' → k' ≠ k → is_Some (st_scopes s !! k') → st_scopes (get_children t s i).1 !! k' = st_scopes s !! k')
    ∧ (0 < k → st_wiring (get_children t s i).1 = st_wiring s).
  Proof.
    intros _ (nd & Hi & Hk). destruct (get_outcome t s i) as [H|x kids Hx Hkx|x Hx Hkx H0 Hb|x Hx Hkx H0 Hb|x r mk Hx Hkx H0 Hb Hl]; try done.
    assert (x = nd) as -> by (unfold at_node in Hi; congruence). destruct (scope_of_state t s nd) as (En & _ & Ew & _). split.
    - intros k' Hk' Hne Hs. rewrite (ex_scopes t s i nd r mk Hl), add_scope_lookup.
      destruct (scope_new t s nd) as [[-> ->]|(_ & _ & _ & _ & Hn & _ & Hsame)].
      + rewrite decide_False by (intros [_ ?]; congruence). done.
      + assert (k' ≠ (scope_of t s nd).2) by (intros ->; rewrite Hn in Hs; by destruct Hs). rewrite decide_False by (intros [_ ?]; done). by apply Hsame.
    - intros Hpos. change (st_wiring (set_children r.1 i r.2)) with (st_wiring r.1). rewrite <-Ew. apply (lp_wiring_pos _ _ _ _ _ _ _ _ _ _ _ _ Hl).
      unfold scope_of. rewrite bool_decide_eq_false_2 by lia. cbn. lia.
  Qed.
  (** The counter of a route is the number of nodes made below its registration. *)
  Theorem C34_counter_exact t c roots s k v : history t c roots s → 0 < k → st_scopes s !! k = Some v →
    v = length (filter (λ nd, nd_scope nd = k) (st_nodes s)).
  Proof. intros H. apply (g_exact _ _ _ (good_history _ _ _ _ H)). Qed.

  Record quiet (k : nat) s s' : Prop := {
    q_grown : grown s s';
    q_same : ∀ j nd, st_nodes s !! j = Some nd → nd_scope nd = k → st_nodes s' !! j = Some nd;
    q_counter : 0 < k → is_Some (st_scopes s !! k) → st_scopes s' !! k = st_scopes s !! k;
    q_wiring : k = 0 → st_wiring s' = st_wiring s }.
  Lemma quiet_run t c roots k s s' : history t c roots s → rtc (expands_outside t k) s s' → quiet k s s'.
  Proof.
    intros H Hr. induction Hr as [|x y z (i & k' & Hin & Hne & ->) Hr IH]; [by split; [apply grown_refl|..]|].
    assert (Hy : history t c roots (get_children t x i).1) by (eapply rtc_r; [exact H|by exists i]).
    specialize (IH Hy). destruct IH as [A B D E]. pose proof (C34_own_counter_only t c roots x i k' H Hin) as [H1 H2]. split.
    - eapply grown_trans; [apply grown_step|done].
    - intros j nd Hj Hs. apply B; [|done]. destruct (get_outcome t x i) as [?|? kids Hx Hkx|?|?|nd' r mk Hx Hkx H0 Hb Hl]; try done.
      assert (j ≠ i). { intros ->. destruct Hin as (nd2 & Hn2 & Hk2). unfold at_node in Hn2. congruence. }
      rewrite (ex_old t x i nd' r mk Hx Hl); [done|by eapply lookup_lt_Some|done].
    - intros Hpos Hs. specialize (H1 k Hpos ltac:(congruence) Hs). rewrite D; [done..|]. by rewrite H1.
    - intros ->. rewrite E by done. apply H2. lia.
  Qed.
  Lemma shown_grown s s' kids : grown s s' → Forall (λ j, j < length (st_nodes s)) kids → shown s' kids = shown s kids.
  Proof.
    intros Hg. induction kids as [|j kids IH]; intros Hf; [done|]. apply Forall_cons in Hf as [Hj Hf]. unfold shown. cbn [flat_map].
    destruct (lookup_lt_is_Some_2 _ _ Hj) as [nd E]. destruct (gr_nodes _ _ Hg _ _ E) as (nd' & E' & Hsk & _). rewrite E, E'. unfold skel in Hsk.
    injection Hsk as H1 _ H3 H4 _. rewrite H1, H3, H4. f_equal. by apply IH.
  Qed.
  (** What a node shows does not depend on what was expanded below other routes, as long as no copy was refused: its own budget is untouched. *)
  Theorem C34_other_routes_do_not_matter_partial t c roots s s' n k : history t c roots s → in_route s n k → rtc (expands_outside t k) s s' →
    st_instance_cuts (get_children t s n).1 = st_instance_cuts s → st_instance_cuts (get_children t s' n).1 = st_instance_cuts s' →
    shows t s' n = shows t s n.
  Proof.
    intros H (nd & Hn & Hk) Hr Hc Hc'. unfold at_node in Hn. pose proof (quiet_run _ _ _ _ _ _ H Hr) as Hq. pose proof (good_history _ _ _ _ H) as Hg.
    pose proof (q_same _ _ _ Hq _ _ Hn Hk) as Hn'.
    destruct (nd_children nd) as [kids|] eqn:Ek.
    - unfold shows, get_children. rewrite Hn, Hn', Ek. cbn. apply shown_grown; [apply Hq|]. by eapply (g_kids _ _ _ Hg).
    - assert (Hsame : refused t s' nd ↔ refused t s nd).
      { unfold refused. assert (Hb : nd_scope nd = 0 → budget_exhausted (tr_limits t) s' = budget_exhausted (tr_limits t) s).
        { intros H0. unfold budget_exhausted. rewrite (q_wiring _ _ _ Hq) by congruence. done. }
        assert (Hrx : route_exhausted (tr_limits t) s' (nd_scope nd) = route_exhausted (tr_limits t) s (nd_scope nd)).
        { unfold route_exhausted. destruct (decide (0 < nd_scope nd)) as [Hp|Hp]; [|by rewrite bool_decide_eq_false_2].
          destruct (g_range _ _ _ Hg _ _ Hn) as [H0|Hs]; [lia|]. rewrite Hk in *. rewrite (q_counter _ _ _ Hq) by done. done. }
        rewrite Hrx. split; (intros [[H0 H1]|H1]; [left; split; [done|]; rewrite <-H1; by rewrite Hb|by right]). }
      assert (Hdec : Decision (refused t s nd)) by (unfold refused; apply _). destruct Hdec as [Hrf|Hrf].
      + assert (E : (get_children t s n).2 = []) by (apply settled_answer; exists nd; split; [done|right; done]).
        assert (E' : (get_children t s' n).2 = []) by (apply settled_answer; exists nd; split; [done|right; split_and!; try done; by apply Hsame]).
        unfold shows. rewrite E, E'. done.
      + rewrite (shows_select t s n nd), (shows_select t s' n nd); try done; [|by rewrite Hsame].
        f_equal. f_equal. apply keys_of_skel. apply lineage_ext; [apply Hg| |by eapply lookup_lt_Some].
        intros j x Hj. destruct (gr_nodes _ _ (q_grown _ _ _ Hq) _ _ Hj) as (x' & -> & Hsk & _). cbn. by rewrite Hsk.
  Qed.
  (** A route stays within its budget up to the children of one node. *)
  Theorem C34_route_size t c roots s k v (L : nat) : (∀ c k a, length (tr_plan t c k a) ≤ L) → history t c roots s → 0 < k → st_scopes s !! k = Some v →
    v < route_budget (tr_limits t) + L.
  Proof.
    intros HL H Hk. revert v. unfold history in H. remember (new_tree c roots) as s0 eqn:E0.
    assert (Hinv : ∀ v, st_scopes s0 !! k = Some v → v < route_budget (tr_limits t) + L) by (subst; done). clear E0.
    assert (Hpos : 0 < route_budget (tr_limits t)).
    { unfold route_budget. destruct (decide _); [done|]. apply Nat.neq_0_lt_0, Nat.pow_nonzero. lia. }
    induction H as [|x y z [i ->] _ IH]; [done|]. apply IH. intros v.
    destruct (get_outcome t x i) as [?|?|?|?|nd r mk Hx Hkx H0 Hb Hl]; try apply Hinv.
    rewrite (ex_scopes t x i nd r mk Hl), add_scope_lookup.
    assert (Hlen : length mk ≤ L) by (etransitivity; [apply sublist_length, (lp_sub _ _ _ _ _ _ _ _ _ _ _ _ Hl)|apply HL]).
    destruct (scope_new t x nd) as [[E ->]|(_ & _ & _ & Hz & Hn & _ & Hsame)].
    - rewrite E in *. destruct (decide _) as [[Hp ->]|Hd]; [|apply Hinv].
      destruct (st_scopes x !! nd_scope nd) as [w|] eqn:Ew; [|done]. cbn. intros [= <-].
      unfold route_exhausted in Hb. rewrite bool_decide_eq_true_2, Ew in Hb by done. cbn in Hb. apply bool_decide_eq_false in Hb. lia.
    - destruct (decide _) as [[Hp ->]|Hd].
      + rewrite Hz. cbn. intros [= <-]. lia.
      + destruct (decide (k = (scope_of t x nd).2)) as [->|Hne]; [rewrite Hz; intros [= <-]; lia|]. rewrite Hsame by done. apply Hinv.
  Qed.
End c34.
Print Assumptions C34_own_counter_only.
Print Assumptions C34_counter_exact.
Print Assumptions C34_other_routes_do_not_matter_partial.
Print Assumptions C34_route_size.

(** Without the proviso: one registration in a shared function, mounted twice. The two routes have a budget each, but the copies
    are counted by the key of the handler argument, which is the same for both; when the first route has been explored, the second one misses a call. *)
Definition mount_tree : tree string :=
  Tree (lim 2) (table [("main", [call "v1"; call "v2"]); ("v1", [call "reg"]); ("v2", [call "reg"]); ("reg", [argument "handler"]); ("handler", [call "a"; call "b"]); ("a", [call "json"]); ("b", [call "json"])])
    (λ _, true) (λ c, bool_decide (c = "reg")).
Definition mount_state : state string := run_all mount_tree (new_tree "main" ["main"]) [0; 1; 2; 3; 4; 5; 6].
Theorem C34_other_routes_do_not_matter_refuted : ∃ (t : tree string) c roots s s' n k,
  history t c roots s ∧ 0 < k ∧ in_route s n k ∧ rtc (expands_outside t k) s s' ∧ shows t s n = [("json", "json", false)] ∧ shows t s' n = [].
Proof.
  exists mount_tree, "main", ["main"], mount_state, (run_all mount_tree mount_state [7; 8]), 9, 2. split; [apply run_all_history|]. split; [lia|].
  split; [eexists; split; [vm_compute; reflexivity|reflexivity]|]. split; [|split; vm_compute; reflexivity].
  eapply rtc_l; [exists 7, 1; split_and!; [eexists; split; [vm_compute; reflexivity|reflexivity]|lia|reflexivity]|].
  eapply rtc_l; [exists 8, 1; split_and!; [eexists; split; [vm_compute; reflexivity|reflexivity]|lia|reflexivity]|].
  unfold run_all. cbn [foldl]. apply rtc_refl.
Qed.
Print Assumptions C34_other_routes_do_not_matter_refuted.
(** With room for three copies the same tree keeps both routes whole, and the counters are apart. *)
Definition roomy_tree : tree string := Tree (lim 4) (tr_plan mount_tree) (tr_reach mount_tree) (tr_terminal mount_tree).
Example C34_apart : let s := run_all roomy_tree (new_tree "main" ["main"]) [0; 1; 2; 3; 4; 5; 6; 7; 8] in
  st_scopes s = [0; 5; 3] ∧ shows roomy_tree s 9 = [("json", "json", false)] ∧ st_wiring s = 3 ∧ st_instance_cuts s = 0.
Proof. vm_compute. done. Qed.
