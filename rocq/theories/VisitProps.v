(** * C112: the routes collected. *)
From Coq Require Import Ascii Lia.
From stdpp Require Import base numbers list strings gmap.
From Verif Require Import StrLib StrSplit StrSub StrOrder RouteModel PairModel PairProofs TvoProps VisitModel.

(** ** Specification *)
(** What a route is: its handler, its paths and its method. *)
Definition identity (r : route) : string * string * string * string := (rt_fn r, rt_mount r, rt_path r, rt_method r).
(** The same call site under the same mount path. *)
Definition same_site (v w : visit) : Prop := vs_site v ≠ None ∧ vs_site v = vs_site w ∧ visit_mount v = visit_mount w.
Global Instance same_site_dec v w : Decision (same_site v w).
Proof. unfold same_site. apply _. Defined.
(** What the visits give that are the first to their site, in order. *)
Fixpoint fresh_after (before vs : list visit) : list route :=
  match vs with
  | [] => []
  | v :: vs => (if decide (Exists (same_site v) before) then [] else match extracted v with Some r => [r] | None => [] end) ++ fresh_after (before ++ [v]) vs
  end.
Definition fresh (vs : list visit) : list route := fresh_after [] vs.
(** The first of each. *)
Fixpoint firsts (l : list (string * string * string * string)) : list (string * string * string * string) := match l with [] => [] | x :: l => x :: filter (λ y, y ≠ x) (firsts l) end.
(** Mount paths do not contain the separator. *)
Definition plain_mounts (vs : list visit) : Prop := Forall (λ v, contains_byte chain_sep (visit_mount v) = false) vs.
(** The nodes at a depth, from the left. *)
Fixpoint level (roots : list tnode) (d : nat) : list tnode := match d with 0 => roots | S d => concat (t_kids <$> level roots d) end.

(** ** Lemmas *)
Lemma same_route_spec a b : same_route a b = true ↔ identity a = identity b.
Proof. unfold same_route, identity. rewrite !andb_true_iff, !bool_decide_eq_true. naive_solver congruence. Qed.
Lemma merge_identity e r : identity (merge_route e r) = identity e.
Proof. done. Qed.
Lemma add_route_new rs r : identity r ∉ identity <$> rs → add_route rs r = rs ++ [r].
Proof.
  induction rs as [|e rs IH]; intros H; [done|]. cbn in *. apply not_elem_of_cons in H as [H1 H2]. destruct (same_route e r) eqn:E; [apply same_route_spec in E; congruence|]. by rewrite IH.
Qed.
Lemma add_route_old rs r : identity r ∈ identity <$> rs → ∃ pre e post, rs = pre ++ e :: post ∧ identity e = identity r ∧ (∀ x, x ∈ pre → identity x ≠ identity r) ∧ add_route rs r = pre ++ merge_route e r :: post.
Proof.
  induction rs as [|e rs IH]; intros H; [by apply elem_of_nil in H|]. cbn [add_route]. destruct (same_route e r) eqn:E.
  - apply same_route_spec in E. exists [], e, rs. split_and!; try done. intros x Hx. by apply elem_of_nil in Hx.
  - assert (identity e ≠ identity r) as N by (intros X; apply same_route_spec in X; congruence). rewrite fmap_cons in H. apply elem_of_cons in H as [H|H]; [done|].
    destruct (IH H) as (pre & e' & post & -> & ? & ? & ->). exists (e :: pre), e', post. split_and!; try done. intros x [->|]%elem_of_cons; auto.
Qed.
Lemma route_id_same v w : contains_byte chain_sep (visit_mount v) = false → contains_byte chain_sep (visit_mount w) = false →
  (∃ i, route_id v = Some i ∧ route_id w = Some i) ↔ same_site v w.
Proof.
  intros Hv Hw. unfold route_id, same_site. split.
  - intros (i & E1 & E2). apply fmap_Some in E1 as (s & S1 & ->). apply fmap_Some in E2 as (s' & S2 & E). apply first_split_inj in E as [E ->]; [|done|done]. by rewrite S1, S2.
  - intros (H1 & H2 & H3). destruct (vs_site v) as [s|]; [|done]. rewrite <- H2, H3. eexists. by cbn.
Qed.
Lemma collect_fold vs : plain_mounts vs → collect vs = fold_left add_route (fresh vs) [].
Proof.
  intros Hp. unfold collect, fresh.
  assert (∀ before ws st, plain_mounts (before ++ ws) → (∀ i, i ∈ st.1 ↔ ∃ v, v ∈ before ∧ route_id v = Some i) → (fold_left handle_route ws st).2 = fold_left add_route (fresh_after before ws) st.2) as K.
  { intros before ws. revert before. induction ws as [|v ws IH]; intros before st Hpl Hst; [done|]. cbn [fold_left fresh_after].
    assert (plain_mounts ((before ++ [v]) ++ ws)) as Hpl' by (by rewrite <- app_assoc). rewrite fold_left_app.
    assert (∀ w, w ∈ before ++ v :: ws → contains_byte chain_sep (visit_mount w) = false) as Hw by (by apply Forall_forall).
    assert (contains_byte chain_sep (visit_mount v) = false) as Hv by (apply Hw; apply elem_of_app; right; by left).
    rewrite (IH (before ++ [v])); [|done|].
    - f_equal. unfold handle_route. destruct (route_id v) as [i|] eqn:R.
      + destruct (decide (i ∈ st.1)) as [D|D].
        * apply Hst in D as (w & Hin & Rw). rewrite decide_True; [done|]. apply Exists_exists. exists w. split; [done|]. apply route_id_same; [done|apply Hw; apply elem_of_app; by left|by exists i].
        * rewrite decide_False. { cbn. by destruct (extracted v). } rewrite Exists_exists. intros (w & Hin & Sw). apply route_id_same in Sw as (j & E1 & E2); [|done|apply Hw; apply elem_of_app; by left]. apply D, Hst. exists w. split; [done|]. congruence.
      + rewrite decide_False. { cbn. by destruct (extracted v). } rewrite Exists_exists. intros (w & Hin & Sw). apply route_id_same in Sw as (j & E1 & E2); [|done|apply Hw; apply elem_of_app; by left]. congruence.
    - intros i. unfold handle_route. transitivity (i ∈ st.1 ∨ route_id v = Some i).
      + destruct (route_id v) as [j|]; [destruct (decide (j ∈ st.1))|]; cbn.
        * split; [by left|]. intros [?|E]; [done|]. by injection E as <-.
        * rewrite elem_of_union, elem_of_singleton. split; [intros [->|?]; auto|intros [?|E]; [by right|left; by injection E]].
        * split; [by left|intros [?|?]; done].
      + rewrite Hst. split.
        * intros [(w & ? & ?)|?]; [exists w|exists v]; (split; [|done]); apply elem_of_app; [by left|right; by left].
        * intros (w & [?| ->%elem_of_list_singleton]%elem_of_app & ?); [left; eauto|by right]. }
  apply (K [] vs (∅, [])); [done|]. intros i. split; [intros H; by apply elem_of_empty in H|]. intros (v & H & _). by apply elem_of_nil in H.
Qed.
Lemma firsts_elem l x : x ∈ firsts l ↔ x ∈ l.
Proof.
  induction l as [|y l IH]; [done|]. cbn [firsts]. rewrite !elem_of_cons, elem_of_list_filter, IH. destruct (decide (x = y)); naive_solver.
Qed.
Lemma firsts_snoc l x : firsts (l ++ [x]) = if decide (x ∈ l) then firsts l else firsts l ++ [x].
Proof.
  induction l as [|y l IH]; [done|]. cbn [firsts app]. rewrite IH. destruct (decide (x ∈ l)) as [D|D].
  - by rewrite decide_True by (by right).
  - rewrite filter_app. destruct (decide (x ∈ y :: l)) as [D'|D'].
    + apply elem_of_cons in D' as [->|?]; [|done]. rewrite (filter_cons_False); [|intros H; by apply H]. by rewrite app_nil_r.
    + apply not_elem_of_cons in D' as [D' _]. by rewrite filter_cons_True.
Qed.
Lemma firsts_nodup l : NoDup (firsts l).
Proof. induction l as [|x l IH]; cbn [firsts]; constructor; [rewrite elem_of_list_filter; by intros [? _]|by apply NoDup_filter]. Qed.
Lemma fold_identities l : identity <$> fold_left add_route l [] = firsts (identity <$> l).
Proof.
  induction l as [|r l IH] using rev_ind; [done|]. rewrite fold_left_app, fmap_app. change (identity <$> [r]) with [identity r]. rewrite firsts_snoc. cbn [fold_left]. destruct (decide (identity r ∈ identity <$> l)) as [D|D].
  - apply firsts_elem in D. rewrite <- IH in D |- *. destruct (add_route_old _ _ D) as (pre & e & post & -> & He & _ & ->). rewrite !fmap_app, !fmap_cons. by rewrite merge_identity.
  - rewrite add_route_new; [by rewrite fmap_app, IH|]. by rewrite IH, firsts_elem.
Qed.
Lemma fold_elem l r : r ∈ fold_left add_route l [] ↔ ∃ x rest, filter (λ y, identity y = identity x) l = x :: rest ∧ r = fold_left merge_route rest x.
Proof.
  revert r. induction l as [|a l IH] using rev_ind; intros r.
  - cbn. rewrite elem_of_nil. split; [done|]. by intros (? & ? & ? & _).
  - rewrite fold_left_app. cbn [fold_left]. set (G := fold_left add_route l []) in *.
    assert (NoDup (identity <$> G)) as Hnd by (unfold G; rewrite fold_identities; apply firsts_nodup).
    assert (∀ x rest, filter (λ y, identity y = identity x) l = x :: rest → identity (fold_left merge_route rest x) = identity x) as Hid.
    { intros x rest _. revert x. induction rest as [|y rest IHr]; intros x; [done|]. cbn [fold_left]. by rewrite IHr. }
    assert (∀ x, filter (λ y, identity y = identity x) (l ++ [a]) = filter (λ y, identity y = identity x) l ++ if decide (identity a = identity x) then [a] else []) as Hf.
    { intros x. rewrite filter_app. done. }
    destruct (decide (identity a ∈ identity <$> G)) as [D|D].
    + destruct (add_route_old _ _ D) as (pre & e & post & EG & He & Hpre & ->).
      assert (∀ y, y ∈ post → identity y ≠ identity a) as Hpost. { intros y Hy Ey. rewrite EG, fmap_app, fmap_cons in Hnd. apply NoDup_app in Hnd as (_ & _ & Hnd). apply NoDup_cons in Hnd as [Hn _]. apply Hn. rewrite He, <- Ey. by apply elem_of_list_fmap_1. }
      assert (∀ y, y ∈ G ↔ y ∈ pre ∨ y = e ∨ y ∈ post) as HG by (intros y; rewrite EG, elem_of_app, elem_of_cons; tauto).
      rewrite elem_of_app, elem_of_cons. split.
      * intros H. assert ((r ∈ G ∧ identity r ≠ identity a) ∨ r = merge_route e a) as [[H1 H2]| ->].
        { destruct H as [H|[H|H]]; [left; split; [apply HG; by left|by apply Hpre]|by right|left; split; [apply HG; by right; right|by apply Hpost]]. }
        -- apply IH in H1 as (x & rest & Ef & ->). exists x, rest. rewrite Hf, Ef. rewrite Hid in H2 by done. by rewrite decide_False, app_nil_r by congruence.
        -- assert (e ∈ G) as H1 by (apply HG; by right; left). apply IH in H1 as (x & rest & Ef & E). exists x, (rest ++ [a]). rewrite Hf, Ef. assert (identity x = identity e) as Ex by (rewrite E; symmetry; by apply Hid). rewrite decide_True by congruence. split; [done|]. by rewrite fold_left_app, <- E.
      * intros (x & rest & Ef & ->). rewrite Hf in Ef. destruct (decide (identity a = identity x)) as [Ea|Na].
        -- assert (e ∈ G) as He' by (apply HG; by right; left). apply IH in He' as (x' & rest' & Ef' & E). assert (identity x' = identity x) as Ex. { rewrite <- Ea, <- He, E. symmetry. by apply Hid. }
           assert (filter (λ y, identity y = identity x) l = x' :: rest') as Ef2. { rewrite <- Ef'. apply list_filter_iff. intros y. by rewrite Ex. }
           rewrite Ef2 in Ef. injection Ef as -> <-. right. left. by rewrite fold_left_app, <- E.
        -- rewrite app_nil_r in Ef. assert (fold_left merge_route rest x ∈ G) as H1 by (apply IH; by exists x, rest). assert (identity (fold_left merge_route rest x) ≠ identity a) as H2 by (rewrite (Hid _ _ Ef); congruence).
           apply HG in H1 as [?|[E|?]]; [by left| |by right; right]. exfalso. apply H2. by rewrite E.
    + rewrite add_route_new by done. rewrite elem_of_app, elem_of_list_singleton.
      assert (∀ y, y ∈ l → identity y ≠ identity a) as Hl. { intros y Hy Ey. apply D. unfold G. rewrite fold_identities, firsts_elem, <- Ey. by apply elem_of_list_fmap_1. }
      split.
      * intros [H| ->].
        -- apply IH in H as (x & rest & Ef & ->). exists x, rest. rewrite Hf, Ef. split; [|done]. assert (x ∈ l) as Hx. { eapply (elem_of_list_filter (λ y, identity y = identity x)). rewrite Ef. by left. } rewrite decide_False, app_nil_r; [done|]. intros X. by apply (Hl x).
        -- exists a, []. rewrite Hf, decide_True by done. split; [|done]. assert (filter (λ y, identity y = identity a) l = []) as ->; [|done]. apply elem_of_nil_inv. intros y [Hy1 Hy2]%elem_of_list_filter. by apply (Hl y).
      * intros (x & rest & Ef & ->). rewrite Hf in Ef. destruct (decide (identity a = identity x)) as [Ea|Na].
        -- assert (filter (λ y, identity y = identity x) l = []) as E0. { apply elem_of_nil_inv. intros y [Hy1 Hy2]%elem_of_list_filter. apply (Hl y); congruence. } rewrite E0 in Ef. injection Ef as <- <-. by right.
        -- rewrite app_nil_r in Ef. left. apply IH. by exists x, rest.
Qed.

(** ** Theorems *)
(** C112a: no two routes are the same, and they are in the order first met. *)
Theorem C112_order vs : plain_mounts vs → identity <$> collect vs = firsts (identity <$> fresh vs).
Proof. intros H. by rewrite collect_fold, fold_identities. Qed.
Theorem C112_unique vs i j a b : plain_mounts vs → collect vs !! i = Some a → collect vs !! j = Some b → identity a = identity b → i = j.
Proof.
  intros H Ha Hb E. apply (NoDup_lookup (identity <$> collect vs) _ _ (identity a)); [rewrite C112_order by done; apply firsts_nodup| |]; rewrite list_lookup_fmap; [by rewrite Ha|by rewrite Hb, E].
Qed.
(** C112b: a route is all that the visits to it give, merged in order; a site visited again under the same mount is not looked at. *)
Theorem C112_route vs r : plain_mounts vs → r ∈ collect vs ↔ ∃ x rest, filter (λ y, identity y = identity x) (fresh vs) = x :: rest ∧ r = fold_left merge_route rest x.
Proof. intros H. rewrite collect_fold by done. apply fold_elem. Qed.
(** C112c: no route is lost if a site gives the same route each time it is met under the same mount. *)
Theorem C112_complete vs v r : plain_mounts vs → (∀ v w r, v ∈ vs → w ∈ vs → same_site v w → extracted v = Some r → ∃ r', extracted w = Some r' ∧ identity r' = identity r) →
  v ∈ vs → extracted v = Some r → identity r ∈ identity <$> collect vs.
Proof.
  intros Hp Hs Hv Hr. rewrite C112_order, firsts_elem by done. unfold fresh.
  assert (∀ ws before, (∀ x, x ∈ before ++ ws → x ∈ vs) → v ∈ ws → (∀ w r', w ∈ before → same_site v w → extracted w = Some r' → identity r' = identity r → False) → identity r ∈ identity <$> fresh_after before ws) as K.
  { induction ws as [|w ws IH]; intros before Hin Hvw Hb; [by apply elem_of_nil in Hvw|]. cbn [fresh_after]. rewrite fmap_app, elem_of_app.
    apply elem_of_cons in Hvw as [<-|Hvw].
    - left. rewrite decide_False; [rewrite Hr; by left|]. rewrite Exists_exists. intros (w & Hw & Sw). destruct (Hs v w r) as (r' & ? & ?); try done; [by apply Hin; apply elem_of_app; left|]. by eapply Hb.
    - destruct (decide (same_site v w)) as [Sw|Sw].
      + destruct (Hs v w r) as (r' & Er & Ei); try done; [apply Hin; apply elem_of_app; right; by left|]. left. rewrite decide_False; [rewrite Er, <- Ei; by left|]. rewrite Exists_exists. intros (u & Hu & Su).
        assert (same_site v u) as Svu by (destruct Sw as (? & ? & ?), Su as (? & ? & ?); split_and!; congruence).
        destruct (Hs v u r) as (r'' & ? & ?); try done; [by apply Hin; apply elem_of_app; left|]. by eapply Hb.
      + right. apply IH; [intros x Hx; apply Hin; by rewrite <- app_assoc in Hx|done|]. intros u r' [Hu| ->%elem_of_list_singleton]%elem_of_app Su; [by eapply Hb|done]. }
  apply K; [done|done|]. intros w r' Hw. by apply elem_of_nil in Hw.
Qed.
(** C112d: the node of a router is the first with the key at the least depth, and is found if there is one. *)
Lemma find_levels k n : ∀ q x, sum_list_with t_size q ≤ n → find_loop n k q = Some x ↔
  ∃ d pre post, level q d = pre ++ x :: post ∧ t_key x = k ∧ (∀ y, y ∈ pre → t_key y ≠ k) ∧ ∀ d' y, d' < d → y ∈ level q d' → t_key y ≠ k.
Proof.
  assert (∀ q1 q2 n, (∀ y, y ∈ q1 → t_key y ≠ k) → length q1 ≤ n → find_loop n k (q1 ++ q2) = find_loop (n - length q1) k (q2 ++ concat (t_kids <$> q1))) as Kl.
  { induction q1 as [|y q1 IH]; intros q2 m Hn Hl; cbn [length] in *; [by rewrite Nat.sub_0_r, app_nil_r|]. destruct m as [|m]; [lia|]. cbn [find_loop app]. rewrite decide_False by (apply Hn; by left). rewrite <- app_assoc, IH; [|intros z Hz; apply Hn; by right|lia].
    cbn [fmap list_fmap concat]. by rewrite <- app_assoc. }
  assert (∀ q, sum_list_with t_size q = length q + sum_list_with t_size (concat (t_kids <$> q))) as Ks.
  { induction q as [|[key ks] q IH]; [done|]. rewrite fmap_cons. cbn [sum_list_with t_size length concat t_kids]. rewrite sum_list_with_app, IH. lia. }
  assert (∀ q d, level q (S d) = level (concat (t_kids <$> q)) d) as Kd.
  { intros q. induction d as [|d IHd]; [done|]. cbn [level]. cbn [level] in IHd. by rewrite IHd. }
  induction n as [n IH] using lt_wf_ind. intros q x Hn. destruct (decide (Exists (λ y, t_key y = k) q)) as [D|D].
  - assert (∃ pre y post, q = pre ++ y :: post ∧ t_key y = k ∧ ∀ z, z ∈ pre → t_key z ≠ k) as (pre & y & post & -> & Hy & Hpre).
    { clear -D. induction q as [|a q IHq]; [by apply Exists_nil in D|]. destruct (decide (t_key a = k)) as [E|E]; [exists [], a, q; split_and!; try done; by intros z ?%elem_of_nil|]. apply Exists_cons in D as [?|D]; [done|]. destruct (IHq D) as (pre & y & post & -> & ? & Hp). exists (a :: pre), y, post. split_and!; try done. intros z [->|]%elem_of_cons; auto. }
    assert (length pre < n) as Hl by (rewrite Ks, app_length in Hn; cbn in Hn; lia).
    rewrite Kl by (done || lia). destruct (n - length pre) as [|m] eqn:E; [lia|]. cbn [app find_loop]. rewrite decide_True by done. split.
    + intros H. injection H as <-. exists 0, pre, post. split_and!; try done. lia.
    + intros (d & pre' & post' & El & Hx & Hp' & Hd). destruct d as [|d].
      * cbn in El. f_equal. revert El Hpre Hp'. clear -Hy Hx. revert pre'. induction pre as [|a pre IHp]; intros [|b pre'] El Hp Hp'; cbn in El.
        -- by injection El.
        -- injection El as -> _. exfalso. apply (Hp' b); [by left|done].
        -- injection El as -> _. exfalso. apply (Hp x); [by left|done].
        -- injection El as -> El. apply (IHp pre'); [done| |]; intros z Hz; [apply Hp|apply Hp']; by right.
      * exfalso. apply (Hd 0 y); [lia| |done]. cbn. apply elem_of_app. right. by left.
  - assert (∀ y, y ∈ q → t_key y ≠ k) as Hq. { intros y Hy E. apply D, Exists_exists. by exists y. }
    destruct q as [|a q].
    + destruct n; cbn; (split; [done|]); intros (d & pre & post & El & _); exfalso; (assert (level [] d = []) as E0 by (clear; induction d as [|d IHd]; [done|cbn; by rewrite IHd])); rewrite E0 in El; by destruct pre.
    + pose proof (Ks (a :: q)) as Es. pose proof (Kl (a :: q) [] n Hq) as E. rewrite app_nil_r in E. rewrite E by (cbn [length] in *; lia). cbn [app]. rewrite IH by (cbn [length] in *; lia). split.
      * intros (d & pre & post & El & ? & ? & Hd). exists (S d), pre, post. rewrite Kd. split_and!; try done. intros [|d'] y Hlt Hy; [by apply Hq|]. rewrite Kd in Hy. apply (Hd d'); [lia|done].
      * intros ([|d] & pre & post & El & Hx & ? & Hd); [exfalso; apply (Hq x); [rewrite <- (eq_refl : level (a :: q) 0 = a :: q), El; apply elem_of_app; right; by left|done]|]. exists d, pre, post. rewrite Kd in El. split_and!; try done. intros d' y Hlt Hy. apply (Hd (S d')); [lia|]. by rewrite Kd.
Qed.
Theorem C112_target k roots x : find_target k roots = Some x ↔
  ∃ d pre post, level roots d = pre ++ x :: post ∧ t_key x = k ∧ (∀ y, y ∈ pre → t_key y ≠ k) ∧ ∀ d' y, d' < d → y ∈ level roots d' → t_key y ≠ k.
Proof. by apply find_levels. Qed.
Theorem C112_no_target k roots : find_target k roots = None ↔ ∀ d x, x ∈ level roots d → t_key x ≠ k.
Proof.
  split.
  - intros H d. induction d as [d IH] using lt_wf_ind. intros x Hx Ex. assert (∃ pre y post, level roots d = pre ++ y :: post ∧ t_key y = k ∧ ∀ z, z ∈ pre → t_key z ≠ k) as (pre & y & post & El & Ey & Hp).
    { revert Hx. generalize (level roots d). induction l as [|a l IHl]; [by intros ?%elem_of_nil|]. intros Hx. destruct (decide (t_key a = k)) as [E|E]; [exists [], a, l; split_and!; try done; by intros z ?%elem_of_nil|].
      apply elem_of_cons in Hx as [->|Hx]; [done|]. destruct (IHl Hx) as (pre & y & post & -> & ? & Hp). exists (a :: pre), y, post. split_and!; try done. intros z [->|]%elem_of_cons; auto. }
    assert (find_target k roots = Some y) as F; [|congruence]. apply C112_target. exists d, pre, post. split_and!; try done. intros d' z Hd Hz. by apply (IH d').
  - intros H. destruct (find_target k roots) as [x|] eqn:F; [|done]. apply C112_target in F as (d & pre & post & El & Ex & _). exfalso. apply (H d x); [rewrite El; apply elem_of_app; right; by left|done].
Qed.
Print Assumptions C112_order. Print Assumptions C112_unique. Print Assumptions C112_route. Print Assumptions C112_complete. Print Assumptions C112_target. Print Assumptions C112_no_target.

(** ** Cases *)
Definition got (fn path : string) (params : list string) : route := Route fn "GET" path "" ∅ ∅ None params [] None.
Definition walk_as (r : route) : route * string := (r, rt_fn r).
Definition visit1 : visit := Visit (Some "get@main.go:3:2") "" [] (got "app.List" "/users" []) None walk_as.
Definition visit2 : visit := Visit (Some "get@main.go:3:2") "/api" ["/api"] (got "app.List" "/users" []) None walk_as.
Definition visit3 : visit := Visit (Some "get@api.go:9:2") "/api" ["/api"] (got "app.List" "/users" ["page"]) None walk_as.
Example C112_case : identity <$> collect [visit1; visit2; visit1; visit3] = [("app.List", "", "/users", "GET"); ("app.List", "/api/", "/users", "GET")] ∧ rt_params <$> collect [visit1; visit2; visit1; visit3] = [[]; ["page"]] ∧ length (fresh [visit1; visit2; visit1; visit3]) = 3 ∧ plain_mounts [visit1; visit2; visit1; visit3].
Proof. split_and!; [by vm_compute..|]. repeat constructor. Qed.
Example C112_complete_case : ∀ v w r, v ∈ [visit1; visit2; visit1; visit3] → w ∈ [visit1; visit2; visit1; visit3] → same_site v w → extracted v = Some r → ∃ r', extracted w = Some r' ∧ identity r' = identity r.
Proof.
  intros v w r Hv Hw (_ & H1 & H2) E. rewrite !elem_of_cons, elem_of_nil in Hv, Hw.
  destruct Hv as [->|[->|[->|[->|[]]]]], Hw as [->|[->|[->|[->|[]]]]]; first [vm_compute in H1; discriminate|vm_compute in H2; discriminate|by exists r].
Qed.
Definition forest1 : list tnode := [TNode "a" [TNode "b" [TNode "r" []]]; TNode "c" [TNode "d" []; TNode "r" [TNode "e" []]]].
Example C112_target_case : find_target "r" forest1 = Some (TNode "r" [TNode "e" []]) ∧ find_target "q" forest1 = None.
Proof. by vm_compute. Qed.
(** C112e: a call site reached twice under the same mount with different middleware: what is documented depends on which comes first, and the
    requirement of the second is not merged. *)
Theorem C112_security_refuted : ∃ v w, same_site v w ∧ plain_mounts [v; w] ∧ vs_security w = Some [[("bearer", [])]] ∧ rt_security <$> collect [v; w] = [None] ∧ rt_security <$> collect [w; v] = [Some [[("bearer", [])]]].
Proof. exists visit1, (Visit (Some "get@main.go:3:2") "" [] (got "app.List" "/users" []) (Some [[("bearer", [])]]) walk_as). split_and!; [done|repeat constructor|by vm_compute..]. Qed.
Print Assumptions C112_security_refuted.

(** C112f: a visit gives a route exactly if the walk, started with the mount path joined, the tags of the mount or else the pattern's own, and the
    security of the context, leaves one with a path and a handler. *)
Theorem C112_extracted_iff v r : extracted v = Some r ↔ ∃ p h, vs_walk v p = (r, h) ∧ rt_path r ≠ "" ∧ h ≠ "" ∧ rt_security p = vs_security v ∧
  (vs_tags v ≠ [] ∧ rt_tags p = vs_tags v ∨ vs_tags v = [] ∧ rt_tags p = rt_tags (vs_info v)) ∧
  (vs_mount v ≠ "" ∧ rt_mount p = join_paths (vs_mount v) (rt_mount (vs_info v)) ∨ vs_mount v = "" ∧ rt_mount p = rt_mount (vs_info v)) ∧
  rt_fn p = rt_fn (vs_info v) ∧ rt_method p = rt_method (vs_info v) ∧ rt_path p = rt_path (vs_info v) ∧ rt_used p = rt_used (vs_info v) ∧
  rt_response p = rt_response (vs_info v) ∧ rt_request p = rt_request (vs_info v) ∧ rt_params p = rt_params (vs_info v).
Proof.
  unfold extracted. split.
  - destruct (vs_walk v (prepared v)) as [r' h] eqn:E. destruct (decide _) as [|N]; [done|]. intros [= ->]. apply Decidable.not_or in N as [N1 N2]. exists (prepared v), h.
    split_and!; try done; unfold prepared; cbn.
    + destruct (vs_tags v); [by right|by left].
    + unfold visit_mount. destruct (decide (vs_mount v = "")); [by right|by left].
  - intros (p & h & E & N1 & N2 & Hs & Ht & Hm & H1 & H2 & H3 & H4 & H5 & H6 & H7).
    assert (prepared v = p) as ->. { destruct p; cbn in *; subst. unfold prepared, visit_mount. f_equal; [destruct Hm as [[? ->]|[Em ->]]|destruct Ht as [[? ->]|[Et ->]]].
      - by rewrite decide_False. - by rewrite decide_True. - by destruct (vs_tags v). - by rewrite Et. }
    rewrite E. rewrite decide_False; [done|]. intros [?|?]; done.
Qed.
Print Assumptions C112_extracted_iff.
Example C112_extracted_case : (rt_tags <$> extracted visit2) = Some ["/api"] ∧ extracted (Visit None "" [] (got "" "/users" []) None walk_as) = None.
Proof. by vm_compute. Qed.
