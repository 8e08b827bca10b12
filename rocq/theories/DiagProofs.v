(** * Proofs about diagram pages: depths, filters, slices. *)
From Coq Require Import Ascii ZArith.
From stdpp Require Import sorting.
From stdpp Require Import base numbers list strings gmap relations.
From Verif Require Import StrLib StrSub DecLib ScanModel DetModel SccSpec ReachProofs BfsLib DiagModel DiagSpec.

Lemma sublist_nodup {A} (l k : list A) : sublist l k → NoDup k → NoDup l.
Proof.
  intros H. induction H as [|x l k H IH|x l k H IH]; intros Hk; [done| |].
  - apply NoDup_cons in Hk as [H1 H2]. apply NoDup_cons. split; [|by apply IH]. intros Hx. apply H1. clear -H Hx. induction H as [|y l k H IH|y l k H IH]; [done| |right; by apply IH].
    apply elem_of_cons in Hx as [-> | Hx]; [by left|right; by apply IH].
  - apply NoDup_cons in Hk as [_ Hk]. by apply IH.
Qed.
Lemma fmap_sublist {A B} (f : A → B) (l k : list A) : sublist l k → sublist (f <$> l) (f <$> k).
Proof. intros H. induction H as [|x l k H IH|x l k H IH]; cbn; by constructor. Qed.
Lemma filter_sublist {A} (P : A → Prop) `{!∀ x, Decision (P x)} (l : list A) : sublist (filter P l) l.
Proof. induction l as [|x l IH]; [constructor|]. rewrite filter_cons. destruct (decide (P x)); by constructor. Qed.

(** ** Depths *)
Lemma elem_of_callees data x y : y ∈ callees data x ↔ drawn (d_edges data) x y.
Proof.
  unfold callees, drawn. rewrite elem_of_list_fmap. split.
  - intros (e & -> & He). apply elem_of_list_filter in He as [<- He]. by exists e.
  - intros (e & He & <- & <-). exists e. split; [done|]. by apply elem_of_list_filter.
Qed.
Lemma in_degree_0 data x : in_degree data x = 0 ↔ ∀ y, ¬ drawn (d_edges data) y x.
Proof.
  unfold in_degree. split.
  - intros H y (e & He & _ & Hx). apply nil_length_inv in H. apply (not_elem_of_nil e). rewrite <- H. by apply elem_of_list_filter.
  - intros H. destruct (filter (λ e, e_dst e = x) (d_edges data)) as [|e l] eqn:E; [done|]. exfalso. assert (e ∈ filter (λ e, e_dst e = x) (d_edges data)) as He by (rewrite E; by left).
    apply elem_of_list_filter in He as [He1 He2]. apply (H (e_src e)). by exists e.
Qed.
Lemma elem_of_start_nodes data x : x ∈ start_nodes data ↔ starts data x.
Proof.
  unfold start_nodes, starts. rewrite elem_of_list_fmap. split.
  - intros (n & -> & Hn). apply elem_of_list_filter in Hn as [Hn Hin]. exists n. rewrite <- in_degree_0. done.
  - intros (n & Hn & <- & Hs). rewrite <- in_degree_0 in Hs. exists n. split; [done|]. by apply elem_of_list_filter.
Qed.
(** The second attempt to find roots (server.go 921-927) finds nothing. *)
Lemma root_ids_start iter data : is_order iter → root_ids iter data = start_nodes data.
Proof.
  intros Hi. unfold root_ids. destruct (start_nodes data) as [|r rs] eqn:E; [|done]. apply elem_of_nil_inv. intros x Hx. apply elem_of_list_filter in Hx as [H0 Hx]. rewrite (Hi _) in Hx.
  apply elem_of_elements in Hx. unfold degree_keys in Hx. apply elem_of_union in Hx as [Hx|Hx]; apply elem_of_list_to_set, elem_of_list_fmap in Hx as (a & -> & Ha).
  - apply (not_elem_of_nil (n_id a)). rewrite <- E. apply elem_of_start_nodes. exists a. split; [done|]. split; [done|]. left. by apply in_degree_0.
  - apply in_degree_0 with (y := e_src a) in H0. apply H0. by exists a.
Qed.

Lemma depth_marks d ys : ∀ (depths : gmap string nat) (q : list (string * nat)), (∀ y e, depths !! y = Some e → e ≤ S d) → (∀ y e, (y, e) ∈ q → depths !! y = Some e) →
  let r := foldl (depth_mark d) (depths, q) ys in let b := foldl (bfs_mark (S d)) (depths, q.*1) ys in
  r.1 = b.1 ∧ r.2.*1 = b.2 ∧ ∀ y e, (y, e) ∈ r.2 → r.1 !! y = Some e.
Proof.
  induction ys as [|y ys IH]; intros depths q Hle Hq; [done|]. cbn [foldl].
  assert (depth_mark d (depths, q) y = match depths !! y with Some _ => (depths, q) | None => (<[y := S d]> depths, q ++ [(y, S d)]) end) as ->.
  { unfold depth_mark. cbn [fst snd]. destruct (depths !! y) as [e|] eqn:Ey; [|done]. by rewrite bool_decide_eq_false_2 by (specialize (Hle y e Ey); lia). }
  assert (bfs_mark (S d) (depths, q.*1) y = match depths !! y with Some _ => (depths, q.*1) | None => (<[y := S d]> depths, (q ++ [(y, S d)]).*1) end) as ->.
  { unfold bfs_mark. cbn [fst snd]. destruct (depths !! y) as [e|] eqn:Ey; [done|]. by rewrite fmap_app. }
  destruct (depths !! y) as [e|] eqn:Ey; [by apply IH|]. apply IH.
  - intros z e. destruct (decide (z = y)) as [-> | Hne]; [rewrite lookup_insert; by intros [= <-]|]. rewrite lookup_insert_ne by done. apply Hle.
  - intros z e. rewrite elem_of_app, elem_of_list_singleton. intros [Hz | [= -> ->]]; [|by rewrite lookup_insert]. rewrite lookup_insert_ne; [by apply Hq|]. intros ->. apply Hq in Hz. congruence.
Qed.
Lemma bfs_marks_queue (d : nat) ys : ∀ (depth : gmap string nat) (l : list string), NoDup l → (∀ x, x ∈ l → is_Some (depth !! x)) → NoDup (foldl (bfs_mark d) (depth, l) ys).2.
Proof.
  induction ys as [|y ys IHy]; intros depth l Hl Hin; [done|]. cbn [foldl]. unfold bfs_mark at 2. cbn [fst snd]. destruct (depth !! y) as [e|] eqn:Ey; [by apply IHy|]. apply IHy.
  - apply NoDup_app. split; [done|]. split; [|apply NoDup_singleton]. intros x Hx. rewrite elem_of_list_singleton. intros ->. destruct (Hin y Hx) as [? ?]. congruence.
  - intros x. rewrite elem_of_app, elem_of_list_singleton. intros [Hx | ->]; [|rewrite lookup_insert; by eexists]. destruct (decide (x = y)) as [-> | Hne]; [rewrite lookup_insert; by eexists|]. rewrite lookup_insert_ne by done. by apply Hin.
Qed.
Lemma depth_loop_bfs data roots n : ∀ (depths : gmap string nat) (visited : gset string) (q : list (string * nat)), bfs_inv (callees data) roots (depths, q.*1) → (∀ y e, (y, e) ∈ q → depths !! y = Some e) →
  NoDup q.*1 → (∀ x, x ∈ visited → is_Some (depths !! x) ∧ x ∉ q.*1) → depth_loop n data depths visited q = (bfs (callees data) n (depths, q.*1)).1.
Proof.
  induction n as [|n IH]; intros depths visited q Hinv Hq Hnd Hv; [done|]. cbn [depth_loop bfs fst snd]. destruct q as [|[x d] q]; [done|]. cbn [fmap list_fmap fst] in *.
  assert (depths !! x = Some d) as Hx by (apply Hq; by left). rewrite bool_decide_eq_false_2 by (intros H; apply Hv in H as [_ H]; apply H; by left). apply NoDup_cons in Hnd as [Hnd1 Hnd2].
  destruct (depth_marks d (callees data x) depths q) as (M1 & M2 & M3).
  { intros y e Hy. pose proof (bi_head _ _ _ Hinv x eq_refl y e Hy) as H. unfold at_depth in H. cbn [fst] in H. rewrite Hx in H. exact H. }
  { intros y e Hy. apply Hq. by right. }
  pose proof (bfs_step _ _ _ _ _ Hinv) as Hstep. unfold at_depth in Hstep. rewrite Hx in Hstep |- *. cbn [default from_option id] in Hstep |- *.
  destruct (foldl (depth_mark d) (depths, q) (callees data x)) as [depths' q'] eqn:E. cbn [fst snd] in M1, M2, M3.
  assert (foldl (bfs_mark (S d)) (depths, q.*1) (callees data x) = (depths', q'.*1)) as Eb by (rewrite M1, M2; by destruct (foldl (bfs_mark (S d)) (depths, q.*1) (callees data x))).
  rewrite Eb in *. apply IH; [done|done| |].
  - pose proof (bfs_marks_queue (S d) (callees data x) depths q.*1 Hnd2) as Hn. rewrite Eb in Hn. apply Hn. intros y Hy. apply (bi_queue _ _ _ Hinv). by right.
  - intros y Hy. destruct (bfs_marks (S d) (callees data x) (depths, q.*1)) as (B1 & new & B2 & B3). rewrite Eb in B1, B2. cbn [fst snd] in B1, B2, B3. rewrite B1, B2.
    assert (is_Some (depths !! y) ∧ y ∉ q.*1) as [[e He] Hyq].
    { apply elem_of_union in Hy as [Hy|Hy]; [apply elem_of_singleton in Hy as ->; split; [by eexists|done]|]. apply Hv in Hy as [? Hn]. split; [done|]. intros ?. apply Hn. by right. }
    rewrite He. split; [by eexists|]. rewrite elem_of_app, B3. intros [?|[_ ?]]; [done|congruence].
Qed.
Lemma graph_depths_spec iter data x d : is_order iter → unique_ids data → graph_depths iter data !! x = Some d ↔ calls_away data x d.
Proof.
  intros Hi Hu. unfold graph_depths. rewrite root_ids_start by done. set (roots := start_nodes data). set (N := S _). set (depths0 := list_to_map _).
  assert (NoDup roots) as Hnd.
  { unfold roots, start_nodes. unfold unique_ids in Hu. eapply sublist_nodup; [|exact Hu]. apply fmap_sublist, filter_sublist. }
  assert (∀ y, depths0 !! y = if decide (y ∈ roots) then Some 0 else None) as H0.
  { intros y. unfold depths0. destruct (decide (y ∈ roots)) as [Hy|Hy].
    - apply elem_of_list_to_map_1'; [|apply elem_of_list_fmap; by exists y]. intros z Hz. apply elem_of_list_fmap in Hz as (? & [= -> ->] & _). done.
    - apply not_elem_of_list_to_map_1. rewrite <- list_fmap_compose. intros Hin. apply Hy. apply elem_of_list_fmap in Hin as (z & -> & Hz). done. }
  assert (((λ r, (r, 0)) <$> roots).*1 = roots) as Hq by (rewrite <- list_fmap_compose; apply list_fmap_id).
  assert (bfs_inv (callees data) roots (depths0, roots)) as Hinv by (by apply bfs_init).
  assert (depth_loop N data depths0 ∅ ((λ r, (r, 0)) <$> roots) = (bfs (callees data) N (depths0, roots)).1) as ->.
  { rewrite <- Hq at 2. apply (depth_loop_bfs data roots); rewrite ?Hq; [done| |done|].
    - intros y e Hy. apply elem_of_list_fmap in Hy as (? & [= -> ->] & Hy). by rewrite H0, decide_True.
    - intros y Hy. by apply elem_of_empty in Hy. }
  set (U := degree_keys data). assert (size U ≤ length (d_nodes data) + length (d_edges data)) as HU.
  { unfold U, degree_keys. rewrite <- list_to_set_app_L. etransitivity; [apply size_list_to_set_le|]. by rewrite app_length, !fmap_length. }
  assert (∀ y, y ∈ roots → y ∈ U) as HrU.
  { intros y Hy. apply elem_of_start_nodes in Hy as (n & Hn & <- & _). unfold U, degree_keys. rewrite elem_of_union. left. apply elem_of_list_to_set, elem_of_list_fmap. by exists n. }
  assert ((bfs (callees data) N (depths0, roots)).2 = []) as Hend.
  { apply (bfs_empties _ U).
    - intros y z _ Hz. apply elem_of_callees in Hz as (e & He & _ & <-). unfold U, degree_keys. rewrite elem_of_union. right. apply elem_of_list_to_set, elem_of_list_fmap. by exists e.
    - cbn [fst]. intros y [e He]. rewrite H0 in He. destruct (decide (y ∈ roots)); [by apply HrU|done].
    - done.
    - cbn [fst snd]. assert (size depths0 = length roots) as ->; [|unfold N; lia]. unfold depths0, size, map_size. rewrite map_to_list_to_map by (by rewrite Hq). by rewrite fmap_length. }
  pose proof (bfs_run (callees data) roots N _ Hinv) as Hrun. destruct (bfs (callees data) N (depths0, roots)) as [depth q]. cbn [fst snd] in *. subst q. rewrite (bfs_done _ _ _ Hrun x d).
  assert (∀ n a b, nsteps (bfs_edge (callees data)) n a b ↔ nsteps (drawn (d_edges data)) n a b) as Hn.
  { induction n as [|n IH]; intros a b; split; intros H; inversion H; subst; try constructor.
    - econstructor; [by apply elem_of_callees|]. by apply IH.
    - econstructor; [by apply elem_of_callees|]. by apply IH. }
  unfold nearest, calls_away. split.
  - intros [(r & Hr & Hs) Hm]. split; [exists r; split; [by apply elem_of_start_nodes|by apply Hn]|]. intros r' d' Hr' Hs'. apply (Hm r'); [by apply elem_of_start_nodes|by apply Hn].
  - intros [(r & Hr & Hs) Hm]. split; [exists r; split; [by apply elem_of_start_nodes|by apply Hn]|]. intros r' d' Hr' Hs'. apply (Hm r'); [by apply elem_of_start_nodes|by apply Hn].
Qed.
