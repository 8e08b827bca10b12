(** * Proofs about the walk of a call trace, the diagram and the grade. *)
From stdpp Require Import sorting.
From stdpp Require Import base numbers list strings gmap relations.
From Verif Require Import StrLib StrOrder BfsLib TraceModel TraceSpec TracePaths.

(** ** The walk is a breadth-first search *)
Definition other_ids (cur : string) (cs : list call) : list string :=
  c_id <$> filter (λ c, callee_is_builtin c || bool_decide (c_id c = "" ∨ c_id c = cur) = false) cs.
Definition other (g : callers) (x : string) : list string := other_ids x (callers_of g x).
Lemma elem_of_other g x y : y ∈ other g x ↔ calls_other g x y.
Proof.
  unfold other, other_ids, calls_other, callers_of. rewrite elem_of_list_fmap. split.
  - intros (c & -> & Hc). apply elem_of_list_filter in Hc as [Hf Hc]. apply orb_false_iff in Hf as [Hb He]. apply bool_decide_eq_false in Hb, He.
    destruct (g !! x) as [l|]; [|by apply elem_of_nil in Hc]. split; [intros E; apply He; by right|]. split; [intros E; apply He; by left|]. exists l, (c_name c). split; [done|]. split; [|done]. by destruct c.
  - intros (Hxy & Hy & l & name & -> & Hc & Hn). exists (Call name y). split; [done|]. apply elem_of_list_filter. split; [|done]. unfold callee_is_builtin. cbn [c_name c_id].
    rewrite bool_decide_eq_false_2 by done. rewrite bool_decide_eq_false_2; [done|]. intros [?|?]; congruence.
Qed.
Lemma other_edge g x y : bfs_edge (other g) x y ↔ calls_other g x y.
Proof. apply elem_of_other. Qed.

Definition t_proj (st : tstate) : gmap string nat * list string := (t_depth st, t_queue st).
Lemma trunc_call cap cur d acc c : t_truncated acc.1 = true → t_truncated (trace_call cap cur d acc c).1 = true.
Proof.
  destruct acc as [st seen]. cbn [fst]. intros H. unfold trace_call. destruct (_ || _ || _); [done|]. cbn [fst]. destruct (bool_decide _); [done|]. by destruct (bool_decide _).
Qed.
Lemma trunc_calls cap cur d cs : ∀ acc, t_truncated acc.1 = true → t_truncated (foldl (trace_call cap cur d) acc cs).1 = true.
Proof. induction cs as [|c cs IH]; intros acc H; [done|]. cbn [foldl]. apply IH. by apply trunc_call. Qed.
Lemma trunc_fanout cur st : t_truncated (trace_fanout cur st) = t_truncated st.
Proof. unfold trace_fanout. by destruct (bool_decide _). Qed.
Lemma trunc_turn rc dc g cur st : t_truncated st = true → t_truncated (trace_turn rc dc g cur st) = true.
Proof. intros H. unfold trace_turn. destruct (bool_decide _); [done|]. rewrite trunc_fanout. by apply trunc_calls. Qed.
Lemma trunc_loop rc dc g n : ∀ st, t_truncated st = true → t_truncated (trace_loop rc dc g n st) = true.
Proof. induction n as [|n IH]; intros st H; cbn [trace_loop]; [done|]. destruct (t_queue st); [done|]. apply IH. apply trunc_turn. done. Qed.

(** One body, as long as nothing is cut off. *)
Lemma calls_spec cap cur d cs : ∀ (st : tstate) (seen : gset string), (∀ x, x ∈ seen → x ∈ t_visited st) → (dom (t_depth st) : gset string) = t_visited st →
  let r := foldl (trace_call cap cur d) (st, seen) cs in t_truncated r.1 = false →
  t_proj r.1 = foldl (bfs_mark (S d)) (t_proj st) (other_ids cur cs)
  ∧ (dom (t_depth r.1) : gset string) = t_visited r.1
  ∧ (∀ x, x ≠ cur → kids (t_adj r.1) x = kids (t_adj st) x)
  ∧ (∃ new, kids (t_adj r.1) cur = kids (t_adj st) cur ++ new ∧ NoDup new ∧ ∀ y, y ∈ new ↔ y ∈ other_ids cur cs ∧ y ∉ seen)
  ∧ t_max_depth r.1 = (if decide (t_depth r.1 = t_depth st) then t_max_depth st else t_max_depth st `max` S d)
  ∧ (size (t_visited st) ≤ cap → size (t_visited r.1) ≤ cap) ∧ t_fanout_max r.1 = t_fanout_max st ∧ t_fanout_sum r.1 = t_fanout_sum st ∧ t_fanout_nodes r.1 = t_fanout_nodes st
  ∧ (∀ x e, t_depth st !! x = Some e → t_depth r.1 !! x = Some e).
Proof.
  induction cs as [|c cs IH]; intros st seen Hseen Hdom r Htr.
  { subst r. cbn [foldl fst] in *. split; [done|]. split; [done|]. split; [done|]. split.
    { exists []. rewrite app_nil_r. split; [done|]. split; [apply NoDup_nil_2|]. intros y. split; [by intros ?%elem_of_nil|]. intros [Hy _]. by apply elem_of_nil in Hy. }
    rewrite decide_True by done. done. }
  cbn [foldl] in r. unfold other_ids. destruct (callee_is_builtin c || bool_decide (c_id c = "" ∨ c_id c = cur)) eqn:Eskip.
  { assert (trace_call cap cur d (st, seen) c = (st, seen)) as Ec by (unfold trace_call; by rewrite Eskip). subst r. rewrite Ec in *.
    rewrite filter_cons_False by (by rewrite Eskip). by apply IH. }
  rewrite filter_cons_True by done. rewrite fmap_cons. fold (other_ids cur cs). destruct (decide (c_id c ∈ seen)) as [Hs|Hs].
  { assert (trace_call cap cur d (st, seen) c = (st, seen)) as Ec by (unfold trace_call; by rewrite Eskip, (bool_decide_eq_true_2 (_ ∈ seen)) by done). subst r. rewrite Ec in *.
    destruct (IH st seen Hseen Hdom Htr) as (H1 & H2 & H3 & (new & N1 & N2 & N3) & H5). split.
    { cbn [foldl]. rewrite H1. f_equal. unfold bfs_mark, t_proj. cbn [fst]. apply Hseen in Hs. rewrite <- Hdom in Hs. apply elem_of_dom in Hs as [e ->]. done. }
    split; [done|]. split; [done|]. split; [|done]. exists new. split; [done|]. split; [done|]. intros y. rewrite N3, elem_of_cons. split; [intros [? ?]; auto|]. intros [[-> | ?] ?]; done. }
  set (st1 := (trace_call cap cur d (st, seen) c).1).
  assert (trace_call cap cur d (st, seen) c = (st1, {[c_id c]} ∪ seen)) as Ec.
  { subst st1. unfold trace_call. rewrite Eskip, (bool_decide_eq_false_2 (_ ∈ seen)) by done. done. }
  assert (t_truncated st1 = false) as Htr1.
  { destruct (t_truncated st1) eqn:E; [|done]. subst r. rewrite Ec, trunc_calls in Htr; done. }
  assert (∀ x, kids (t_adj st1) x = if decide (x = cur) then kids (t_adj st) cur ++ [c_id c] else kids (t_adj st) x) as Hadj.
  { intros x. subst st1. unfold trace_call. rewrite Eskip, (bool_decide_eq_false_2 (_ ∈ seen)) by done. cbn [orb fst].
    assert (∀ m : adjacency, kids (<[cur := kids m cur ++ [c_id c]]> m) x = if decide (x = cur) then kids m cur ++ [c_id c] else kids m x) as Hk.
    { intros m. unfold kids at 1. destruct (decide (x = cur)) as [-> | Hne]; [by rewrite lookup_insert|]. by rewrite lookup_insert_ne. }
    destruct (bool_decide (c_id c ∈ t_visited st)); [apply Hk|]. destruct (bool_decide (size _ ≤ cap)); apply Hk. }
  assert (t_proj st1 = bfs_mark (S d) (t_proj st) (c_id c) ∧ (dom (t_depth st1) : gset string) = t_visited st1 ∧ c_id c ∈ t_visited st1 ∧ (∀ x, x ∈ t_visited st → x ∈ t_visited st1)
    ∧ t_max_depth st1 = (if decide (c_id c ∈ t_visited st) then t_max_depth st else t_max_depth st `max` S d) ∧ (size (t_visited st) ≤ cap → size (t_visited st1) ≤ cap)
    ∧ t_fanout_max st1 = t_fanout_max st ∧ t_fanout_sum st1 = t_fanout_sum st ∧ t_fanout_nodes st1 = t_fanout_nodes st ∧ (∀ x e, t_depth st !! x = Some e → t_depth st1 !! x = Some e)
    ∧ (c_id c ∈ t_visited st → t_depth st1 = t_depth st) ∧ (c_id c ∉ t_visited st → t_depth st !! c_id c = None ∧ t_depth st1 !! c_id c = Some (S d))) as (P1 & P2 & P3 & P4 & P5 & P6 & P7 & P8 & P9 & P10 & P11 & P12).
  { revert Htr1. subst st1. clear Hadj Ec. unfold trace_call. rewrite Eskip, (bool_decide_eq_false_2 (c_id c ∈ seen)) by done. cbn [orb fst]. unfold bfs_mark, t_proj. intros Htr1. clear IH.
    destruct (decide (c_id c ∈ t_visited st)) as [Hv|Hv].
    - rewrite (bool_decide_eq_true_2 (_ ∈ t_visited st)) in * by done. cbn [t_depth t_queue t_visited t_max_depth t_truncated t_fanout_max t_fanout_sum t_fanout_nodes fst] in *.
      assert (is_Some (t_depth st !! c_id c)) as [e ->] by (apply elem_of_dom; by rewrite Hdom). done.
    - rewrite (bool_decide_eq_false_2 (_ ∈ t_visited st)) in * by done. destruct (decide (size ({[c_id c]} ∪ t_visited st) ≤ cap)) as [Hsz|Hsz].
      2: { rewrite (bool_decide_eq_false_2 (size _ ≤ cap)) in * by done. done. }
      rewrite (bool_decide_eq_true_2 (size _ ≤ cap)) in * by done. cbn [t_depth t_queue t_visited t_max_depth t_truncated t_fanout_max t_fanout_sum t_fanout_nodes fst snd] in *.
      assert (t_depth st !! c_id c = None) as Hnone by (apply not_elem_of_dom; by rewrite Hdom). rewrite Hnone. split; [done|]. split; [by rewrite dom_insert_L, Hdom|].
      split; [rewrite elem_of_union, elem_of_singleton; by left|]. split; [intros x Hx; rewrite elem_of_union; by right|]. split; [done|]. split; [done|]. split; [done|]. split; [done|]. split; [done|].
      split; [intros x e He; rewrite lookup_insert_ne; [done|]; congruence|]. split; [done|]. intros _. by rewrite lookup_insert. }
  subst r. rewrite Ec in *. destruct (IH st1 ({[c_id c]} ∪ seen)) as (H1 & H2 & H3 & (new & N1 & N2 & N3) & H5 & H6 & H7 & H8 & H9 & H10); [|done|done|].
  { intros x. rewrite elem_of_union, elem_of_singleton. intros [-> | Hx]; [done|]. by apply P4, Hseen. }
  split; [cbn [foldl]; by rewrite H1, P1|]. split; [done|]. split; [intros x Hx; by rewrite H3, Hadj, decide_False|]. split.
  { exists (c_id c :: new). rewrite N1, Hadj, decide_True, <- app_assoc by done. split; [done|]. split.
    { apply NoDup_cons. split; [|done]. intros Hin. apply N3 in Hin as [_ Hin]. apply Hin. rewrite elem_of_union, elem_of_singleton. by left. }
    intros y. rewrite !elem_of_cons, N3, elem_of_union, elem_of_singleton. destruct (decide (y = c_id c)) as [-> | Hne]; [split; [auto|by left]|]. split.
    - intros [? | [? Hn]]; [done|]. split; [by right|]. auto.
    - intros [[? | ?] ?]; [done|]. right. split; [done|]. by intros [?|?]. }
  split.
  { set (rr := (foldl (trace_call cap cur d) (st1, {[c_id c]} ∪ seen) cs).1) in *. rewrite H5, P5. destruct (decide (c_id c ∈ t_visited st)) as [Hv|Hv].
    - rewrite (P11 Hv). done.
    - destruct (P12 Hv) as [Hn Hy]. rewrite (decide_False (P := t_depth rr = t_depth st)).
      2: { intros E. apply H10 in Hy. rewrite E, Hn in Hy. done. }
      destruct (decide _); lia. }
  split; [auto|]. split; [congruence|]. split; [congruence|]. split; [congruence|]. auto.
Qed.

(** What holds of an uncut run at every turn. [turns]: how far the search has come. *)
Record tinv (cap dc : nat) (g : callers) (root : string) (st : tstate) : Prop := {
  ti_bfs : bfs_inv (other g) [root] (t_proj st);
  ti_dom : (dom (t_depth st) : gset string) = t_visited st;
  ti_nodup : NoDup (t_queue st);
  ti_done : ∀ x, x ∈ t_visited st → x ∉ t_queue st → NoDup (kids (t_adj st) x) ∧ ∀ y, y ∈ kids (t_adj st) x ↔ y ∈ other g x;
  ti_todo : ∀ x, (x ∈ t_queue st ∨ x ∉ t_visited st) → kids (t_adj st) x = [];
  ti_max : (∀ x d, t_depth st !! x = Some d → d ≤ t_max_depth st) ∧ ∃ x, t_depth st !! x = Some (t_max_depth st);
  ti_fan : (∀ x, length (kids (t_adj st) x) ≤ t_fanout_max st) ∧ (t_fanout_max st = 0 ∨ ∃ x, length (kids (t_adj st) x) = t_fanout_max st);
  ti_size : size (t_visited st) ≤ cap;
  ti_shallow : ∀ x d, t_depth st !! x = Some d → x ∉ t_queue st → d < dc;
  ti_sum : ∃ l, NoDup l ∧ (∀ x, x ∈ l ↔ x ∈ t_visited st ∧ x ∉ t_queue st) ∧ t_fanout_sum st = sum_list ((λ x, length (kids (t_adj st) x)) <$> l)
    ∧ t_fanout_nodes st = length (filter (λ x, kids (t_adj st) x ≠ []) l) }.
Lemma tinv_start cap dc g root : 0 < cap → tinv cap dc g root (trace_start root).
Proof.
  intros Hcap. split; cbn [t_proj trace_start t_depth t_queue t_visited t_adj t_max_depth t_fanout_max t_fanout_sum t_fanout_nodes].
  - unfold t_proj. cbn [t_depth t_queue]. apply bfs_init. intros x. destruct (decide (x = root)) as [-> | Hne].
    + rewrite (decide_True (P := root ∈ [root])) by (by left). apply lookup_singleton.
    + rewrite (decide_False (P := x ∈ [root])) by (by rewrite elem_of_list_singleton). by apply lookup_singleton_ne.
  - by rewrite dom_singleton_L.
  - apply NoDup_singleton.
  - intros x Hx Hn. apply elem_of_singleton in Hx as ->. exfalso. apply Hn. by left.
  - intros x _. unfold kids. by rewrite lookup_empty.
  - split; [|exists root; by rewrite lookup_singleton]. intros x d. destruct (decide (x = root)) as [-> | Hne]; [rewrite lookup_singleton; by intros [= <-]|]. by rewrite lookup_singleton_ne.
  - split; [|by left]. intros x. unfold kids. rewrite lookup_empty. cbn. lia.
  - rewrite size_singleton. lia.
  - intros x d. destruct (decide (x = root)) as [-> | Hne]; [|by rewrite lookup_singleton_ne]. intros _ Hx. exfalso. apply Hx. by left.
  - exists []. split; [apply NoDup_nil_2|]. split; [|done]. intros x. rewrite elem_of_singleton, elem_of_list_singleton. split; [by intros ?%elem_of_nil|by intros [? ?]].
Qed.
Lemma fanout_same cur st : t_proj (trace_fanout cur st) = t_proj st ∧ t_adj (trace_fanout cur st) = t_adj st ∧ t_visited (trace_fanout cur st) = t_visited st ∧ t_max_depth (trace_fanout cur st) = t_max_depth st
  ∧ t_fanout_max (trace_fanout cur st) = t_fanout_max st `max` length (kids (t_adj st) cur)
  ∧ t_fanout_sum (trace_fanout cur st) = t_fanout_sum st + length (kids (t_adj st) cur) ∧ t_fanout_nodes (trace_fanout cur st) = t_fanout_nodes st + (if decide (kids (t_adj st) cur ≠ []) then 1 else 0).
Proof.
  unfold trace_fanout. destruct (kids (t_adj st) cur) as [|k ks] eqn:E; cbn [length].
  - rewrite (decide_False (P := [] ≠ [])) by (by intros ?). rewrite bool_decide_eq_false_2 by lia. split_and!; first [done|lia].
  - rewrite bool_decide_eq_true_2 by lia. rewrite decide_True by done. cbn [t_proj t_depth t_queue t_adj t_visited t_max_depth t_fanout_max t_fanout_sum t_fanout_nodes]. split_and!; first [done|lia].
Qed.
Lemma tinv_turn rc dc g root cur q st : t_queue st = cur :: q → tinv rc dc g root st → t_truncated (trace_turn rc dc g cur (set_queue q st)) = false →
  tinv rc dc g root (trace_turn rc dc g cur (set_queue q st)) ∧ t_proj (trace_turn rc dc g cur (set_queue q st)) = foldl (bfs_mark (S (at_depth (t_depth st) cur))) (t_depth st, q) (other g cur).
Proof.
  intros Hq [I1 I2 I3 I4 I5 I6 I7 I8 I9 I10] Htr. unfold trace_turn in *. cbn [set_queue t_depth] in *. destruct (bool_decide (dc ≤ _)) eqn:Edc; [done|]. apply bool_decide_eq_false in Edc. rewrite trunc_fanout in Htr.
  set (d := default 0 (t_depth st !! cur)) in *.
  destruct (calls_spec rc cur d (callers_of g cur) (set_queue q st) ∅) as (C1 & C2 & C3 & (new & N1 & N2 & N3) & C5 & C6 & C7 & C8 & C9 & C10); [intros x Hx; by apply elem_of_empty in Hx|done|done|].
  set (st' := (foldl (trace_call rc cur d) (set_queue q st, ∅) (callers_of g cur)).1) in *. destruct (fanout_same cur st') as (F1 & F2 & F3 & F4 & F5 & F6 & F7).
  cbn [set_queue t_proj t_depth t_queue t_adj t_visited t_max_depth t_fanout_max t_fanout_sum t_fanout_nodes] in *. unfold t_proj in C1, F1. cbn [t_depth t_queue] in C1. injection F1 as F1a F1b.
  assert (t_proj (trace_fanout cur st') = foldl (bfs_mark (S (at_depth (t_depth st) cur))) (t_depth st, q) (other g cur)) as Hproj by (unfold t_proj; rewrite F1a, F1b; exact C1).
  split; [|exact Hproj].
  unfold t_proj in I1. rewrite Hq in I1, I3, I4, I5, I9, I10. apply NoDup_cons in I3 as [I3a I3b].
  pose proof (bfs_step _ _ _ _ _ I1) as Hstep. destruct (bfs_marks (S (at_depth (t_depth st) cur)) (other g cur) (t_depth st, q)) as (M1 & fresh & M2 & M3). cbn [fst snd] in *. rewrite <- Hproj in Hstep, M1, M2. unfold t_proj in M1, M2. cbn [fst snd] in M1, M2.
  assert (cur ∈ t_visited st) as Hcur. { rewrite <- I2. apply elem_of_dom. apply (bi_queue _ _ _ I1). by left. }
  assert (∀ x, x ∈ fresh ↔ x ∈ other g cur ∧ x ∉ t_visited st) as Hfresh. { intros x. rewrite M3, <- I2, not_elem_of_dom. done. }
  assert (∀ x, x ∈ t_visited st' ↔ x ∈ t_visited st ∨ x ∈ other g cur) as Hvis.
  { intros x. rewrite <- C2, <- F1a. rewrite elem_of_dom, M1, <- I2. rewrite elem_of_dom. destruct (t_depth st !! x) as [e|]; [split; [intros _; left; by eexists|by eexists]|].
    destruct (decide (x ∈ other g cur)); split; try (by intros [? [=]]); [by right|by eexists|]. intros [[? [=]]|?]; done. }
  assert (kids (t_adj st) cur = []) as Hcur0 by (apply I5; left; by left).
  assert (∀ x, x ∈ t_queue (trace_fanout cur st') ↔ x ∈ q ∨ (x ∈ other g cur ∧ x ∉ t_visited st)) as Hqueue by (intros x; rewrite M2, elem_of_app, Hfresh; done).
  assert (∀ x, x ∈ q → x ∈ t_visited st) as Hqv. { intros x Hx. rewrite <- I2. apply elem_of_dom. apply (bi_queue _ _ _ I1). by right. }
  split; rewrite ?F2, ?F3, ?F4, ?F5, ?F6, ?F7, ?F1a.
  - exact Hstep.
  - done.
  - (* no function is queued twice *)
    assert (NoDup (t_queue st')) as Hnd; [|by rewrite F1b].
    assert (∀ ys (depth : gmap string nat) (l : list string), NoDup l → (∀ x, x ∈ l → is_Some (depth !! x)) → NoDup (foldl (bfs_mark (S d)) (depth, l) ys).2) as Hgo.
    { induction ys as [|y ys IHy]; intros depth l Hl Hin; [done|]. cbn [foldl]. unfold bfs_mark at 2. cbn [fst snd]. destruct (depth !! y) as [e|] eqn:Ey; [by apply IHy|]. apply IHy.
      - apply NoDup_app. split; [done|]. split; [|apply NoDup_singleton]. intros x Hx. rewrite elem_of_list_singleton. intros ->. destruct (Hin y Hx) as [? ?]. congruence.
      - intros x. rewrite elem_of_app, elem_of_list_singleton. intros [Hx | ->]; [|rewrite lookup_insert; by eexists]. destruct (decide (x = y)) as [-> | Hne]; [rewrite lookup_insert; by eexists|]. rewrite lookup_insert_ne by done. by apply Hin. }
    assert (t_queue st' = (foldl (bfs_mark (S d)) (t_depth st, q) (other_ids cur (callers_of g cur))).2) as -> by exact (f_equal snd C1). apply Hgo; [done|]. intros x Hx. apply elem_of_dom. rewrite I2. by apply Hqv.
  - intros x Hx Hnq. rewrite Hqueue in Hnq. destruct (decide (x = cur)) as [-> | Hne].
    + rewrite N1, Hcur0. cbn [app]. split; [done|]. intros y. rewrite N3. split; [by intros [? _]|]. intros Hy. split; [done|]. apply not_elem_of_empty.
    + rewrite C3 by done. apply Hvis in Hx. destruct (decide (x ∈ t_visited st)) as [Hv|Hv].
      * apply I4; [done|]. rewrite elem_of_cons. intros [? | ?]; [done|]. apply Hnq. by left.
      * destruct Hx as [Hx|Hx]; [done|]. exfalso. apply Hnq. by right.
  - intros x Hx. assert (x ≠ cur) as Hne. { intros ->. destruct Hx as [Hx|Hx]; [|apply Hx, Hvis; by left]. apply Hqueue in Hx as [Hx|[Hx Hv]]; [done|done]. }
    rewrite C3 by done. apply I5. destruct Hx as [Hx|Hx].
    + apply Hqueue in Hx as [Hx|[_ Hx]]; [left; by right|by right].
    + right. intros Hv. apply Hx, Hvis. by left.
  - destruct I6 as [Im1 (xm & Im2)]. rewrite C5. destruct (decide (t_depth st' = t_depth st)) as [E|E].
    + rewrite E. split; [done|by exists xm].
    + assert (∀ x e, t_depth st' !! x = Some e → t_depth st !! x = Some e ∨ e = S d) as Hcases.
      { intros x e. rewrite <- F1a, M1. destruct (t_depth st !! x); [auto|]. destruct (decide (x ∈ other g cur)); [|done]. intros [= <-]. by right. }
      assert (∃ y, t_depth st' !! y = Some (S d)) as (y & Hy).
      { destruct fresh as [|y fresh].
        - exfalso. apply E. apply map_eq. intros x. rewrite <- F1a, M1. destruct (t_depth st !! x) eqn:Ex; [done|]. destruct (decide (x ∈ other g cur)) as [Hin|]; [|done]. exfalso. apply (not_elem_of_nil x). apply M3. done.
        - exists y. assert (y ∈ y :: fresh) as Hy by (by left). apply M3 in Hy as [Hy1 Hy2]. rewrite <- F1a, M1, Hy2, decide_True by done. done. }
      assert (d ≤ t_max_depth st) as Hd. { unfold d. destruct (t_depth st !! cur) as [e|] eqn:Ee; [by apply (Im1 cur)|cbn; lia]. }
      split.
      * intros x e He. destruct (Hcases x e He) as [Hx | ->]; [apply Im1 in Hx|]; lia.
      * destruct (decide (t_max_depth st = S d)) as [Em|Em]; [exists xm; replace (t_max_depth st `max` S d) with (t_max_depth st) by lia; by apply C10|].
        destruct (decide (S d ≤ t_max_depth st)); [exists xm; replace (t_max_depth st `max` S d) with (t_max_depth st) by lia; by apply C10|]. exists y. by replace (t_max_depth st `max` S d) with (S d) by lia.
  - destruct I7 as [Hf1 Hf2]. rewrite C7. split.
    + intros x. destruct (decide (x = cur)) as [-> | Hne]; [lia|]. rewrite C3 by done. specialize (Hf1 x). lia.
    + destruct (decide (t_fanout_max st ≤ length (kids (t_adj st') cur))) as [Hle|Hle].
      * right. exists cur. lia.
      * destruct Hf2 as [Hf2|(x & Hx)]; [lia|]. right. exists x. destruct (decide (x = cur)) as [-> | Hne]; [rewrite Hcur0 in Hx; cbn in Hx; lia|]. rewrite C3 by done. lia.
  - by apply C6.
  - intros x e He Hnq. rewrite Hqueue in Hnq. destruct (decide (x = cur)) as [-> | Hne].
    + rewrite <- F1a, M1 in He. unfold d in *. destruct (t_depth st !! cur) as [e'|] eqn:Ee; [injection He as <-; cbn in Edc; lia|]. rewrite <- I2 in Hcur. apply elem_of_dom in Hcur as [? ?]. congruence.
    + rewrite <- F1a, M1 in He. destruct (t_depth st !! x) as [e'|] eqn:Ee.
      * injection He as <-. apply (I9 x _ Ee). rewrite elem_of_cons. intros [? | ?]; [done|]. apply Hnq. by left.
      * exfalso. destruct (decide (x ∈ other g cur)) as [Hx|]; [|done]. apply Hnq. right. split; [done|]. rewrite <- I2. by apply not_elem_of_dom.
  - destruct I10 as (l & L1 & L2 & L3 & L4). assert (cur ∉ l) as Hcl. { intros Hin. apply L2 in Hin as [_ Hin]. apply Hin. by left. }
    assert (∀ x, x ∈ l → kids (t_adj st') x = kids (t_adj st) x) as Hsame. { intros x Hx. apply C3. by intros ->. }
    exists (cur :: l). split; [by apply NoDup_cons|]. split; [|split].
    + intros x. rewrite elem_of_cons, L2, Hqueue, Hvis, elem_of_cons. split.
      * intros [-> | [Hv Hn]]; [split; [by left|]; intros [?|[_ ?]]; done|]. split; [by left|]. intros [?|[_ ?]]; [apply Hn; by right|done].
      * intros [Hv Hn]. destruct (decide (x = cur)) as [-> | Hne]; [by left|]. right. destruct (decide (x ∈ t_visited st)) as [Hv'|Hv']; [|exfalso; destruct Hv as [?|?]; [done|]; apply Hn; by right].
        split; [done|]. intros [?|?]; [done|]. apply Hn. by left.
    + rewrite C8, L3, fmap_cons. cbn [sum_list sum_list_with id]. rewrite Nat.add_comm. f_equal. f_equal. apply list_fmap_ext. intros i x Hx. cbn. apply elem_of_list_lookup_2 in Hx. by rewrite Hsame.
    + rewrite C9, L4, filter_cons. rewrite Nat.add_comm. assert (filter (λ x, kids (t_adj st) x ≠ []) l = filter (λ x, kids (t_adj st') x ≠ []) l) as ->.
      { clear -Hsame. induction l as [|x l IH]; [done|]. rewrite !filter_cons, Hsame by (by left). rewrite IH by (intros y Hy; apply Hsame; by right). done. }
      destruct (decide (kids (t_adj st') cur ≠ [])); cbn [length]; lia.
Qed.

(** The whole loop, when nothing is cut off. *)
Lemma tinv_measure rc dc g root cur q st : t_queue st = cur :: q → tinv rc dc g root st → t_truncated (trace_turn rc dc g cur (set_queue q st)) = false →
  length (t_queue (trace_turn rc dc g cur (set_queue q st))) + (rc - size (t_visited (trace_turn rc dc g cur (set_queue q st)))) < length (t_queue st) + (rc - size (t_visited st)).
Proof.
  intros Hq Hinv Htr. destruct (tinv_turn _ _ _ _ _ _ _ Hq Hinv Htr) as [Hinv' Hproj]. set (st' := trace_turn rc dc g cur (set_queue q st)) in *.
  pose proof (bfs_marks_size (S (at_depth (t_depth st) cur)) (other g cur) (t_depth st, q)) as Hs. rewrite <- Hproj in Hs. unfold t_proj in Hs. cbn [fst snd] in Hs.
  assert (size (t_depth st) = size (t_visited st)) as E1 by (by rewrite <- (ti_dom _ _ _ _ _ Hinv), size_dom).
  assert (size (t_depth st') = size (t_visited st')) as E2 by (by rewrite <- (ti_dom _ _ _ _ _ Hinv'), size_dom).
  pose proof (ti_size _ _ _ _ _ Hinv'). rewrite Hq. cbn [length]. lia.
Qed.
Lemma loop_uncut rc dc g root n : ∀ st, tinv rc dc g root st → length (t_queue st) + (rc - size (t_visited st)) ≤ n → t_truncated (trace_loop rc dc g n st) = false →
  tinv rc dc g root (trace_loop rc dc g n st) ∧ t_queue (trace_loop rc dc g n st) = [].
Proof.
  induction n as [|n IH]; intros st Hinv Hn Htr; cbn [trace_loop] in *; [split; [done|]; destruct (t_queue st); [done|]; cbn in Hn; lia|].
  destruct (t_queue st) as [|cur q] eqn:Eq; [done|].
  assert (t_truncated (trace_turn rc dc g cur (set_queue q st)) = false) as Ht.
  { destruct (t_truncated (trace_turn rc dc g cur (set_queue q st))) eqn:E; [|done]. by rewrite trunc_loop in Htr. }
  pose proof (tinv_measure _ _ _ _ _ _ _ Eq Hinv Ht) as Hm. destruct (tinv_turn _ _ _ _ _ _ _ Eq Hinv Ht) as [Hinv' _]. apply IH; [done| |done]. rewrite Eq in Hm. cbn [length] in *. lia.
Qed.
Lemma nearest_distance g root x d : nearest (bfs_edge (other g)) [root] x d ↔ distance (calls_other g) root x d.
Proof.
  assert (∀ n x y, nsteps (bfs_edge (other g)) n x y ↔ nsteps (calls_other g) n x y) as Hn.
  { induction n as [|n IH]; intros a b; split; intros H; inversion H; subst; try constructor.
    - econstructor; [by apply other_edge|]. by apply IH.
    - econstructor; [by apply other_edge|]. by apply IH. }
  unfold nearest, distance. split.
  - intros [(r & Hr & Hs) Hm]. apply elem_of_list_singleton in Hr as ->. split; [by apply Hn|]. intros d' Hd. apply (Hm root); [by left|]. by apply Hn.
  - intros [Hs Hm]. split; [exists root; split; [by left|by apply Hn]|]. intros r d' Hr Hd. apply elem_of_list_singleton in Hr as ->. by apply Hm, Hn.
Qed.
Lemma uncut rc dc g root : 0 < rc → t_truncated (trace_with rc dc g root) = false → tinv rc dc g root (trace_with rc dc g root) ∧ t_queue (trace_with rc dc g root) = [].
Proof. intros Hrc Htr. apply loop_uncut; [by apply tinv_start| |done]. cbn [trace_start t_queue t_visited length]. rewrite size_singleton. lia. Qed.
Lemma uncut_depth rc dc g root : 0 < rc → t_truncated (trace_with rc dc g root) = false → ∀ x d, t_depth (trace_with rc dc g root) !! x = Some d ↔ distance (calls_other g) root x d.
Proof.
  intros Hrc Htr x d. destruct (uncut _ _ _ _ Hrc Htr) as [[I1 _ _ _ _ _ _ _ _ _] Hq]. unfold t_proj in I1. rewrite Hq in I1. rewrite <- nearest_distance. by apply bfs_done.
Qed.
(** The same search without limits; the graph is finite, so it ends. *)
Definition universe (g : callers) (root : string) : gset string := {[ root ]} ∪ list_to_set (mjoin ((λ p : string * list call, c_id <$> p.2) <$> map_to_list g)).
Lemma universe_closed g root x y : y ∈ other g x → y ∈ universe g root.
Proof.
  intros Hy. apply elem_of_other in Hy as (_ & _ & l & name & Hg & Hc & _). unfold universe. rewrite elem_of_union. right. apply elem_of_list_to_set. apply elem_of_list_join. exists (c_id <$> l). split.
  - apply elem_of_list_fmap. exists (Call name y). done.
  - apply elem_of_list_fmap. exists (x, l). split; [done|]. by apply elem_of_map_to_list.
Qed.
Definition full (g : callers) (root : string) : gmap string nat := (bfs (other g) (S (size (universe g root))) ({[ root := 0 ]}, [root])).1.
Lemma start_inv g root : bfs_inv (other g) [root] ({[ root := 0 ]}, [root]).
Proof. exact (ti_bfs _ _ _ _ _ (tinv_start 1 0 g root (Nat.lt_0_succ 0))). Qed.
Lemma full_depth g root x d : full g root !! x = Some d ↔ distance (calls_other g) root x d.
Proof.
  rewrite <- nearest_distance. pose proof (bfs_run (other g) [root] (S (size (universe g root))) _ (start_inv g root)) as Hinv.
  assert ((bfs (other g) (S (size (universe g root))) ({[ root := 0 ]}, [root])).2 = []) as Hq.
  { apply (bfs_empties _ (universe g root)).
    - intros y z _ Hz. by apply (universe_closed g root y).
    - cbn [fst]. intros y [e He]. apply lookup_singleton_Some in He as [<- _]. unfold universe. rewrite elem_of_union, elem_of_singleton. by left.
    - cbn [snd]. intros y Hy. apply elem_of_list_singleton in Hy as ->. unfold universe. rewrite elem_of_union, elem_of_singleton. by left.
    - cbn [fst snd length]. rewrite map_size_singleton. lia. }
  unfold full. destruct (bfs (other g) (S (size (universe g root))) ({[ root := 0 ]}, [root])) as [depth q]. cbn [fst snd] in *. subst q. by apply bfs_done.
Qed.
Lemma reach_distance g root x : rtc (calls_other g) root x ↔ ∃ d, distance (calls_other g) root x d.
Proof.
  split; [|intros (d & Hd & _); apply rtc_nsteps; by exists d]. revert x. apply (rtc_ind_r (λ z, ∃ d, distance (calls_other g) root z d) root); [|intros y z Hy Hyz IH].
  - exists 0. split; [constructor|]. intros; lia.
  - destruct IH as (d & Hd). destruct (full g root !! z) as [e|] eqn:Ee; [exists e; by apply full_depth|]. exfalso.
    (* the distances of [z] are bounded below, so one of them is least *)
    assert (nsteps (calls_other g) (S d) root z) as Hs. { destruct Hd as [Hd _]. eapply nsteps_r; done. }
    clear -Hs Ee. assert (∀ n, nsteps (calls_other g) n root z → False) as Hno; [|by apply (Hno (S d))].
    intros n. induction (lt_wf n) as [n _ IH]. intros Hn. assert (distance (calls_other g) root z n) as Hdist.
    { split; [done|]. intros m Hm. destruct (decide (n ≤ m)); [done|]. exfalso. apply (IH m); [lia|done]. }
    apply full_depth in Hdist. congruence.
Qed.

(** ** Depths and functions shown are right even when the walk is cut short *)
Record tsafe (rc dc : nat) (g : callers) (root : string) (st : tstate) : Prop := {
  ts_depth : ∀ x d, t_depth st !! x = Some d → distance (calls_other g) root x d;
  ts_vis : ∀ x, x ∈ t_visited st → rtc (calls_other g) root x;
  ts_adj : ∀ x y, y ∈ kids (t_adj st) x → calls_other g x y;
  ts_queue : ∀ x, x ∈ t_queue st → x ∈ t_visited st;
  ts_stuck : t_truncated st = true → rc < size (t_visited st) ∨ ∀ x, x ∈ t_queue st → dc ≤ at_depth (t_depth st) x }.
Lemma bfs_state_distance g root st : bfs_inv (other g) [root] st → (∀ x, is_Some (st.1 !! x) → x ∈ universe g root) → ∀ x d, st.1 !! x = Some d → distance (calls_other g) root x d.
Proof.
  intros Hinv HU x d Hx. rewrite <- nearest_distance. pose proof (bfs_run (other g) [root] (length st.2 + size (universe g root)) _ Hinv) as Hend.
  assert ((bfs (other g) (length st.2 + size (universe g root)) st).2 = []) as Hq.
  { apply (bfs_empties _ (universe g root)); [|done| |lia].
    - intros y z _ Hz. by apply (universe_closed g root y).
    - intros y Hy. apply HU. by apply (bi_queue _ _ _ Hinv). }
  apply (bfs_keep (other g) (length st.2 + size (universe g root))) in Hx. destruct (bfs (other g) (length st.2 + size (universe g root)) st) as [depth q]. cbn [fst snd] in *. subst q. by apply (proj1 (bfs_done _ _ _ Hend x d)).
Qed.
Lemma call_sub cap cur d acc c : let r := trace_call cap cur d acc c in
  (∀ x, x ∈ t_visited r.1 → x ∈ t_visited acc.1 ∨ x ∈ other_ids cur [c]) ∧ (∀ x, x ∈ t_visited acc.1 → x ∈ t_visited r.1)
  ∧ (∀ x y, y ∈ kids (t_adj r.1) x → y ∈ kids (t_adj acc.1) x ∨ (x = cur ∧ y ∈ other_ids cur [c])) ∧ (∀ x, x ∈ t_queue r.1 → x ∈ t_queue acc.1 ∨ x ∈ t_visited r.1)
  ∧ (cap < size (t_visited acc.1) → t_depth r.1 = t_depth acc.1 ∧ t_queue r.1 = t_queue acc.1)
  ∧ (t_truncated acc.1 = false → t_truncated r.1 = true → cap < size (t_visited r.1) ∧ t_depth r.1 = t_depth acc.1 ∧ t_queue r.1 = t_queue acc.1).
Proof.
  destruct acc as [st seen]. cbn [fst]. unfold trace_call, other_ids.
  destruct (callee_is_builtin c || bool_decide (c_id c = "" ∨ c_id c = cur)) eqn:Eskip; cbn [orb].
  { cbn [fst]. split; [by left|]. split; [done|]. split; [by left|]. split; [by left|]. split; [done|]. intros; congruence. }
  rewrite filter_cons_True by done. rewrite filter_nil. cbn [fmap list_fmap]. destruct (bool_decide (c_id c ∈ seen)).
  { cbn [fst]. split; [by left|]. split; [done|]. split; [by left|]. split; [by left|]. split; [done|]. intros; congruence. }
  assert (∀ (m : adjacency) x y, y ∈ kids (<[cur := kids m cur ++ [c_id c]]> m) x → y ∈ kids m x ∨ (x = cur ∧ y ∈ [c_id c])) as Hk.
  { intros m x y. unfold kids at 1. destruct (decide (x = cur)) as [-> | Hne]; [rewrite lookup_insert|rewrite lookup_insert_ne by done; by left].
    cbn [from_option default id]. rewrite elem_of_app. intros [?|?]; auto. }
  destruct (decide (c_id c ∈ t_visited st)) as [Hv|Hv].
  { rewrite (bool_decide_eq_true_2 (c_id c ∈ t_visited st)) by done. cbn [fst t_visited t_adj t_queue t_depth t_truncated]. split; [by left|]. split; [done|]. split; [apply Hk|]. split; [by left|]. split; [done|]. intros; congruence. }
  rewrite (bool_decide_eq_false_2 (c_id c ∈ t_visited st)) by done.
  destruct (decide (size ({[c_id c]} ∪ t_visited st) ≤ cap)) as [Hsz|Hsz].
  - rewrite (bool_decide_eq_true_2 (size _ ≤ cap)) by done. cbn [fst t_visited t_adj t_queue t_depth t_truncated].
    split; [intros x; rewrite elem_of_union, elem_of_singleton, elem_of_list_singleton; intros [?|?]; auto|]. split; [intros x Hx; rewrite elem_of_union; by right|]. split; [apply Hk|].
    split; [intros x; rewrite elem_of_app, elem_of_union, elem_of_singleton, elem_of_list_singleton; intros [?|?]; auto|]. split; [|intros; congruence].
    intros Hc. exfalso. rewrite size_union in Hsz; [lia|]. intros x Hx Hx'. apply elem_of_singleton in Hx as ->. done.
  - rewrite (bool_decide_eq_false_2 (size _ ≤ cap)) by done. cbn [fst t_visited t_adj t_queue t_depth t_truncated].
    split; [intros x; rewrite elem_of_union, elem_of_singleton, elem_of_list_singleton; intros [?|?]; auto|]. split; [intros x Hx; rewrite elem_of_union; by right|]. split; [apply Hk|].
    split; [by left|]. split; [done|]. intros _ _. split; [lia|done].
Qed.
Lemma other_ids_cons cur c cs : other_ids cur (c :: cs) = other_ids cur [c] ++ other_ids cur cs.
Proof. unfold other_ids. rewrite <- fmap_app, <- filter_app. done. Qed.
Lemma other_ids_app cur cs cs' : other_ids cur (cs ++ cs') = other_ids cur cs ++ other_ids cur cs'.
Proof. unfold other_ids. by rewrite filter_app, fmap_app. Qed.
Lemma calls_sub cap cur d cs : ∀ acc, let r := foldl (trace_call cap cur d) acc cs in
  (∀ x, x ∈ t_visited r.1 → x ∈ t_visited acc.1 ∨ x ∈ other_ids cur cs) ∧ (∀ x, x ∈ t_visited acc.1 → x ∈ t_visited r.1)
  ∧ (∀ x y, y ∈ kids (t_adj r.1) x → y ∈ kids (t_adj acc.1) x ∨ (x = cur ∧ y ∈ other_ids cur cs)) ∧ (∀ x, x ∈ t_queue r.1 → x ∈ t_queue acc.1 ∨ x ∈ t_visited r.1)
  ∧ (cap < size (t_visited acc.1) → t_depth r.1 = t_depth acc.1 ∧ t_queue r.1 = t_queue acc.1).
Proof.
  induction cs as [|c cs IH]; intros acc; cbn [foldl]; [split; [by left|]; split; [done|]; split; [by left|]; split; [by left|done]|].
  destruct (call_sub cap cur d acc c) as (A1 & A2 & A3 & A4 & A5 & _). destruct (IH (trace_call cap cur d acc c)) as (B1 & B2 & B3 & B4 & B5). rewrite other_ids_cons.
  set (acc' := trace_call cap cur d acc c) in *. set (r := foldl (trace_call cap cur d) acc' cs) in *. cbn zeta.
  split; [intros x Hx; rewrite elem_of_app; destruct (B1 x Hx) as [H|H]; [destruct (A1 x H); auto|auto]|].
  split; [intros x Hx; by apply B2, A2|].
  split; [intros x y Hy; rewrite elem_of_app; destruct (B3 x y Hy) as [H|[? H]]; [destruct (A3 x y H) as [?|[? ?]]; auto|auto]|].
  split; [intros x Hx; destruct (B4 x Hx) as [H|H]; [destruct (A4 x H) as [?|?]; [by left|right; by apply B2]|by right]|].
  intros Hc. destruct (A5 Hc) as [E1 E2]. destruct B5 as [E3 E4]; [|split; congruence].
  eapply Nat.lt_le_trans; [exact Hc|]. apply subseteq_size. intros x Hx. by apply A2.
Qed.
(** A body that is cut off: up to the cut it is the body without a limit, and afterwards nothing gets a depth. *)
Lemma calls_cut cap cur d cs : ∀ acc, t_truncated acc.1 = false → let r := foldl (trace_call cap cur d) acc cs in t_truncated r.1 = true →
  cap < size (t_visited r.1) ∧ ∃ cs1 cs2, cs = cs1 ++ cs2 ∧ t_truncated (foldl (trace_call cap cur d) acc cs1).1 = false ∧ t_depth r.1 = t_depth (foldl (trace_call cap cur d) acc cs1).1.
Proof.
  induction cs as [|c cs IH]; intros acc Hacc; cbn [foldl]; [intros; congruence|]. intros Hr.
  destruct (call_sub cap cur d acc c) as (_ & _ & _ & _ & _ & A6). destruct (t_truncated (trace_call cap cur d acc c).1) eqn:E.
  - destruct (A6 Hacc eq_refl) as (S1 & S2 & S3). destruct (calls_sub cap cur d cs (trace_call cap cur d acc c)) as (_ & B2 & _ & _ & B5). destruct (B5 S1) as [E1 _]. split.
    { eapply Nat.lt_le_trans; [exact S1|]. apply subseteq_size. intros x Hx. by apply B2. }
    exists [], (c :: cs). split; [done|]. split; [done|]. cbn [foldl]. congruence.
  - destruct (IH _ E Hr) as (S1 & cs1 & cs2 & -> & S2 & S3). split; [done|]. exists (c :: cs1), cs2. done.
Qed.

Lemma universe_visited g root x : rtc (calls_other g) root x → x ∈ universe g root.
Proof.
  intros H. apply rtc_inv_r in H as [<- | (y & _ & Hy)]; [unfold universe; rewrite elem_of_union, elem_of_singleton; by left|]. apply elem_of_other in Hy. by apply (universe_closed g root y).
Qed.
(** One turn from an uncut state that is cut off. *)
Lemma turn_cut rc dc g root cur q st : t_queue st = cur :: q → tinv rc dc g root st → tsafe rc dc g root st → t_truncated st = false →
  tsafe rc dc g root (trace_turn rc dc g cur (set_queue q st)).
Proof.
  intros Hq Hinv [S1 S2 S3 S4 _] Hun. unfold trace_turn. cbn [set_queue t_depth].
  assert (∀ x, x ∈ t_queue st → at_depth (t_depth st) cur ≤ at_depth (t_depth st) x) as Hsorted.
  { pose proof (bi_sorted _ _ _ (ti_bfs _ _ _ _ _ Hinv)) as Hs. unfold t_proj in Hs. cbn [fst snd] in Hs. rewrite Hq in *. apply StronglySorted_inv in Hs as [_ Hs]. rewrite Forall_forall in Hs. intros x Hx. apply elem_of_cons in Hx as [-> | Hx]; [done|by apply Hs]. }
  destruct (bool_decide (dc ≤ _)) eqn:Edc.
  { apply bool_decide_eq_true in Edc. split; cbn [set_queue t_depth t_visited t_adj t_queue t_truncated]; [done|done|done| |].
    - intros x Hx. apply S4. rewrite Hq. by right.
    - intros _. right. intros x Hx. etransitivity; [exact Edc|]. apply Hsorted. rewrite Hq. by right. }
  set (d := default 0 (t_depth st !! cur)) in *. set (cs := callers_of g cur). set (r := foldl (trace_call rc cur d) (set_queue q st, ∅) cs).
  destruct (fanout_same cur r.1) as (F1 & F2 & F3 & F4 & _). unfold t_proj in F1. injection F1 as F1a F1b.
  destruct (calls_sub rc cur d cs (set_queue q st, ∅)) as (A1 & A2 & A3 & A4 & _). fold r in A1, A2, A3, A4. cbn [fst set_queue t_visited t_adj t_queue] in A1, A2, A3, A4.
  assert (∀ y, y ∈ other_ids cur cs → calls_other g cur y) as Hids by (intros y Hy; by apply elem_of_other).
  assert (cur ∈ t_visited st) as Hcur by (apply S4; rewrite Hq; by left).
  assert (∀ x, x ∈ t_visited r.1 → rtc (calls_other g) root x) as Hvis.
  { intros x Hx. destruct (A1 x Hx) as [H|H]; [by apply S2|]. eapply rtc_r; [by apply S2|by apply Hids]. }
  (* the depths are those of the unlimited body, or some of them *)
  pose proof (bfs_step (other g) [root] cur q (t_depth st)) as Hstep. pose proof (ti_bfs _ _ _ _ _ Hinv) as Hb. unfold t_proj in Hb. rewrite Hq in Hb. specialize (Hstep Hb). clear Hb.
  assert (∀ x e, (foldl (bfs_mark (S (at_depth (t_depth st) cur))) (t_depth st, q) (other g cur)).1 !! x = Some e → distance (calls_other g) root x e) as Hexact.
  { apply bfs_state_distance; [done|]. intros x [e He]. destruct (bfs_marks (S (at_depth (t_depth st) cur)) (other g cur) (t_depth st, q)) as (M1 & _). rewrite M1 in He. cbn [fst] in He. apply universe_visited.
    destruct (t_depth st !! x) eqn:Ex; [apply reach_distance; eexists; by apply S1|]. destruct (decide (x ∈ other g cur)) as [Hx|]; [|done]. eapply rtc_r; [by apply S2|by apply elem_of_other]. }
  assert (∀ cs1 cs2, cs = cs1 ++ cs2 → t_truncated (foldl (trace_call rc cur d) (set_queue q st, ∅) cs1).1 = false →
    ∀ x e, t_depth (foldl (trace_call rc cur d) (set_queue q st, ∅) cs1).1 !! x = Some e → distance (calls_other g) root x e) as Hpre.
  { intros cs1 cs2 Hcs Ht x e He. apply Hexact. destruct (calls_spec rc cur d cs1 (set_queue q st) ∅) as (C1 & _); [intros y Hy; by apply elem_of_empty in Hy|by apply (ti_dom _ _ _ _ _ Hinv)|done|].
    unfold t_proj in C1. cbn [set_queue t_depth t_queue] in C1. assert ((foldl (bfs_mark (S d)) (t_depth st, q) (other_ids cur cs1)).1 !! x = Some e) as He' by (rewrite <- C1; exact He).
    destruct (bfs_marks (S d) (other_ids cur cs1) (t_depth st, q)) as (M1 & _). rewrite M1 in He'. destruct (bfs_marks (S (at_depth (t_depth st) cur)) (other g cur) (t_depth st, q)) as (M2 & _). rewrite M2. cbn [fst] in *.
    destruct (t_depth st !! x) as [e'|]; [done|]. destruct (decide (x ∈ other_ids cur cs1)) as [Hin|]; [|done]. rewrite decide_True; [exact He'|]. unfold other. fold cs. rewrite Hcs, other_ids_app, elem_of_app. by left. }
  split; rewrite ?F1a, ?F1b, ?F2, ?F3, ?trunc_fanout.
  - destruct (t_truncated r.1) eqn:Et.
    + destruct (calls_cut rc cur d cs (set_queue q st, ∅) Hun Et) as (_ & cs1 & cs2 & E1 & E2 & E3). fold r in E3. rewrite E3. by apply (Hpre cs1 cs2).
    + apply (Hpre cs []); [by rewrite app_nil_r|done].
  - done.
  - intros x y Hy. destruct (A3 x y Hy) as [H|[-> H]]; [by apply S3|by apply Hids].
  - intros x Hx. destruct (A4 x Hx) as [H|H]; [|done]. apply A2, S4. rewrite Hq. by right.
  - intros Et. left. by destruct (calls_cut rc cur d cs (set_queue q st, ∅) Hun Et) as (? & _).
Qed.
(** One turn after the cut. *)
Lemma turn_stuck rc dc g root cur q st : t_queue st = cur :: q → tsafe rc dc g root st → t_truncated st = true → tsafe rc dc g root (trace_turn rc dc g cur (set_queue q st)).
Proof.
  intros Hq [S1 S2 S3 S4 S5] Ht. specialize (S5 Ht). unfold trace_turn. cbn [set_queue t_depth]. destruct (bool_decide (dc ≤ _)) eqn:Edc.
  { split; cbn [set_queue t_depth t_visited t_adj t_queue t_truncated]; [done|done|done| |].
    - intros x Hx. apply S4. rewrite Hq. by right.
    - intros _. destruct S5 as [?|S5]; [by left|]. right. intros x Hx. apply S5. rewrite Hq. by right. }
  apply bool_decide_eq_false in Edc. destruct S5 as [S5|S5]; [|exfalso; apply Edc, S5; rewrite Hq; by left].
  set (d := default 0 (t_depth st !! cur)) in *. set (cs := callers_of g cur). set (r := foldl (trace_call rc cur d) (set_queue q st, ∅) cs).
  destruct (fanout_same cur r.1) as (F1 & F2 & F3 & F4 & _). unfold t_proj in F1. injection F1 as F1a F1b.
  destruct (calls_sub rc cur d cs (set_queue q st, ∅)) as (A1 & A2 & A3 & A4 & A5). fold r in A1, A2, A3, A4, A5. cbn [fst set_queue t_visited t_adj t_queue t_depth] in *. destruct (A5 S5) as [E1 E2].
  assert (∀ y, y ∈ other_ids cur cs → calls_other g cur y) as Hids by (intros y Hy; by apply elem_of_other).
  assert (cur ∈ t_visited st) as Hcur by (apply S4; rewrite Hq; by left).
  split; rewrite ?F1a, ?F1b, ?F2, ?F3, ?trunc_fanout.
  - rewrite E1. done.
  - intros x Hx. destruct (A1 x Hx) as [H|H]; [by apply S2|]. eapply rtc_r; [by apply S2|by apply Hids].
  - intros x y Hy. destruct (A3 x y Hy) as [H|[-> H]]; [by apply S3|by apply Hids].
  - intros x Hx. destruct (A4 x Hx) as [H|H]; [|done]. apply A2, S4. rewrite Hq. by right.
  - intros _. left. eapply Nat.lt_le_trans; [exact S5|]. apply subseteq_size. intros x Hx. by apply A2.
Qed.
Lemma loop_safe rc dc g root n : ∀ st, (t_truncated st = false → tinv rc dc g root st) → tsafe rc dc g root st → tsafe rc dc g root (trace_loop rc dc g n st).
Proof.
  induction n as [|n IH]; intros st Hinv Hs; cbn [trace_loop]; [done|]. destruct (t_queue st) as [|cur q] eqn:Eq; [done|].
  destruct (t_truncated st) eqn:Et; [|specialize (Hinv eq_refl)].
  - apply IH; [|by apply turn_stuck]. intros H. by rewrite trunc_turn in H.
  - apply IH; [|by apply turn_cut]. intros H. by apply (tinv_turn rc dc g root cur q st Eq Hinv H).
Qed.
Lemma safe_start rc dc g root : tsafe rc dc g root (trace_start root).
Proof.
  split; cbn [trace_start t_depth t_visited t_adj t_queue t_truncated].
  - intros x d H. apply lookup_singleton_Some in H as [<- <-]. split; [constructor|]. intros; lia.
  - intros x Hx. apply elem_of_singleton in Hx as ->. done.
  - intros x y. unfold kids. rewrite lookup_empty. by intros ?%elem_of_nil.
  - intros x Hx. apply elem_of_list_singleton in Hx as ->. by apply elem_of_singleton.
  - done.
Qed.
Lemma trace_safe rc dc g root : 0 < rc → tsafe rc dc g root (trace_with rc dc g root).
Proof. intros Hrc. apply loop_safe; [intros _; by apply tinv_start|apply safe_start]. Qed.

(** ** When the walk is cut short *)
Lemma call_fits cap cur d (U : gset string) acc c : size U ≤ cap → (∀ x, x ∈ t_visited acc.1 → x ∈ U) → (∀ x, x ∈ other_ids cur [c] → x ∈ U) → t_truncated (trace_call cap cur d acc c).1 = t_truncated acc.1.
Proof.
  intros HU Hv Hc. destruct acc as [st seen]. cbn [fst] in *. unfold trace_call. unfold other_ids in Hc.
  destruct (callee_is_builtin c || bool_decide (c_id c = "" ∨ c_id c = cur)) eqn:Eskip; cbn [orb]; [done|]. destruct (bool_decide (c_id c ∈ seen)); [done|]. cbn [fst].
  destruct (bool_decide (c_id c ∈ t_visited st)); [done|]. rewrite (bool_decide_eq_true_2 (size _ ≤ cap)); [done|]. etransitivity; [|exact HU]. apply subseteq_size.
  intros x. rewrite elem_of_union, elem_of_singleton. intros [-> | Hx]; [|by apply Hv]. apply Hc. rewrite filter_cons_True by done. by left.
Qed.
Lemma calls_fit cap cur d (U : gset string) cs : ∀ acc, size U ≤ cap → (∀ x, x ∈ t_visited acc.1 → x ∈ U) → (∀ x, x ∈ other_ids cur cs → x ∈ U) → t_truncated (foldl (trace_call cap cur d) acc cs).1 = t_truncated acc.1.
Proof.
  induction cs as [|c cs IH]; intros acc HU Hv Hc; [done|]. cbn [foldl]. rewrite other_ids_cons in Hc. assert (∀ x, x ∈ other_ids cur [c] → x ∈ U) as Hc1 by (intros x Hx; apply Hc; rewrite elem_of_app; by left).
  rewrite IH; [by apply (call_fits _ _ _ U)|done| |intros x Hx; apply Hc; rewrite elem_of_app; by right].
  intros x Hx. destruct (call_sub cap cur d acc c) as (A1 & _). destruct (A1 x Hx); auto.
Qed.
Lemma loop_fits rc dc g root (U : gset string) n : (∀ x, x ∈ U ↔ rtc (calls_other g) root x) → size U ≤ rc → (∀ x d, distance (calls_other g) root x d → d < dc) →
  ∀ st, t_truncated st = false → tinv rc dc g root st → tsafe rc dc g root st → t_truncated (trace_loop rc dc g n st) = false.
Proof.
  intros HU Hsz Hd. induction n as [|n IH]; intros st Hun Hinv Hs; cbn [trace_loop]; [done|]. destruct (t_queue st) as [|cur q] eqn:Eq; [done|].
  assert (t_truncated (trace_turn rc dc g cur (set_queue q st)) = false) as Ht.
  { assert (cur ∈ t_visited st) as Hcur by (apply (ts_queue _ _ _ _ _ Hs); rewrite Eq; by left).
    unfold trace_turn. cbn [set_queue t_depth]. destruct (bool_decide (dc ≤ _)) eqn:Edc.
    - exfalso. apply bool_decide_eq_true in Edc. pose proof Hcur as Hcur'. rewrite <- (ti_dom _ _ _ _ _ Hinv) in Hcur'. apply elem_of_dom in Hcur' as [e He]. rewrite He in Edc. cbn in Edc. apply (ts_depth _ _ _ _ _ Hs) in He. apply Hd in He. lia.
    - rewrite trunc_fanout. rewrite (calls_fit _ _ _ U); [done|done| |].
      + intros x Hx. apply HU. by apply (ts_vis _ _ _ _ _ Hs).
      + intros x Hx. apply HU. eapply rtc_r; [by apply (ts_vis _ _ _ _ _ Hs)|]. by apply elem_of_other. }
  apply IH; [done|by apply (tinv_turn rc dc g root cur q st Eq Hinv Ht)|by apply turn_cut].
Qed.
Lemma truncated_iff rc dc g root : 0 < rc →
  (t_truncated (trace_with rc dc g root) = false ↔ (∃ U : gset string, (∀ x, x ∈ U ↔ rtc (calls_other g) root x) ∧ size U ≤ rc) ∧ ∀ x d, distance (calls_other g) root x d → d < dc).
Proof.
  intros Hrc. split.
  - intros Htr. destruct (uncut _ _ _ _ Hrc Htr) as [Hinv Hq]. split.
    + exists (t_visited (trace_with rc dc g root)). split; [|apply (ti_size _ _ _ _ _ Hinv)]. intros x. rewrite <- (ti_dom _ _ _ _ _ Hinv), elem_of_dom, reach_distance. split.
      * intros [d Hx]. exists d. by apply (uncut_depth rc dc g root Hrc Htr).
      * intros [d Hx]. exists d. by apply (uncut_depth rc dc g root Hrc Htr).
    + intros x d Hd. apply (uncut_depth rc dc g root Hrc Htr) in Hd. apply (ti_shallow _ _ _ _ _ Hinv x d Hd). rewrite Hq. apply not_elem_of_nil.
  - intros [(U & HU & Hsz) Hd]. apply (loop_fits rc dc g root U); [done|done|done|done|by apply tinv_start|apply safe_start].
Qed.

(** ** The callees recorded, cut short or not *)
Lemma calls_shape cap cur d cs : ∀ (st : tstate) (seen : gset string), let r := foldl (trace_call cap cur d) (st, seen) cs in
  (∀ x, x ≠ cur → kids (t_adj r.1) x = kids (t_adj st) x)
  ∧ (∃ new, kids (t_adj r.1) cur = kids (t_adj st) cur ++ new ∧ NoDup new ∧ ∀ y, y ∈ new → y ∉ seen)
  ∧ (∃ newq, t_queue r.1 = t_queue st ++ newq ∧ NoDup newq ∧ ∀ y, y ∈ newq → y ∉ t_visited st ∧ y ∈ t_visited r.1).
Proof.
  induction cs as [|c cs IH]; intros st seen; cbn [foldl].
  { cbn zeta. cbn [fst]. split; [done|]. split; exists []; rewrite app_nil_r; (split; [done|]); (split; [apply NoDup_nil_2|]); by intros ? ?%elem_of_nil. }
  destruct (trace_call cap cur d (st, seen) c) as [st1 seen1] eqn:Ec. destruct (IH st1 seen1) as (B1 & (new & B2 & B3 & B4) & (newq & B5 & B6 & B7)). clear IH.
  pose proof (call_sub cap cur d (st, seen) c) as (_ & A2 & _). rewrite Ec in A2. cbn [fst] in A2. pose proof (calls_sub cap cur d cs (st1, seen1)) as (_ & A2' & _). cbn [fst] in A2'.
  set (r := foldl (trace_call cap cur d) (st1, seen1) cs) in *. cbn zeta.
  unfold trace_call in Ec. destruct (callee_is_builtin c || bool_decide (c_id c = "" ∨ c_id c = cur)) eqn:Eskip; cbn [orb] in Ec.
  { injection Ec as -> ->. split; [done|]. split; [by exists new|by exists newq]. }
  destruct (bool_decide (c_id c ∈ seen)) eqn:Es; cbn [orb] in Ec.
  { injection Ec as -> ->. split; [done|]. split; [by exists new|by exists newq]. }
  apply bool_decide_eq_false in Es. injection Ec as <- <-.
  assert (∀ (m : adjacency) x, kids (<[cur := kids m cur ++ [c_id c]]> m) x = if decide (x = cur) then kids m cur ++ [c_id c] else kids m x) as Hk.
  { intros m x. unfold kids at 1. destruct (decide (x = cur)) as [-> | Hne]; [by rewrite lookup_insert|]. by rewrite lookup_insert_ne. }
  set (st1 := if bool_decide (c_id c ∈ t_visited st) then _ else _) in *.
  assert (t_adj st1 = <[cur := kids (t_adj st) cur ++ [c_id c]]> (t_adj st)) as Hadj by (unfold st1; destruct (bool_decide (c_id c ∈ t_visited st)); [done|]; by destruct (bool_decide (size _ ≤ cap))).
  split; [intros x Hx; by rewrite B1, Hadj, Hk, decide_False|]. split.
  - exists (c_id c :: new). rewrite B2, Hadj, Hk, decide_True, <- app_assoc by done. split; [done|]. split.
    + apply NoDup_cons. split; [|done]. intros Hin. apply (B4 _ Hin). rewrite elem_of_union, elem_of_singleton. by left.
    + intros y Hy. apply elem_of_cons in Hy as [-> | Hy]; [done|]. intros Hs. apply (B4 _ Hy). rewrite elem_of_union. by right.
  - destruct (decide (t_queue st1 = t_queue st)) as [E|E].
    + exists newq. rewrite B5, E. split; [done|]. split; [done|]. intros y Hy. destruct (B7 y Hy) as [H1 H2]. split; [|done]. intros H. by apply H1, A2.
    + assert (c_id c ∉ t_visited st ∧ t_queue st1 = t_queue st ++ [c_id c] ∧ c_id c ∈ t_visited st1) as (E1 & E2 & E3).
      { unfold st1 in *. clear -E. destruct (bool_decide (c_id c ∈ t_visited st)) eqn:E1; [done|]. apply bool_decide_eq_false in E1. destruct (bool_decide (size _ ≤ cap)); [|done]. split; [done|]. split; [done|]. cbn. rewrite elem_of_union, elem_of_singleton. by left. }
      exists (c_id c :: newq). rewrite B5, E2, <- app_assoc. split; [done|]. split.
      * apply NoDup_cons. split; [|done]. intros Hin. by apply (B7 _ Hin).
      * intros y Hy. apply elem_of_cons in Hy as [-> | Hy]; [split; [done|by apply A2']|]. destruct (B7 y Hy) as [H1 H2]. split; [|done]. intros H. by apply H1, A2.
Qed.
Definition tneat (st : tstate) : Prop :=
  (∀ x, NoDup (kids (t_adj st) x)) ∧ (∀ x, x ∈ t_queue st ∨ x ∉ t_visited st → kids (t_adj st) x = []) ∧ NoDup (t_queue st) ∧ ∀ x, x ∈ t_queue st → x ∈ t_visited st.
Lemma turn_neat rc dc g cur q st : t_queue st = cur :: q → tneat st → tneat (trace_turn rc dc g cur (set_queue q st)).
Proof.
  intros Hq (N1 & N2 & N3 & N4). rewrite Hq in N2, N3, N4. apply NoDup_cons in N3 as [N3 N3']. unfold trace_turn. cbn [set_queue t_depth]. destruct (bool_decide (dc ≤ _)) eqn:Edc.
  { cbn [set_queue]. split; [done|]. cbn [t_adj t_queue t_visited]. split; [|split; [done|]].
    - intros x [Hx|Hx]; apply N2; [left; by right|by right].
    - intros x Hx. apply N4. by right. }
  set (d := default 0 (t_depth st !! cur)). set (cs := callers_of g cur). destruct (calls_shape rc cur d cs (set_queue q st) ∅) as (B1 & (new & B2 & B3 & _) & (newq & B5 & B6 & B7)).
  destruct (calls_sub rc cur d cs (set_queue q st, ∅)) as (_ & A2 & _). set (r := foldl (trace_call rc cur d) (set_queue q st, ∅) cs) in *.
  destruct (fanout_same cur r.1) as (F1 & F2 & F3 & F4 & _). unfold t_proj in F1. injection F1 as F1a F1b. cbn [fst set_queue t_adj t_queue t_visited] in *.
  assert (cur ∈ t_visited st) as Hcur by (apply N4; by left). assert (kids (t_adj st) cur = []) as H0 by (apply N2; left; by left).
  unfold tneat. rewrite F1b, F2, F3. split; [|split; [|split]].
  - intros x. destruct (decide (x = cur)) as [-> | Hne]; [by rewrite B2, H0|]. by rewrite B1.
  - intros x Hx. destruct (decide (x = cur)) as [-> | Hne].
    + exfalso. destruct Hx as [Hx|Hx]; [|apply Hx; by apply A2]. rewrite B5 in Hx. apply elem_of_app in Hx as [Hx|Hx]; [done|]. by apply B7 in Hx as [? _].
    + rewrite B1 by done. destruct Hx as [Hx|Hx]; [|apply N2; right; intros H; by apply Hx, A2]. rewrite B5 in Hx. apply elem_of_app in Hx as [Hx|Hx]; [apply N2; left; by right|]. apply N2. right. by apply B7 in Hx as [? _].
  - rewrite B5. apply NoDup_app. split; [done|]. split; [|done]. intros x Hx Hx'. apply B7 in Hx' as [Hx' _]. apply Hx', N4. by right.
  - intros x. rewrite B5, elem_of_app. intros [Hx|Hx]; [apply A2, N4; by right|]. by apply B7 in Hx as [_ ?].
Qed.
Lemma loop_neat rc dc g n : ∀ st, tneat st → tneat (trace_loop rc dc g n st).
Proof. induction n as [|n IH]; intros st H; cbn [trace_loop]; [done|]. destruct (t_queue st) as [|cur q] eqn:Eq; [done|]. apply IH. by apply turn_neat. Qed.
Lemma trace_tidy rc dc g root : 0 < rc → tidy (t_adj (trace_with rc dc g root)).
Proof.
  intros Hrc x l Hl. assert (kids (t_adj (trace_with rc dc g root)) x = l) as E by (unfold kids; by rewrite Hl). rewrite <- E. split.
  - apply loop_neat. split; [|split; [|split]]; cbn [trace_start t_adj t_queue t_visited].
    + intros y. unfold kids. rewrite lookup_empty. apply NoDup_nil_2.
    + intros y _. unfold kids. by rewrite lookup_empty.
    + apply NoDup_singleton.
    + intros y Hy. apply elem_of_list_singleton in Hy as ->. by apply elem_of_singleton.
  - intros Hx. apply (ts_adj _ _ _ _ _ (trace_safe rc dc g root Hrc)) in Hx as (Hne & _). done.
Qed.

(** ** The figures of an uncut trace *)
Lemma uncut_kids rc dc g root x : 0 < rc → t_truncated (trace_with rc dc g root) = false →
  NoDup (kids (t_adj (trace_with rc dc g root)) x) ∧ ∀ y, y ∈ kids (t_adj (trace_with rc dc g root)) x ↔ rtc (calls_other g) root x ∧ calls_other g x y.
Proof.
  intros Hrc Htr. destruct (uncut _ _ _ _ Hrc Htr) as [Hinv Hq]. set (r := trace_with rc dc g root) in *.
  assert (x ∈ t_visited r ↔ rtc (calls_other g) root x) as Hv.
  { rewrite <- (ti_dom _ _ _ _ _ Hinv), elem_of_dom, reach_distance. split; intros [d Hd]; exists d; by apply (uncut_depth rc dc g root Hrc Htr). }
  destruct (decide (x ∈ t_visited r)) as [Hx|Hx].
  - destruct (ti_done _ _ _ _ _ Hinv x Hx) as [K1 K2]; [rewrite Hq; apply not_elem_of_nil|]. split; [done|]. intros y. rewrite K2, elem_of_other, <- Hv. split; [done|by intros [_ ?]].
  - rewrite (ti_todo _ _ _ _ _ Hinv x) by (by right). split; [apply NoDup_nil_2|]. intros y. rewrite <- Hv. split; [by intros ?%elem_of_nil|by intros [? _]].
Qed.
