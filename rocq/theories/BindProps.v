(** * C94: the type a type parameter stands for. *)
From stdpp Require Import base list strings gmap relations.
From Verif Require Import ReachProofs BindModel.

(** The specification. A name means what the nearest call that binds it gave, read where that call is written: further up the path. *)
Fixpoint meaning (path : list bframe) (name : string) : string :=
  match path with
  | [] => name
  | f :: up => match (f.1 ∪ f.2) !! name with
               | Some t => if decide (t = "") then name else meaning up t
               | None => meaning up name
               end
  end.
(** One name is bound to another. *)
Definition bstep (m : bindings) (a b : string) : Prop := m !! a = Some b ∧ b ≠ "".
(** Names are bound at most once on the path, and a binding refers to names bound further up only. *)
Definition scoped (path : list bframe) : Prop :=
  ∀ i f, path !! i = Some f → ∀ k v, (f.1 ∪ f.2) !! k = Some v →
    (∀ j g, path !! j = Some g → is_Some ((g.1 ∪ g.2) !! k) → j = i) ∧
    (∀ j g, path !! j = Some g → is_Some ((g.1 ∪ g.2) !! v) → i < j).

(** ** The bindings of a path *)
Lemma path_bindings_app out path : path_bindings out path = out ∪ path_bindings ∅ path.
Proof.
  revert out. induction path as [|[e a] up IH]; intros out; cbn; [by rewrite (right_id_L ∅ (∪))|].
  rewrite IH, (IH (add_absent _ _)). unfold add_absent. by rewrite (left_id_L ∅ (∪)), !(assoc_L (∪)).
Qed.
Lemma path_bindings_cons f up : path_bindings ∅ (f :: up) = (f.1 ∪ f.2) ∪ path_bindings ∅ up.
Proof. destruct f as [e a]. cbn. rewrite path_bindings_app. unfold add_absent. by rewrite (left_id_L ∅ (∪)). Qed.

(** C94a: a name has the binding of the nearest node that binds it, that of the call before that of the argument. *)
Theorem C94_nearest path k v :
  path_bindings ∅ path !! k = Some v ↔
  ∃ i f, path !! i = Some f ∧ (f.1 !! k = Some v ∨ f.1 !! k = None ∧ f.2 !! k = Some v) ∧
    ∀ j g, j < i → path !! j = Some g → g.1 !! k = None ∧ g.2 !! k = None.
Proof.
  induction path as [|f up IH].
  - cbn. rewrite lookup_empty. split; [done|]. intros (i & f & H & _). by rewrite lookup_nil in H.
  - rewrite path_bindings_cons. split.
    + intros [H|[N H]]%lookup_union_Some_raw.
      * exists 0, f. split_and!; [done| |lia]. apply lookup_union_Some_raw in H. destruct H as [H|[? ?]]; [by left|by right].
      * apply IH in H as (i & g & Hi & Hg & Hj). exists (S i), g. split_and!; [done|done|]. intros [|j] g' Hlt Hg'.
        -- cbn in Hg'. assert (g' = f) as -> by congruence. by apply lookup_union_None in N.
        -- apply (Hj j); [lia|done].
    + intros ([|i] & g & Hi & Hg & Hj).
      * cbn in Hi. assert (g = f) as -> by congruence. apply lookup_union_Some_raw. left. apply lookup_union_Some_raw. destruct Hg as [?|[? ?]]; [by left|by right].
      * apply lookup_union_Some_raw. right. split; [apply lookup_union_None, (Hj 0); [lia|done]|].
        apply IH. exists i, g. split_and!; [done|done|]. intros j g' Hlt Hg'. apply (Hj (S j)); [lia|done].
Qed.

(** ** The loop *)
Lemma follow_mono m n k s r : follow m n s = Some r → n ≤ k → follow m k s = Some r.
Proof.
  revert k s. induction n as [|n IH]; intros k s H Hle; [done|]. destruct k as [|k]; [lia|]. cbn in *.
  destruct (m !! s) as [t|]; [|done]. destruct (decide (t = "")); [done|]. apply IH; [done|lia].
Qed.
Lemma follow_reach m n s r : follow m n s = Some r → rtc (bstep m) s r ∧ ∀ t, ¬ bstep m r t.
Proof.
  revert s. induction n as [|n IH]; intros s H; [done|]. cbn in H.
  destruct (m !! s) as [t|] eqn:E.
  - destruct (decide (t = "")) as [->|N].
    + assert (s = r) as <- by congruence. split; [done|]. intros t [E' N]. congruence.
    + destruct (IH t H) as [R T]. split; [|done]. by apply rtc_l with t.
  - assert (s = r) as <- by congruence. split; [done|]. intros t [E' N]. congruence.
Qed.
Lemma bstep_det m a b c : bstep m a b → bstep m a c → b = c.
Proof. intros [? _] [? _]. congruence. Qed.
Lemma cycle_next m s t : tc (bstep m) s s → bstep m s t → tc (bstep m) t t.
Proof.
  intros Hc Hs. inversion Hc as [? ? H|? b ? H1 H2]; subst.
  - assert (t = s) as -> by eauto using bstep_det. done.
  - assert (t = b) as -> by eauto using bstep_det. eapply tc_r; eauto.
Qed.
Lemma follow_cycle m s n : tc (bstep m) s s → follow m n s = None.
Proof.
  revert s. induction n as [|n IH]; intros s Hc; [done|].
  assert (∃ t, bstep m s t) as (t & Ht) by (inversion Hc; eauto).
  pose proof Ht as [E N]. cbn. rewrite E, decide_False by done. apply IH. eauto using cycle_next.
Qed.
Lemma follow_to_cycle m s t n : rtc (bstep m) s t → tc (bstep m) t t → follow m n s = None.
Proof.
  intros R. revert n. induction R as [|a b c Hab Hbc IH]; intros n Hc; [by apply follow_cycle|].
  destruct n as [|n]; [done|]. destruct Hab as [E N]. cbn. rewrite E, decide_False by done. auto.
Qed.
Lemma bstep_delete m s a b : bstep (delete s m) a b → bstep m a b.
Proof. intros [H N]. apply lookup_delete_Some in H as [_ H]. by split. Qed.
Lemma follow_delete_some m x r j z : r ≠ x → follow (delete x m) j z = Some r → follow m j z = Some r.
Proof.
  intros Nr. revert z. induction j as [|j IHj]; intros z Hz; [done|]. cbn in *. destruct (decide (z = x)) as [->|Nz].
  - rewrite lookup_delete in Hz. congruence.
  - rewrite lookup_delete_ne in Hz by done. destruct (m !! z) as [w|]; [|done]. destruct (decide (w = "")); [done|]. by apply IHj.
Qed.
Lemma follow_delete_none m x j z : (∀ i, follow (delete x m) i z = None) → follow m j z = None.
Proof.
  revert z. induction j as [|j IHj]; intros z Hz; [done|]. cbn. pose proof (Hz 1) as H1. cbn in H1.
  destruct (decide (z = x)) as [->|Nz]; [by rewrite lookup_delete in H1|]. rewrite lookup_delete_ne in H1 by done.
  destruct (m !! z) as [w|] eqn:Ez; [|done]. destruct (decide (w = "")) as [|Nw]; [done|]. apply IHj. intros i. specialize (Hz (S i)). cbn in Hz.
  rewrite lookup_delete_ne, Ez, decide_False in Hz by done. done.
Qed.
Lemma rtc_delete m x a b : rtc (bstep (delete x m)) a b → rtc (bstep m) a b.
Proof. apply rtc_subrel. intros ? ?. apply bstep_delete. Qed.
Lemma tc_delete m x a b : tc (bstep (delete x m)) a b → tc (bstep m) a b.
Proof. induction 1 as [a b H|a b c H1 H2 IH2]; [apply tc_once; by eapply bstep_delete|]. eapply tc_l; [by eapply bstep_delete|done]. Qed.
(** C94b: after as many turns as there are bindings and one more, a loop that is still running will run for ever. *)
Theorem C94_bound m s : follow m (S (size m)) s = None → ∀ n, follow m n s = None.
Proof.
  assert (HF : ∀ k (q : bindings) x, size q ≤ k → follow q (S k) x = None → ∀ n, follow q n x = None); [|by apply HF].
  intros k. induction k as [|k IHk]; intros q x Hle F n.
  - assert (q = ∅) as -> by (apply map_size_empty_inv; lia). cbn in F. by rewrite lookup_empty in F.
  - assert (HX : ∃ y, bstep q x y) by (cbn in F; destruct (q !! x) as [y|] eqn:Ex; [|done]; destruct (decide (y = "")); [done|]; by exists y).
    destruct HX as (y & Hy). pose proof Hy as [Ex Ny].
    assert (Fy : follow q (S k) y = None). { change (match q !! x with Some t => if decide (t = "") then Some x else follow q (S k) t | None => Some x end = None) in F. by rewrite Ex, decide_False in F. }
    destruct (follow (delete x q) (S k) y) as [r|] eqn:Fd.
    + pose proof Fd as HR. apply follow_reach in HR as [R T].
      assert (r = x) as ->. { destruct (decide (r = x)) as [|Nr]; [done|]. exfalso. apply follow_delete_some in Fd; [|done]. congruence. }
      apply follow_cycle. eapply tc_rtc_r; [by apply tc_once|]. by eapply rtc_delete.
    + assert (Hsz : size (delete x q) ≤ k) by (rewrite map_size_delete, Ex; lia).
      specialize (IHk _ _ Hsz Fd). destruct n as [|n]; [done|]. cbn. rewrite Ex, decide_False by done. by eapply follow_delete_none.
Qed.
(** C94c: the loop runs for ever exactly when a name leads to a name that leads back to itself. *)
Theorem C94_hangs_iff m s : (∀ n, follow m n s = None) ↔ ∃ t, rtc (bstep m) s t ∧ tc (bstep m) t t.
Proof.
  split; [|intros (t & R & C) n; by eapply follow_to_cycle].
  remember (size m) as k eqn:Ek. revert m s Ek. induction k as [k IH] using lt_wf_ind. intros m s -> H.
  pose proof (H 1) as H1. cbn in H1. destruct (m !! s) as [t|] eqn:E; [|done]. destruct (decide (t = "")) as [|N]; [done|].
  assert (Hst : bstep m s t) by by split.
  assert (Ht : ∀ n, follow m n t = None). { intros n. specialize (H (S n)). cbn in H. by rewrite E, decide_False in H. }
  destruct (follow (delete s m) (S (size (delete s m))) t) as [r|] eqn:HD.
  - pose proof HD as HR. apply follow_reach in HR as [R T].
    assert (r = s) as ->. { destruct (decide (r = s)) as [|Nr]; [done|]. exfalso. apply follow_delete_some in HD; [|done]. by rewrite Ht in HD. }
    exists s. split; [done|]. eapply tc_rtc_r; [by apply tc_once|]. by eapply rtc_delete.
  - assert (HD' := C94_bound _ _ HD).
    assert (Hsz : size (delete s m) < size m). { rewrite map_size_delete, E. assert (size m ≠ 0); [|lia]. intros Z. apply map_size_empty_inv in Z. subst. by rewrite lookup_empty in E. }
    destruct (IH _ Hsz _ t eq_refl HD') as (u & R & C). exists u. split.
    + apply rtc_l with t; [done|]. by eapply rtc_delete.
    + by eapply tc_delete.
Qed.

(** ** What a name means *)
Lemma follow_union (F U : bindings) n s :
  F !! s = None → (∀ k v, U !! k = Some v → F !! v = None) → follow (F ∪ U) n s = follow U n s.
Proof.
  intros Hs HU. revert s Hs. induction n as [|n IH]; intros s Hs; [done|]. cbn. rewrite lookup_union_r by done.
  destruct (U !! s) as [t|] eqn:E; [|done]. destruct (decide (t = "")); [done|]. apply IH. by eapply HU.
Qed.
Lemma scoped_up f up : scoped (f :: up) → scoped up.
Proof.
  intros H i g Hi k v Hk. destruct (H (S i) g Hi k v Hk) as [H1 H2]. split.
  - intros j g' Hj HS. specialize (H1 (S j) g' Hj HS). lia.
  - intros j g' Hj HS. specialize (H2 (S j) g' Hj HS). lia.
Qed.
Lemma path_binding_frame path k v : path_bindings ∅ path !! k = Some v → ∃ i f, path !! i = Some f ∧ (f.1 ∪ f.2) !! k = Some v.
Proof.
  intros H. apply C94_nearest in H as (i & f & Hi & Hf & _). exists i, f. split; [done|]. apply lookup_union_Some_raw. destruct Hf as [?|[? ?]]; [by left|by right].
Qed.
(** C94d: if names are bound once and bindings refer up the path, the loop ends, and with what the name means. *)
Theorem C94_meaning path s : scoped path → ∃ n, follow (path_bindings ∅ path) n s = Some (meaning path s).
Proof.
  revert s. induction path as [|f up IH]; intros s Hsc; [exists 1; cbn; by rewrite lookup_empty|].
  assert (HU : ∀ k v, path_bindings ∅ up !! k = Some v → (f.1 ∪ f.2) !! v = None).
  { intros k v Hk. apply path_binding_frame in Hk as (i & g & Hi & Hg). destruct ((f.1 ∪ f.2) !! v) eqn:E; [|done]. exfalso.
    destruct (Hsc (S i) g Hi k v Hg) as [_ H2]. specialize (H2 0 f eq_refl (mk_is_Some _ _ E)). lia. }
  rewrite path_bindings_cons. cbn [meaning]. destruct ((f.1 ∪ f.2) !! s) as [t|] eqn:E.
  - destruct (decide (t = "")) as [->|N].
    + exists 1. cbn. rewrite (lookup_union_Some_l _ _ _ _ E). by rewrite decide_True.
    + destruct (IH t (scoped_up _ _ Hsc)) as [n Hn]. exists (S n). cbn. rewrite (lookup_union_Some_l _ _ _ _ E), decide_False by done.
      rewrite follow_union; [done| |done]. destruct ((f.1 ∪ f.2) !! t) eqn:E'; [|done]. exfalso.
      destruct (Hsc 0 f eq_refl s t E) as [_ H2]. specialize (H2 0 f eq_refl (mk_is_Some _ _ E')). lia.
  - destruct (IH s (scoped_up _ _ Hsc)) as [n Hn]. exists n. by rewrite follow_union.
Qed.
(** C94e: what is found for a request body is what the name means, if a call on the path binds it to something, and else nothing. *)
Theorem C94_request path s : scoped path → s ≠ "" →
  ((∃ t, bstep (path_bindings ∅ path) s t) → ∃ n, trace_generic (path_bindings ∅ path) n s = Some (meaning path s)) ∧
  ((∀ t, ¬ bstep (path_bindings ∅ path) s t) → ∃ n, trace_generic (path_bindings ∅ path) n s = Some "").
Proof.
  intros Hsc Ns. destruct (C94_meaning path s Hsc) as [n Hn]. unfold trace_generic. split.
  - intros (t & E & Nt). exists n. rewrite decide_False by (intros [E'| ->]; [rewrite E', lookup_empty in E|]; done). rewrite Hn, E. cbn [mbind option_bind]. by rewrite decide_False.
  - intros H. exists n. destruct (decide (path_bindings ∅ path = ∅ ∨ s = "")) as [|N]; [done|]. rewrite Hn. cbn [mbind option_bind].
    destruct (path_bindings ∅ path !! s) as [t|] eqn:E; [|done]. destruct (decide (t = "")) as [|Nt]; [done|]. exfalso. by apply (H t).
Qed.

(** C94f, the findings. [outer[T any]] calls [inner[T]], and inner names its parameter T too: the name means the type given to outer, and the loop does not end. *)
Definition calls (l : list (list (string * string))) : list bframe := (λ x, (list_to_map x : bindings, ∅ : bindings)) <$> l.
Theorem C94_same_name_refuted : ∃ path s, meaning path s = "app.User" ∧ ∀ n, follow (path_bindings ∅ path) n s = None.
Proof. exists (calls [[("T", "T")]; [("T", "app.User")]]), "T". split; [by vm_compute|]. apply C94_bound. by vm_compute. Qed.
(** So too if each call passes its own parameters on in the other order. *)
Theorem C94_swap_refuted : ∃ path s, meaning path s = "app.Out" ∧ (∀ f, f ∈ path → ∀ k v, (f.1 ∪ f.2) !! k = Some v → k ≠ v) ∧ ∀ n, follow (path_bindings ∅ path) n s = None.
Proof.
  exists (calls [[("A", "B"); ("B", "A")]; [("A", "app.In"); ("B", "app.Out")]]), "A". split_and!; [by vm_compute| |apply C94_bound; by vm_compute].
  intros f Hf k v. unfold calls in Hf. cbn [fmap list_fmap] in Hf. apply elem_of_cons in Hf as [-> |Hf]; [|apply elem_of_list_singleton in Hf as ->]; cbn [fst snd]; rewrite (right_id_L ∅ (∪)); intros H.
  all: apply elem_of_list_to_map_2 in H; repeat (apply elem_of_cons in H as [H|H]; [by injection H as -> ->|]); by apply elem_of_nil in H.
Qed.
(** A slice of a parameter stays one: [inner[[]T]] in [outer[T = app.User]]. *)
Theorem C94_composite_refuted : ∃ path s, scoped path ∧ meaning path "T" = "app.User" ∧ follow (path_bindings ∅ path) 9 s = Some "[]T".
Proof.
  exists (calls [[("U", "[]T")]; [("T", "app.User")]]), "U". split_and!; [|by vm_compute..].
  intros i f Hi k v Hk. destruct i as [|[|i]]; [| |done]; cbn in Hi; injection Hi as <-; cbn [fst snd] in Hk; rewrite (right_id_L ∅ (∪)) in Hk;
    (apply lookup_insert_Some in Hk as [[<- <-]|[_ Hk]]; [|by rewrite lookup_empty in Hk]).
  all: split; intros j g Hj [x Hx]; (destruct j as [|[|j]]; [| |done]); cbn in Hj; injection Hj as <-; cbn [fst snd] in Hx; rewrite (right_id_L ∅ (∪)) in Hx; try lia;
    (apply lookup_insert_Some in Hx as [[Hx _]|[_ Hx]]; [done|by rewrite lookup_empty in Hx]).
Qed.
(** A response and a parameter take one step only: through two calls they name the parameter of the outer one. *)
Theorem C94_response_refuted : ∃ path s, meaning path s = "app.User" ∧ follow (path_bindings ∅ path) 9 s = Some "app.User" ∧ one_step (path_bindings ∅ path) s = Some "T".
Proof. exists (calls [[("U", "T")]; [("T", "app.User")]]), "U". by vm_compute. Qed.

Example C94_found : trace_generic (path_bindings ∅ (calls [[]; [("U", "T")]; []; [("T", "app.User"); ("V", "int")]])) 9 "U" = Some "app.User".
Proof. by vm_compute. Qed.
Example C94_none : trace_generic (path_bindings ∅ (calls [[("U", "T")]])) 9 "X" = Some "".
Proof. by vm_compute. Qed.
Example C94_scoped : scoped (calls [[("U", "T")]; [("T", "app.User")]]).
Proof.
  intros i f Hi k v Hk. destruct i as [|[|i]]; [| |done]; cbn in Hi; injection Hi as <-; cbn [fst snd] in Hk; rewrite (right_id_L ∅ (∪)) in Hk;
    (apply lookup_insert_Some in Hk as [[<- <-]|[_ Hk]]; [|by rewrite lookup_empty in Hk]).
  all: split; intros j g Hj [x Hx]; (destruct j as [|[|j]]; [| |done]); cbn in Hj; injection Hj as <-; cbn [fst snd] in Hx; rewrite (right_id_L ∅ (∪)) in Hx; try lia;
    (apply lookup_insert_Some in Hx as [[Hx _]|[_ Hx]]; [done|by rewrite lookup_empty in Hx]).
Qed.
Print Assumptions C94_nearest. Print Assumptions C94_bound. Print Assumptions C94_hangs_iff. Print Assumptions C94_meaning. Print Assumptions C94_request.
Print Assumptions C94_same_name_refuted. Print Assumptions C94_swap_refuted. Print Assumptions C94_composite_refuted. Print Assumptions C94_response_refuted.
