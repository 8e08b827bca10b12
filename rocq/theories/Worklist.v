(** * Work-list loops.  Several functions of /repo share the shape "mark the
    seeds, then repeatedly take a marked key off a queue (or stack) and mark its
    successors".  The loop itself is defined here once; each model file says
    which lines it stands for. *)
From stdpp Require Import base list gmap relations.

Section worklist.
Context {K : Type} `{Countable K}.

(** Marking: skip a key already marked, otherwise mark it and enqueue it. With
    [lifo] the pending list is a stack (top first), otherwise a FIFO queue. *)
Definition wl_push (lifo : bool) (q : list K) (x : K) : list K :=
  if lifo then x :: q else q ++ [x].

Definition wl_mark (lifo : bool) (st : gset K * list K) (x : K) : gset K * list K :=
  if decide (x ∈ st.1) then st else ({[x]} ∪ st.1, wl_push lifo st.2 x).

Fixpoint wl_loop (lifo : bool) (succ : K → list K) (fuel : nat) (st : gset K * list K) : option (gset K) :=
  match st.2 with
  | [] => Some st.1
  | x :: q =>
    match fuel with
    | 0 => None
    | S fuel' => wl_loop lifo succ fuel' (fold_left (wl_mark lifo) (succ x) (st.1, q))
    end
  end.

(** ** Correctness *)

Lemma elem_of_wl_push lifo q x y : y ∈ wl_push lifo q x ↔ y = x ∨ y ∈ q.
Proof.
  destruct lifo; simpl; [apply elem_of_cons|].
  rewrite elem_of_app, elem_of_list_singleton. tauto.
Qed.

Lemma wl_marks lifo xs : ∀ st,
  let st' := fold_left (wl_mark lifo) xs st in
  (∀ y, y ∈ st'.1 ↔ y ∈ st.1 ∨ y ∈ xs) ∧
  (∀ y, y ∈ st'.2 → y ∈ st.2 ∨ (y ∈ xs ∧ y ∉ st.1)) ∧
  (∀ y, y ∈ st.2 → y ∈ st'.2) ∧
  (∀ y, y ∈ xs → y ∉ st.1 → y ∈ st'.2) ∧
  length st'.2 + size st.1 = length st.2 + size st'.1.
Proof.
  induction xs as [|x xs IH]; intros st; simpl.
  - repeat split; try tauto.
    + intros [?|Hx]; [done|by apply not_elem_of_nil in Hx].
    + intros y Hy. by apply not_elem_of_nil in Hy.
  - destruct (IH (wl_mark lifo st x)) as (H1 & H2 & H3 & H4 & H5).
    unfold wl_mark in *. case_decide as Hx.
    + repeat split.
      * rewrite H1. rewrite elem_of_cons. tauto.
      * rewrite H1, elem_of_cons. intros [?|[->|?]]; tauto.
      * intros y Hy. apply H2 in Hy as [?|[? ?]]; [tauto|]. right. rewrite elem_of_cons. tauto.
      * done.
      * intros y Hy Hn. apply elem_of_cons in Hy as [->|Hy]; [done|]. by apply H4.
      * done.
    + simpl in *. repeat split.
      * rewrite H1, elem_of_union, elem_of_singleton, elem_of_cons. tauto.
      * rewrite H1, elem_of_union, elem_of_singleton, elem_of_cons. tauto.
      * intros y Hy. apply H2 in Hy as [Hy|[Hy Hn]].
        { apply elem_of_wl_push in Hy as [->|?]; [|tauto]. right. rewrite elem_of_cons. tauto. }
        right. rewrite elem_of_cons. set_solver.
      * intros y Hy. apply H3, elem_of_wl_push. tauto.
      * intros y Hy Hn. apply elem_of_cons in Hy as [->|Hy].
        { apply H3, elem_of_wl_push. tauto. }
        destruct (decide (y = x)) as [->|Hyx]; [apply H3, elem_of_wl_push; tauto|].
        apply H4; [done|]. set_solver.
      * rewrite size_union, size_singleton in H5 by set_solver.
        assert (length (wl_push lifo st.2 x) = S (length st.2)) as Hl.
        { destruct lifo; simpl; [done|]. rewrite app_length. simpl. lia. }
        lia.
Qed.

Definition wl_rel (succ : K → list K) (x y : K) : Prop := y ∈ succ x.

Record wl_inv (succ : K → list K) (S0 : K → Prop) (st : gset K * list K) : Prop := {
  wi_queue : ∀ x, x ∈ st.2 → x ∈ st.1;
  wi_seed : ∀ x, S0 x → x ∈ st.1;
  wi_sound : ∀ x, x ∈ st.1 → ∃ s, S0 s ∧ rtc (wl_rel succ) s x;
  wi_closed : ∀ x y, x ∈ st.1 → x ∉ st.2 → y ∈ succ x → y ∈ st.1
}.

Lemma wl_inv_step lifo succ S0 seen x q : wl_inv succ S0 (seen, x :: q) →
  wl_inv succ S0 (fold_left (wl_mark lifo) (succ x) (seen, q)).
Proof.
  intros [H1 H2 H3 H4]. simpl in *.
  destruct (wl_marks lifo (succ x) (seen, q)) as (M1 & M2 & M3 & M4 & _). simpl in *.
  split.
  - intros y Hy. apply M1. apply M2 in Hy as [Hy|[Hy _]]; [left|by right].
    apply H1. by right.
  - intros y Hy. apply M1. left. by apply H2.
  - intros y Hy. apply M1 in Hy as [Hy|Hy]; [by apply H3|].
    destruct (H3 x) as (s & Hs & Hr); [apply H1; left|].
    exists s. split; [done|]. eapply rtc_r; [exact Hr|done].
  - intros y z Hy Hn Hz. apply M1. apply M1 in Hy as [Hy|Hy].
    + destruct (decide (y = x)) as [->|Hne]; [by right|].
      left. apply (H4 y); [done| |done]. intros Hq. apply elem_of_cons in Hq as [?|Hq]; [done|].
      apply Hn. by apply M3.
    + destruct (decide (y ∈ seen)) as [Hs|Hs]; [|exfalso; by apply Hn, M4].
      destruct (decide (y = x)) as [->|Hne]; [by right|].
      left. apply (H4 y); [done| |done]. intros Hq. apply elem_of_cons in Hq as [?|Hq]; [done|].
      apply Hn. by apply M3.
Qed.

Lemma wl_loop_sound lifo succ S0 fuel : ∀ st r, wl_inv succ S0 st →
  wl_loop lifo succ fuel st = Some r →
  ∀ x, x ∈ r ↔ ∃ s, S0 s ∧ rtc (wl_rel succ) s x.
Proof.
  induction fuel as [|fuel IH]; intros [seen q] r Hi Hl; simpl in Hl; destruct q as [|x q].
  2: done.
  3: { eapply IH; [|exact Hl]. by apply wl_inv_step. }
  all: injection Hl as <-; destruct Hi as [H1 H2 H3 H4]; simpl in *; intros x; split; [apply H3|];
    intros (s & Hs & Hr); specialize (H2 s Hs); clear Hs;
    induction Hr as [s|s y z Hsy Hr IHr]; [done|]; apply IHr; apply (H4 s); [done|apply not_elem_of_nil|done].
Qed.

Lemma wl_loop_total lifo succ (U : gset K) fuel : ∀ seen q,
  seen ⊆ U → (∀ x, x ∈ q → x ∈ U) → (∀ x y, x ∈ U → y ∈ succ x → y ∈ U) →
  size U + length q - size seen ≤ fuel →
  is_Some (wl_loop lifo succ fuel (seen, q)).
Proof.
  induction fuel as [|fuel IH]; intros seen q Hs Hq Hcl Hf; simpl; (destruct q as [|x q]; [by eexists|]).
  - simpl in Hf. pose proof (subseteq_size _ _ Hs). lia.
  - destruct (wl_marks lifo (succ x) (seen, q)) as (M1 & M2 & M3 & M4 & M5). simpl in *.
    destruct (fold_left (wl_mark lifo) (succ x) (seen, q)) as [seen' q'] eqn:E. simpl in *.
    assert (seen' ⊆ U) as Hs'.
    { intros y Hy. apply M1 in Hy as [Hy|Hy]; [by apply Hs|]. eapply Hcl; [apply Hq; left|done]. }
    apply IH.
    + done.
    + intros y Hy. apply M2 in Hy as [Hy|[Hy _]]; [apply Hq; by right|].
      eapply Hcl; [apply Hq; left|done].
    + done.
    + pose proof (subseteq_size _ _ Hs'). lia.
Qed.

(** Starting from a list of seeds. *)
Lemma wl_inv_init lifo succ xs :
  wl_inv succ (λ x, x ∈ xs) (fold_left (wl_mark lifo) xs (∅, [])).
Proof.
  destruct (wl_marks lifo xs (∅, [])) as (M1 & M2 & M3 & M4 & _). simpl in *.
  split.
  - intros x Hx. apply M1. apply M2 in Hx as [Hx|[Hx _]]; [by apply not_elem_of_nil in Hx|by right].
  - intros x Hx. apply M1. by right.
  - intros x Hx. apply M1 in Hx as [Hx|Hx]; [set_solver|]. exists x. split; [done|apply rtc_refl].
  - intros x y Hx Hn. apply M1 in Hx as [Hx|Hx]; [set_solver|]. exfalso. apply Hn, M4; set_solver.
Qed.

Lemma wl_run_spec lifo succ fuel xs r :
  wl_loop lifo succ fuel (fold_left (wl_mark lifo) xs (∅, [])) = Some r →
  ∀ x, x ∈ r ↔ ∃ s, s ∈ xs ∧ rtc (wl_rel succ) s x.
Proof. intros Hl. eapply wl_loop_sound; [apply wl_inv_init|exact Hl]. Qed.

Lemma wl_run_total lifo succ (U : gset K) fuel xs :
  (∀ x, x ∈ xs → x ∈ U) → (∀ x y, x ∈ U → y ∈ succ x → y ∈ U) → size U ≤ fuel →
  is_Some (wl_loop lifo succ fuel (fold_left (wl_mark lifo) xs (∅, []))).
Proof.
  intros Hx Hcl Hf.
  destruct (wl_marks lifo xs (∅, [])) as (M1 & M2 & M3 & M4 & M5).
  destruct (fold_left (wl_mark lifo) xs (∅, [])) as [seen q]. simpl in *.
  apply (wl_loop_total _ _ U); [|..|done|].
  - intros y Hy. apply M1 in Hy as [Hy|Hy]; [set_solver|by apply Hx].
  - intros y Hy. apply M2 in Hy as [Hy|[Hy _]]; [by apply not_elem_of_nil in Hy|by apply Hx].
  - pose proof (size_empty (C:=gset K)) as Hz. unfold size in *. lia.
Qed.
End worklist.
