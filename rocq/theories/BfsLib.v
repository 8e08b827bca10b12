(** * Breadth-first search with distances. Two functions of /repo share this loop; each model file says
    which lines it stands for. *)
From stdpp Require Import sorting.
From stdpp Require Import base list gmap relations.

Section bfs.
  Context {A : Type} `{Countable A}.
  (** Mark a key at distance [d] and put it at the end of the queue, unless it is marked. *)
  Definition bfs_mark (d : nat) (st : gmap A nat * list A) (y : A) : gmap A nat * list A :=
    match st.1 !! y with Some _ => st | None => (<[y := d]> st.1, st.2 ++ [y]) end.
  Fixpoint bfs (succ : A → list A) (fuel : nat) (st : gmap A nat * list A) : gmap A nat * list A :=
    match fuel with
    | 0 => st
    | S fuel =>
        match st.2 with
        | [] => st
        | x :: q => bfs succ fuel (foldl (bfs_mark (S (default 0 (st.1 !! x)))) (st.1, q) (succ x))
        end
    end.

  Definition bfs_edge (succ : A → list A) (x y : A) : Prop := y ∈ succ x.
  (** [x] is [d] steps from the nearest root. *)
  Definition nearest (R : relation A) (roots : list A) (x : A) (d : nat) : Prop :=
    (∃ r, r ∈ roots ∧ nsteps R d r x) ∧ ∀ r d', r ∈ roots → nsteps R d' r x → d ≤ d'.

  Definition at_depth (depth : gmap A nat) (x : A) : nat := default 0 (depth !! x).
  Record bfs_inv (succ : A → list A) (roots : list A) (st : gmap A nat * list A) : Prop := {
    bi_roots : ∀ r, r ∈ roots → st.1 !! r = Some 0;
    bi_steps : ∀ x d, st.1 !! x = Some d → ∃ r, r ∈ roots ∧ nsteps (bfs_edge succ) d r x;
    bi_queue : ∀ x, x ∈ st.2 → is_Some (st.1 !! x);
    bi_closed : ∀ x d, st.1 !! x = Some d → x ∉ st.2 → ∀ y, y ∈ succ x → ∃ d', st.1 !! y = Some d' ∧ d' ≤ S d;
    bi_sorted : StronglySorted (λ x y, at_depth st.1 x ≤ at_depth st.1 y) st.2;
    bi_head : ∀ x, head st.2 = Some x → ∀ y d, st.1 !! y = Some d → d ≤ S (at_depth st.1 x) }.

  Lemma bfs_marks d ys : ∀ st, let st' := foldl (bfs_mark d) st ys in
    (∀ x, st'.1 !! x = match st.1 !! x with Some e => Some e | None => if decide (x ∈ ys) then Some d else None end)
    ∧ ∃ new, st'.2 = st.2 ++ new ∧ ∀ x, x ∈ new ↔ x ∈ ys ∧ st.1 !! x = None.
  Proof.
    induction ys as [|y ys IH]; intros st; cbn [foldl].
    - split; [intros x; destruct (st.1 !! x); [done|]; by rewrite decide_False by apply not_elem_of_nil|]. exists []. rewrite app_nil_r. split; [done|].
      intros x. split; [by intros ?%elem_of_nil|by intros [?%elem_of_nil _]].
    - destruct (IH (bfs_mark d st y)) as (H1 & new & H2 & H3). unfold bfs_mark in *. destruct (st.1 !! y) as [e|] eqn:Ey.
      + split.
        * intros x. rewrite H1. destruct (st.1 !! x) eqn:Ex; [done|]. destruct (decide (x ∈ ys)) as [Hx|Hx].
          { by rewrite decide_True by (by right). }
          { rewrite decide_False; [done|]. rewrite elem_of_cons. intros [-> | ?]; [congruence|done]. }
        * exists new. split; [done|]. intros x. rewrite H3, elem_of_cons. split; [intros [? ?]; auto|]. intros [[-> | ?] ?]; [congruence|done].
      + cbn [fst snd] in *. split.
        * intros x. rewrite H1. destruct (decide (x = y)) as [-> | Hne].
          { rewrite lookup_insert, Ey. by rewrite decide_True by (by left). }
          { rewrite lookup_insert_ne by done. destruct (st.1 !! x); [done|]. destruct (decide (x ∈ ys)) as [Hx|Hx].
            - by rewrite decide_True by (by right).
            - rewrite decide_False; [done|]. rewrite elem_of_cons. by intros [? | ?]. }
        * exists (y :: new). split; [by rewrite H2, <- app_assoc|]. intros x. rewrite !elem_of_cons, H3. destruct (decide (x = y)) as [-> | Hne].
          { split; [auto|]. by left. }
          { rewrite lookup_insert_ne by done. split; [intros [? | [? ?]]; [done|auto]|]. intros [[? | ?] ?]; [done|auto]. }
  Qed.
  Lemma bfs_marks_keep d ys st x e : st.1 !! x = Some e → (foldl (bfs_mark d) st ys).1 !! x = Some e.
  Proof. intros Hx. destruct (bfs_marks d ys st) as [H1 _]. by rewrite H1, Hx. Qed.

  Lemma bfs_step succ roots x q depth : bfs_inv succ roots (depth, x :: q) → bfs_inv succ roots (foldl (bfs_mark (S (at_depth depth x))) (depth, q) (succ x)).
  Proof.
    intros [I1 I2 I3 I4 I5 I6]. cbn [fst snd] in *. set (d := at_depth depth x). destruct (bfs_marks (S d) (succ x) (depth, q)) as (M1 & new & M2 & M3). cbn [fst snd] in *.
    assert (depth !! x = Some d) as Hx. { destruct (I3 x) as [e He]; [by left|]. unfold d, at_depth. by rewrite He. }
    assert (∀ y, is_Some (depth !! y) → at_depth (foldl (bfs_mark (S d)) (depth, q) (succ x)).1 y = at_depth depth y) as Hsame.
    { intros y [e He]. unfold at_depth. by rewrite M1, He. }
    assert (∀ y, y ∈ new → at_depth (foldl (bfs_mark (S d)) (depth, q) (succ x)).1 y = S d) as Hnew.
    { intros y [Hy Hn]%M3. unfold at_depth. rewrite M1, Hn. by rewrite decide_True. }
    assert (∀ y e, (foldl (bfs_mark (S d)) (depth, q) (succ x)).1 !! y = Some e → e ≤ S d) as Hall.
    { intros y e. rewrite M1. destruct (depth !! y) as [e'|] eqn:E; [intros [= <-]; by apply (I6 x eq_refl y)|]. destruct (decide (y ∈ succ x)); [by intros [= <-]|done]. }
    split; cbn [fst snd].
    - intros r Hr. by rewrite M1, (I1 r Hr).
    - intros y e. rewrite M1. destruct (depth !! y) as [e'|] eqn:E; [intros [= <-]; by apply I2|]. destruct (decide (y ∈ succ x)) as [Hy|]; [|done]. intros [= <-].
      destruct (I2 x d Hx) as (r & Hr & Hs). exists r. split; [done|]. apply nsteps_r with x; [done|exact Hy].
    - intros y. rewrite M2, elem_of_app. intros [Hy|Hy].
      + destruct (I3 y) as [e He]; [by right|]. rewrite M1, He. by eexists.
      + apply M3 in Hy as [Hy Hn]. rewrite M1, Hn, decide_True by done. by eexists.
    - intros y e Hy Hq z Hz. rewrite M2, elem_of_app in Hq. rewrite M1 in Hy. destruct (depth !! y) as [e'|] eqn:E.
      + injection Hy as <-. destruct (decide (y = x)) as [-> | Hne].
        * assert (e' = d) as -> by congruence. rewrite M1. destruct (depth !! z) as [ez|] eqn:Ez; [exists ez; split; [done|]; by apply (I6 x eq_refl z)|].
          rewrite decide_True by done. by eexists.
        * destruct (I4 y e' E) with z as (d' & Hd & Hle); [|done|]. { rewrite elem_of_cons. intros [? | ?]; [done|]. apply Hq. by left. } exists d'. by rewrite M1, Hd.
      + destruct (decide (y ∈ succ x)) as [Hs|]; [|done]. exfalso. apply Hq. right. by apply M3.
    - rewrite M2. apply StronglySorted_inv in I5 as [I5 _].
      assert (∀ l, (∀ y, y ∈ l → is_Some (depth !! y)) → StronglySorted (λ a b, at_depth depth a ≤ at_depth depth b) l →
        StronglySorted (λ a b, at_depth (foldl (bfs_mark (S d)) (depth, q) (succ x)).1 a ≤ at_depth (foldl (bfs_mark (S d)) (depth, q) (succ x)).1 b) (l ++ new)) as Hgo.
      { induction l as [|y l IHl]; intros Hin Hs; cbn [app].
        - assert (∀ l, (∀ y, y ∈ l → y ∈ new) → StronglySorted (λ a b, at_depth (foldl (bfs_mark (S d)) (depth, q) (succ x)).1 a ≤ at_depth (foldl (bfs_mark (S d)) (depth, q) (succ x)).1 b) l) as Hl; [|by apply Hl].
          induction l as [|y l IHl]; intros Hl; constructor; [apply IHl; intros z Hz; apply Hl; by right|]. apply Forall_forall. intros z Hz. rewrite !Hnew; [done|apply Hl; by right|apply Hl; by left].
        - apply StronglySorted_inv in Hs as [Hs Hf]. constructor; [apply IHl; [|done]; intros z Hz; apply Hin; by right|]. rewrite Forall_forall in Hf. apply Forall_forall. intros z. rewrite elem_of_app. intros [Hz|Hz].
          + rewrite !Hsame; [by apply Hf|apply Hin; by right|apply Hin; by left].
          + rewrite Hsame by (apply Hin; by left). rewrite Hnew by done. destruct (Hin y) as [e He]; [by left|]. unfold at_depth at 1. rewrite He. by apply (I6 x eq_refl y). }
      apply Hgo; [|done]. intros y Hy. apply I3. by right.
    - intros y. rewrite M2. intros Hh z e Hz. destruct q as [|y' q].
      + destruct new as [|y' new]; [done|]. injection Hh as <-. rewrite Hnew by (by left). apply Hall in Hz. lia.
      + injection Hh as <-. rewrite Hsame by (apply I3; right; by left). apply StronglySorted_inv in I5 as [_ I5]. apply Forall_inv in I5. apply Hall in Hz. fold d in I5. lia.
  Qed.
  Lemma bfs_run succ roots fuel : ∀ st, bfs_inv succ roots st → bfs_inv succ roots (bfs succ fuel st).
  Proof.
    induction fuel as [|fuel IH]; intros [depth [|x q]] Hi; cbn [bfs fst snd]; [done..|]. apply IH. by apply bfs_step.
  Qed.
  Lemma bfs_init succ roots (depth : gmap A nat) : (∀ x, depth !! x = if decide (x ∈ roots) then Some 0 else None) → bfs_inv succ roots (depth, roots).
  Proof.
    intros Hd. assert (∀ x, at_depth depth x = 0) as H0 by (intros x; unfold at_depth; rewrite Hd; by destruct (decide (x ∈ roots))).
    split; cbn [fst snd].
    - intros r Hr. by rewrite Hd, decide_True.
    - intros x d. rewrite Hd. destruct (decide (x ∈ roots)) as [Hx|]; [|done]. intros [= <-]. exists x. split; [done|]. constructor.
    - intros x Hx. rewrite Hd, decide_True by done. by eexists.
    - intros x d. rewrite Hd. by destruct (decide (x ∈ roots)).
    - clear Hd. induction roots as [|r rs IH]; constructor; [done|]. apply Forall_forall. intros x _. by rewrite !H0.
    - intros x _ y d. rewrite Hd. destruct (decide (y ∈ roots)); [|done]. intros [= <-]. lia.
  Qed.
  (** Once the queue is empty, the distances are right. *)
  Lemma bfs_done succ roots depth : bfs_inv succ roots (depth, []) → ∀ x d, depth !! x = Some d ↔ nearest (bfs_edge succ) roots x d.
  Proof.
    intros [I1 I2 I3 I4 _ _]. cbn [fst snd] in *.
    assert (∀ n r x, r ∈ roots → nsteps (bfs_edge succ) n r x → ∃ d, depth !! x = Some d ∧ d ≤ n) as Hle.
    { induction n as [|n IH]; intros r x Hr Hs.
      - inversion Hs; subst. exists 0. split; [by apply I1|done].
      - apply nsteps_inv_r in Hs as (y & Hs & He). destruct (IH r y Hr Hs) as (d & Hd & Hl). destruct (I4 y d Hd (not_elem_of_nil _) x He) as (d' & Hd' & Hl'). exists d'. split; [done|]. lia. }
    intros x d. split.
    - intros Hd. split; [by apply I2|]. intros r d' Hr Hs. destruct (Hle d' r x Hr Hs) as (e & He & Hl). congruence.
    - intros [(r & Hr & Hs) Hmin]. destruct (Hle d r x Hr Hs) as (e & He & Hl). destruct (I2 x e He) as (r' & Hr' & Hs'). specialize (Hmin r' e Hr' Hs'). rewrite He. f_equal. lia.
  Qed.

  Lemma bfs_keep succ fuel : ∀ st x e, st.1 !! x = Some e → (bfs succ fuel st).1 !! x = Some e.
  Proof. induction fuel as [|fuel IH]; intros [depth [|y q]] x e Hx; cbn [bfs fst snd]; [done..|]. apply IH. by apply bfs_marks_keep. Qed.
  Lemma bfs_marks_size d ys : ∀ st, length (foldl (bfs_mark d) st ys).2 + size st.1 = length st.2 + size (foldl (bfs_mark d) st ys).1.
  Proof.
    induction ys as [|y ys IH]; intros st; cbn [foldl]; [done|]. specialize (IH (bfs_mark d st y)).
    assert (length (bfs_mark d st y).2 + size st.1 = length st.2 + size (bfs_mark d st y).1); [|lia]. unfold bfs_mark. destruct (st.1 !! y) eqn:Ey; [done|].
    cbn [fst snd]. rewrite app_length, map_size_insert_None by done. cbn [length]. lia.
  Qed.
  (** A search that stays inside a finite set comes to an end. *)
  Lemma bfs_empties succ (U : gset A) fuel : (∀ x y, x ∈ U → y ∈ succ x → y ∈ U) →
    ∀ st, (∀ x, is_Some (st.1 !! x) → x ∈ U) → (∀ x, x ∈ st.2 → x ∈ U) → length st.2 + size U ≤ fuel + size st.1 → (bfs succ fuel st).2 = [].
  Proof.
    intros HU. induction fuel as [|fuel IH]; intros st Hd Hq Hl.
    - cbn [bfs]. assert (size st.1 ≤ size U). { rewrite <- (size_dom (D := gset A)). apply subseteq_size. intros x Hx. apply Hd. by apply elem_of_dom. } destruct st.2; [done|]. cbn in Hl. lia.
    - cbn [bfs]. destruct st as [depth q]. cbn [fst snd] in *. destruct q as [|x q]; [done|].
      destruct (bfs_marks (S (default 0 (depth !! x))) (succ x) (depth, q)) as (M1 & new & M2 & M3). pose proof (bfs_marks_size (S (default 0 (depth !! x))) (succ x) (depth, q)) as Hs. cbn [fst snd length] in *.
      apply IH.
      + intros y [e He]. rewrite M1 in He. destruct (depth !! y) eqn:Ey; [apply Hd; by eexists|]. destruct (decide (y ∈ succ x)); [|done]. apply (HU x); [|done]. apply Hq. by left.
      + intros y. rewrite M2, elem_of_app, M3. intros [Hy|[Hy _]]; [apply Hq; by right|]. apply (HU x); [|done]. apply Hq. by left.
      + lia.
  Qed.
End bfs.
