(** Invariant proof of the Tarjan loop of [SccModel]. *)
From stdpp Require Import sorting.
From stdpp Require Import base list strings gmap relations.
From Verif Require Import StrOrder SccModel.

Section tarjan.
Context (adj : gmap string (list string)).

Definition E (u v : string) : Prop := v ∈ adj_of adj u.
Definition R : string → string → Prop := rtc E.

(** Ghost view: one entry per call frame, holding the finished nodes that sit
    above the frame's node on the Tarjan stack. *)
Notation gframe := (list string * frame)%type.
Definition gnode (g : gframe) : string := f_node g.2.
Definition seg (g : gframe) : list string := g.1 ++ [gnode g].
Definition tst (gs : list gframe) : list string := concat (seg <$> gs).

Fixpoint chain (gs : list gframe) : Prop :=
  match gs with
  | g :: ((h :: _) as gs') => E (gnode h) (gnode g) ∧ chain gs'
  | _ => True
  end.

Record comps_ok (comps : list (list string)) (compof : gmap string nat) : Prop := {
  co_nodup : NoDup (concat comps);
  co_ne : ∀ i c, comps !! i = Some c → c ≠ [];
  co_sorted : ∀ i c, comps !! i = Some c → StronglySorted string_le c;
  co_mutual : ∀ i c x y, comps !! i = Some c → x ∈ c → y ∈ c → R x y;
  co_closed : ∀ i c x y, comps !! i = Some c → x ∈ c → E x y →
    ∃ j c', j ≤ i ∧ comps !! j = Some c' ∧ y ∈ c';
  co_of : ∀ x i, compof !! x = Some i ↔ ∃ c, comps !! i = Some c ∧ x ∈ c
}.

Definition idx (s : tj) (x : string) : nat := get0 (tj_index s) x.
Definition low (s : tj) (x : string) : nat := get0 (tj_low s) x.

Record inv (P : string → Prop) (s : tj) (gs : list gframe) : Prop := {
  i_cs : tj_cstack s = gs.*2;
  i_ts : tj_tstack s = tst gs;
  i_sorted : StronglySorted (λ x y, idx s y < idx s x) (tst gs);
  i_visited : ∀ x, idx s x ≠ 0 ↔ x ∈ tst gs ∨ x ∈ concat (tj_comps s);
  i_counter : ∀ x, idx s x ≤ tj_counter s;
  i_onst : ∀ x, getb (tj_onstack s) x = true ↔ x ∈ tst gs;
  i_seg : ∀ g x, g ∈ gs → x ∈ seg g → R (gnode g) x ∧ R x (gnode g);
  i_chain : chain gs;
  i_sound : ∀ g, g ∈ gs → ∃ y, y ∈ tst gs ∧ R (gnode g) y ∧ idx s y = low s (gnode g);
  i_lowle : ∀ g, g ∈ gs → low s (gnode g) ≤ idx s (gnode g);
  i_black : ∀ g x y, g ∈ gs → x ∈ g.1 → E x y →
    idx s y ≠ 0 ∧ (y ∈ tst gs → low s (gnode g) ≤ idx s y);
  i_gray : ∀ g y, g ∈ gs → y ∈ take (f_next g.2) (adj_of adj (gnode g)) →
    P y ∨ idx s y ≠ 0 ∧ (y ∈ tst gs → low s (gnode g) ≤ idx s y);
  i_disj : ∀ x, x ∈ tst gs → x ∉ concat (tj_comps s);
  i_comps : comps_ok (tj_comps s) (tj_compof s)
}.

Definition no : string → Prop := λ _, False.

(** ** Small facts *)

Lemma get0_insert m k v : get0 (<[k := v]> m) k = v.
Proof. unfold get0. by rewrite lookup_insert. Qed.
Lemma get0_insert_ne m k k' v : k ≠ k' → get0 (<[k := v]> m) k' = get0 m k'.
Proof. intros. unfold get0. by rewrite lookup_insert_ne. Qed.

Lemma sorted_nodup s l :
  StronglySorted (λ x y, idx s y < idx s x) l → NoDup l.
Proof.
  induction l as [|x l IH]; intros Hs; [constructor|].
  inversion Hs as [|? ? Hs' Hf]; subst. constructor; [|by apply IH].
  intros Hx. rewrite Forall_forall in Hf. specialize (Hf x Hx). lia.
Qed.

Lemma inv_nodup P s gs : inv P s gs → NoDup (tst gs).
Proof. intros H. eapply sorted_nodup, i_sorted, H. Qed.

Lemma elem_of_tst x gs : x ∈ tst gs ↔ ∃ g, g ∈ gs ∧ x ∈ seg g.
Proof.
  unfold tst. rewrite elem_of_list_In, in_concat. split.
  - intros (l & Hl & Hx). apply elem_of_list_In in Hl, Hx.
    apply elem_of_list_fmap in Hl as (g & -> & Hg). eauto.
  - intros (g & Hg & Hx). exists (seg g).
    split; [apply elem_of_list_In, elem_of_list_fmap; eauto|by apply elem_of_list_In].
Qed.

Lemma gnode_in_seg g : gnode g ∈ seg g.
Proof. unfold seg. rewrite elem_of_app, elem_of_list_singleton. tauto. Qed.

Lemma gnode_in_tst g gs : g ∈ gs → gnode g ∈ tst gs.
Proof. intros. apply elem_of_tst. eauto using gnode_in_seg. Qed.

Lemma tst_cons g gs : tst (g :: gs) = seg g ++ tst gs.
Proof. done. Qed.

Lemma chain_tail g gs : chain (g :: gs) → chain gs.
Proof. destruct gs; simpl; tauto. Qed.

Lemma chain_reach gs : ∀ h, chain (h :: gs) → ∀ k, k ∈ gs → R (gnode k) (gnode h).
Proof.
  induction gs as [|g gs IH]; intros h Hc k Hk; [by apply not_elem_of_nil in Hk|].
  destruct Hc as [He Hc]. apply elem_of_cons in Hk as [->|Hk].
  - by apply rtc_once.
  - eapply rtc_transitive; [eapply IH; eauto|by apply rtc_once].
Qed.

Lemma ssorted_app_lt {A} (Q : relation A) l1 l2 x y :
  StronglySorted Q (l1 ++ l2) → x ∈ l1 → y ∈ l2 → Q x y.
Proof.
  induction l1 as [|a l1 IH]; intros Hs Hx Hy; [by apply not_elem_of_nil in Hx|].
  inversion Hs as [|? ? Hs' Hf]; subst. apply elem_of_cons in Hx as [->|Hx]; [|eauto].
  rewrite Forall_forall in Hf. apply Hf, elem_of_app. by right.
Qed.

Lemma ssorted_app_r {A} (Q : relation A) l1 l2 :
  StronglySorted Q (l1 ++ l2) → StronglySorted Q l2.
Proof.
  induction l1 as [|a l1 IH]; intros Hs; [done|]. inversion Hs; subst. auto.
Qed.

Lemma ssorted_iff {A} (Q Q' : relation A) l :
  (∀ x y, x ∈ l → y ∈ l → Q x y → Q' x y) → StronglySorted Q l → StronglySorted Q' l.
Proof.
  induction l as [|a l IH]; intros HQ Hs; [constructor|].
  inversion Hs as [|? ? Hs' Hf]; subst. constructor.
  - apply IH; [|done]. intros x y Hx Hy. apply HQ; by right.
  - rewrite Forall_forall in Hf |- *. intros y Hy. apply HQ; [left|by right|auto].
Qed.

Lemma gray_distinct P s gs1 g gs2 h : inv P s (gs1 ++ g :: gs2) →
  h ∈ gs1 ++ gs2 → gnode h ≠ gnode g.
Proof.
  intros Hi Hh Heq. pose proof (inv_nodup _ _ _ Hi) as Hnd.
  unfold tst in Hnd. rewrite fmap_app, concat_app in Hnd. cbn in Hnd.
  change (concat (seg <$> gs1)) with (tst gs1) in Hnd.
  change (concat (seg <$> gs2)) with (tst gs2) in Hnd.
  apply NoDup_app in Hnd as (_ & Hd1 & Hnd). apply NoDup_app in Hnd as (_ & Hd2 & _).
  apply elem_of_app in Hh as [Hh|Hh].
  - apply (Hd1 (gnode g)).
    + rewrite <- Heq. by apply gnode_in_tst.
    + apply elem_of_app. left. apply gnode_in_seg.
  - apply (Hd2 (gnode g)); [apply gnode_in_seg|]. rewrite <- Heq. by apply gnode_in_tst.
Qed.

(** ** Discovering a node *)

Lemma visit_inv s gs n :
  inv (eq n) s gs → idx s n = 0 →
  match gs with [] => True | g :: _ => E (gnode g) n end →
  inv no (tj_visit s n) (([], Frame n 0) :: gs).
Proof.
  intros Hi Hn Hh.
  assert (n ∉ tst gs) as Hnt.
  { intros Hin. apply (i_visited _ _ _ Hi n); [by left|done]. }
  assert (n ∉ concat (tj_comps s)) as Hnc.
  { intros Hin. apply (i_visited _ _ _ Hi n); [by right|done]. }
  assert (∀ x, x ≠ n → idx (tj_visit s n) x = idx s x) as Hidx.
  { intros x Hx. unfold idx. simpl. by rewrite get0_insert_ne. }
  assert (idx (tj_visit s n) n = S (tj_counter s)) as Hidxn.
  { unfold idx. simpl. by rewrite get0_insert. }
  assert (∀ x, x ≠ n → low (tj_visit s n) x = low s x) as Hlow.
  { intros x Hx. unfold low. simpl. by rewrite get0_insert_ne. }
  assert (low (tj_visit s n) n = S (tj_counter s)) as Hlown.
  { unfold low. simpl. by rewrite get0_insert. }
  assert (∀ x, x ∈ tst gs → x ≠ n) as Hne by (intros x ? ->; done).
  assert (∀ g, g ∈ gs → gnode g ≠ n) as Hgne by (intros; by apply Hne, gnode_in_tst).
  split.
  - simpl. by rewrite (i_cs _ _ _ Hi).
  - simpl. by rewrite (i_ts _ _ _ Hi).
  - rewrite tst_cons. simpl. constructor.
    + eapply ssorted_iff; [|apply (i_sorted _ _ _ Hi)].
      intros x y Hx Hy ?. by rewrite !Hidx by auto.
    + apply Forall_forall. intros x Hx. change (gnode ([], Frame n 0)) with n.
      rewrite Hidxn, Hidx by auto. pose proof (i_counter _ _ _ Hi x). lia.
  - intros x. simpl. rewrite tst_cons. simpl. rewrite elem_of_cons.
    change (gnode ([], Frame n 0)) with n.
    destruct (decide (x = n)) as [->|Hx]; [rewrite Hidxn; split; [tauto|lia]|].
    rewrite Hidx by done. rewrite (i_visited _ _ _ Hi x). tauto.
  - intros x. destruct (decide (x = n)) as [->|Hx]; [rewrite Hidxn; done|].
    rewrite Hidx by done. simpl. pose proof (i_counter _ _ _ Hi x). lia.
  - intros x. simpl. rewrite tst_cons. simpl. rewrite elem_of_cons.
    change (gnode ([], Frame n 0)) with n. unfold getb.
    destruct (decide (x = n)) as [->|Hx]; [rewrite lookup_insert; simpl; tauto|].
    rewrite lookup_insert_ne by done.
    change (default false (tj_onstack s !! x)) with (getb (tj_onstack s) x).
    rewrite (i_onst _ _ _ Hi x). tauto.
  - intros g x Hg Hx. apply elem_of_cons in Hg as [->|Hg].
    + simpl in Hx. apply elem_of_list_singleton in Hx as ->. split; apply rtc_refl.
    + eapply (i_seg _ _ _ Hi); eauto.
  - destruct gs as [|g gs]; [done|]. split; [done|apply (i_chain _ _ _ Hi)].
  - intros g Hg. rewrite tst_cons. apply elem_of_cons in Hg as [->|Hg].
    + exists n. split; [left|]. split; [apply rtc_refl|]. change (gnode ([], Frame n 0)) with n.
      by rewrite Hidxn, Hlown.
    + destruct (i_sound _ _ _ Hi g Hg) as (y & Hy & HR & Heq).
      exists y. split; [apply elem_of_app; by right|]. split; [done|].
      rewrite Hidx by auto. rewrite Hlow by auto. done.
  - intros g Hg. apply elem_of_cons in Hg as [->|Hg].
    + change (gnode ([], Frame n 0)) with n. rewrite Hidxn, Hlown. done.
    + rewrite Hidx, Hlow by auto. by apply (i_lowle _ _ _ Hi).
  - intros g x y Hg Hx Hxy. apply elem_of_cons in Hg as [->|Hg].
    + simpl in Hx. by apply not_elem_of_nil in Hx.
    + destruct (i_black _ _ _ Hi g x y Hg Hx Hxy) as [Hv Hl].
      assert (y ≠ n) by (intros ->; done). rewrite Hidx, Hlow by auto.
      split; [done|]. rewrite tst_cons. simpl. rewrite elem_of_cons.
      intros [->|?]; [done|auto].
  - intros g y Hg Hy. right. apply elem_of_cons in Hg as [->|Hg].
    + simpl in Hy. rewrite take_0 in Hy. by apply not_elem_of_nil in Hy.
    + destruct (decide (y = n)) as [->|Hyn].
      * rewrite Hidxn. split; [done|]. intros _. rewrite Hlow by auto.
        pose proof (i_lowle _ _ _ Hi g Hg). pose proof (i_counter _ _ _ Hi (gnode g)). lia.
      * destruct (i_gray _ _ _ Hi g y Hg Hy) as [?|[Hv Hl]]; [by subst|].
        rewrite Hidx, Hlow by auto. split; [done|].
        rewrite tst_cons. simpl. rewrite elem_of_cons.
        change (gnode ([], Frame n 0)) with n. intros [->|?]; [done|auto].
  - intros x. rewrite tst_cons. simpl. rewrite elem_of_cons. intros [->|Hx]; [done|].
    by apply (i_disj _ _ _ Hi).
  - apply (i_comps _ _ _ Hi).
Qed.

(** ** Looking at one more successor *)

Definition bump (s : tj) (node : string) (nx : nat) (rest : list frame) : tj :=
  Tj (tj_index s) (tj_low s) (tj_onstack s) (tj_tstack s)
     (Frame node (S nx) :: rest) (tj_counter s) (tj_comps s) (tj_compof s).

Lemma bump_inv s b node nx gs next :
  inv no s ((b, Frame node nx) :: gs) →
  adj_of adj node !! nx = Some next →
  inv (eq next) (bump s node nx gs.*2) ((b, Frame node (S nx)) :: gs).
Proof.
  intros Hi Hnx.
  assert (tst ((b, Frame node (S nx)) :: gs) = tst ((b, Frame node nx) :: gs)) as Ht by done.
  assert (∀ g, g ∈ (b, Frame node (S nx)) :: gs →
    ∃ g', g' ∈ (b, Frame node nx) :: gs ∧ gnode g' = gnode g ∧ g'.1 = g.1) as Hg'.
  { intros g Hg. apply elem_of_cons in Hg as [->|Hg].
    - exists (b, Frame node nx). split; [left|done].
    - exists g. split; [by right|done]. }
  split.
  - done.
  - simpl. rewrite Ht. apply (i_ts _ _ _ Hi).
  - rewrite Ht. apply (i_sorted _ _ _ Hi).
  - intros x. rewrite Ht. apply (i_visited _ _ _ Hi).
  - apply (i_counter _ _ _ Hi).
  - intros x. rewrite Ht. apply (i_onst _ _ _ Hi).
  - intros g x Hg Hx. destruct (Hg' g Hg) as (g' & Hin & Hn & H1). rewrite <- Hn.
    apply (i_seg _ _ _ Hi g' x Hin). unfold seg in *. by rewrite H1, Hn.
  - pose proof (i_chain _ _ _ Hi) as Hc. destruct gs; done.
  - intros g Hg. destruct (Hg' g Hg) as (g' & Hin & Hn & _). rewrite <- Hn, Ht.
    apply (i_sound _ _ _ Hi g' Hin).
  - intros g Hg. destruct (Hg' g Hg) as (g' & Hin & Hn & _). rewrite <- Hn.
    apply (i_lowle _ _ _ Hi g' Hin).
  - intros g x y Hg Hx. destruct (Hg' g Hg) as (g' & Hin & Hn & H1). rewrite <- Hn, Ht.
    apply (i_black _ _ _ Hi g' x y Hin). by rewrite H1.
  - intros g y Hg Hy. rewrite Ht. apply elem_of_cons in Hg as [->|Hg].
    + simpl in Hy. unfold gnode in Hy; simpl in Hy.
      erewrite take_S_r in Hy by done. apply elem_of_app in Hy as [Hy|Hy].
      * right. destruct (i_gray _ _ _ Hi (b, Frame node nx) y) as [[]|?]; [left|done|done].
      * apply elem_of_list_singleton in Hy as ->. by left.
    + right. destruct (i_gray _ _ _ Hi g y) as [[]|?]; [by right|done|done].
  - intros x. rewrite Ht. apply (i_disj _ _ _ Hi).
  - apply (i_comps _ _ _ Hi).
Qed.

Lemma discharge s gs n :
  inv (eq n) s gs →
  (∀ g, g ∈ gs → n ∈ take (f_next g.2) (adj_of adj (gnode g)) →
     idx s n ≠ 0 ∧ (n ∈ tst gs → low s (gnode g) ≤ idx s n)) →
  inv no s gs.
Proof.
  intros [] Hd. split; try done.
  intros g y Hg Hy. destruct (i_gray0 g y Hg Hy) as [<-|?]; right; eauto.
Qed.

(** The entries other than the head never mention [n] as exempt in our use, so
    we state the pair of lemmas for the head only. *)
Lemma bump_inv' s b node nx gs next :
  inv no s ((b, Frame node nx) :: gs) →
  adj_of adj node !! nx = Some next →
  ∀ g, g ∈ gs → next ∈ take (f_next g.2) (adj_of adj (gnode g)) →
    idx s next ≠ 0 ∧ (next ∈ tst ((b, Frame node nx) :: gs) → low s (gnode g) ≤ idx s next).
Proof.
  intros Hi Hnx g Hg Hy. destruct (i_gray _ _ _ Hi g next) as [[]|?]; [by right|done|done].
Qed.

Definition with_low (s : tj) (m : gmap string nat) : tj :=
  Tj (tj_index s) m (tj_onstack s) (tj_tstack s) (tj_cstack s)
     (tj_counter s) (tj_comps s) (tj_compof s).

(** Lowering the top node's low-link to the index of a reachable stack node. *)
Lemma lower_inv P s g gs y v :
  inv P s (g :: gs) →
  y ∈ tst (g :: gs) → R (gnode g) y → idx s y = v → v ≤ low s (gnode g) →
  inv P (with_low s (<[gnode g := v]> (tj_low s))) (g :: gs).
Proof.
  intros Hi Hy HR Hv Hle.
  set (s' := with_low _ _).
  assert (low s' (gnode g) = v) as Hlg by (unfold low, s'; simpl; by rewrite get0_insert).
  assert (∀ h, h ∈ gs → low s' (gnode h) = low s (gnode h)) as Hlh.
  { intros h Hh. unfold low, s'; simpl. apply get0_insert_ne, not_eq_sym.
    by apply (gray_distinct P s [] g gs h). }
  assert (∀ h, h ∈ g :: gs → low s' (gnode h) ≤ low s (gnode h)) as Hll.
  { intros h Hh. apply elem_of_cons in Hh as [->|Hh]; [lia|by rewrite Hlh]. }
  destruct Hi. split; try done.
  - intros h Hh. apply elem_of_cons in Hh as [->|Hh].
    + exists y. split; [done|]. split; [done|]. by rewrite Hlg.
    + destruct (i_sound0 h) as (z & ? & ? & Hz); [by right|].
      exists z. split; [done|]. split; [done|]. rewrite Hlh by done. done.
  - intros h Hh. specialize (Hll h Hh). specialize (i_lowle0 h Hh).
    change (idx s' (gnode h)) with (idx s (gnode h)). lia.
  - intros h x z Hh Hx Hxz. specialize (Hll h Hh).
    destruct (i_black0 h x z Hh Hx Hxz) as [? Hz]. split; [done|].
    intros Hzt. specialize (Hz Hzt). change (idx s' z) with (idx s z). lia.
  - intros h z Hh Hz. specialize (Hll h Hh).
    destruct (i_gray0 h z Hh Hz) as [?|[? Hz']]; [by left|right]. split; [done|].
    intros Hzt. specialize (Hz' Hzt). change (idx s' z) with (idx s z). lia.
Qed.

(** ** Retiring a frame *)

Definition retired (s : tj) (m : gmap string nat) (rest : list frame) : tj :=
  Tj (tj_index s) m (tj_onstack s) (tj_tstack s) rest
     (tj_counter s) (tj_comps s) (tj_compof s).

Lemma seg_above s P b f gs x y :
  inv P s ((b, f) :: gs) → x ∈ seg (b, f) → y ∈ tst gs → idx s y < idx s x.
Proof.
  intros Hi Hx Hy. pose proof (i_sorted _ _ _ Hi) as Hs. rewrite tst_cons in Hs.
  exact (ssorted_app_lt _ _ _ _ _ Hs Hx Hy).
Qed.

Lemma seg_head_min s P g gs x :
  inv P s (g :: gs) → x ∈ seg g → idx s (gnode g) ≤ idx s x.
Proof.
  intros Hi Hx. pose proof (i_sorted _ _ _ Hi) as Hs. rewrite tst_cons in Hs.
  unfold seg in Hs, Hx. rewrite <- app_assoc in Hs.
  apply elem_of_app in Hx as [Hx|Hx].
  - assert (idx s (gnode g) < idx s x); [|lia].
    eapply (ssorted_app_lt _ _ _ _ _ Hs Hx). apply elem_of_app. left. by apply elem_of_list_singleton.
  - by apply elem_of_list_singleton in Hx as ->.
Qed.

(** Retiring a node that is not the root of its component: its segment is
    absorbed by the parent's. *)
Lemma absorb_inv s b f h gs m :
  inv no s ((b, f) :: h :: gs) →
  length (adj_of adj (f_node f)) ≤ f_next f →
  low s (f_node f) < idx s (f_node f) →
  m = (if decide (get0 (tj_low s) (f_node f) < get0 (tj_low s) (gnode h))
       then <[gnode h := get0 (tj_low s) (f_node f)]> (tj_low s) else tj_low s) →
  inv no (retired s m (h :: gs).*2) ((seg (b, f) ++ h.1, h.2) :: gs).
Proof.
  intros Hi Hlen Hlt Hm.
  set (g := (b, f)) in *. set (h' := (seg g ++ h.1, h.2)). set (s' := retired _ _ _).
  assert (gnode g = f_node f) as Hgn by done.
  assert (gnode h' = gnode h) as Hhn by done.
  assert (tst (h' :: gs) = tst (g :: h :: gs)) as Ht.
  { rewrite !tst_cons. change (seg h') with ((seg g ++ h.1) ++ [gnode h]).
    change (seg h) with (h.1 ++ [gnode h]). by rewrite <- !app_assoc. }
  assert (low s' (gnode h) ≤ low s (gnode h)) as Hl1.
  { unfold low, s'; simpl. rewrite Hm. case_decide; [|done]. rewrite get0_insert. lia. }
  assert (low s' (gnode h) ≤ low s (gnode g)) as Hl2.
  { unfold low, s'; simpl. rewrite Hm, Hgn. case_decide; [|lia]. by rewrite get0_insert. }
  assert (low s' (gnode h) = low s (gnode h) ∨ low s' (gnode h) = low s (gnode g)) as Hl3.
  { unfold low, s'; simpl. rewrite Hm, Hgn. case_decide; [|by left]. right. by rewrite get0_insert. }
  assert (∀ k, k ∈ gs → low s' (gnode k) = low s (gnode k)) as Hl4.
  { intros k Hk. unfold low, s'; simpl. rewrite Hm. case_decide; [|done].
    apply get0_insert_ne, not_eq_sym. apply (gray_distinct no s [g] h gs k Hi).
    apply elem_of_app. by right. }
  assert (E (gnode h) (gnode g)) as Hhg by apply (i_chain _ _ _ Hi).
  (* the retired node reaches back to its parent *)
  assert (R (gnode g) (gnode h)) as Hback.
  { destruct (i_sound _ _ _ Hi g) as (y & Hy & HR & Hyl); [left|].
    rewrite tst_cons in Hy. apply elem_of_app in Hy as [Hy|Hy].
    - exfalso. pose proof (seg_head_min _ _ _ _ _ Hi Hy). rewrite Hgn in *. lia.
    - apply elem_of_tst in Hy as (k & Hk & Hy).
      eapply rtc_transitive; [exact HR|].
      destruct (i_seg _ _ _ Hi k y) as [_ Hyk]; [by right|done|].
      eapply rtc_transitive; [exact Hyk|].
      apply elem_of_cons in Hk as [->|Hk]; [apply rtc_refl|].
      eapply chain_reach; [|exact Hk]. apply (chain_tail g), (i_chain _ _ _ Hi). }
  assert (∀ x y, x ∈ seg g ++ h.1 → E x y →
    idx s y ≠ 0 ∧ (y ∈ tst (g :: h :: gs) → low s' (gnode h) ≤ idx s y)) as Hall.
  { intros x y Hx Hxy. apply elem_of_app in Hx as [Hx|Hx].
    - unfold seg in Hx. apply elem_of_app in Hx as [Hx|Hx].
      + destruct (i_black _ _ _ Hi g x y) as [? Hz]; [left|done|done|].
        split; [done|]. intros Hyt. specialize (Hz Hyt). lia.
      + apply elem_of_list_singleton in Hx as ->.
        destruct (i_gray _ _ _ Hi g y) as [[]|[? Hz]]; [left| |].
        { rewrite take_ge by (rewrite Hgn; done). done. }
        split; [done|]. intros Hyt. specialize (Hz Hyt). lia.
    - destruct (i_black _ _ _ Hi h x y) as [? Hz]; [right; left|done|done|].
      split; [done|]. intros Hyt. specialize (Hz Hyt). lia. }
  split.
  - done.
  - simpl. rewrite Ht. apply (i_ts _ _ _ Hi).
  - rewrite Ht. apply (i_sorted _ _ _ Hi).
  - intros x. rewrite Ht. apply (i_visited _ _ _ Hi).
  - apply (i_counter _ _ _ Hi).
  - intros x. rewrite Ht. apply (i_onst _ _ _ Hi).
  - intros k x Hk Hx. apply elem_of_cons in Hk as [->|Hk].
    + rewrite Hhn. unfold seg in Hx; simpl in Hx.
      apply elem_of_app in Hx as [Hx|Hx].
      * apply elem_of_app in Hx as [Hx|Hx].
        { destruct (i_seg _ _ _ Hi g x) as [H1 H2]; [left|done|]. split.
          - eapply rtc_l; [exact Hhg|done].
          - eapply rtc_transitive; [exact H2|done]. }
        apply (i_seg _ _ _ Hi h x); [right; left|]. unfold seg. apply elem_of_app. by left.
      * apply (i_seg _ _ _ Hi h x); [right; left|]. unfold seg. apply elem_of_app. by right.
    + apply (i_seg _ _ _ Hi k x); [by do 2 right|done].
  - pose proof (chain_tail _ _ (i_chain _ _ _ Hi)) as Hc. destruct gs; done.
  - intros k Hk. rewrite Ht. apply elem_of_cons in Hk as [->|Hk].
    + rewrite Hhn. destruct Hl3 as [->| ->].
      * destruct (i_sound _ _ _ Hi h) as (y & ? & ? & ?); [right; left|]. eauto.
      * destruct (i_sound _ _ _ Hi g) as (y & Hy & HR & Hyl); [left|].
        exists y. split; [done|]. split; [by eapply rtc_l|done].
    + rewrite Hl4 by done. apply (i_sound _ _ _ Hi k). by do 2 right.
  - intros k Hk. apply elem_of_cons in Hk as [->|Hk].
    + rewrite Hhn. change (idx s' (gnode h)) with (idx s (gnode h)).
      pose proof (i_lowle _ _ _ Hi h ltac:(right; left)). lia.
    + rewrite Hl4 by done. apply (i_lowle _ _ _ Hi k). by do 2 right.
  - intros k x y Hk Hx Hxy. rewrite Ht. apply elem_of_cons in Hk as [->|Hk].
    + rewrite Hhn. by apply (Hall x y).
    + rewrite Hl4 by done. apply (i_black _ _ _ Hi k x y); [by do 2 right|done|done].
  - intros k y Hk Hy. right. rewrite Ht. apply elem_of_cons in Hk as [->|Hk].
    + rewrite Hhn. destruct (i_gray _ _ _ Hi h y) as [[]|[? Hz]]; [right; left|done|].
      split; [done|]. intros Hyt. specialize (Hz Hyt).
      change (idx s' y) with (idx s y). lia.
    + rewrite Hl4 by done.
      destruct (i_gray _ _ _ Hi k y) as [[]|?]; [by do 2 right|done|done].
  - intros x. rewrite Ht. apply (i_disj _ _ _ Hi).
  - apply (i_comps _ _ _ Hi).
Qed.

Lemma pop_until_seg node b st : node ∉ b →
  pop_until node (b ++ node :: st) = Some (b ++ [node], st).
Proof.
  induction b as [|x b IH]; intros Hn; simpl.
  - by rewrite decide_True.
  - apply not_elem_of_cons in Hn as [? Hn]. rewrite decide_False by done.
    by rewrite (IH Hn).
Qed.

Lemma clear_onstack_spec comp : ∀ m x,
  getb (clear_onstack m comp) x = true ↔ getb m x = true ∧ x ∉ comp.
Proof.
  induction comp as [|c comp IH]; intros m x; simpl.
  - split; [|tauto]. intros; split; [done|apply not_elem_of_nil].
  - change (clear_onstack m (c :: comp)) with (clear_onstack (<[c:=false]> m) comp).
    rewrite IH. rewrite not_elem_of_cons. unfold getb.
    destruct (decide (x = c)) as [->|Hne].
    + rewrite lookup_insert. simpl. split; [intros [? _]; done|tauto].
    + rewrite lookup_insert_ne by done. tauto.
Qed.

Lemma record_members_spec c comp : ∀ m x i,
  record_members c m comp !! x = Some i ↔ (x ∈ comp ∧ i = c) ∨ (x ∉ comp ∧ m !! x = Some i).
Proof.
  induction comp as [|y comp IH]; intros m x i; simpl.
  - split.
    + right. split; [apply not_elem_of_nil|done].
    + intros [[H _]|[_ ?]]; [by apply not_elem_of_nil in H|done].
  - change (record_members c m (y :: comp)) with (record_members c (<[y:=c]> m) comp).
    rewrite IH. rewrite not_elem_of_cons, elem_of_cons.
    destruct (decide (x = y)) as [->|Hne].
    + rewrite lookup_insert. split.
      * intros [[? ?]|[? [= ?]]]; left; auto.
      * intros [[[?|?] ->]|[[? ?] ?]]; [|tauto|done].
        destruct (decide (y ∈ comp)); tauto.
    + rewrite lookup_insert_ne by done. tauto.
Qed.

Lemma concat_elem {A} (x : A) (ls : list (list A)) :
  x ∈ concat ls ↔ ∃ i l, ls !! i = Some l ∧ x ∈ l.
Proof.
  rewrite elem_of_list_In, in_concat. split.
  - intros (l & Hl & Hx). apply elem_of_list_In in Hl, Hx.
    apply elem_of_list_lookup in Hl as [i Hi]. eauto.
  - intros (i & l & Hl & Hx). exists l. apply elem_of_list_lookup_2 in Hl.
    by rewrite <- !elem_of_list_In.
Qed.

(** Emitting a component. *)
Lemma emit_inv s b f gs :
  inv no s ((b, f) :: gs) →
  length (adj_of adj (f_node f)) ≤ f_next f →
  low s (f_node f) = idx s (f_node f) →
  ∃ s', tj_emit (retired s (tj_low s) gs.*2) (f_node f) = Some s' ∧
    inv no s' gs ∧ tj_index s' = tj_index s ∧ tj_cstack s' = gs.*2.
Proof.
  intros Hi Hlen Hlow. set (g := (b, f)) in *. set (node := f_node f) in *.
  pose proof (inv_nodup _ _ _ Hi) as Hnd. rewrite tst_cons in Hnd.
  apply NoDup_app in Hnd as (Hndg & Hdisj & Hndt).
  assert (node ∉ b) as Hnb.
  { unfold seg in Hndg. apply NoDup_app in Hndg as (_ & Hd & _).
    intros Hin. apply (Hd node Hin). by apply elem_of_list_singleton. }
  assert (pop_until node (tj_tstack s) = Some (seg g, tst gs)) as Hpop.
  { rewrite (i_ts _ _ _ Hi), tst_cons. unfold seg at 1. rewrite <- app_assoc.
    by apply pop_until_seg. }
  unfold tj_emit. simpl. rewrite Hpop. simpl.
  eexists; split; [reflexivity|]. split; [|done].
  set (s' := Tj _ _ _ _ _ _ _ _).
  assert (∀ x, x ∈ concat (tj_comps s') ↔ x ∈ concat (tj_comps s) ∨ x ∈ seg g) as Hcc.
  { intros x. simpl. rewrite concat_app, elem_of_app. simpl. rewrite app_nil_r.
    by rewrite elem_of_ssort. }
  (* outgoing edges of the segment stay inside it or go to finished nodes *)
  assert (∀ x y, x ∈ seg g → E x y → y ∈ seg g ∨ y ∈ concat (tj_comps s)) as Hclosed.
  { intros x y Hx Hxy.
    assert (idx s y ≠ 0 ∧ (y ∈ tst (g :: gs) → low s (gnode g) ≤ idx s y)) as [Hv Hz].
    { unfold seg in Hx. apply elem_of_app in Hx as [Hx|Hx].
      - apply (i_black _ _ _ Hi g x y); [left|done|done].
      - apply elem_of_list_singleton in Hx as ->.
        destruct (i_gray _ _ _ Hi g y) as [[]|?]; [left| |done].
        rewrite take_ge by done. done. }
    apply (i_visited _ _ _ Hi) in Hv as [Hv|Hv]; [|by right]. left.
    specialize (Hz Hv). rewrite tst_cons in Hv. apply elem_of_app in Hv as [Hv|Hv]; [done|].
    exfalso. pose proof (seg_above _ _ _ _ _ _ _ Hi (gnode_in_seg g) Hv).
    change (gnode g) with node in *. lia. }
  assert (∀ x, x ∈ tst gs → x ∈ tst (g :: gs)) as Hsub.
  { intros x Hx. rewrite tst_cons. apply elem_of_app. by right. }
  split.
  - done.
  - done.
  - pose proof (i_sorted _ _ _ Hi) as Hs. rewrite tst_cons in Hs.
    by apply ssorted_app_r in Hs.
  - intros x. rewrite Hcc. change (idx s' x) with (idx s x).
    rewrite (i_visited _ _ _ Hi x), tst_cons, elem_of_app. tauto.
  - apply (i_counter _ _ _ Hi).
  - intros x. simpl. rewrite clear_onstack_spec.
    rewrite (i_onst _ _ _ Hi x), tst_cons, elem_of_app. split; [tauto|].
    intros Hx. split; [by right|]. intros Hx'. by apply (Hdisj x).
  - intros k x Hk Hx. apply (i_seg _ _ _ Hi k x); [by right|done].
  - apply (chain_tail g), (i_chain _ _ _ Hi).
  - intros k Hk. destruct (i_sound _ _ _ Hi k) as (y & Hy & HR & Hyl); [by right|].
    exists y. split; [|done]. rewrite tst_cons in Hy. apply elem_of_app in Hy as [Hy|Hy]; [|done].
    exfalso. pose proof (i_lowle _ _ _ Hi k ltac:(by right)).
    pose proof (seg_above _ _ _ _ _ _ _ Hi Hy (gnode_in_tst _ _ Hk)). lia.
  - intros k Hk. apply (i_lowle _ _ _ Hi k). by right.
  - intros k x y Hk Hx Hxy.
    destruct (i_black _ _ _ Hi k x y) as [? Hz]; [by right|done|done|].
    split; [done|]. intros Hy. by apply Hz, Hsub.
  - intros k y Hk Hy. right. destruct (i_gray _ _ _ Hi k y) as [[]|[? Hz]]; [by right|done|].
    split; [done|]. intros Hy'. by apply Hz, Hsub.
  - intros x Hx. rewrite Hcc. intros [Hx'|Hx'].
    + apply (i_disj _ _ _ Hi x); auto.
    + by apply (Hdisj x).
  - (* the emitted component is a complete class *)
    pose proof (i_comps _ _ _ Hi) as [c1 c2 c3 c4 c5 c6]. simpl.
    assert (∀ j c, tj_comps s !! j = Some c → (tj_comps s ++ [ssort (seg g)]) !! j = Some c) as Hext.
    { intros j c Hj. by apply lookup_app_l_Some. }
    assert (∀ i c, (tj_comps s ++ [ssort (seg g)]) !! i = Some c →
      tj_comps s !! i = Some c ∨ i = length (tj_comps s) ∧ c = ssort (seg g)) as Hinv.
    { intros i c Hl. apply lookup_app_Some in Hl as [Hl|[Hge Hl]]; [by left|right].
      apply list_lookup_singleton_Some in Hl as [Hl <-]. split; [lia|done]. }
    split.
    + rewrite concat_app. simpl. rewrite app_nil_r. apply NoDup_app. split; [done|]. split.
      * intros x Hx Hx'. apply (proj1 (elem_of_ssort x (seg g))) in Hx'.
        apply (i_disj _ _ _ Hi x); [|done]. rewrite tst_cons. apply elem_of_app. by left.
      * by apply NoDup_ssort.
    + intros i c Hl. destruct (Hinv i c Hl) as [Hl'|[-> ->]]; [eauto|].
      intros Heq. assert (gnode g ∈ ssort (seg g)) as Hin by (apply elem_of_ssort, gnode_in_seg).
      rewrite Heq in Hin. by apply not_elem_of_nil in Hin.
    + intros i c Hl. destruct (Hinv i c Hl) as [Hl'|[-> ->]]; [eauto|]. apply ssort_sorted.
    + intros i c x y Hl Hx Hy. destruct (Hinv i c Hl) as [Hl'|[-> ->]]; [eauto|].
      apply (proj1 (elem_of_ssort _ _)) in Hx, Hy.
      eapply rtc_transitive; [eapply (i_seg _ _ _ Hi g x)|eapply (i_seg _ _ _ Hi g y)]; (left || done).
    + intros i c x y Hl Hx Hxy. destruct (Hinv i c Hl) as [Hl'|[-> ->]].
      * destruct (c5 i c x y Hl' Hx Hxy) as (j & c' & ? & ? & ?). eauto 6.
      * apply (proj1 (elem_of_ssort _ _)) in Hx.
        destruct (Hclosed x y Hx Hxy) as [Hy|Hy].
        { exists (length (tj_comps s)), (ssort (seg g)). split; [done|]. split.
          - by rewrite list_lookup_middle.
          - by apply elem_of_ssort. }
        apply concat_elem in Hy as (j & c' & Hj & Hy).
        exists j, c'. split; [apply lookup_lt_Some in Hj; lia|]. split; [by apply Hext|done].
    + intros x i. rewrite record_members_spec, elem_of_ssort. split.
      * intros [[Hx ->]|[Hx Ho]].
        { exists (ssort (seg g)). split; [by rewrite list_lookup_middle|by apply elem_of_ssort]. }
        apply c6 in Ho as (c & Hc & Hxc). eauto.
      * intros (c & Hc & Hxc). destruct (Hinv i c Hc) as [Hl'|[-> ->]].
        { right. split; [|apply c6; eauto]. intros Hx.
          apply (i_disj _ _ _ Hi x); [rewrite tst_cons; apply elem_of_app; by left|].
          apply concat_elem. eauto. }
        left. apply (proj1 (elem_of_ssort _ _)) in Hxc. done.
Qed.

(** ** One step *)

Definition is_step_of (s s' : tj) : Prop :=
  match tj_cstack s with
  | [] => False
  | Frame node nx :: rest =>
    (* retire *)
    (length (adj_of adj node) ≤ nx ∧ tj_cstack s' = rest ∧ tj_index s' = tj_index s) ∨
    (* look at a seen successor *)
    (nx < length (adj_of adj node) ∧ tj_cstack s' = Frame node (S nx) :: rest ∧ tj_index s' = tj_index s) ∨
    (* discover *)
    (∃ n, nx < length (adj_of adj node) ∧ E node n ∧ get0 (tj_index s) n = 0 ∧
       tj_cstack s' = Frame n 0 :: Frame node (S nx) :: rest ∧
       ∃ c, c ≠ 0 ∧ tj_index s' = <[n := c]> (tj_index s))
  end.

Lemma step_inv s g gs :
  inv no s (g :: gs) →
  ∃ s' gs', tj_step adj s = Some s' ∧ inv no s' gs' ∧ is_step_of s s'.
Proof.
  intros Hi. destruct g as [b [node nx]].
  pose proof (i_cs _ _ _ Hi) as Hcs. simpl in Hcs.
  unfold tj_step, is_step_of. rewrite Hcs.
  destruct (adj_of adj node !! nx) as [next|] eqn:Hnx.
  - pose proof (bump_inv _ _ _ _ _ _ Hi Hnx) as Hb.
    pose proof (bump_inv' _ _ _ _ _ _ Hi Hnx) as Hb'.
    assert (E node next) as HE by (by eapply elem_of_list_lookup_2).
    apply lookup_lt_Some in Hnx as Hlt.
    case_decide as Hz.
    + eexists _, _. split; [reflexivity|]. split.
      * apply (visit_inv (bump s node nx gs.*2)); [exact Hb|done|done].
      * right. right. exists next. split; [done|]. split; [done|]. split; [done|]. split; [done|].
        eexists; split; [|reflexivity]. done.
    + assert (∀ s1, inv (eq next) s1 ((b, Frame node (S nx)) :: gs) →
        tj_index s1 = tj_index s →
        (∀ g, g ∈ gs → low s1 (gnode g) = low s (gnode g)) →
        (next ∈ tst ((b, Frame node (S nx)) :: gs) → low s1 node ≤ idx s next) →
        inv no s1 ((b, Frame node (S nx)) :: gs)) as Hdis.
      { intros s1 H1 H2 H3 H4. eapply discharge; [exact H1|].
        unfold idx in *. rewrite H2.
        intros g Hg Hn. split; [done|]. intros Hin. apply elem_of_cons in Hg as [->|Hg].
        - by apply H4.
        - rewrite H3 by done. by apply Hb'. }
      case_decide as Hl.
      * destruct Hl as [Hon Hl]. eexists _, _. split; [reflexivity|]. split.
        { apply Hdis.
          - apply (lower_inv _ (bump s node nx gs.*2) (b, Frame node (S nx)) gs next).
            + done.
            + by apply (i_onst _ _ _ Hb).
            + by apply rtc_once.
            + done.
            + change (get0 (tj_index s) next ≤ get0 (tj_low s) node). lia.
          - done.
          - intros g Hg. unfold low; simpl. apply get0_insert_ne, not_eq_sym.
            apply (gray_distinct _ _ [] _ _ _ Hi). done.
          - intros _. unfold low; simpl. by rewrite get0_insert. }
        right. left. done.
      * eexists _, _. split; [reflexivity|]. split.
        { apply (Hdis (bump s node nx gs.*2)).
          - exact Hb.
          - done.
          - done.
          - intros Hin. apply (i_onst _ _ _ Hb) in Hin. simpl in Hin.
            unfold low, idx; simpl.
            change (get0 (tj_low s) node ≤ get0 (tj_index s) next).
            destruct (decide (get0 (tj_index s) next < get0 (tj_low s) node)); [exfalso; tauto|lia]. }
        right. left. done.
  - apply lookup_ge_None in Hnx.
    pose proof (i_lowle _ _ _ Hi (b, Frame node nx) ltac:(left)) as Hle.
    change (gnode (b, Frame node nx)) with node in Hle.
    destruct gs as [|h gs].
    + simpl. assert (low s node = idx s node) as Hroot.
      { destruct (i_sound _ _ _ Hi (b, Frame node nx)) as (y & Hy & _ & Hyl); [left|].
        rewrite tst_cons in Hy. simpl in Hy. unfold tst in Hy; simpl in Hy. rewrite app_nil_r in Hy.
        pose proof (seg_head_min _ _ _ _ _ Hi Hy).
        change (gnode (b, Frame node nx)) with node in *. lia. }
      rewrite decide_False by (unfold low, idx in *; lia).
      destruct (emit_inv _ _ _ _ Hi Hnx Hroot) as (s' & He & Hi' & Hx & Hc).
      exists s', []. split; [exact He|]. split; [done|]. left. done.
    + simpl. destruct h as [bh [parent nxp]]. simpl.
      assert (parent ≠ node) as Hpn.
      { pose proof (gray_distinct _ _ [] _ _ (bh, Frame parent nxp) Hi) as Hd. apply Hd. simpl. left. }
      assert (∀ m, m = (if decide (get0 (tj_low s) node < get0 (tj_low s) parent)
                        then <[parent:=get0 (tj_low s) node]> (tj_low s) else tj_low s) →
              get0 m node = low s node) as Hm.
      { intros m ->. case_decide; [|done]. by apply get0_insert_ne. }
      match goal with |- context [get0 ?m node] => remember m as m0 eqn:Em end.
      rewrite (Hm m0 eq_refl). clear Hm.
      destruct (decide (low s node ≠ get0 (tj_index s) node)) as [Hne|Hne].
      * eexists _, _. split; [reflexivity|]. split.
        { eapply (absorb_inv s b (Frame node nx) (bh, Frame parent nxp) gs m0); [done|done| |exact Em].
          unfold low, idx in *; simpl. lia. }
        left. done.
      * assert (low s node = idx s node) as Hroot.
        { unfold idx, low in *. lia. }
        rewrite decide_False in Em.
        2:{ pose proof (i_lowle _ _ _ Hi (bh, Frame parent nxp) ltac:(right; left)) as Hple.
            pose proof (seg_above _ _ _ _ _ _ parent Hi (gnode_in_seg _)
              (gnode_in_tst (bh, Frame parent nxp) _ ltac:(left))) as Hab.
            change (gnode (b, Frame node nx)) with node in *.
            change (gnode (bh, Frame parent nxp)) with parent in *.
            unfold idx, low in *. lia. }
        subst m0.
        destruct (emit_inv _ _ _ _ Hi Hnx Hroot) as (s' & He & Hi' & Hx & Hc).
        exists s', ((bh, Frame parent nxp) :: gs). split; [exact He|]. split; [done|]. left. done.
Qed.

(** ** Termination of the loop *)

Context (U : list string) (HU : NoDup U) (HclU : ∀ u v, u ∈ U → E u v → v ∈ U).

Definition ucost (m : gmap string nat) : nat :=
  sum_list_with (λ u, if decide (get0 m u = 0) then S (length (adj_of adj u)) else 0) U.
Definition fcost (fs : list frame) : nat :=
  sum_list_with (λ f, S (length (adj_of adj (f_node f)) - f_next f)) fs.
Definition measure (s : tj) : nat := ucost (tj_index s) + fcost (tj_cstack s).

Lemma ucost_insert_notin m n c l : n ∉ l →
  sum_list_with (λ u, if decide (get0 (<[n:=c]> m) u = 0) then S (length (adj_of adj u)) else 0) l =
  sum_list_with (λ u, if decide (get0 m u = 0) then S (length (adj_of adj u)) else 0) l.
Proof.
  induction l as [|x l IH]; intros Hn; simpl; [done|].
  apply not_elem_of_cons in Hn as [? Hn]. rewrite IH by done. by rewrite get0_insert_ne.
Qed.

Lemma ucost_insert m n c : n ∈ U → get0 m n = 0 → c ≠ 0 →
  ucost m = ucost (<[n := c]> m) + S (length (adj_of adj n)).
Proof.
  unfold ucost. clear HclU. revert HU. induction U as [|x l IH]; intros Hnd Hn Hz Hc;
    [by apply not_elem_of_nil in Hn|].
  apply NoDup_cons in Hnd as [Hx Hnd]. simpl. apply elem_of_cons in Hn as [->|Hn].
  - rewrite get0_insert. rewrite (decide_True (P := get0 m x = 0)) by done.
    rewrite decide_False by done. rewrite ucost_insert_notin by done. lia.
  - rewrite (IH Hnd Hn Hz Hc). rewrite get0_insert_ne; [lia|]. intros ->. done.
Qed.

Lemma step_measure s s' : Forall (λ f, f_node f ∈ U) (tj_cstack s) →
  is_step_of s s' → measure s' < measure s ∧ Forall (λ f, f_node f ∈ U) (tj_cstack s').
Proof.
  intros HF Hst. unfold is_step_of in Hst. unfold measure.
  destruct (tj_cstack s) as [|[node nx] rest] eqn:Hcs; [done|].
  apply Forall_cons in HF as [HFn HF]. simpl in HFn.
  destruct Hst as [(Hlen & -> & ->)|[(Hlen & -> & ->)|(n & Hlen & HE & Hz & -> & c & Hc & ->)]].
  - split; [|done]. simpl. lia.
  - split; [|by constructor]. simpl. lia.
  - assert (n ∈ U) as HnU by (by eapply HclU).
    rewrite (ucost_insert _ n c HnU Hz Hc). split.
    + simpl. lia.
    + by repeat constructor.
Qed.

Lemma loop_inv fuel : ∀ s gs,
  inv no s gs → Forall (λ f, f_node f ∈ U) (tj_cstack s) → measure s ≤ fuel →
  ∃ s', tj_loop fuel adj s = Some s' ∧ inv no s' [] ∧
    (∀ x, idx s x ≠ 0 → idx s' x ≠ 0) ∧ (∀ x, idx s' x ≠ 0 → idx s x ≠ 0 ∨ x ∈ U).
Proof.
  induction fuel as [|fuel IH]; intros s gs Hi HF Hm.
  - destruct gs as [|g gs].
    + simpl. rewrite (i_cs _ _ _ Hi). simpl. eauto 8.
    + exfalso. unfold measure in Hm. rewrite (i_cs _ _ _ Hi) in Hm. simpl in Hm. lia.
  - destruct gs as [|g gs].
    + simpl. rewrite (i_cs _ _ _ Hi). simpl. eauto 8.
    + destruct (step_inv _ _ _ Hi) as (s1 & gs1 & Hst & Hi1 & His).
      destruct (step_measure _ _ HF His) as [Hlt HF1].
      destruct (IH s1 gs1 Hi1 HF1 ltac:(lia)) as (s' & Hl & Hi' & Hv1 & Hv2).
      exists s'. simpl. rewrite (i_cs _ _ _ Hi). simpl. rewrite Hst. simpl.
      split; [done|]. split; [done|].
      unfold is_step_of in His. rewrite (i_cs _ _ _ Hi) in His, HF.
      destruct g as [b [node nx]]. simpl in His, HF. apply Forall_cons in HF as [HFn _]. simpl in HFn.
      split.
      * intros x Hx. apply Hv1. unfold idx in *.
        destruct His as [(_ & _ & ->)|[(_ & _ & ->)|(n & _ & _ & _ & _ & c & Hc & ->)]]; [done..|].
        destruct (decide (x = n)) as [->|]; [by rewrite get0_insert|by rewrite get0_insert_ne].
      * intros x Hx. apply Hv2 in Hx as [Hx|Hx]; [|by right]. unfold idx in *.
        destruct His as [(_ & _ & Hq)|[(_ & _ & Hq)|(n & _ & HE & _ & _ & c & Hc & Hq)]];
          rewrite Hq in Hx; [by left..|].
        destruct (decide (x = n)) as [->|]; [right; by eapply HclU|].
        left. by rewrite get0_insert_ne in Hx.
Qed.

Lemma ucost_bound m : ucost m ≤ scc_cost adj U.
Proof.
  unfold ucost, scc_cost. clear HU HclU. induction U as [|x l IH]; simpl; [lia|].
  case_decide; lia.
Qed.

Lemma roots_inv fuel : scc_cost adj U ≤ fuel → ∀ nodes s,
  (∀ n, n ∈ nodes → n ∈ U) → inv no s [] →
  (∀ x, idx s x ≠ 0 → x ∈ U) →
  ∃ s', tj_roots fuel adj nodes s = Some s' ∧ inv no s' [] ∧
    (∀ x, x ∈ nodes → idx s' x ≠ 0) ∧ (∀ x, idx s x ≠ 0 → idx s' x ≠ 0) ∧
    (∀ x, idx s' x ≠ 0 → x ∈ U).
Proof.
  intros Hfuel. induction nodes as [|r nodes IH]; intros s Hn Hi HvU; simpl.
  - exists s. split; [done|]. split; [done|]. split; [|done].
    intros x Hx. by apply not_elem_of_nil in Hx.
  - case_decide as Hr.
    + destruct (IH s) as (s' & Hs' & Hi' & Hv1 & Hv2 & Hv3); [by intros; apply Hn; right|done|done|].
      exists s'. split; [done|]. split; [done|]. split; [|done].
      intros x Hx. apply elem_of_cons in Hx as [->|Hx]; [by apply Hv2|by apply Hv1].
    + assert (idx s r = 0) as Hz by (unfold idx; lia).
      assert (r ∈ U) as HrU by (apply Hn; left).
      assert (inv no (tj_visit s r) [([], Frame r 0)]) as Hvi.
      { apply visit_inv; [|done|done]. destruct Hi. split; try done. intros g y H. by apply not_elem_of_nil in H. }
      pose proof (i_cs _ _ _ Hi) as Hcs0. simpl in Hcs0.
      destruct (loop_inv fuel _ _ Hvi) as (s1 & Hl & Hi1 & Hm1 & Hm2).
      { simpl. rewrite Hcs0. by repeat constructor. }
      { unfold measure. simpl. rewrite Hcs0. simpl.
        pose proof (ucost_bound (tj_index s)) as Hb.
        rewrite (ucost_insert (tj_index s) r (S (tj_counter s)) HrU Hz) in Hb by done. lia. }
      rewrite Hl. simpl.
      assert (∀ x, idx (tj_visit s r) x ≠ 0 → x ∈ U) as HvU'.
      { intros x. unfold idx; simpl. destruct (decide (x = r)) as [->|]; [done|].
        rewrite get0_insert_ne by done. apply HvU. }
      destruct (IH s1) as (s' & Hs' & Hi' & Hv1 & Hv2 & Hv3).
      { by intros; apply Hn; right. }
      { done. }
      { intros x Hx. apply Hm2 in Hx as [Hx|Hx]; [by apply HvU'|done]. }
      exists s'. split; [done|]. split; [done|]. split; [|split; [|done]].
      * intros x Hx. apply elem_of_cons in Hx as [->|Hx]; [|by apply Hv1].
        apply Hv2, Hm1. unfold idx; simpl. by rewrite get0_insert.
      * intros x Hx. apply Hv2, Hm1. unfold idx; simpl.
        destruct (decide (x = r)) as [->|]; [by rewrite get0_insert|by rewrite get0_insert_ne].
Qed.

Lemma init_inv : inv no tj_init [].
Proof.
  assert (∀ x : string, x ∉ []) as Hnil by (intros; apply not_elem_of_nil).
  split; try done.
  - constructor.
  - intros x. unfold idx, get0. simpl. rewrite lookup_empty. simpl. split; [done|].
    intros [H|H]; by apply Hnil in H.
  - intros x. unfold getb. simpl. rewrite lookup_empty. simpl. split; [done|].
    intros H; by apply Hnil in H.
  - intros g x H. by apply not_elem_of_nil in H.
  - intros g H. by apply not_elem_of_nil in H.
  - intros g x y H. by apply not_elem_of_nil in H.
  - intros g y H. by apply not_elem_of_nil in H.
  - split; try done.
    + constructor.
    + intros x i. simpl. split; [by rewrite lookup_empty|]. intros (c & Hc & _). done.
Qed.

(** The whole Tarjan pass. *)
Lemma tarjan_ok : ∃ s, tj_roots (scc_cost adj U) adj U tj_init = Some s ∧
  comps_ok (tj_comps s) (tj_compof s) ∧ (∀ x, x ∈ concat (tj_comps s) ↔ x ∈ U).
Proof.
  destruct (roots_inv (scc_cost adj U) ltac:(done) U tj_init) as (s & Hs & Hi & H1 & H2 & H3).
  { done. }
  { apply init_inv. }
  { intros x. unfold idx, get0. simpl. by rewrite lookup_empty. }
  exists s. split; [done|]. split; [apply (i_comps _ _ _ Hi)|].
  intros x. split.
  - intros Hx. apply H3. apply (i_visited _ _ _ Hi). by right.
  - intros Hx. apply H1 in Hx. apply (i_visited _ _ _ Hi) in Hx as [Hx|Hx]; [|done].
    by apply not_elem_of_nil in Hx.
Qed.
End tarjan.
