(** * More of Go's package strings: trimming and splitting on one byte. *)
From Coq Require Import Ascii.
From stdpp Require Import base list strings.
From Verif Require Import StrLib.

(** strings.TrimLeft with a one-byte cutset. *)
Fixpoint trim_left (c : ascii) (s : string) : string :=
  match s with
  | EmptyString => EmptyString
  | String a s' => if decide (a = c) then trim_left c s' else s
  end.

(** strings.TrimRight with a one-byte cutset. *)
Fixpoint trim_right (c : ascii) (s : string) : string :=
  match s with
  | EmptyString => EmptyString
  | String a s' =>
    match trim_right c s' with
    | EmptyString => if decide (a = c) then EmptyString else String a EmptyString
    | t => String a t
    end
  end.

(** strings.Trim with a one-byte cutset. *)
Definition trim (c : ascii) (s : string) : string := trim_right c (trim_left c s).

(** strings.Split with a one-byte separator. *)
Fixpoint split_byte (c : ascii) (s : string) : list string :=
  match s with
  | EmptyString => [EmptyString]
  | String a s' =>
    if decide (a = c) then EmptyString :: split_byte c s'
    else match split_byte c s' with
         | [] => [String a EmptyString]
         | x :: xs => String a x :: xs
         end
  end.

(** A string of [n] copies of one byte. *)
Fixpoint rep_byte (n : nat) (c : ascii) : string :=
  match n with 0 => EmptyString | S n' => String c (rep_byte n' c) end.

Definition starts_with (c : ascii) (s : string) : Prop := ∃ t, s = String c t.
Definition ends_with (c : ascii) (s : string) : Prop := ∃ t, s = t +:+ String c EmptyString.

Lemma trim_left_spec c s : ∃ n, s = rep_byte n c +:+ trim_left c s ∧ ¬ starts_with c (trim_left c s).
Proof.
  induction s as [|a s (n & IH & Hn)]; simpl.
  - exists 0. split; [done|]. by intros [? ?].
  - destruct (decide (a = c)) as [->|Hne].
    + exists (S n). simpl. rewrite sapp_cons, <- IH. done.
    + exists 0. split; [done|]. by intros [t [= ? ?]].
Qed.
Lemma trim_right_spec c s : ∃ n, s = trim_right c s +:+ rep_byte n c ∧ ¬ ends_with c (trim_right c s).
Proof.
  induction s as [|a s (n & IH & Hn)]; simpl.
  - exists 0. split; [done|]. intros [[|b t] ?]; done.
  - destruct (trim_right c s) as [|b t] eqn:E.
    + destruct (decide (a = c)) as [->|Hne].
      * exists (S n). simpl in IH. split; [by rewrite IH at 1|]. intros [[|b t] ?]; done.
      * exists n. simpl in IH. split; [by rewrite IH at 1|].
        intros [[|b t] Ht]; [injection Ht as ->; done|]. injection Ht as -> Ht. by destruct t.
    + exists n. split; [by rewrite IH at 1|]. intros [[|d u] Ht]; [by injection Ht as -> Ht|].
      injection Ht as -> Ht. apply Hn. by exists u.
Qed.
Lemma trim_left_id c s : ¬ starts_with c s → trim_left c s = s.
Proof.
  destruct s as [|a s]; [done|]. simpl. intros Hs. rewrite decide_False; [done|].
  intros ->. apply Hs. by eexists.
Qed.
Lemma trim_left_idemp c s : trim_left c (trim_left c s) = trim_left c s.
Proof. apply trim_left_id. by destruct (trim_left_spec c s) as (n & _ & ?). Qed.
Lemma trim_right_app c s t :
  trim_right c (s +:+ t) = if decide (trim_right c t = "") then trim_right c s else s +:+ trim_right c t.
Proof.
  induction s as [|a s IH].
  - change ("" +:+ t) with t. simpl. destruct (decide _); done.
  - rewrite sapp_cons. simpl. rewrite IH. destruct (decide (trim_right c t = "")) as [Ht|Ht]; [done|].
    rewrite sapp_cons. destruct (s +:+ trim_right c t) eqn:E; [|done].
    apply sapp_eq_nil in E as [_ ?]. done.
Qed.
Lemma trim_right_byte c t : trim_right c (t +:+ String c "") = trim_right c t.
Proof.
  rewrite trim_right_app. assert (trim_right c (String c "") = "") as -> by (simpl; by rewrite decide_True).
  by rewrite decide_True.
Qed.
Lemma trim_right_id c s : ¬ ends_with c s → trim_right c s = s.
Proof.
  intros Hs. destruct (trim_right_spec c s) as (n & Hn & _). destruct n as [|n]; [simpl in Hn; by rewrite sapp_nil in Hn|].
  exfalso. apply Hs. exists (trim_right c s +:+ rep_byte n c). rewrite Hn at 1. rewrite sapp_assoc. f_equal.
  clear. induction n as [|n IH]; [done|]. simpl in *. rewrite sapp_cons. by rewrite <- IH.
Qed.
Lemma trim_right_idemp c s : trim_right c (trim_right c s) = trim_right c s.
Proof. apply trim_right_id. by destruct (trim_right_spec c s) as (n & _ & ?). Qed.
Lemma trim_left_app c s t :
  trim_left c (s +:+ t) = if decide (trim_left c s = "") then trim_left c t else trim_left c s +:+ t.
Proof.
  induction s as [|a s IH].
  - change ("" +:+ t) with t. done.
  - rewrite sapp_cons. simpl. destruct (decide (a = c)) as [->|Hne]; [done|]. done.
Qed.
Lemma trim_right_nil_left c s : trim_right c s = "" ↔ trim_left c s = "".
Proof.
  induction s as [|a s IH]; [done|]. simpl.
  destruct (decide (a = c)) as [->|Hne].
  - rewrite <- IH. destruct (trim_right c s); done.
  - destruct (trim_right c s); done.
Qed.
Lemma trim_comm c s : trim_left c (trim_right c s) = trim_right c (trim_left c s).
Proof.
  induction s as [|a s IH]; [done|]. simpl.
  destruct (decide (a = c)) as [->|Hne].
  - rewrite <- IH. destruct (trim_right c s) as [|b t] eqn:E; [done|]. simpl. by rewrite decide_True.
  - simpl. destruct (trim_right c s) as [|b t] eqn:E; simpl; by rewrite decide_False.
Qed.
Lemma trim_right_rep c n : trim_right c (rep_byte n c) = "".
Proof. induction n as [|n IH]; [done|]. simpl. rewrite IH. by rewrite decide_True. Qed.

(** ** split_byte *)
Lemma split_byte_nonnil c s : split_byte c s ≠ [].
Proof. destruct s as [|a s]; [done|]. simpl. destruct (decide _); [done|]. by destruct (split_byte c s). Qed.
Lemma split_byte_app c s t : split_byte c (s +:+ String c t) = split_byte c s ++ split_byte c t.
Proof.
  induction s as [|a s IH].
  - change ("" +:+ String c t) with (String c t). simpl. by rewrite decide_True.
  - rewrite sapp_cons. simpl. rewrite IH. destruct (decide (a = c)); [done|].
    destruct (split_byte c s) eqn:E; [by apply split_byte_nonnil in E|]. done.
Qed.
Lemma split_byte_none c s : contains_byte c s = false → split_byte c s = [s].
Proof.
  induction s as [|a s IH]; [done|]. unfold contains_byte in *. simpl. intros [H1 H2]%orb_false_iff.
  apply bool_decide_eq_false in H1. rewrite decide_False by done. by rewrite IH.
Qed.
Lemma split_byte_parts c s x : x ∈ split_byte c s → contains_byte c x = false.
Proof.
  revert x. induction s as [|a s IH]; intros x; simpl.
  - intros ->%elem_of_list_singleton. done.
  - destruct (decide (a = c)) as [->|Hne].
    + intros [->|Hx]%elem_of_cons; [done|by apply IH].
    + destruct (split_byte c s) as [|y ys]; [by intros ->%elem_of_list_singleton; unfold contains_byte; simpl; rewrite bool_decide_false|].
      intros [->|Hx]%elem_of_cons; [|apply IH; by right].
      unfold contains_byte. simpl. rewrite bool_decide_false by done. apply IH. by left.
Qed.
Lemma str_join_cons2 sep x y l : str_join sep (x :: y :: l) = x +:+ sep +:+ str_join sep (y :: l).
Proof. done. Qed.
Lemma str_join_split c s : str_join (String c "") (split_byte c s) = s.
Proof.
  induction s as [|a s IH]; [done|]. simpl. destruct (decide (a = c)) as [->|Hne].
  - destruct (split_byte c s) as [|x xs] eqn:E; [by apply split_byte_nonnil in E|].
    rewrite str_join_cons2, IH. done.
  - destruct (split_byte c s) as [|x xs] eqn:E; [by apply split_byte_nonnil in E|].
    destruct xs as [|y xs]; [simpl in *; by rewrite IH|].
    rewrite str_join_cons2 in *. rewrite sapp_cons. by rewrite IH.
Qed.
Lemma split_join c l : l ≠ [] → Forall (λ x, contains_byte c x = false) l →
  split_byte c (str_join (String c "") l) = l.
Proof.
  intros Hl HF. induction HF as [|x l Hx HF IH]; [done|].
  destruct l as [|y l]; [by apply split_byte_none|].
  rewrite str_join_cons2. change (String c "" +:+ ?t) with (String c t).
  rewrite split_byte_app, IH by done. by rewrite split_byte_none.
Qed.
