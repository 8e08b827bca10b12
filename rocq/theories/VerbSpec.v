(** * What "a verb is named" means, without the code's loops. *)
From Coq Require Import Ascii.
From stdpp Require Import base list strings gmap.
From Verif Require Import StrLib StrSplit PathModel PathSpec VerbModel.

(** The nine HTTP verbs. *)
Definition http_verb (v : string) : Prop :=
  v ∈ ["GET"; "HEAD"; "POST"; "PUT"; "PATCH"; "DELETE"; "CONNECT"; "OPTIONS"; "TRACE"].

(** [part] is the verb [v] in any letter case, possibly inside white space, possibly
    inside quotes. *)
Definition reads (part v : string) : Prop :=
  http_verb v ∧ ∃ q1 s1 w s2 q2, part = q1 +:+ s1 +:+ w +:+ s2 +:+ q2 ∧
    all_of quotes q1 ∧ all_of quotes q2 ∧ all_of spaces s1 ∧ all_of spaces s2 ∧ to_upper w = v.

(** [vs] has the members of [named], once each, in order of first mention. *)
Definition first_mentions (named vs : list string) : Prop :=
  NoDup vs ∧ (∀ v, v ∈ vs ↔ v ∈ named) ∧
  ∀ i j a b, i < j → vs !! i = Some a → vs !! j = Some b →
    ∃ m, named !! m = Some a ∧ ∀ n, named !! n = Some b → m < n.

(** ** Words of a name *)
Section words.
Context {R : Type} (is_letter is_upper is_lower : R → bool) (name : list R).

Definition at_ (f : R → bool) (k : nat) : Prop := ∃ r, name !! k = Some r ∧ f r = true.

(** A capital starts a new word after a small letter, and after a capital when a small
    letter follows. *)
Definition cut (k : nat) : Prop :=
  0 < k ∧ at_ is_upper k ∧ (at_ is_lower (k - 1) ∨ (at_ is_upper (k - 1) ∧ at_ is_lower (k + 1))).

(** Positions [i, j) form a word: letters only, not cut inside, and not extendable on
    either side. *)
Definition word_at (i j : nat) : Prop :=
  i < j ∧ (∀ k, i ≤ k < j → at_ is_letter k) ∧ (∀ k, i < k < j → ¬ cut k) ∧
  (i = 0 ∨ ¬ at_ is_letter (i - 1) ∨ cut i) ∧ (¬ at_ is_letter j ∨ cut j).

Definition slice (i j : nat) : list R := take (j - i) (drop i name).

Definition word (w : list R) : Prop := ∃ i j, word_at i j ∧ w = slice i j.
Definition first_word (w : list R) : Prop := ∃ i j, word_at i j ∧ w = slice i j ∧ ∀ a b, word_at a b → i ≤ a.
End words.

(** [m] is the entry of [ms] accepted by [hit] with the highest priority, the earliest of them
    when several have it. *)
Definition best {R} (hit : mapping R → Prop) (ms : list (mapping R)) (m : mapping R) : Prop :=
  ∃ i, ms !! i = Some m ∧ hit m ∧
    ∀ i' m', ms !! i' = Some m' → hit m' →
      (mm_priority m' < mm_priority m)%Z ∨ (mm_priority m' = mm_priority m ∧ i ≤ i').
