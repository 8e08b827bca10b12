(** * strings.Contains *)
From Coq Require Import Ascii.
From stdpp Require Import base list strings.
From Verif Require Import StrLib.

(** strings.Contains(s, p) (Go standard library). *)
Fixpoint str_contains (p s : string) : bool :=
  has_prefix p s || match s with EmptyString => false | String _ s' => str_contains p s' end.

Lemma str_contains_spec p s : str_contains p s = true ↔ ∃ a b, s = a +:+ p +:+ b.
Proof.
  induction s as [|c s IH]; simpl.
  - rewrite orb_false_r, has_prefix_spec. split.
    + intros [t ->]. by exists "", t.
    + intros (a & b & Hs). symmetry in Hs. apply sapp_eq_nil in Hs as [-> Hs].
      exists b. by rewrite Hs.
  - rewrite orb_true_iff, has_prefix_spec, IH. split.
    + intros [[t Ht]|(a & b & ->)].
      * exists "", t. by rewrite Ht.
      * by exists (String c a), b.
    + intros ([|c' a] & b & Hs).
      * left. by exists b.
      * right. rewrite sapp_cons in Hs. injection Hs as -> ->. by exists a, b.
Qed.

Lemma contains_byte_spec c s : contains_byte c s = true ↔ ∃ a b, s = a +:+ String c b.
Proof.
  unfold contains_byte. induction s as [|d s IH]; simpl.
  - split; [done|]. intros ([|? ?] & b & Hs); done.
  - rewrite orb_true_iff, bool_decide_eq_true, IH. split.
    + intros [->|(a & b & ->)]; [by exists "", s|by exists (String d a), b].
    + intros ([|e a] & b & Hs).
      * left. by injection Hs as -> ->.
      * right. rewrite sapp_cons in Hs. injection Hs as -> ->. by exists a, b.
Qed.
