(** * Byte-string functions of the Go standard library used by the models
    (package strings).  Go strings are byte sequences; so are Coq strings. *)
From Coq Require Import Ascii.
From stdpp Require Import base list strings.

(** strings.HasPrefix. *)
Fixpoint has_prefix (p s : string) : bool :=
  match p, s with
  | EmptyString, _ => true
  | String a p', String b s' => bool_decide (a = b) && has_prefix p' s'
  | String _ _, EmptyString => false
  end.

(** [s[n:]], with [n] clamped to the length. *)
Fixpoint str_drop (n : nat) (s : string) : string :=
  match n, s with
  | S n', String _ s' => str_drop n' s'
  | _, _ => s
  end.

(** [s[:n]], with [n] clamped to the length. *)
Fixpoint str_take (n : nat) (s : string) : string :=
  match n, s with
  | S n', String a s' => String a (str_take n' s')
  | _, _ => EmptyString
  end.

(** strings.TrimPrefix. *)
Definition trim_prefix (p s : string) : string :=
  if has_prefix p s then str_drop (String.length p) s else s.

(** strings.HasSuffix. *)
Definition has_suffix (p s : string) : bool :=
  Nat.leb (String.length p) (String.length s) &&
  bool_decide (str_drop (String.length s - String.length p) s = p).

(** strings.TrimSuffix. *)
Definition trim_suffix (p s : string) : string :=
  if has_suffix p s then str_take (String.length s - String.length p) s else s.

(** Is the byte one of those of [cs]? *)
Fixpoint mem_byte (a : ascii) (cs : string) : bool :=
  match cs with
  | EmptyString => false
  | String b cs' => bool_decide (a = b) || mem_byte a cs'
  end.

(** The part of [s] before the first byte satisfying [f] (all of [s] if none). *)
Fixpoint take_until (f : ascii → bool) (s : string) : string :=
  match s with
  | EmptyString => EmptyString
  | String a s' => if f a then EmptyString else String a (take_until f s')
  end.

(** Does some / every byte satisfy [f]? *)
Fixpoint str_any (f : ascii → bool) (s : string) : bool :=
  match s with
  | EmptyString => false
  | String a s' => f a || str_any f s'
  end.

(** strings.Contains for a single byte. *)
Definition contains_byte (a : ascii) (s : string) : bool := str_any (λ b, bool_decide (b = a)) s.

(** strings.Join. *)
Fixpoint str_join (sep : string) (l : list string) : string :=
  match l with
  | [] => ""
  | [x] => x
  | x :: l' => x +:+ sep +:+ str_join sep l'
  end.

(** ** Lemmas *)

Lemma sapp_nil s : s +:+ "" = s.
Proof. induction s as [|a s IH]; simpl; [done|]. change (String a s +:+ "") with (String a (s +:+ "")). by rewrite IH. Qed.
Lemma sapp_assoc s1 s2 s3 : (s1 +:+ s2) +:+ s3 = s1 +:+ (s2 +:+ s3).
Proof.
  induction s1 as [|a s IH]; [done|].
  change ((String a s +:+ s2) +:+ s3) with (String a ((s +:+ s2) +:+ s3)). by rewrite IH.
Qed.
Lemma sapp_cons a s1 s2 : String a s1 +:+ s2 = String a (s1 +:+ s2).
Proof. done. Qed.
Lemma sapp_length s1 s2 : String.length (s1 +:+ s2) = String.length s1 + String.length s2.
Proof. induction s1 as [|a s IH]; [done|]. rewrite sapp_cons. simpl. by rewrite IH. Qed.
Lemma sapp_inj_l s s1 s2 : s +:+ s1 = s +:+ s2 → s1 = s2.
Proof. induction s as [|a s IH]; [done|]. rewrite !sapp_cons. intros [= ?]. auto. Qed.
Lemma sapp_inj_len s1 s2 t1 t2 : String.length s1 = String.length t1 → s1 +:+ s2 = t1 +:+ t2 → s1 = t1 ∧ s2 = t2.
Proof.
  revert t1. induction s1 as [|a s1 IH]; intros [|b t1] Hl; try done.
  rewrite !sapp_cons. intros [= -> Heq]. simpl in Hl. destruct (IH t1) as [-> ->]; [lia|done|done].
Qed.
Lemma sapp_inj_r s s1 s2 : s1 +:+ s = s2 +:+ s → s1 = s2.
Proof.
  intros Heq. apply (sapp_inj_len s1 s s2 s); [|done].
  apply (f_equal String.length) in Heq. rewrite !sapp_length in Heq. lia.
Qed.
Lemma sapp_eq_nil s1 s2 : s1 +:+ s2 = "" ↔ s1 = "" ∧ s2 = "".
Proof. destruct s1; [|split; [done|intros [? _]; done]]. change ("" +:+ s2) with s2. split; [by intros ->|by intros [_ ?]]. Qed.

Lemma has_prefix_spec p s : has_prefix p s = true ↔ ∃ t, s = p +:+ t.
Proof.
  revert s. induction p as [|a p IH]; intros s; simpl.
  - split; [by exists s|done].
  - destruct s as [|b s]; [split; [done|by intros [t Ht]]|].
    rewrite andb_true_iff, bool_decide_eq_true, IH. split.
    + intros [-> [t ->]]. by exists t.
    + intros [t Ht]. rewrite sapp_cons in Ht. injection Ht as -> ->. split; [done|by exists t].
Qed.
Lemma str_drop_app p t : str_drop (String.length p) (p +:+ t) = t.
Proof. induction p as [|a p IH]; [done|]. rewrite sapp_cons. simpl. done. Qed.
Lemma str_take_app p t : str_take (String.length p) (p +:+ t) = p.
Proof. induction p as [|a p IH]; [by destruct t|]. rewrite sapp_cons. simpl. by rewrite IH. Qed.
Lemma str_take_drop n s : str_take n s +:+ str_drop n s = s.
Proof. revert s. induction n as [|n IH]; intros [|a s]; simpl; try done. rewrite sapp_cons. by rewrite IH. Qed.
Lemma str_drop_length n s : String.length (str_drop n s) = String.length s - n.
Proof. revert s. induction n as [|n IH]; intros [|a s]; simpl; try done. Qed.
Lemma str_take_length n s : String.length (str_take n s) = n `min` String.length s.
Proof. revert s. induction n as [|n IH]; intros [|a s]; simpl; try done. by rewrite IH. Qed.
Lemma has_suffix_spec p s : has_suffix p s = true ↔ ∃ t, s = t +:+ p.
Proof.
  unfold has_suffix. rewrite andb_true_iff, Nat.leb_le, bool_decide_eq_true. split.
  - intros [Hl Hd]. exists (str_take (String.length s - String.length p) s). rewrite <- Hd at 2.
    symmetry. apply str_take_drop.
  - intros [t ->]. rewrite sapp_length. split; [lia|].
    replace (String.length t + String.length p - String.length p) with (String.length t) by lia.
    apply str_drop_app.
Qed.
Lemma trim_suffix_app t p : trim_suffix p (t +:+ p) = t.
Proof.
  unfold trim_suffix. rewrite (proj2 (has_suffix_spec p (t +:+ p))) by eauto.
  rewrite sapp_length. replace (String.length t + String.length p - String.length p) with (String.length t) by lia.
  apply str_take_app.
Qed.
Lemma trim_prefix_app t p : trim_prefix p (p +:+ t) = t.
Proof. unfold trim_prefix. rewrite (proj2 (has_prefix_spec p (p +:+ t))) by eauto. apply str_drop_app. Qed.

Lemma str_any_app f s1 s2 : str_any f (s1 +:+ s2) = str_any f s1 || str_any f s2.
Proof. induction s1 as [|a s1 IH]; [done|]. rewrite sapp_cons. simpl. by rewrite IH, orb_assoc. Qed.
Lemma take_until_app f s1 s2 :
  take_until f (s1 +:+ s2) = if str_any f s1 then take_until f s1 else s1 +:+ take_until f s2.
Proof.
  induction s1 as [|a s1 IH]; [done|]. rewrite sapp_cons. simpl. destruct (f a); [done|]. simpl.
  rewrite IH. by destruct (str_any f s1).
Qed.
Lemma take_until_none f s : str_any f s = false → take_until f s = s.
Proof. induction s as [|a s IH]; simpl; [done|]. intros [Ha Hs]%orb_false_iff. by rewrite Ha, IH. Qed.
Lemma str_any_take_until f s : str_any f (take_until f s) = false.
Proof. induction s as [|a s IH]; simpl; [done|]. destruct (f a) eqn:Ha; [done|]. simpl. by rewrite Ha. Qed.
