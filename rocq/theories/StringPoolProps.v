(** C15: the string pool is a stable, injective, lossless naming of strings. *)
From stdpp Require Import base list strings gmap.
From Verif Require Import StringPoolModel StringPoolSpec StringPoolProofs.

(** The index handed out for a non-empty string after any history resolves back
    to that string after any further history (including save/load). *)
Theorem C15_index_resolves_forever : ∀ h s h', s ≠ "" →
  pool_get_string (pool_run (fst (pool_get (pool_run new_pool h) s)) h')
                  (snd (pool_get (pool_run new_pool h) s)) = s.
Proof. exact pool_get_resolves. Qed.
Print Assumptions C15_index_resolves_forever.

(** Two lookups made at any two moments of a history give the same index exactly
    when they asked for the same string. *)
Theorem C15_index_shared_exactly_by_equal_strings : ∀ h s h' t, s ≠ "" → t ≠ "" →
  let p := pool_run new_pool h in
  let p' := pool_run (fst (pool_get p s)) h' in
  snd (pool_get p s) = snd (pool_get p' t) ↔ s = t.
Proof. exact pool_get_same. Qed.
Print Assumptions C15_index_shared_exactly_by_equal_strings.

(** Refinement: after any history the pool holds exactly the distinct non-empty
    strings asked for, in order of first request; save/load is invisible. *)
Theorem C15_contents_are_first_requests : ∀ h,
  pool_marshal (pool_run new_pool h) = interned h.
Proof. exact pool_values_interned. Qed.
Print Assumptions C15_contents_are_first_requests.

(** Saving and loading changes no index, no resolution and no future content. *)
Theorem C15_reload_invisible : ∀ h,
  let p := pool_run new_pool h in
  let q := pool_unmarshal (pool_marshal p) in
  (∀ i, pool_get_string q i = pool_get_string p i) ∧
  (∀ s, snd (pool_get q s) = snd (pool_get p s)) ∧
  (∀ s, pool_values (fst (pool_get q s)) = pool_values (fst (pool_get p s))).
Proof. exact pool_reload_same. Qed.
Print Assumptions C15_reload_invisible.

(** Out-of-range indices (the error branch) resolve to the empty string. *)
Theorem C15_out_of_range_is_empty : ∀ p i,
  (i < 0)%Z ∨ (Z.of_nat (pool_size p) ≤ i)%Z → pool_get_string p i = "".
Proof. exact pool_get_string_range. Qed.
Print Assumptions C15_out_of_range_is_empty.

(** A zero-valued pool (nil map) never stores anything and answers -1. *)
Theorem C15_nil_pool_answers_minus_one : ∀ h s, OpReload ∉ h →
  pool_run zero_pool h = zero_pool ∧ pool_get zero_pool s = (zero_pool, -1)%Z.
Proof. exact zero_pool_stuck. Qed.
Print Assumptions C15_nil_pool_answers_minus_one.

(** Non-vacuity: a history with repeats, an empty string and a reload. *)
Example C15_example :
  let h := [OpGet "a"; OpGet ""; OpGet "b"; OpReload; OpGet "a"; OpGet "c"] in
  let p := pool_run new_pool h in
  pool_marshal p = ["a"; "b"; "c"] ∧ interned h = ["a"; "b"; "c"] ∧
  snd (pool_get p "b") = 1%Z ∧ snd (pool_get p "d") = 3%Z ∧
  snd (pool_get p "") = (-1)%Z ∧ pool_get_string p 2 = "c" ∧ pool_get_string p 3 = "".
Proof. vm_compute. repeat split. Qed.
