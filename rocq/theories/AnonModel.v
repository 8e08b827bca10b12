(** * The key of an anonymous struct (internal/metadata/metadata.go). *)
From Coq Require Import Ascii NArith.
From stdpp Require Import sorting.
From stdpp Require Import base numbers list strings gmap pretty.
From Verif Require Import StrLib StrSplit StrSub StrOrder DecLib.

(** AnonStructTypePrefix (metadata.go 919). *)
Definition anon_prefix : string := "_apispec_anonstruct_".
(** The bytes kept by sanitize (metadata.go 944). *)
Definition alnum (c : ascii) : bool :=
  let n := N_of_ascii c in ((97 <=? n) && (n <=? 122) || (65 <=? n) && (n <=? 90) || (48 <=? n) && (n <=? 57))%N.
(** A byte that continues a rune. *)
Definition continues (c : ascii) : bool := let n := N_of_ascii c in ((128 <=? n) && (n <? 192))%N.
(** sanitize (metadata.go 942-949), of valid UTF-8: one underscore for a rune that is not kept. *)
Fixpoint sanitize (s : string) : string :=
  match s with
  | "" => ""
  | String c s => if alnum c then String c (sanitize s) else if continues c then sanitize s else String "_" (sanitize s)
  end.
(** FNV-1a of 32 bits (metadata.go 950-953; hash/fnv). *)
Definition fnv_step (h : N) (c : ascii) : N := (N.lxor h (N_of_ascii c) * 16777619 mod 4294967296)%N.
Fixpoint fnv_from (h : N) (s : string) : N := match s with "" => h | String c s => fnv_from (fnv_step h c) s end.
Definition fnv (s : string) : N := fnv_from 2166136261 s.
(** The verb 08x (metadata.go 954). *)
Definition hex_digit (n : N) : ascii := ascii_of_N (if (n <? 10)%N then 48 + n else 87 + n)%N.
Fixpoint hex (width : nat) (n : N) : string := match width with 0 => "" | S w => hex w (n / 16)%N +:+ String (hex_digit (n mod 16)%N) "" end.
(** filepath.Base (metadata.go 941) of the path of a file, which does not end in a slash. *)
Definition base_of (file : string) : string := default file (last (split_byte "/" file)).
(** AnonStructKey (metadata.go 934-956) of a valid position. *)
Definition anon_key (pkg file : string) (line column : nat) : string :=
  let base := base_of file in
  anon_prefix +:+ sanitize pkg +:+ "_" +:+ sanitize base +:+ "_" +:+ itoa_nat line +:+ "_" +:+ itoa_nat column +:+ "_" +:+ hex 8 (fnv (pkg +:+ String "000" base)).
(** IsAnonStructTypeName (metadata.go 960-962). *)
Definition is_anon (name : string) : bool := str_contains anon_prefix name.

(** processLocalAnonymousStructs (metadata.go 970-1006): the variables of info.Defs in some order, as key and fields (buildAnonStructType; here any value).
    The sort is by key; the keys are registered in the order of the list that is returned, beside the types of the file. *)
Definition key_le {A} (a b : string * A) : Prop := string_le a.1 b.1.
#[global] Instance key_le_dec {A} (a b : string * A) : Decision (key_le a b).
Proof. unfold key_le. apply _. Defined.
Definition register_step {A} (st : gmap string A * list string) (v : string * A) : gmap string A * list string :=
  match st.1 !! v.1 with Some _ => st | None => (<[v.1 := v.2]> st.1, st.2 ++ [v.1]) end.
Definition register {A} (types : gmap string A) (vars : list (string * A)) : gmap string A * list string := fold_left register_step (merge_sort key_le vars) (types, []).
