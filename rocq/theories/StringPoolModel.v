(** * The string pool of the metadata (internal/metadata/types.go). *)
From stdpp Require Import base list strings gmap.

(** [StringPool], internal/metadata/types.go 69-72.  [pool_strings] is the Go
    map; [None] is the nil map of a zero-valued pool (the nil case is tested at
    line 90).  Indices are Go ints, modelled as unbounded [Z]. *)
Record pool := Pool {
  pool_strings : option (gmap string Z);
  pool_values : list string
}.

(** [NewStringPool], types.go 74-79 (the capacities are irrelevant). *)
Definition new_pool : pool := Pool (Some ∅) [].

(** The zero value [StringPool{}]: both fields nil. *)
Definition zero_pool : pool := Pool None [].

(** Reading a Go map, nil map included: a nil map holds nothing. *)
Definition pool_find (p : pool) (s : string) : option Z :=
  match pool_strings p with Some m => m !! s | None => None end.

(** [StringPool.Get], types.go 81-98. *)
Definition pool_get (p : pool) (s : string) : pool * Z :=
  if decide (s = "") then (p, -1)%Z
  else match pool_find p s with
  | Some i => (p, i)
  | None =>
    match pool_strings p with
    | None => (p, -1)%Z
    | Some m =>
      let i := Z.of_nat (length (pool_values p)) in
      (Pool (Some (<[s := i]> m)) (pool_values p ++ [s]), i)
    end
  end.

(** [StringPool.GetString], types.go 100-105. *)
Definition pool_get_string (p : pool) (i : Z) : string :=
  if ((0 <=? i)%Z && (i <? Z.of_nat (length (pool_values p)))%Z)%bool
  then match pool_values p !! Z.to_nat i with Some s => s | None => "" end
  else "".

(** [StringPool.GetSize], types.go 108-110. *)
Definition pool_size (p : pool) : nat := length (pool_values p).

(** [MarshalYAML], types.go 113-115: what is written is the list of values.
    The YAML text layer itself (writing a list of strings and reading it back)
    is outside the model. *)
Definition pool_marshal (p : pool) : list string := pool_values p.

(** [UnmarshalYAML], types.go 118-130: values are adopted, the map is rebuilt by
    ranging over the slice in order (a later duplicate overwrites). *)
Fixpoint index_from (i : Z) (vs : list string) (m : gmap string Z) : gmap string Z :=
  match vs with
  | [] => m
  | v :: vs' => index_from (i + 1) vs' (<[v := i]> m)
  end.
Definition pool_unmarshal (vs : list string) : pool := Pool (Some (index_from 0 vs ∅)) vs.

(** A client history: lookups by [Get], and save/load of the pool. *)
Inductive pool_op := OpGet (s : string) | OpReload.

Definition pool_step (p : pool) (o : pool_op) : pool :=
  match o with
  | OpGet s => fst (pool_get p s)
  | OpReload => pool_unmarshal (pool_marshal p)
  end.

Definition pool_run (p : pool) (h : list pool_op) : pool := fold_left pool_step h p.
