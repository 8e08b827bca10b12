From stdpp Require Import base list strings.
From Verif Require Import StringPoolModel.

(** Specification: the strings asked for in a history, first occurrences only. *)
Definition intern (acc : list string) (s : string) : list string :=
  if decide (s = "" ∨ s ∈ acc) then acc else acc ++ [s].
Definition interned (h : list pool_op) : list string :=
  fold_left (fun acc o => match o with OpGet s => intern acc s | OpReload => acc end) h [].
