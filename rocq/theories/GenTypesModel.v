(** * The types in an identifier, and the filter on instances (internal/metadata/types.go, internal/spec/lazytree.go, tracker.go). *)
From Coq Require Import Ascii.
From stdpp Require Import base list strings.
From Verif Require Import StrLib StrSplit PathModel ScanModel.

(** The text before the first closing bracket, and whether there is one: the characters and the end of the expression of types.go 720. *)
Fixpoint until_close (s : string) : option string :=
  match s with "" => None | String c t => if decide (c = "]"%char) then Some "" else String c <$> until_close t end.
(** FindStringSubmatch of the expression (types.go 719-727): leftmost, and not empty between the brackets. *)
Fixpoint in_brackets (s : string) : option string :=
  match s with
  | "" => None
  | String c t =>
      if decide (c = "["%char) then match until_close t with Some (String a b) => Some (String a b) | _ => in_brackets t end
      else in_brackets t
  end.
(** One item (types.go 733-747). *)
Definition item_type (item : string) : option string :=
  let item := trim_space item in
  if contains_byte "=" item then match split_byte "=" item with [_; v] => Some (trim_space v) | _ => None end else Some item.
(** ExtractGenericTypes (types.go 718-751); nil and an empty slice are not told apart. *)
Definition generic_types (s : string) : list string := match in_brackets s with Some p => omap item_type (split_byte "," p) | None => [] end.
(** IsSubset (types.go 696-711). *)
Definition is_subset (a b : list string) : bool := forallb (λ x, bool_decide (x ∈ b)) a.
(** The filter on the direct callees of a node (lazytree.go 1320-1325, tracker.go 1562-1568): whether the callee is kept. *)
Definition instance_kept (node callee : string) : bool := bool_decide (generic_types callee = []) || is_subset (generic_types node) (generic_types callee).
