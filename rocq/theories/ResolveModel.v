(** * The implementations that struct literals give interfaces (internal/metadata/metadata.go, types.go, internal/spec/tracker.go). *)
From Coq Require Import Ascii.
From stdpp Require Import base list strings gmap.
From Verif Require Import StrLib.

(** The value of a field in a literal (metadata.go 2259-2279): the address of a composite literal, a composite literal, or anything else; with the name of
    its type as getTypeName gives it (C110), empty where it has none. *)
Inductive rvalue := RAddr (type : string) | RLit (type : string) | RElse.
(** A key and its value (metadata.go 1293-1311); the key is none where it is no identifier. *)
Record rpair := RPair { rp_key : option string; rp_value : rvalue }.
(** A composite literal (metadata.go 1285-1320): its type, its package and the pairs with a key. *)
Record rlit := RLitOf { rl_type : string; rl_pkg : string; rl_pairs : list rpair }.
(** isEmbeddedInterfaceAssignment (metadata.go 2257-2282). *)
Definition taken_for_interface (v : rvalue) : bool :=
  match v with RAddr t | RLit t => negb (bool_decide (t = "")) && negb (contains_byte "." t) | RElse => false end.
(** The concrete type (metadata.go 2294-2305). *)
Definition concrete_type (v : rvalue) : string := match v with RAddr t => "*" +:+ t | RLit t => t | RElse => "" end.
(** InterfaceResolutionKey: interface, struct, package (types.go 2081-2085). *)
Notation rkey := (string * string * string)%type.
(** registerEmbeddedInterfaceResolution with RegisterInterfaceResolution (metadata.go 1306-1308, 2285-2311; types.go 2076-2094); the position is left out. *)
Definition register_pair (st pkg : string) (m : gmap rkey string) (p : rpair) : gmap rkey string :=
  if taken_for_interface (rp_value p) then
    match rp_key p with
    | Some f => if decide (concrete_type (rp_value p) ≠ "" ∧ f ≠ "") then <[(f, st, pkg) := concrete_type (rp_value p)]> m else m
    | None => m
    end
  else m.
(** processStructInstance (metadata.go 1285-1320), as far as it registers. *)
Definition register_literal (m : gmap rkey string) (l : rlit) : gmap rkey string :=
  if decide (rl_type l = "") then m else foldl (register_pair (rl_type l) (rl_pkg l)) m (rl_pairs l).
(** The literals of all files in the order they are visited. *)
Definition registered (ls : list rlit) : gmap rkey string := foldl register_literal ∅ ls.
(** SyncInterfaceResolutionsFromMetadata (tracker.go 1817-1831): the tracker's map gets the metadata's. *)
Definition synced (meta tracker : gmap rkey string) : gmap rkey string := meta ∪ tracker.
(** ResolveInterface (tracker.go 1802-1814). *)
Definition resolve_local (tracker : gmap rkey string) (k : rkey) : string := default k.1.1 (tracker !! k).
(** ResolveInterfaceFromMetadata (tracker.go 1834-1853): the answer and the tracker's map. *)
Definition resolve (meta tracker : gmap rkey string) (k : rkey) : string * gmap rkey string :=
  if decide (resolve_local tracker k ≠ k.1.1) then (resolve_local tracker k, tracker)
  else match meta !! k with Some c => (c, <[k := c]> tracker) | None => (k.1.1, tracker) end.
(** Questions one after the other. *)
Fixpoint resolve_all (meta tracker : gmap rkey string) (ks : list rkey) : list string :=
  match ks with [] => [] | k :: ks => let '(c, tracker) := resolve meta tracker k in c :: resolve_all meta tracker ks end.
