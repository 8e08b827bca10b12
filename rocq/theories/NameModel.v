(** * Component names: from a type to its key under components/schemas. *)
From Coq Require Import Ascii.
From stdpp Require Import base list strings gmap.
From Verif Require Import StrLib.

(** internal/spec/mapper.go 49-57: schemaComponentNameReplacer, a strings.Replacer. At each position the
    replacer looks for one of the listed texts; no two of them start with the same byte, so at most one
    can match and their order does not matter. *)
Fixpoint component_name (s : string) : string :=
  match s with
  | "" => ""
  | String c r =>
      if decide (c = "/"%char ∨ c = "."%char ∨ c = "["%char) then String "_" (component_name r)
      else if decide (c = " "%char) then String "-" (component_name r)
      else if decide (c = "]"%char) then component_name r
      else match r with
           | String d r' =>
               if decide (c = ","%char ∧ d = " "%char) then String "-" (component_name r')
               else match r' with
                    | String e r'' => if decide (c = "-"%char ∧ d = "-"%char ∧ e = ">"%char) then String "_" (component_name r'') else String c (component_name r)
                    | "" => String c (component_name r)
                    end
           | "" => String c (component_name r)
           end
  end.

(** internal/spec/mapper.go 3449-3454: addRefSchemaForType; the reference made for a type. *)
Definition ref_prefix : string := "#/components/schemas/".
Definition ref_for_type (go_type : string) : string := ref_prefix +:+ component_name (trim_prefix "*" go_type).

(** internal/spec/mapper.go 1024-1097: generateSchemas stores every schema it makes under the name of its
    type. Simplified: the schemas, those of nested types included, are given as the list of stores in
    the order they are made; how each is made is not modelled here. *)
Definition store_components {S} (stores : list (string * S)) : gmap string S :=
  foldl (λ m ts, <[component_name ts.1 := ts.2]> m) ∅ stores.
