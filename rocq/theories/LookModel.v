(** * Cached metadata lookups (internal/metadata/types.go).

    One goroutine at a time: a lookup is one step, as its locks make it. Pointers to types and
    functions are values of an abstract type; nil package entries count as absent. *)
From stdpp Require Import sorting.
From stdpp Require Import base list strings gmap.
From Verif Require Import StrOrder.

(** The parts of [File], [Package] and [Metadata] that the lookups read (types.go 133-135, 848-861). *)
Record file (A : Type) := File { types : gmap string A; funcs : gmap string A }.
Arguments File {_}. Arguments types {_}. Arguments funcs {_}.
Notation package A := (gmap string (option (file A))).
Notation metadata A := (gmap string (package A)).

Section look.
  Context (A : Type).

  (** [pkgShape] and [shapeOf] (types.go 363-379). *)
  Definition types_of (pk : package A) (f : string) : gmap string A := match pk !! f with Some (Some fl) => types fl | _ => ∅ end.
  Definition funcs_of (pk : package A) (f : string) : gmap string A := match pk !! f with Some (Some fl) => funcs fl | _ => ∅ end.
  Definition file_names (pk : package A) : list string := elements (dom pk : gset string).
  Definition shape_of (pk : package A) : nat * nat * nat :=
    (size pk, sum_list_with (λ f, size (types_of pk f)) (file_names pk), sum_list_with (λ f, size (funcs_of pk f)) (file_names pk)).

  (** The unexported caches of [Metadata]. *)
  Record state := State {
    meta : metadata A;
    sorted_files : gmap string (list string * nat);
    sorted_type_names : gmap (string * string) (list string * nat);
    type_index : gmap string (gmap string A * (nat * nat * nat));
    func_index : gmap string (gmap string A * (nat * nat * nat));
    func_anywhere : option (gmap string A);
    sorted_pkgs : option (list string) }.
  Definition start (m : metadata A) : state := State m ∅ ∅ ∅ ∅ None None.
  Definition with_meta (m : metadata A) (s : state) : state :=
    State m (sorted_files s) (sorted_type_names s) (type_index s) (func_index s) (func_anywhere s) (sorted_pkgs s).

  (** [SortedFileNames] (types.go 331-356). *)
  Definition sorted_file_names (s : state) (p : string) : state * list string :=
    match meta s !! p with
    | None => (s, [])
    | Some pk =>
        let build := let names := ssort (file_names pk) in
          (State (meta s) (<[p := (names, size pk)]> (sorted_files s)) (sorted_type_names s) (type_index s) (func_index s) (func_anywhere s) (sorted_pkgs s), names) in
        match sorted_files s !! p with
        | Some (names, built_for) => if decide (built_for = size pk) then (s, names) else build
        | None => build
        end
    end.
  (** [SortedTypeNames] (types.go 438-470). *)
  Definition sorted_types (s : state) (p f : string) : state * list string :=
    match meta s !! p with
    | None => (s, [])
    | Some pk =>
        match pk !! f with
        | Some (Some fl) =>
            let build := let names := ssort (elements (dom (types fl) : gset string)) in
              (State (meta s) (sorted_files s) (<[(p, f) := (names, size (types fl))]> (sorted_type_names s)) (type_index s) (func_index s) (func_anywhere s) (sorted_pkgs s), names) in
            match sorted_type_names s !! (p, f) with
            | Some (names, built_for) => if decide (built_for = size (types fl)) then (s, names) else build
            | None => build
            end
        | _ => (s, [])
        end
    end.
  (** Filling an index in file order, an earlier file winning (types.go 503-516, 568-577). Within
      one file names are distinct, so the order of the inner loop is immaterial. *)
  Definition fill (get : package A → string → gmap string A) (pk : package A) (idx : gmap string A) (names : list string) : gmap string A :=
    foldl (λ idx f, idx ∪ get pk f) idx names.
  (** [TypeInPackage] (types.go 481-524). *)
  Definition type_in_package (s : state) (p n : string) : state * option A :=
    match meta s !! p with
    | None => (s, None)
    | Some pk =>
        let build := let '(s, names) := sorted_file_names s p in let idx := fill types_of pk ∅ names in
          (State (meta s) (sorted_files s) (sorted_type_names s) (<[p := (idx, shape_of pk)]> (type_index s)) (func_index s) (func_anywhere s) (sorted_pkgs s), idx !! n) in
        match type_index s !! p with
        | Some (idx, built_for) => if decide (built_for = shape_of pk) then (s, idx !! n) else build
        | None => build
        end
    end.
  (** [FunctionInPackage] (types.go 537-584). *)
  Definition function_in_package (s : state) (p n : string) : state * option A :=
    match meta s !! p with
    | None => (s, None)
    | Some pk =>
        let build := let '(s, names) := sorted_file_names s p in let idx := fill funcs_of pk ∅ names in
          (State (meta s) (sorted_files s) (sorted_type_names s) (type_index s) (<[p := (idx, shape_of pk)]> (func_index s)) (func_anywhere s) (sorted_pkgs s), idx !! n) in
        match func_index s !! p with
        | Some (idx, built_for) => if decide (built_for = shape_of pk) then (s, idx !! n) else build
        | None => build
        end
    end.
  (** [SortedPackageNames] (types.go 789-809). *)
  Definition sorted_package_names (s : state) : state * list string :=
    match sorted_pkgs s with
    | Some names => (s, names)
    | None => let names := ssort (elements (dom (meta s) : gset string)) in
        (State (meta s) (sorted_files s) (sorted_type_names s) (type_index s) (func_index s) (func_anywhere s) (Some names), names)
    end.
  (** One package of the loop of [FunctionAnywhere] (types.go 624-643). *)
  Definition anywhere_step (acc : state * gmap string A) (p : string) : state * gmap string A :=
    let '(s, idx) := acc in
    match meta s !! p with
    | None => (s, idx)
    | Some pk => let '(s, names) := sorted_file_names s p in (s, fill funcs_of pk idx names)
    end.
  (** [FunctionAnywhere] (types.go 606-646). *)
  Definition function_anywhere (s : state) (n : string) : state * option A :=
    match func_anywhere s with
    | Some idx => (s, idx !! n)
    | None =>
        let '(s, pkgs) := sorted_package_names s in
        let '(s, idx) := foldl anywhere_step (s, ∅) pkgs in
        (State (meta s) (sorted_files s) (sorted_type_names s) (type_index s) (func_index s) (Some idx) (sorted_pkgs s), idx !! n)
    end.

  (** The lookups a client can make. *)
  Inductive query := QFiles (p : string) | QTypeNames (p f : string) | QType (p n : string) | QFunc (p n : string) | QPkgs | QAnywhere (n : string).
  Definition ask (s : state) (q : query) : state :=
    match q with
    | QFiles p => (sorted_file_names s p).1
    | QTypeNames p f => (sorted_types s p f).1
    | QType p n => (type_in_package s p n).1
    | QFunc p n => (function_in_package s p n).1
    | QPkgs => (sorted_package_names s).1
    | QAnywhere n => (function_anywhere s n).1
    end.
End look.
