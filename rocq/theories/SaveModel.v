(** * Saving metadata in three files (internal/metadata/io.go).

    A file system is a map from names to contents. A save is the list of its system calls; the
    process may stop after any of them. The encoder writes its output in pieces, cut anywhere. *)
From Coq Require Import Ascii.
From stdpp Require Import base list strings gmap.
From Verif Require Import StrLib PairModel.

Notation fs := (gmap string string).
(** The system calls [WriteYAML] makes on one file (io.go 42-68). *)
Inductive act := Remove (f : string) | Open (f : string) | Append (f : string) (chunk : string).
(** Their effect: [os.Remove] (a missing file is no error), [os.OpenFile] with O_CREATE|O_TRUNC,
    and a write at the end of the file. *)
Definition do_act (d : fs) (a : act) : fs :=
  match a with
  | Remove f => delete f d
  | Open f => <[f := ""]> d
  | Append f chunk => <[f := default "" (d !! f) +:+ chunk]> d
  end.
(** [WriteYAML] (io.go 42-68), [chunks] being the pieces of the encoding. *)
Definition write_yaml (f : string) (chunks : list string) : list act := Remove f :: Open f :: (Append f <$> chunks).

(** [filepath.Ext] and the trimming of it (io.go 82, 246). *)
Definition base_path (name : string) : string :=
  match split_last "." name with
  | Some (before, ext) => if contains_byte "/" ext then name else before
  | None => name
  end.
(** The three file names (io.go 27-29, 85, 91, 97). *)
Definition pool_file (base : string) : string := base +:+ "-string-pool.yaml".
Definition packages_file (base : string) : string := base +:+ "-packages.yaml".
Definition calls_file (base : string) : string := base +:+ "-call-graph.yaml".

Section save.
  (** The string pool, the packages and the call graph, and the YAML codec of each. *)
  Context {P K C : Type}.
  Record metadata := Metadata { md_pool : P; md_packages : K; md_calls : C }.
  Record codec := Codec {
    enc_pool : P → string; dec_pool : string → option P;
    enc_packages : K → string; dec_packages : string → option K;
    enc_calls : C → string; dec_calls : string → option C }.
  (** The pieces in which the encoder writes each part. *)
  Record pieces := Pieces { pc_pool : list string; pc_packages : list string; pc_calls : list string }.

  (** [WriteSplitMetadata] (io.go 76-103). *)
  Definition save (name : string) (pc : pieces) : list act :=
    write_yaml (pool_file (base_path name)) (pc_pool pc) ++
    write_yaml (packages_file (base_path name)) (pc_packages pc) ++
    write_yaml (calls_file (base_path name)) (pc_calls pc).
  (** [LoadSplitMetadata] (io.go 244-281) up to the three reads; what it does to the result
      afterwards touches no file. [None] is the error. *)
  Definition load (c : codec) (name : string) (d : fs) : option metadata :=
    p ← d !! pool_file (base_path name) ≫= dec_pool c;
    k ← d !! packages_file (base_path name) ≫= dec_packages c;
    g ← d !! calls_file (base_path name) ≫= dec_calls c;
    Some (Metadata p k g).
  (** The disk when the process stops after [n] system calls. *)
  Definition stopped (d : fs) (acts : list act) (n : nat) : fs := foldl do_act d (take n acts).
End save.
Arguments metadata : clear implicits.
Arguments codec : clear implicits.
