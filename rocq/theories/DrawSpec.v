(** * Drawing the call graph: specification for C66. *)
From Coq Require Import Ascii.
From stdpp Require Import base list strings gmap.
From Verif Require Import StrLib DiagModel DrawModel.

(** Functions that occur in the call graph. *)
Definition calls_or_called (graph : list gedge) (c : fcall) : Prop := ∃ e, e ∈ graph ∧ (c = g_caller e ∨ c = g_callee e).
(** [p] is recorded as the function enclosing the literal [c]. *)
Definition encloses (graph : list gedge) (p c : fcall) : Prop :=
  ∃ e, e ∈ graph ∧ g_parent e = Some p ∧ (c = g_caller e ∨ c = g_callee e) ∧ ∃ rest, c_name c = "FuncLit:" +:+ rest.
Definition occurs_in (graph : list gedge) (c : fcall) : Prop := calls_or_called graph c ∨ ∃ l, encloses graph c l.
(** Base IDs stand for one name and package each, and no literal encloses itself. *)
Definition named_apart (graph : list gedge) : Prop := ∀ c c', occurs_in graph c → occurs_in graph c' → c_base c = c_base c' → c_name c = c_name c' ∧ c_pkg c = c_pkg c'.
Definition none_in_itself (graph : list gedge) : Prop := ∀ p c, encloses graph p c → c_base p ≠ c_base c.
(** What a node shows of a function. *)
Definition shows (n : dnode) (c : fcall) : Prop := n_fname n = c_name c ∧ n_pkg n = c_pkg c ∧ n_receiver n = c_recv c ∧ n_signature n = c_sig c ∧ n_scope n = c_scope c.
(** Whenever a call names the function enclosing a literal, a function of that name and package has been seen before. *)
Definition enclosing_first (graph : list gedge) : Prop :=
  ∀ pre e post p c rest, graph = pre ++ e :: post → g_parent e = Some p → (c = g_caller e ∨ c = g_callee e) → c_name c = "FuncLit:" +:+ rest →
    ∃ d, (calls_or_called pre d ∨ c ≠ g_caller e ∧ d = g_caller e) ∧ c_name d = c_name p ∧ c_pkg d = c_pkg p.
(** The first call of [graph] with [c] at one of its ends is [e]. *)
Definition first_seen (graph : list gedge) (e : gedge) (c : fcall) : Prop :=
  ∃ pre post, graph = pre ++ e :: post ∧ (c = g_caller e ∨ c = g_callee e ∧ c_base c ≠ c_base (g_caller e)) ∧
    ∀ e', e' ∈ pre → c_base (g_caller e') ≠ c_base c ∧ c_base (g_callee e') ≠ c_base c ∧ ∀ p, g_parent e' = Some p → c_base p ≠ c_base c.
(** The label of a function: a literal is called FuncLit, a method is preceded by its receiver. *)
Definition labelled (label : string) (c : fcall) : Prop :=
  ∃ short, ((∃ rest, c_name c = "FuncLit:" +:+ rest) ∧ short = "FuncLit" ∨ (¬ ∃ rest, c_name c = "FuncLit:" +:+ rest) ∧ short = c_name c) ∧
    (c_recv c = "" ∧ label = short ∨ c_recv c ≠ "" ∧ label = c_recv c +:+ "." +:+ short).
(** Where a call is made: its position, or that of the calling literal when none is recorded. *)
Definition made_at (e : gedge) (pos : string) : Prop :=
  (g_pos e ≠ "" ∨ ¬ ∃ rest, c_name (g_caller e) = "FuncLit:" +:+ rest) ∧ pos = g_pos e ∨
  g_pos e = "" ∧ c_name (g_caller e) = "FuncLit:" +:+ pos.
(** Packages and names of functions hold no colon, except for the names of literals. *)
Definition no_colons (graph : list gedge) : Prop :=
  ∀ e, e ∈ graph → contains_byte ":" (c_pkg (g_caller e)) = false ∧ ((∃ rest, c_name (g_caller e) = "FuncLit:" +:+ rest) ∨ contains_byte ":" (c_name (g_caller e)) = false).
