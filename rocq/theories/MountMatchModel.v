(** * Which calls mount a router (internal/spec/pattern_matchers.go, extractor.go). *)
From Coq Require Import ZArith.
From stdpp Require Import base numbers list strings gmap.
From Verif Require Import MergeModel.

(** MountPattern (config.go): the part of every pattern (C10), whether a path is read and at which argument, that of the router, the expression its type
    has to match, and IsMount. *)
Record mpat := MPat { mp_base : pat; mp_path : bool; mp_path_arg : Z; mp_router_arg : Z; mp_router_rx : string; mp_mount : bool }.
(** metadata.CallArgument, as far as it is read: which one, name, package, type, whether its kind is call, its Fun, the type of its X (none: no X; none within:
    X has no type), and the types of its own arguments (none: nil). *)
Record marg := MArg { ma_id : nat; ma_name : string; ma_pkg : string; ma_type : string; ma_call : bool; ma_fun : option nat; ma_x : option (option string); ma_args : list (option string) }.
(** metadata.Assignment: variable, package, concrete type and its value, which is not read. *)
Record masg := MAsg { ms_var : string; ms_pkg : string; ms_type : string; ms_value : nat }.
(** metadata.CallGraphEdge: the assignments by variable in the order they are ranged over, and the arguments. *)
Record medge := MEdge { me_assigned : list (string * list masg); me_args : list marg }.

(** The argument at an index of the configuration, where it is in range (pattern_matchers.go 709-711, 774). *)
Definition arg_at {A} (args : list A) (i : Z) : option A := if decide (i < 0)%Z then None else args !! Z.to_nat i.
(** routerArgIsRouter (pattern_matchers.go 708-733); arguments that are nil are none. [rx] is none where the expression does not compile. *)
Definition router_arg (rx : string → option (string → bool)) (p : mpat) (args : list (option marg)) : bool :=
  match arg_at args (mp_router_arg p), rx (mp_router_rx p) with
  | Some (Some a), Some m => m (ma_type a) || (ma_call a && existsb (λ t, match t with Some t => m t | None => false end) (ma_args a))
  | _, _ => false
  end.
(** MatchNode of the mount matcher (pattern_matchers.go 663-699), for a node with an edge. *)
Definition mount_matches (rx : string → option (string → bool)) (p : mpat) (c : call) (args : list (option marg)) : bool :=
  matches (λ r s, match rx r with Some m => m s | None => false end) (mp_base p) c &&
  (bool_decide (mp_router_rx p = "") || router_arg rx p args) && mp_mount p.
(** GetPriority (pattern_matchers.go 741-753). *)
Definition mount_priority (p : pat) : Z :=
  ((if decide (p_call p = "") then 0 else 10) + (if decide (p_fn p = "") then 0 else 5) + (if decide (p_recvrx p = "" ∧ p_recv p = "") then 0 else 3))%Z.
(** findAssignmentFunction (pattern_matchers.go 1215-1242). *)
Definition assigns (a : marg) (s : masg) : bool :=
  bool_decide (ms_var s = ma_name a) && bool_decide (ms_pkg s = ma_pkg a) && match ma_x a with Some (Some t) => bool_decide (ms_type s = t) | _ => false end.
Definition call_of (args : list marg) : option nat := head (omap (λ t, if ma_call t then ma_fun t else None) args).
Fixpoint each_assignment (args : list marg) (a : marg) (l : list masg) : option nat :=
  match l with
  | [] => None
  | s :: l => if assigns a s then match call_of args with Some f => Some f | None => each_assignment args a l end else each_assignment args a l
  end.
Fixpoint each_variable (args : list marg) (a : marg) (l : list (string * list masg)) : option nat :=
  match l with
  | [] => None
  | v :: l => match each_assignment args a v.2 with Some f => Some f | None => each_variable args a l end
  end.
Fixpoint find_assignment (edges : list medge) (a : marg) : option nat :=
  match edges with
  | [] => None
  | e :: edges => match each_variable (me_args e) a (me_assigned e) with Some f => Some f | None => find_assignment edges a end
  end.
(** ExtractMount (pattern_matchers.go 756-785): the argument the path is read from, and that of the router with its assignment. The outer option is the panic
    of an index out of range. resolvePathArg (C88) and traceRouterOrigin, whose result is not used, are left out. *)
Definition extract_mount (edges : list medge) (p : mpat) (args : list marg) : option (option marg * option (marg * option nat)) :=
  let router := (λ a, (a, find_assignment edges a)) <$> arg_at args (mp_router_arg p) in
  if mp_path p && bool_decide (mp_path_arg p < Z.of_nat (length args))%Z then
    match arg_at args (mp_path_arg p) with Some a => Some (Some a, router) | None => None end
  else Some (None, router).

(** The tree of calls (interfaces.go): keys and children. *)
Inductive mtree := MNode (key : string) (kids : list mtree).
Definition mt_key (t : mtree) : string := let '(MNode k _) := t in k.
Definition mt_kids (t : mtree) : list mtree := let '(MNode _ l) := t in l.
Fixpoint mt_size (t : mtree) : nat := let '(MNode _ l) := t in S (sum_list_with mt_size l).
(** findTargetNode (extractor.go 1080-1099). The number bounds the turns; that many nodes suffice. *)
Fixpoint search (n : nat) (key : string) (queue : list mtree) : option mtree :=
  match n, queue with
  | S n, t :: queue => if decide (mt_key t = key) then Some t else search n key (queue ++ mt_kids t)
  | _, _ => None
  end.
Definition find_target (roots : list mtree) (key : string) : option mtree := search (sum_list_with mt_size roots) key roots.
