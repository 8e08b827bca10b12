(** * Where an encoder writes and a decoder reads (internal/spec/response_dest.go, internal/spec/body_source.go). *)
From stdpp Require Import base numbers list strings gmap.

(** The kinds of metadata.CallArgument that the two resolvers tell apart (internal/metadata/types.go). *)
Inductive kind := KIdent | KSelector | KCall | KUnary | KStar | KParen | KComposite | KKeyValue | KOther.
Global Instance kind_eq_dec : EqDecision kind. Proof. solve_decision. Defined.
(** metadata.CallArgument (internal/metadata/types.go), as far as it is read: kind, ID(), name, type, resolved type, what
    GetArgumentInfo renders, and the fields X, Sel, Fun, Args. How they are filled is internal/metadata/expression.go;
    a key-value pair has its key in X and its value in Fun (436-447), a composite literal its type in X (420-434). *)
Inductive arg := Arg { g_kind : kind; g_id : string; g_name : string; g_type : string; g_resolved : string; g_info : string;
  g_x : option arg; g_sel : option arg; g_fun : option arg; g_args : list arg }.

(** What is known where the call is: the right-hand side of the latest assignment to each variable (latestAssignment,
    extractor.go 2024-2051), the latest concrete type recorded on the edge for a variable (response_dest.go 271-279), the
    caller's name and what TraceVariableOrigin (C108) answers for a variable. *)
Record site := Site { s_assigned : gmap string arg; s_concrete : string → string; s_caller : string; s_traced : string → option arg }.

(** Address-of, dereference and, on the write side only, parentheses are passed over (response_dest.go 121-123, 237-239;
    body_source.go 92-94). *)
Section strip.
Context (passed : kind → bool).
Fixpoint strip (a : arg) : option arg := if passed (g_kind a) then match g_x a with Some y => strip y | None => None end else Some a.
End strip.
Definition pass_write (k : kind) : bool := match k with KUnary | KStar | KParen => true | _ => false end.
Definition pass_read (k : kind) : bool := match k with KUnary | KStar => true | _ => false end.

(** All arguments below one, and all that can be met at a call. Not in the code: bounds the recursion below. *)
Fixpoint subs (a : arg) : list arg :=
  a :: match g_x a with Some y => subs y | None => [] end ++ match g_sel a with Some y => subs y | None => [] end ++
       match g_fun a with Some y => subs y | None => [] end ++ flat_map subs (g_args a).
Definition universe (s : site) (a : arg) : list arg := subs a ++ flat_map subs (map_to_list (s_assigned s)).*2.

Section write.
(** matchAny with the configured expressions for writers and for what writers can be used as. *)
Context (writer compatible : string → bool) (s : site).

(** identType (response_dest.go 261-299). *)
Definition or_else (a b : string) : string := if bool_decide (a = "") then b else a.
Definition ident_type (a : arg) : string :=
  or_else (g_resolved a) (or_else (g_type a) (or_else (s_concrete s (g_name a))
    match s_traced s (g_name a) with Some o => or_else (g_resolved o) (g_type o) | None => "" end)).
(** reachesWriterIdent without an assignment (response_dest.go 198-223). *)
Definition writer_ident (a : arg) : bool :=
  writer (ident_type a) ||
  (negb (bool_decide (g_name a = s_caller s)) &&
   match s_traced s (g_name a) with Some o => (negb (bool_decide (g_resolved o = "")) && writer (g_resolved o)) || writer (g_type o) | None => false end).
(** A loop over arguments that stops at the first that reaches; the visited map is shared. *)
Fixpoint first_that (f : gset string → arg → option (bool * gset string)) (visited : gset string) (l : list arg) : option (bool * gset string) :=
  match l with
  | [] => Some (false, visited)
  | a :: l => match f visited a with
              | None => None
              | Some (true, visited) => Some (true, visited)
              | Some (false, visited) => first_that f visited l
              end
  end.
(** reachesWriter and reachesWriterIdent (response_dest.go 117-224). None: the number of steps did not suffice. *)
Fixpoint reaches (n : nat) (visited : gset string) (a : arg) : option (bool * gset string) :=
  match n with
  | 0 => None
  | S n =>
      match strip pass_write a with
      | None => Some (false, visited)
      | Some a =>
          if bool_decide (g_id a ∈ visited) then Some (false, visited)
          else let visited := {[ g_id a ]} ∪ visited in
          match g_kind a with
          | KIdent =>
              if bool_decide (g_name a = "") then Some (false, visited)
              else match s_assigned s !! g_name a with
                   | Some rhs => reaches n visited rhs
                   | None => Some (writer_ident a, visited)
                   end
          | KComposite | KKeyValue => first_that (reaches n) visited (g_args a ++ option_list (g_x a) ++ option_list (g_sel a))
          | KCall => first_that (reaches n) visited (g_args a)
          | _ => Some (false, visited)
          end
      end
  end.
Definition reaches_writer (a : arg) : bool := match reaches (S (length (universe s a))) ∅ a with Some (b, _) => b | None => false end.

(** leafType (response_dest.go 233-259). *)
Definition own_type (a : arg) : string := or_else (g_resolved a) (or_else (g_type a) (g_info a)).
Fixpoint leaf (n : nat) (visited : gset string) (a : arg) : option string :=
  match n with
  | 0 => None
  | S n =>
      match strip pass_write a with
      | None => Some ""
      | Some a =>
          match g_kind a with
          | KIdent =>
              if bool_decide (g_id a ∈ visited) then Some (ident_type a)
              else match (if bool_decide (g_name a = "") then None else s_assigned s !! g_name a) with
                   | Some rhs => t ← leaf n ({[ g_id a ]} ∪ visited) rhs; Some (or_else t (ident_type a))
                   | None => Some (ident_type a)
                   end
          | KSelector | KCall | KComposite => Some (own_type a)
          | _ => Some ""
          end
      end
  end.
Definition leaf_type (a : arg) : string := match leaf (S (length (universe s a))) ∅ a with Some t => t | None => "" end.

(** ShouldDrop (response_dest.go 73-85) with writer types configured. *)
Definition should_drop (a : arg) : bool :=
  if reaches_writer a then false
  else let t := leaf_type a in if bool_decide (t = "") || compatible t then false else true.
(** AnyArgReachesWriter (response_dest.go 94-110). *)
Definition any_arg_reaches (l : list arg) : bool := existsb (λ a, reaches_writer a || (bool_decide (leaf_type a = "") || compatible (leaf_type a))) l.
End write.

Section read.
(** matchAny with the configured expressions for request types and body accessors. *)
Context (request accessor : string → bool) (s : site).

(** identType (body_source.go 191-224). *)
Definition ident_type_r (a : arg) : string :=
  or_else (g_resolved a) (or_else (g_type a) (or_else (s_concrete s (g_name a)) match s_traced s (g_name a) with Some o => g_type o | None => "" end)).
(** chainSegment and peelAccessorChain (body_source.go 77-83, 236-273), from the root to the leaf. *)
Definition seg : Type := string * bool.
Fixpoint peel (a : arg) : option (arg * list seg) :=
  match g_kind a with
  | KSelector => match g_x a with
                 | Some x => match peel x with Some (r, l) => Some (r, l ++ [(match g_sel a with Some f => g_name f | None => "" end, false)]) | None => None end
                 | None => None
                 end
  | KCall => match g_fun a with
             | Some f => match g_kind f with
                         | KSelector => match g_x f with
                                        | Some x => match peel x with Some (r, l) => Some (r, l ++ [(match g_sel f with Some m => g_name m | None => "" end, true)]) | None => None end
                                        | None => None
                                        end
                         | _ => None
                         end
             | None => None
             end
  | KIdent => Some (a, [])
  | _ => None
  end.
(** accessorString (body_source.go 277-289). *)
Definition seg_string (g : seg) : string := if g.2 then g.1 +:+ "()" else g.1.
Fixpoint accessor_string (l : list seg) : string :=
  match l with [] => "" | [g] => seg_string g | g :: l => seg_string g +:+ "." +:+ accessor_string l end.
(** chainMatches (body_source.go 126-138). *)
Definition chain_matches (root : arg) (l : list seg) : bool :=
  bool_decide (g_kind root = KIdent) && negb (bool_decide (l = [])) && negb (bool_decide (ident_type_r root = "")) && request (ident_type_r root) && accessor (accessor_string l).
(** check and checkIdent (body_source.go 85-186); after the assignment checkIdent answers false on every path. *)
Fixpoint check (n : nat) (visited : gset string) (a : arg) : option bool :=
  match n with
  | 0 => None
  | S n =>
      match strip pass_read a with
      | None => Some false
      | Some a =>
          if bool_decide (g_id a ∈ visited) then Some false
          else let visited := {[ g_id a ]} ∪ visited in
          let check_ident (i : arg) := match (if bool_decide (g_name i = "") then None else s_assigned s !! g_name i) with Some rhs => check n visited rhs | None => Some false end in
          match g_kind a with
          | KSelector | KCall =>
              match peel a with
              | Some (root, l) => if chain_matches root l then Some true else if bool_decide (g_kind root = KIdent) then check_ident root else Some false
              | None => Some false
              end
          | KIdent => check_ident a
          | _ => Some false
          end
      end
  end.
(** IsRequestSource (body_source.go 69-75) with request types configured. *)
Definition request_source (a : arg) : bool := match check (S (length (universe s a))) ∅ a with Some b => b | None => false end.
End read.

(** A declared function or method with the values assigned to its variables, in order. *)
Record fn := Fn { f_pkg : string; f_recv : string; f_name : string; f_assigns : gmap string (list arg) }.
(** findFunction (body_source.go 338-351): the table it looks in holds declarations without a receiver only
    (processFunctions, internal/metadata/metadata.go 1124-1129). [fns] in the order of the sorted files. *)
Definition find_function (fns : list fn) (pkg name : string) : option fn :=
  head (filter (λ f, f_pkg f = pkg ∧ f_recv f = "" ∧ f_name f = name) fns).
(** resolveReceiverSource (body_source.go 305-334): the first argument of the call the receiver comes from. [d_chain]:
    the arguments of the call it is chained onto. *)
Record decode := Decode { d_chain : option (list arg); d_recv : string; d_pkg : string; d_caller : string }.
Definition receiver_source (fns : list fn) (d : decode) : option arg :=
  match d_chain d with
  | Some (a :: _) => Some a
  | _ =>
      if bool_decide (d_recv d = "") then None
      else match find_function fns (d_pkg d) (d_caller d) with
           | None => None
           | Some f => match last (default [] (f_assigns f !! d_recv d)) with
                       | Some rhs => if bool_decide (g_kind rhs = KCall) then head (g_args rhs) else None
                       | None => None
                       end
           end
  end.
(** assignmentsAt and latestAssignment (extractor.go 2024-2051): the assignments recorded on the edge first, which are
    those in the body of the function called (internal/metadata/metadata.go 1682-1720), then those of the caller. *)
Definition latest_assigned (callee caller : gmap string (list arg)) : gmap string arg := omap last callee ∪ omap last caller.
