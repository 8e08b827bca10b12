(** * The handler behind a handler argument (internal/spec/pattern_matchers.go 1480-1729). *)
From stdpp Require Import base list strings.

(** An argument at the handler position. [PName] is an identifier or a selector; the number names the expression,
    and for a call its callee. Simplified: no argument is a nil pointer. *)
Inductive harg :=
  | PName (id : nat)
  | PFuncLit (id : nat)
  | PConv (id : nat) (args : list harg)
  | PCall (id : nat) (args : list harg)
  | POther (id : nat).

(** The types middlewareShaped compares: pointers, and the package and name of any other type (typemodel.TypeRef;
    a type without a name has the empty one). *)
Inductive mref := MPtr (elem : option mref) | MRef (pkg name : string).
(** baseTypeRef (pattern_matchers.go 1642-1647): the package and name of what is left; a pointer has neither. *)
Fixpoint base_ref (t : mref) : string * string :=
  match t with
  | MPtr (Some t) => base_ref t
  | MPtr None => ("", "")
  | MRef p n => (p, n)
  end.
(** The signature of a function: parameter types and the resolved result type, if there are any. *)
Record msig := MSig { ms_params : list (option mref); ms_result : option mref }.
(** middlewareShaped (pattern_matchers.go 1623-1638), on the signature calleeFunctionOf finds (1651-1692). *)
Definition shaped_sig (s : option msig) : bool :=
  match s with
  | Some (MSig [Some p] (Some r)) =>
      let '(pp, pn) := base_ref p in let '(rp, rn) := base_ref r in
      negb (bool_decide (pn = "")) && negb (bool_decide (pp ≠ "" ∧ rp ≠ "" ∧ pp ≠ rp)) && bool_decide (pn = rn)
  | _ => false
  end.

(** maxHandlerUnwraps (pattern_matchers.go 1517). *)
Definition max_unwraps : nat := 8.
(** convertedHandler (pattern_matchers.go 1524-1534), on the arguments of the conversion. *)
Definition converted (args : list harg) : option harg :=
  match args with
  | [PName i] => Some (PName i)
  | [PFuncLit i] => Some (PFuncLit i)
  | _ => None
  end.

Section peel.
  (** Whether a name refers to a function apispec knows (namesAFunction, 1699-1729), and the signature of the callee. *)
  Context (known : nat → bool) (sig : nat → option msig).
  Definition names_function (a : harg) : bool := match a with PName i => known i | PFuncLit _ => true | _ => false end.
  (** The loop of wrappedHandlerDepth (pattern_matchers.go 1573-1609), on what each argument counts as. *)
  Fixpoint pick (found : option harg) (l : list (option harg)) : option harg :=
    match l with
    | [] => found
    | None :: l => pick found l
    | Some c :: l => match found with Some _ => None | None => pick (Some c) l end
    end.
  (** wrappedHandlerDepth (pattern_matchers.go 1563-1611); [n] is what is left of maxHandlerUnwraps. *)
  Fixpoint wrapped (n : nat) (a : harg) : option harg :=
    match n with
    | 0 => None
    | S n =>
        match a with
        | PCall i args =>
            pick None ((λ b, match b with
                             | PConv _ inner => match converted inner with Some c => if names_function c then Some c else None | None => None end
                             | PCall _ _ => match wrapped n b with Some _ => Some b | None => None end
                             | _ => if shaped_sig (sig i) && names_function b then Some b else None
                             end) <$> args)
        | _ => None
        end
    end.
  (** handlerArgValue (pattern_matchers.go 1492-1514). *)
  Fixpoint peel (n : nat) (a : harg) : harg :=
    match n with
    | 0 => a
    | S n =>
        match a with
        | PConv _ args => match converted args with Some b => peel n b | None => a end
        | PCall _ _ => match wrapped max_unwraps a with Some b => peel n b | None => a end
        | _ => a
        end
    end.
  Definition handler_value (a : harg) : harg := peel max_unwraps a.
End peel.
