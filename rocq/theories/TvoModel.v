(** * Where a variable comes from (internal/metadata/analysis.go 437-683, TraceVariableOrigin). *)
From Coq Require Import Ascii.
From stdpp Require Import base list strings gmap.
From Verif Require Import StrLib PairModel.

(** What is read of a CallArgument (types.go 1013-1040; analysis.go 576-661): its kind, its name ([None] is the index -1), its type, Sel and X ([None] is nil). *)
Inductive vkind := VIdent | VSelector | VUnary | VComposite | VOther.
#[global] Instance vkind_eq : EqDecision vkind. Proof. solve_decision. Defined.
Inductive varg := VArg (k : vkind) (name : option string) (type : string) (sel x : option varg).
(** GetKind (types.go 1048-1054). *)
Definition v_kind (a : varg) : vkind := let 'VArg k _ _ _ _ := a in k.
(** The Name index (types.go 1016; analysis.go 600, 654). *)
Definition v_named (a : varg) : option string := let 'VArg _ n _ _ _ := a in n.
(** GetName (types.go 1056-1062): the empty text for the index -1. *)
Definition v_name (a : varg) : string := default "" (v_named a).
(** An identifier of a type (analysis.go 534-536, 567-569). *)
Definition v_typed (t : string) : varg := VArg VIdent None t None None.
(** Assignment: value, CalleeFunc, CalleePkg, ReturnIndex (types.go 996-1010; analysis.go 576-588). *)
Record vasn := VAsn { va_value : varg; va_func : string; va_pkg : string; va_ret : nat }.
(** A function: its AssignmentMap and ReturnVars (analysis.go 573-588). *)
Record vfn := VFn { fn_asn : gmap string (list vasn); fn_rets : list varg }.
(** A method: its name and ReturnVars (analysis.go 620-642). *)
Record vmeth := VMeth { vm_name : string; vm_rets : list varg }.
(** A file: its package variables with their types, its functions, and the methods of its types in the order of SortedTypes (analysis.go 566-574, 620-621). *)
Record vfile := VFile { vf_vars : gmap string string; vf_funcs : gmap string vfn; vf_types : list (list vmeth) }.
(** A call: callee and caller by name and package, TypeParamMap, and the texts CallArgToString gives of ParamArgMap (analysis.go 521-555). The receiver is not read. *)
Record vcall := VCall { vc_callee : string * string; vc_recv : string; vc_caller : string * string; vc_tparams : gmap string string; vc_params : gmap string string }.
(** The metadata: CallGraph, and the files of a package in the order of SortedFiles (C35). *)
Record vmeta := VMeta { vt_calls : list vcall; vt_pkgs : gmap string (list vfile) }.
(** SortedFiles of a package (types.go 390-406). *)
Definition vt_files (md : vmeta) (p : string) : list vfile := default [] (vt_pkgs md !! p).
(** What is asked about: variable, function, package; and the answer, a TraceVariableResult (analysis.go 440-456, 489-494). *)
Record vask := VAsk { q_var : string; q_func : string; q_pkg : string }.
Record vres := VRes { r_var : string; r_pkg : string; r_type : option varg; r_func : string }.
(** The key of a question (analysis.go 462-470), and of a method (analysis.go 610). *)
Definition ask_key (q : vask) : string := q_pkg q +:+ "." +:+ q_func q +:+ ":" +:+ q_var q.
Definition meth_key (a : vasn) : string := va_pkg a +:+ "." +:+ va_func a.
(** The two caches of a Metadata (types.go 203-204, metadata.go 243-244); [None] is nil, as in metadata loaded from a file. *)
Record vstate := VState { s_asked : option (gmap string vres); s_meths : option (gmap string (option vmeth)) }.

(** The name in the text of an argument: behind the last blank, before the first bracket (analysis.go 542-551). *)
Fixpoint before_bracket (s : string) : string := match s with "" => "" | String c t => if decide (c = "("%char) then "" else String c (before_bracket t) end.
Definition arg_name (s : string) : string := before_bracket (match split_last " " s with Some (_, b) => b | None => s end).
(** The loop on the returned expression (analysis.go 588-599, 642-653); [None] is a nil dereference. *)
Fixpoint peel (a : varg) : option varg :=
  let 'VArg k n t sel x := a in
  match k with
  | VSelector => match sel with Some s => peel s | None => None end
  | VUnary | VComposite => match x with Some x => peel x | None => None end
  | VIdent | VOther => Some a
  end.
(** The method of a name in a file (analysis.go 620-633). *)
Definition file_method (f : vfile) (name : string) : option vmeth := head (filter (λ m, vm_name m = name) (concat (vf_types f))).
(** The lookup with its cache (analysis.go 610-638): a miss is recorded too. *)
Definition cached_method (f : vfile) (a : vasn) (mc : option (gmap string (option vmeth))) : option vmeth * option (gmap string (option vmeth)) :=
  match mc with
  | None => (file_method f (va_func a), None)
  | Some c => match c !! meth_key a with Some m => (m, mc) | None => (file_method f (va_func a), Some (<[meth_key a := file_method f (va_func a)]> c)) end
  end.
(** The ReturnVars of a function or method at the index of the assignment (analysis.go 585-588, 639-642). *)
Definition fun_ret (f : vfile) (a : vasn) : option varg := match vf_funcs f !! va_func a with Some fn => fn_rets fn !! va_ret a | None => None end.
Definition meth_ret (m : option vmeth) (a : vasn) : option varg := match m with Some m => vm_rets m !! va_ret a | None => None end.
(** The loop over the files of the callee's package (analysis.go 584-662), up to the returned expression. *)
Fixpoint fetch (a : vasn) (fs : list vfile) (mc : option (gmap string (option vmeth))) : option varg * option (gmap string (option vmeth)) :=
  match fs with
  | [] => (None, mc)
  | f :: fs =>
      match fun_ret f a with
      | Some r => (Some r, mc)
      | None =>
          let '(m, mc) := cached_method f a mc in
          match meth_ret m a with Some r => (Some r, mc) | None => fetch a fs mc end
      end
  end.
(** One round of traceVariableOriginHelper: an answer that is cached, one that is not, another question, a question whose answer keeps the variable and package asked for,
    or a crash (analysis.go 537, 553, 570, 579, 593-595, 601-605, 647-649, 655-659, 664). *)
Inductive vstep := Answer (r : vres) | Found (r : vres) | Ask (q : vask) | AskFor (q : vask) | Crash.
(** An assignment (analysis.go 576-664). *)
Definition assigned_step (md : vmeta) (q : vask) (a : vasn) (mc : option (gmap string (option vmeth))) : vstep * option (gmap string (option vmeth)) :=
  if decide (v_kind (va_value a) = VIdent ∧ v_name (va_value a) ≠ q_var q) then (Ask (VAsk (v_name (va_value a)) (q_func q) (q_pkg q)), mc)
  else if decide (va_func a ≠ "" ∧ va_pkg a ≠ "") then
    match fetch a (vt_files md (va_pkg a)) mc with
    | (Some r, mc) =>
        (match peel r with
         | None => Crash
         | Some r => match v_kind r, v_named r with VIdent, Some n => AskFor (VAsk n (va_func a) (va_pkg a)) | _, _ => Found (VRes (v_name r) (va_pkg a) (Some r) (q_func q)) end
         end, mc)
    | (None, mc) => (Answer (VRes (q_var q) (q_pkg q) (Some (va_value a)) (q_func q)), mc)
    end
  else (Answer (VRes (q_var q) (q_pkg q) (Some (va_value a)) (q_func q)), mc).
(** The loop over the files of the package (analysis.go 565-667), and the fallback (669-682). *)
Fixpoint file_step (md : vmeta) (q : vask) (fs : list vfile) (mc : option (gmap string (option vmeth))) : vstep * option (gmap string (option vmeth)) :=
  match fs with
  | [] => (Answer (VRes (q_var q) (q_pkg q) None (q_func q)), mc)
  | f :: fs =>
      match vf_vars f !! q_var q with
      | Some t => (Answer (VRes (q_var q) (q_pkg q) (Some (v_typed t)) (q_func q)), mc)
      | None =>
          match fn ← vf_funcs f !! q_func q; l ← fn_asn fn !! q_var q; last l with
          | Some a => assigned_step md q a mc
          | None => file_step md q fs mc
          end
      end
  end.
(** The first call of the function (analysis.go 505-559); whether it is found by the index or by the scan makes no difference (types.go 298-325). *)
Definition first_call (md : vmeta) (q : vask) : option vcall := head (filter (λ c, vc_callee c = (q_func q, q_pkg q)) (vt_calls md)).
Definition ask_step (md : vmeta) (q : vask) (mc : option (gmap string (option vmeth))) : vstep * option (gmap string (option vmeth)) :=
  let files := file_step md q (vt_files md (q_pkg q)) mc in
  match first_call md q with
  | Some c =>
      let params := match vc_params c !! q_var q with Some t => (Ask (VAsk (arg_name t) (vc_caller c).1 (vc_caller c).2), mc) | None => files end in
      match vc_tparams c !! q_var q with
      | Some t => if decide (t = "") then params else (Answer (VRes (q_var q) (q_pkg q) (Some (v_typed t)) (vc_caller c).1), mc)
      | None => params
      end
  | None => files
  end.
(** cacheAndReturn (analysis.go 487-503, 676-681). Simplified: Packages is not empty. *)
Definition keep (q : vask) (r : vres) (st : vstate) : vstate := VState ((λ c, <[ask_key q := r]> c) <$> s_asked st) (s_meths st).
(** The outcome: an answer, a nil dereference, or that the depth allowed does not suffice (analysis.go 450-683; the code has no such bound). *)
Inductive vout := Done (r : vres) | Panic | Deeper.
(** What is kept of the answer for a returned variable (analysis.go 601-602, 655-656). *)
Definition as_of (q : vask) (o : vout) : vout := match o with Done r => Done (VRes (q_var q) (q_pkg q) (r_type r) (r_func r)) | o => o end.
(** traceVariableOriginHelper (analysis.go 450-683). *)
Fixpoint trace (depth : nat) (md : vmeta) (q : vask) (visited : gset string) (st : vstate) : vout * vstate :=
  match depth with
  | 0 => (Deeper, st)
  | S depth =>
      let none := VRes (q_var q) (q_pkg q) None (q_func q) in
      if decide (q_var q = "") then (Done none, st)
      else if decide (ask_key q ∈ visited) then (Done none, st)
      else match c ← s_asked st; c !! ask_key q with
           | Some r => (Done r, st)
           | None =>
               let '(s, mc) := ask_step md q (s_meths st) in
               let st := VState (s_asked st) mc in
               let visited := {[ask_key q]} ∪ visited in
               match s with
               | Answer r => (Done r, keep q r st)
               | Found r => (Done r, st)
               | Ask q' => trace depth md q' visited st
               | AskFor q' => let '(o, st) := trace depth md q' visited st in (as_of q' o, st)
               | Crash => (Panic, st)
               end
           end
  end.
(** The caches of metadata as it is generated (metadata.go 243-244), and as it is loaded. *)
Definition fresh : vstate := VState (Some ∅) (Some ∅).
Definition loaded : vstate := VState None None.
