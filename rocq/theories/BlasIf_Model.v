(** The BLAS interface: BlasInterface<Library, Function>::operator() of
    src/Interfaces/{OpenBLAS,IntelMKL}/*.cpp, and the templates they are generated from.

    Simplifications: a pointer argument is an abstract address; what a library routine
    does with the memory is a parameter; text layout is left out (a definition is a
    syntax tree). *)
From Verif Require Import Base.
Require Import String DecimalString.
Local Open Scope string_scope. Local Open Scope list_scope.

(** The types that occur (std::complex<float> is C32). *)
Inductive ctype := Int | Char | F32 | F64 | C32 | C64 | Void.
Definition ctype_eqb (a b : ctype) : bool :=
  match a, b with Int, Int | Char, Char | F32, F32 | F64, F64 | C32, C32 | C64, C64 | Void, Void => true | _, _ => false end.

(** Entry of FunctionList.yml, or a declaration: return type, name, pointer parameters
    (points to const?, type). *)
Record fn := mkFn { f_ret : ctype; f_name : string; f_args : list (bool * ctype) }.

(** An argument expression [v] or [&v]. *)
Inductive arg := Var (x : string) | AddrOf (x : string).
(** [return ::callee(args);], or [type result; ::callee(args); return result;]. *)
Inductive wbody :=
| RetCall (callee : string) (args : list arg)
| LocalCall (ty : ctype) (local : string) (callee : string) (args : list arg) (returned : string).
(** The definition of one operator(): return type, function tag, named parameters, body. *)
Record wrapper := mkW { w_ret : ctype; w_fun : string; w_params : list ((bool * ctype) * string); w_body : wbody }.

(** Name of the parameter at position [i]: v{{loop.index0}}. *)
Definition var_name (i : nat) : string := ("v" ++ NilEmpty.string_of_uint (Nat.to_uint i))%string.

(** BlasInterface_OpenBLAS.cpp.pre 13-25, BlasInterface_IntelMKL.cpp.pre 16-28 (prefix "",
    suffix "_") and 30-42 (prefix "mkl_", suffix ""): one definition per entry. *)
Definition forward (prefix suffix : string) (f : fn) : wrapper :=
  let names := map var_name (seq 0 (List.length (f_args f))) in
  mkW (f_ret f) (f_name f) (combine (f_args f) names) (RetCall (prefix ++ f_name f ++ suffix)%string (map Var names)).

(** BlasInterface_OpenBLAS.cpp.pre 27-57, BlasInterface_IntelMKL.cpp.pre 44-74: the complex
    dot products, written out in the template. *)
Definition dot_def (ty : ctype) (n : string) : wrapper :=
  mkW ty n [((true, Int), "v1"); ((true, ty), "v2"); ((true, Int), "v3"); ((true, ty), "v4"); ((true, Int), "v5")]
    (LocalCall ty "result" (n ++ "_")%string [AddrOf "result"; Var "v1"; Var "v2"; Var "v3"; Var "v4"; Var "v5"] "result").
Definition dot_defs : list wrapper := [dot_def C32 "cdotc"; dot_def C32 "cdotu"; dot_def C64 "zdotc"; dot_def C64 "zdotu"].

(** The generated files, as functions of the sections of FunctionList.yml:
    BlasInterface_OpenBLAS.cpp.pre, BlasInterface_IntelMKL.cpp.pre. *)
Definition gen_openblas_cpp (blas : list fn) : list wrapper := map (forward "" "_") blas ++ dot_defs.
Definition gen_mkl_cpp (blas sp : list fn) : list wrapper :=
  map (forward "" "_") blas ++ map (forward "mkl_" "") sp ++ dot_defs.
(** BlasInterface_OpenBLAS.h.pre 12-34, BlasInterface_IntelMKL.h.pre 12-46. *)
Definition gen_openblas_h (blas zdot : list fn) : list fn := blas ++ zdot.
Definition gen_mkl_h (blas zdot sp : list fn) : list fn := blas ++ zdot ++ sp.
(** Blas.h.pre 7-19, IntelMKL_SpBlas.h.pre 5-10. *)
Definition rename (prefix suffix : string) (f : fn) : fn := mkFn (f_ret f) (prefix ++ f_name f ++ suffix)%string (f_args f).
Definition gen_blas_h (blas zdot_no_return : list fn) : list fn := map (rename "" "_") (blas ++ zdot_no_return).
Definition gen_spblas_h (sp : list fn) : list fn := map (rename "mkl_" "") sp.
(** FunctionTypes.h.pre 7-28: tag and the string its name() returns. *)
Definition gen_function_types (blas zdot sp : list fn) : list (string * string) :=
  map (fun f => (f_name f, f_name f)) (blas ++ zdot ++ sp).

(** ** What a call does. *)
Section Run.
Context {A V : Type} (aeq : forall x y : A, {x = y} + {x <> y}).

(** Memory: what an address holds; [None]: not allocated, [Some None]: uninitialised. *)
Definition mem := A -> option (option V).
Definition set_mem (m : mem) (a : A) (v : option (option V)) : mem := fun b => if aeq b a then v else m b.
(** A library routine, called with addresses, returns a value (none if void) and changes
    the memory. *)
Definition library := string -> list A -> mem -> option V * mem.

Fixpoint lookup (x : string) (env : list (string * A)) : option A :=
  match env with [] => None | (y, a) :: env => if String.eqb x y then Some a else lookup x env end.
(** The addresses an argument list stands for: parameters hold addresses, [&x] is the
    address of the local variable. *)
Fixpoint eval_args (params locals : list (string * A)) (l : list arg) : option (list A) :=
  match l with
  | [] => Some []
  | e :: l =>
      match (match e with Var x => lookup x params | AddrOf x => lookup x locals end), eval_args params locals l with
      | Some a, Some r => Some (a :: r)
      | _, _ => None
      end
  end.

(** One call of the interface: the operator()'s body, for the given arguments; [fresh] is
    the address of its local variable.  Reading an uninitialised result is UB. *)
Definition call (lib : library) (fresh : A) (w : wrapper) (args : list A) (m : mem) : res (option V * mem) :=
  let params := combine (map snd (w_params w)) args in
  match w_body w with
  | RetCall callee l =>
      match eval_args params [] l with
      | Some vs => Ok (lib callee vs m)
      | None => AssertFail
      end
  | LocalCall ty x callee l r =>
      match eval_args params [(x, fresh)] l with
      | Some vs =>
          let m' := snd (lib callee vs (set_mem m fresh (Some None))) in
          if String.eqb r x then
            match m' fresh with
            | Some (Some v) => Ok (Some v, set_mem m' fresh None)
            | _ => UB UninitRead
            end
          else AssertFail
      | None => AssertFail
      end
  end.
End Run.

(** ** What the compiler checks. *)
(** The pointer types agree, const may be added. *)
Definition converts (a b : bool * ctype) : bool := ctype_eqb (snd a) (snd b) && implb (fst a) (fst b).
Definition arg_type (params : list ((bool * ctype) * string)) (local : option (string * ctype)) (e : arg) : option (bool * ctype) :=
  match e with
  | Var x => option_map fst (find (fun p => String.eqb x (snd p)) params)
  | AddrOf x => match local with Some (y, t) => if String.eqb x y then Some (false, t) else None | None => None end
  end.
Fixpoint args_ok (params : list ((bool * ctype) * string)) (local : option (string * ctype)) (l : list arg) (ps : list (bool * ctype)) : bool :=
  match l, ps with
  | [], [] => true
  | e :: l, p :: ps => match arg_type params local e with Some t => converts t p | None => false end && args_ok params local l ps
  | _, _ => false
  end.
Fixpoint distinct (l : list string) : bool :=
  match l with [] => true | x :: l => negb (existsb (String.eqb x) l) && distinct l end.
(** The definition compiles against the library prototypes [protos]. *)
Definition compiles (protos : list fn) (w : wrapper) : bool :=
  distinct (map snd (w_params w)) &&
  match w_body w with
  | RetCall callee l =>
      match find (fun p => String.eqb callee (f_name p)) protos with
      | Some p => ctype_eqb (f_ret p) (w_ret w) && args_ok (w_params w) None l (f_args p)
      | None => false
      end
  | LocalCall ty x callee l r =>
      match find (fun p => String.eqb callee (f_name p)) protos with
      | Some p => args_ok (w_params w) (Some (x, ty)) l (f_args p) && String.eqb r x && ctype_eqb ty (w_ret w)
      | None => false
      end
  end.
