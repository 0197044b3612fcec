(** Model of the comparisons with the cached norm and occupation.  Sources
    (include/BlasBooster/Core): NormPolicy.h 20-38, OccupationPolicy.h 31-49,
    ZeroMatrix.h 104-150, DynamicMatrixFunctions.h 85-110, MultipleMatrix.h 84-97.

    Builds on the objects with caches of Check_Model.v; the norm is a double.
    [size_of] is getSize() of the contents. *)
From Verif Require Import Base Dyn_Model Check_Model Norm_Model Sparse_Model Dense_Model.

Section Query.
Context {F D : Type} (ar : arith F D) {C : Type}.
Context (norm_of : C -> D) (count_of : (D -> bool) -> C -> nat) (size_of : C -> nat) (moved : C -> C) (empty : C).

(** NormPolicy.h 26-30: [norm_ > value]. *)
Definition o_normLarger (o : obj D C D) (x : D) : obj D C D * bool :=
  let '(o, n) := o_getNorm norm_of o in (o, ltD ar x n).
(** NormPolicy.h 32-36: [norm_ < value]. *)
Definition o_normSmaller (o : obj D C D) (x : D) : obj D C D * bool :=
  let '(o, n) := o_getNorm norm_of o in (o, ltD ar n x).
(** OccupationPolicy.h 31-37. *)
Definition o_getOcc (k : checker D) (o : obj D C D) : res (obj D C D * D) :=
  do r <- o_getCount ar count_of k o;
  let '(o, n) := r in Ok (o, quotD ar n (size_of (o_c o))).
(** OccupationPolicy.h 39-43. *)
Definition o_occLarger (x : D) (k : checker D) (o : obj D C D) : res (obj D C D * bool) :=
  do r <- o_getOcc k o; let '(o, q) := r in Ok (o, ltD ar x q).
(** OccupationPolicy.h 45-49. *)
Definition o_occSmaller (x : D) (k : checker D) (o : obj D C D) : res (obj D C D * bool) :=
  do r <- o_getOcc k o; let '(o, q) := r in Ok (o, ltD ar q x).

(** Programs: those of Check_Model.v and the queries. *)
Inductive qop :=
| QBase (x : op D C)
| QNormLarger (v : nat) (x : D) | QNormSmaller (v : nat) (x : D)
| QOcc (v : nat) (k : checker D)
| QOccLarger (v : nat) (x : D) (k : checker D) | QOccSmaller (v : nat) (x : D) (k : checker D).
(** Answers, with the question and the contents of the object when it was asked. *)
Inductive qout :=
| ABase (o : out D C D)
| ANormLarger (b : bool) (x : D) (c : C) | ANormSmaller (b : bool) (x : D) (c : C)
| AOcc (q : D) (k : checker D) (c : C)
| AOccLarger (b : bool) (x : D) (k : checker D) (c : C) | AOccSmaller (b : bool) (x : D) (k : checker D) (c : C).

Definition qstep (e : env (D:=D) (C:=C) (N:=D)) (x : qop) : res (env (D:=D) (C:=C) (N:=D) * list qout) :=
  match x with
  | QBase x => do s <- step ar norm_of count_of moved e x; let '(e, o) := s in Ok (e, map ABase o)
  | QNormLarger v x => let '(o, b) := o_normLarger (e v) x in Ok (eset e v o, [ANormLarger b x (o_c (e v))])
  | QNormSmaller v x => let '(o, b) := o_normSmaller (e v) x in Ok (eset e v o, [ANormSmaller b x (o_c (e v))])
  | QOcc v k => do s <- o_getOcc k (e v); let '(o, q) := s in Ok (eset e v o, [AOcc q k (o_c (e v))])
  | QOccLarger v x k => do s <- o_occLarger x k (e v); let '(o, b) := s in Ok (eset e v o, [AOccLarger b x k (o_c (e v))])
  | QOccSmaller v x k => do s <- o_occSmaller x k (e v); let '(o, b) := s in Ok (eset e v o, [AOccSmaller b x k (o_c (e v))])
  end.
Fixpoint qrun (e : env (D:=D) (C:=C) (N:=D)) (l : list qop) : res (env (D:=D) (C:=C) (N:=D) * list qout) :=
  match l with
  | [] => Ok (e, [])
  | x :: r => do s <- qstep e x; let '(e, o) := s in do t <- qrun e r; let '(e, o') := t in Ok (e, o ++ o')
  end.

(** ZeroMatrix.h 104-122: the policies of a Zero matrix. *)
Definition z_normLarger (x : D) : bool := ltD ar x (d0 ar).
Definition z_normSmaller (x : D) : bool := ltD ar (d0 ar) x.
(** ZeroMatrix.h 130-150; the threshold is not used. *)
Definition z_occ (k : D) : D := d0 ar.
Definition z_occLarger (x k : D) : bool := ltD ar x (d0 ar).
Definition z_occSmaller (x k : D) : bool := ltD ar (d0 ar) x.
End Query.
Arguments qop : clear implicits. Arguments qout : clear implicits.

(** DynamicMatrixFunctions.h 85-110 with MultipleMatrix.h 92-97: through the
    run-time type, with empty caches.  (result_type is double: the bool is
    converted to 0.0/1.0 and back.) *)
Definition normLarger_ptr {F D} (ar : arith F D) (nx : nops F D) (exc dbg : bool) (p : option (dyn F D)) (x : D) : res bool :=
  exec_member exc dbg (fun d => match d with
    | DL l => do n <- norm_leaf ar nx NTwo l; Ok (ltD ar x n)
    | DM _ _ _ _ => do _ <- core_failure exc dbg; Ok false
    end) p.
