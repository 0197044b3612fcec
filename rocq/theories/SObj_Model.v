(** Sparse matrix objects (SparseMatrix.h, SparseStorage.h 86-176): a dimension
    and three storages, each in a heap of its own ([allocate] never hands out the
    same block for two of them, so the heaps can be kept apart).

    Simplifications: element access through begin(), beginKey(), beginOffset();
    the cached norm and occupation are left out (they behave as in Obj_Model.v);
    IndexType is [nat]. *)
From Verif Require Import Base Storage_Model.

Section SObj.
Context {T : Type}.

(** nbRows_, nbColumns_, full_size_ (Dimension.h 42-129). *)
Record shdr := mkSHdr { sh_r : nat; sh_c : nat; sh_full : nat }.
(** value_, key_, offset_ (SparseStorage.h 172-174). *)
Record ssys := mkSsys { sy_val : sys T; sy_key : sys nat; sy_off : sys nat; sy_hdr : list shdr }.
Definition ssys0 : ssys := mkSsys sys0 sys0 sys0 [].

Inductive sop :=
| SDefault                          (* Matrix()                        160-163 *)
| SSized (r c n : nat)              (* Matrix(r, c, n)                 165-173 *)
| SCopyCtor (s : nat)               (* Matrix(s), default                   88 *)
| SMoveCtor (s : nat)               (* Matrix(move(s))                   92-97 *)
| SCopyAssign (d s : nat)           (* d = s, default                      102 *)
| SMoveAssign (d s : nat)           (* d = move(s)                     104-110 *)
| SSwap (a b : nat)                 (* swap(a, b)                      126-133 *)
| SResize (s r c n : nat)           (* s.resize(r, c, n)               262-270 *)
| SPutVal (s i : nat) (v : T)       (* s.begin()[i] = v                        *)
| SPutKey (s i k : nat)             (* s.beginKey()[i] = k                     *)
| SPutOff (s i k : nat)             (* s.beginOffset()[i] = k                  *)
| SGetVal (s i : nat)
| SGetKey (s i : nat)
| SGetOff (s i : nat)
| SDims (s : nat)                   (* getNbRows(), getNbColumns()             *)
| SSize (s : nat)                   (* getSize()                               *)
| SNnz (s : nat)                    (* nnz(), SparseStorage.h 154              *)
| SNoff (s : nat)                   (* sizeOffset(), 155                       *)
| SDestroy (s : nat).               (* ~Matrix(), default                   99 *)

Inductive sout := SNone | SThrew | SVal (c : option T) | SIdx (c : option nat) | SPair (a b : nat) | SNat (n : nat).

Definition shdr_of (m : ssys) (s : nat) : res shdr :=
  match nth_error (sy_hdr m) s with Some h => Ok h | None => UB DeadObject end.

(** The same kind of operation on the three storages, in the order of the
    members; an exception ends it. *)
Definition on3 (m : ssys) (ov : op T) (ok oo : op nat) (hs : list shdr) : res (ssys * sout) :=
  do r1 <- step (sy_val m) ov; let '(y1, x1) := r1 in
  match x1 with
  | OThrew => Ok (mkSsys y1 (sy_key m) (sy_off m) hs, SThrew)
  | _ =>
    do r2 <- step (sy_key m) ok; let '(y2, x2) := r2 in
    match x2 with
    | OThrew => Ok (mkSsys y1 y2 (sy_off m) hs, SThrew)
    | _ =>
      do r3 <- step (sy_off m) oo; let '(y3, x3) := r3 in
      Ok (mkSsys y1 y2 y3 hs, match x3 with OThrew => SThrew | _ => SNone end)
    end
  end.

(** Element access in one of the storages. *)
Definition sidx (x : out nat) : sout := match x with OVal c => SIdx c | OThrew => SThrew | ONone => SNone end.
Definition sval_out (x : out T) : sout := match x with OVal c => SVal c | OThrew => SThrew | ONone => SNone end.

Definition nnz_or_all (r c n : nat) : nat := if n =? 0 then r * c else n.

Definition sstep (m : ssys) (x : sop) : res (ssys * sout) :=
  let hs := sy_hdr m in
  match x with
  | SDefault => on3 m (OSized 0) (OSized 0) (OSized 0) (hs ++ [mkSHdr 0 0 0])
  | SSized r c n => on3 m (OSized (nnz_or_all r c n)) (OSized (nnz_or_all r c n)) (OSized (c + 1)) (hs ++ [mkSHdr r c (r * c)])
  | SCopyCtor s => do h <- shdr_of m s; on3 m (OCopyCtor s) (OCopyCtor s) (OCopyCtor s) (hs ++ [h])
  | SMoveCtor s => do h <- shdr_of m s; on3 m (OMoveCtor s) (OMoveCtor s) (OMoveCtor s) (hs ++ [h])
  | SCopyAssign d s => do h <- shdr_of m s; do _ <- shdr_of m d; on3 m (OCopyAssign d s) (OCopyAssign d s) (OCopyAssign d s) (upd hs d h)
  | SMoveAssign d s => do h <- shdr_of m s; do _ <- shdr_of m d; on3 m (OMoveAssign d s) (OMoveAssign d s) (OMoveAssign d s) (upd hs d h)
  | SSwap a b =>
      do h <- shdr_of m a; do k <- shdr_of m b;
      on3 m (OSwap a b) (OSwap a b) (OSwap a b)
        (upd (upd hs a (mkSHdr (sh_r k) (sh_c k) (sh_full h))) b (mkSHdr (sh_r h) (sh_c h) (sh_full k)))
  | SResize s r c n =>
      do _ <- shdr_of m s;
      on3 m (OResize s (nnz_or_all r c n)) (OResize s (nnz_or_all r c n)) (OResize s (c + 1)) (upd hs s (mkSHdr r c (r * c)))
  | SPutVal s i v => do q <- step (sy_val m) (OWrite s i v); let '(y, x) := q in Ok (mkSsys y (sy_key m) (sy_off m) hs, sval_out x)
  | SPutKey s i k => do q <- step (sy_key m) (OWrite s i k); let '(y, x) := q in Ok (mkSsys (sy_val m) y (sy_off m) hs, sidx x)
  | SPutOff s i k => do q <- step (sy_off m) (OWrite s i k); let '(y, x) := q in Ok (mkSsys (sy_val m) (sy_key m) y hs, sidx x)
  | SGetVal s i => do q <- step (sy_val m) (ORead s i); let '(y, x) := q in Ok (m, sval_out x)
  | SGetKey s i => do q <- step (sy_key m) (ORead s i); let '(y, x) := q in Ok (m, sidx x)
  | SGetOff s i => do q <- step (sy_off m) (ORead s i); let '(y, x) := q in Ok (m, sidx x)
  | SDims s => do _ <- get_obj (sy_val m) s; do h <- shdr_of m s; Ok (m, SPair (sh_r h) (sh_c h))
  | SSize s => do _ <- get_obj (sy_val m) s; do h <- shdr_of m s; Ok (m, SNat (sh_full h))
  | SNnz s => do o <- get_obj (sy_val m) s; Ok (m, SNat (st_size o))
  | SNoff s => do o <- get_obj (sy_off m) s; Ok (m, SNat (st_size o))
  | SDestroy s => on3 m (ODestroy s) (ODestroy s) (ODestroy s) hs
  end.

Fixpoint srun (m : ssys) (ops : list sop) : res (ssys * list sout) :=
  match ops with
  | [] => Ok (m, [])
  | x :: t => do r <- sstep m x; let '(m1, z) := r in do r2 <- srun m1 t; let '(m2, zs) := r2 in Ok (m2, z :: zs)
  end.
End SObj.
Arguments ssys : clear implicits. Arguments sop : clear implicits. Arguments sout : clear implicits.
