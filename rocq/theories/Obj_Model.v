(** Model of whole programs over dense matrix objects of one type
    [Matrix<Dense,T,P>] with run-time dimensions, not sub-matrices, on the heap
    of Storage_Model.v.  Sources (include/BlasBooster/Core): DenseMatrix.h
    197-246, 287-295, 336-359, 679-745, Dimension.h 42-129, 151-177, NormPolicy.h.

    A matrix object is the header [hdr] (its Dimension, UnblockedDimension and
    NormPolicy bases) plus its Storage base, which is the storage object with
    the same number in the storage system.

    Simplifications: size_t products do not wrap; the policy [NormPolicy] is
    modelled by the option [h_norm] ([Some n]: isNormUpToDate_, norm_ = n); the
    norm itself is a parameter; the occupation cache is Check_Model.v. *)
From Verif Require Export Storage_Model Dense_Model.

Section Obj.
Context {T N : Type}.
(** Orientation of the matrix type; asserts compiled in or not. *)
Context (o : orient) (dbg : bool).
(** norm<NormType>(matrix) computed from rows, columns and memory (Norm.h), and
    equalWithinNumericalAccuracy on elements. *)
Context (norm_of : nat -> nat -> buf T -> res N) (eqv : T -> T -> bool).

(** Dimension.h 117-119 (nbRows_, nbColumns_, full_size_), 174-175 (ubRows_,
    ubColumns_; a non-blocked matrix has no such members and never reads them),
    NormPolicy.h 50-54. *)
Record hdr := mkHdr { h_rows : nat; h_cols : nat; h_full : nat; h_ubr : nat; h_ubc : nat;
                      h_norm : option N }.
Record msys := mkMsys { m_sys : sys T; m_hdr : list hdr }.
Definition msys0 : msys := mkMsys sys0 [].

Inductive mop :=
| MDefault                           (* Matrix()                              336 *)
| MSized (r c : nat)                 (* Matrix(r, c)                          341 *)
| MSizedB (r c ur uc : nat)          (* BlockedMatrix(r, c, ur, uc)           351 *)
| MCopyCtor (s : nat)                (* Matrix(s)                             197 *)
| MMoveCtor (s : nat)                (* Matrix(std::move(s))                  200 *)
| MCopyAssign (d s : nat)            (* d = s                                 211 *)
| MMoveAssign (d s : nat)            (* d = std::move(s)                      214 *)
| MSwap (a b : nat)                  (* swap(a, b)                            287 *)
| MResize (s r c : nat)              (* s.resize(r, c)                        690 *)
| MResizeB (s r c ur uc : nat)       (* s.resize(r, c, ur, uc)                701 *)
| MAll (s : nat) (v : T)             (* s = v                                 680 *)
| MWrite (s i j : nat) (v : T)       (* s(i, j) = v                           713 *)
| MRead (s i j : nat)                (* s(i, j)                               719 *)
| MDims (s : nat)                    (* s.getNbRows(), s.getNbColumns()           *)
| MSize (s : nat)                    (* s.getSize()                               *)
| MUb (s : nat)                      (* s.getUnblockedRows(), ...Columns()        *)
| MNorm (s : nat)                    (* s.getNorm()                               *)
| MEqual (a b : nat)                 (* a.equal(b)                            248 *)
| MSame (a b : nat)                  (* a == b                                239 *)
| MDestroy (s : nat).                (* ~Matrix()                             208 *)

Inductive mout :=
| MNone | MThrew | MVal (c : option T) | MPair (a b : nat) | MNat (n : nat)
| MNormIs (n : N) | MBool (b : bool).

Definition of_out (x : out T) : mout :=
  match x with ONone => MNone | OThrew => MThrew | OVal c => MVal c end.

Definition hdr_of (m : msys) (s : nat) : res hdr :=
  match nth_error (m_hdr m) s with Some h => Ok h | None => UB DeadObject end.

(** Run the storage part [so] of an operation, then put the headers [hs]. *)
Definition with_storage (m : msys) (so : op T) (hs : list hdr) : res (msys * mout) :=
  do r <- step (m_sys m) so; let '(y, x) := r in Ok (mkMsys y hs, of_out x).

(** The memory of a matrix: data_[0..size_). *)
Definition mem_of (m : msys) (s : nat) : res (buf T) :=
  do r <- get_obj (m_sys m) s; h_read (blocks (m_sys m)) (st_data r) (st_size r).

Definition mstep (m : msys) (x : mop) : res (msys * mout) :=
  let hs := m_hdr m in
  match x with
  | MDefault => with_storage m ODefault (hs ++ [mkHdr 0 0 0 0 0 None])
  | MSized r c => with_storage m (OSized (r * c)) (hs ++ [mkHdr r c (r * c) 0 0 None])
  | MSizedB r c ur uc => with_storage m (OSized (r * c)) (hs ++ [mkHdr r c (r * c) ur uc None])
  | MCopyCtor s => do h <- hdr_of m s; with_storage m (OCopyCtor s) (hs ++ [h])
  | MMoveCtor s =>
      (* only the dimension and storage bases are initialised from the source;
         their move leaves nbRows_, nbColumns_, full_size_ of the source alone *)
      do h <- hdr_of m s;
      with_storage m (OMoveCtor s) (hs ++ [mkHdr (h_rows h) (h_cols h) (h_full h) 0 0 None])
  | MCopyAssign d s => do h <- hdr_of m s; do _ <- hdr_of m d; with_storage m (OCopyAssign d s) (upd hs d h)
  | MMoveAssign d s =>
      do h <- hdr_of m s; do k <- hdr_of m d;
      with_storage m (OMoveAssign d s)
        (upd hs d (mkHdr (h_rows h) (h_cols h) (h_full h) (h_ubr h) (h_ubc h) (h_norm k)))
  | MSwap a b =>
      do h <- hdr_of m a; do k <- hdr_of m b;
      with_storage m (OSwap a b)
        (upd (upd hs a (mkHdr (h_rows k) (h_cols k) (h_full h) (h_ubr h) (h_ubc h) (h_norm h)))
                  b (mkHdr (h_rows h) (h_cols h) (h_full k) (h_ubr k) (h_ubc k) (h_norm k)))
  | MResize s r c =>
      do h <- hdr_of m s;
      with_storage m (OResize s (r * c)) (upd hs s (mkHdr r c (r * c) (h_ubr h) (h_ubc h) (h_norm h)))
  | MResizeB s r c ur uc =>
      do h <- hdr_of m s;
      with_storage m (OResize s (r * c)) (upd hs s (mkHdr r c (h_full h) ur uc (h_norm h)))
  | MAll s v => do _ <- hdr_of m s; with_storage m (OFill s v) hs
  | MWrite s i j v =>
      do h <- hdr_of m s;
      do p <- position dbg (own_shape o (h_rows h) (h_cols h)) i j;
      with_storage m (OWrite s p v) hs
  | MRead s i j =>
      do h <- hdr_of m s;
      do p <- position dbg (own_shape o (h_rows h) (h_cols h)) i j;
      with_storage m (ORead s p) hs
  | MDims s => do _ <- get_obj (m_sys m) s; do h <- hdr_of m s; Ok (m, MPair (h_rows h) (h_cols h))
  | MSize s => do _ <- get_obj (m_sys m) s; do h <- hdr_of m s; Ok (m, MNat (h_full h))
  | MUb s => do _ <- get_obj (m_sys m) s; do h <- hdr_of m s; Ok (m, MPair (h_ubr h) (h_ubc h))
  | MNorm s =>
      (* NormPolicy.h 20-24, 40-46 *)
      do h <- hdr_of m s;
      do b <- mem_of m s;
      match h_norm h with
      | Some n => Ok (m, MNormIs n)
      | None =>
          do n <- norm_of (h_rows h) (h_cols h) b;
          Ok (mkMsys (m_sys m) (upd hs s (mkHdr (h_rows h) (h_cols h) (h_full h) (h_ubr h) (h_ubc h) (Some n))),
              MNormIs n)
      end
  | MEqual a b =>
      do h <- hdr_of m a; do k <- hdr_of m b;
      do x <- mem_of m a; do y <- mem_of m b;
      do e <- (if length x =? length y then buf_equal eqv x y else Ok false);
      Ok (m, MBool (e && (h_rows h =? h_rows k) && (h_cols h =? h_cols k)))
  | MSame a b =>
      (* Storage.h 414-420, Dimension.h 68-71 *)
      do h <- hdr_of m a; do k <- hdr_of m b;
      do x <- get_obj (m_sys m) a; do y <- get_obj (m_sys m) b;
      Ok (m, MBool (match st_data x, st_data y with
                    | None, None => true
                    | Some p, Some q => p =? q
                    | _, _ => false
                    end && (st_size x =? st_size y) && Bool.eqb (st_own x) (st_own y)
                    && (h_rows h =? h_rows k) && (h_cols h =? h_cols k)))
  | MDestroy s => do _ <- hdr_of m s; with_storage m (ODestroy s) hs
  end.

Fixpoint mrun (m : msys) (ops : list mop) : res (msys * list mout) :=
  match ops with
  | [] => Ok (m, [])
  | x :: t =>
      do r <- mstep m x; let '(m1, z) := r in
      do r2 <- mrun m1 t; let '(m2, zs) := r2 in Ok (m2, z :: zs)
  end.
End Obj.
Arguments mop : clear implicits. Arguments mout : clear implicits. Arguments hdr : clear implicits.
Arguments msys : clear implicits.
