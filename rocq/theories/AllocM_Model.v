(** Matrix objects when memory runs out, on top of Obj_Model.v (dense) and
    SObj_Model.v (sparse). *)
From Verif Require Export Alloc_Model Obj_Model SObj_Model.

Section Dense.
Context {T N : Type}.
Context (o : orient) (dbg : bool).
Context (norm_of : nat -> nat -> buf T -> res N) (eqv : T -> T -> bool).

Inductive amout := AMOut (x : mout T N) | AMBad.

(** Put the headers [hs] (the dimension bases come before the storage base), then
    run the storage part with a failing allocation; [hs1] are the headers if it
    does not fail. *)
Definition failing (m : msys T N) (so : op T) (hs hs1 : list (hdr N)) : res (msys T N * amout) :=
  do r <- astep (m_sys m) (so, false);
  let '(y, x) := r in
  Ok (match x with ABad => (mkMsys y hs, AMBad) | AOut z => (mkMsys y hs1, AMOut (of_out z)) end).

Definition amstep (m : msys T N) (c : mop T * bool) : res (msys T N * amout) :=
  let '(x, ok) := c in
  let usual := (do r <- mstep o dbg norm_of eqv m x; Ok (fst r, AMOut (snd r))) in
  let hs := m_hdr m in
  if ok then usual
  else
    match x with
    | MSized _ _ | MSizedB _ _ _ _ => Ok (m, AMBad)      (* DenseMatrix.h 341-359: no object is made *)
    | MCopyCtor s => do _ <- hdr_of m s; do _ <- get_obj (m_sys m) s; Ok (m, AMBad)      (* 197 *)
    | MCopyAssign d s =>
        (* 211, default: the bases in the order of lines 38-44 (dimension,
           leadingDimension, unblockedDimension, storage, NormPolicy) *)
        do h <- hdr_of m s; do k <- hdr_of m d;
        failing m (OCopyAssign d s)
          (upd hs d (mkHdr (h_rows h) (h_cols h) (h_full h) (h_ubr h) (h_ubc h) (h_norm k))) (upd hs d h)
    | MResize s r c =>
        (* 691-697: line 694 before line 695 *)
        do h <- hdr_of m s;
        let hs' := upd hs s (mkHdr r c (r * c) (h_ubr h) (h_ubc h) (h_norm h)) in
        failing m (OResize s (r * c)) hs' hs'
    | MResizeB s r c ur uc =>
        (* 701-710 *)
        do h <- hdr_of m s;
        let hs' := upd hs s (mkHdr r c (h_full h) ur uc (h_norm h)) in
        failing m (OResize s (r * c)) hs' hs'
    | _ => usual
    end.

Fixpoint amrun (m : msys T N) (cs : list (mop T * bool)) : res (msys T N * list amout) :=
  match cs with
  | [] => Ok (m, [])
  | c :: t =>
      do r <- amstep m c; let '(m1, x) := r in
      do r2 <- amrun m1 t; let '(m2, xs) := r2 in Ok (m2, x :: xs)
  end.
End Dense.
Arguments amout : clear implicits.

Section Sparse.
Context {T : Type}.

(** Which of the allocations of one call succeed: value_, key_, offset_. *)
Record flags := mkFlags { fl_val : bool; fl_key : bool; fl_off : bool }.
Inductive asout := ASOut (x : sout T) | ASBad.

(** A member constructed and destroyed again, because a later member of the same
    object threw (SparseStorage.h 101-113, members in the order 172-174). *)
Definition undone {U} (y : sys U) (ctor : op U) : res (sys U) :=
  do r <- step y ctor;
  do r2 <- step (fst r) (ODestroy (length (objs y)));
  Ok {| blocks := blocks (fst r2); objs := objs y |}.

(** A constructor. *)
Definition ctor3 (m : ssys T) (f : flags) (ov : op T) (ok oo : op nat) (hs : list shdr) : res (ssys T * asout) :=
  if negb (fl_val f) then Ok (m, ASBad)
  else if negb (fl_key f) then
    do y1 <- undone (sy_val m) ov; Ok (mkSsys y1 (sy_key m) (sy_off m) (sy_hdr m), ASBad)
  else if negb (fl_off f) then
    do y1 <- undone (sy_val m) ov; do y2 <- undone (sy_key m) ok;
    Ok (mkSsys y1 y2 (sy_off m) (sy_hdr m), ASBad)
  else do r <- on3 m ov ok oo hs; Ok (fst r, ASOut (snd r)).

(** An assignment or a resize: the dimension first, then the three storages
    (SparseStorage.h 115-119); an exception ends it. *)
Definition change3 (m : ssys T) (f : flags) (ov : op T) (ok oo : op nat) (hs : list shdr) : res (ssys T * asout) :=
  do r1 <- astep (sy_val m) (ov, fl_val f); let '(y1, x1) := r1 in
  match x1 with
  | ABad => Ok (mkSsys y1 (sy_key m) (sy_off m) hs, ASBad)
  | AOut OThrew => Ok (mkSsys y1 (sy_key m) (sy_off m) hs, ASOut SThrew)
  | _ =>
    do r2 <- astep (sy_key m) (ok, fl_key f); let '(y2, x2) := r2 in
    match x2 with
    | ABad => Ok (mkSsys y1 y2 (sy_off m) hs, ASBad)
    | AOut OThrew => Ok (mkSsys y1 y2 (sy_off m) hs, ASOut SThrew)
    | _ =>
      do r3 <- astep (sy_off m) (oo, fl_off f); let '(y3, x3) := r3 in
      Ok (mkSsys y1 y2 y3 hs, match x3 with ABad => ASBad | AOut OThrew => ASOut SThrew | _ => ASOut SNone end)
    end
  end.

Definition asstep (m : ssys T) (c : sop T * flags) : res (ssys T * asout) :=
  let '(x, f) := c in
  let hs := sy_hdr m in
  match x with
  | SDefault => ctor3 m f (OSized 0) (OSized 0) (OSized 0) (hs ++ [mkSHdr 0 0 0])
  | SSized r c n => ctor3 m f (OSized (nnz_or_all r c n)) (OSized (nnz_or_all r c n)) (OSized (c + 1)) (hs ++ [mkSHdr r c (r * c)])
  | SCopyCtor s => do h <- shdr_of m s; do _ <- get_obj (sy_val m) s; ctor3 m f (OCopyCtor s) (OCopyCtor s) (OCopyCtor s) (hs ++ [h])
  | SCopyAssign d s => do h <- shdr_of m s; do _ <- shdr_of m d; change3 m f (OCopyAssign d s) (OCopyAssign d s) (OCopyAssign d s) (upd hs d h)
  | SResize s r c n =>
      do _ <- shdr_of m s;
      change3 m f (OResize s (nnz_or_all r c n)) (OResize s (nnz_or_all r c n)) (OResize s (c + 1)) (upd hs s (mkSHdr r c (r * c)))
  | _ => do r <- sstep m x; Ok (fst r, ASOut (snd r))
  end.

Fixpoint asrun (m : ssys T) (cs : list (sop T * flags)) : res (ssys T * list asout) :=
  match cs with
  | [] => Ok (m, [])
  | c :: t =>
      do r <- asstep m c; let '(m1, x) := r in
      do r2 <- asrun m1 t; let '(m2, xs) := r2 in Ok (m2, x :: xs)
  end.
End Sparse.
Arguments asout : clear implicits.
