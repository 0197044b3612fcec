(** Model of whole programs over column-major dense matrices with run-time
    dimensions and windows (sub-matrices) into them, on the heap of
    Storage_Model.v.  Sources (include/BlasBooster/Core): DenseMatrix.h 197-221,
    260-278, 287-295, 341-349, 361-366, 419-436, 476-495, 680-722, 724-764;
    Dimension.h 42-129, 134-160; Storage.h 505-662.

    A matrix object is its dimensions plus the storage object with the same
    number; a window object is a pointer, dimensions, leading dimensions and the
    striped storage's separator.  Matrices and windows are numbered separately.

    Simplifications: size_t products and pointer offsets do not wrap (except the
    separator and the striped iterator, see Dense_Model.v); [continuousSize_] and
    [nbBlocks_] of the striped storage always equal the window's rows and columns
    (they are set and copied together) and are not stored twice; norm caches and
    getSize() are Obj_Model.v. *)
From Verif Require Export Storage_Model Dense_Model.

Section WObj.
Context {T : Type}.
(** Asserts compiled in or not. *)
Context (dbg : bool).

(** A window: Storage.h 650-658 ([data_] as block and offset, [separatorSize_]),
    Dimension.h 117-119, 143-146. *)
Record win := mkWin { w_data : option nat; w_off : nat; w_rows : nat; w_cols : nat;
                      w_ldr : nat; w_ldc : nat; w_sep : Z }.
Record wsys := mkWsys { w_sys : sys T; w_dims : list (nat * nat); w_wins : list (option win) }.
Definition wsys0 : wsys := mkWsys sys0 [] [].

Inductive wop :=
| WSized (r c : nat)                  (* Matrix(r, c)                            341 *)
| WCaller (vs : buf T)                (* the caller creates memory of its own        *)
| WExternal (blk r c : nat)           (* Matrix(r, c, ptr to caller memory blk)  361 *)
| WCopyCtor (s : nat)                 (* Matrix(s)                               197 *)
| WMoveCtor (s : nat)                 (* Matrix(std::move(s))                    200 *)
| WCopyAssign (d s : nat)             (* d = s                                   211 *)
| WMoveAssign (d s : nat)             (* d = std::move(s)                        214 *)
| WSwap (a b : nat)                   (* swap(a, b)                              287 *)
| WResize (s r c : nat)               (* s.resize(r, c)                          690 *)
| WAll (s : nat) (v : T)              (* s = v                                   680 *)
| WWrite (s i j : nat) (v : T)        (* s(i, j) = v                             713 *)
| WRead (s i j : nat)                 (* s(i, j)                                 719 *)
| WDestroy (s : nat)                  (* ~Matrix()                               208 *)
| VNew (s nr nc br bc : nat)          (* SubMatrix(s, nr, nc, br, bc)            419 *)
| VCopy (w : nat)                     (* SubMatrix(w)                            197 *)
| VMove (w : nat)                     (* SubMatrix(std::move(w))                 200 *)
| VAssign (d w : nat)                 (* d = w                                   211 *)
| VMoveAssign (d w : nat)             (* d = std::move(w)                        214 *)
| VAll (w : nat) (v : T)              (* w = v                                   680 *)
| VWrite (w i j : nat) (v : T)        (* w(i, j) = v                             713 *)
| VRead (w i j : nat)                 (* w(i, j)                                 719 *)
| VDims (w : nat)                     (* w.getNbRows(), w.getNbColumns()             *)
| VLd (w : nat)                       (* w.getLdRows(), w.getLdColumns()     260-278 *)
| VDense (w : nat) (chk : T -> bool) (z : T)
                                      (* Matrix(w, checker); z is the 0      476-495 *)
| VDestroy (w : nat).                 (* ~SubMatrix()                                *)

Inductive wout := WNone | WThrew | WVal (c : option T) | WPair (a b : nat).
Definition wof (x : out T) : wout := match x with ONone => WNone | OThrew => WThrew | OVal c => WVal c end.

Definition dims_of (m : wsys) (s : nat) : res (nat * nat) :=
  match nth_error (w_dims m) s with Some d => Ok d | None => UB DeadObject end.
Definition win_of (m : wsys) (w : nat) : res win :=
  match nth_error (w_wins m) w with Some (Some x) => Ok x | _ => UB DeadObject end.

(** The storage part [so] of an operation, then the dimensions [ds]. *)
Definition w_storage (m : wsys) (so : op T) (ds : list (nat * nat)) : res (wsys * wout) :=
  do r <- step (w_sys m) so; let '(y, x) := r in Ok (mkWsys y ds (w_wins m), wof x).

Definition w_shape (w : win) : shape := mkShape ColMajor (w_rows w) (w_cols w) true (w_ldr w) (w_ldc w) 0.

(** DenseMatrix.h 713-722 for a window: the block, and the index in it, of
    element (i,j) (getPosition, 744-764). *)
Definition w_cell (m : wsys) (w : win) (i j : nat) : res (nat * block T * nat) :=
  do p <- position dbg (w_shape w) i j;
  do kb <- h_cell (blocks (w_sys m)) (w_data w) (w_off w + p);
  Ok (kb, w_off w + p).

(** The block behind the data pointer of a window. *)
Definition w_block (m : wsys) (w : win) : res (nat * block T) :=
  match w_data w with
  | None => UB NullDeref
  | Some k =>
      match nth_error (blocks (w_sys m)) k with
      | None => UB OOBRead
      | Some b => if b_live b then Ok (k, b) else UB UseAfterFree
      end
  end.

(** Storage.h 588-610: what begin()..end() of a window visits. *)
Definition w_addrs (w : win) : res (list Z) :=
  sp_addrs (mkStriped (Z.of_nat (w_off w)) (Z.of_nat (w_rows w)) (Z.of_nat (w_cols w)) (w_sep w)).

Definition set_cells (m : wsys) (k : nat) (b : block T) (c : buf T) : wsys :=
  mkWsys {| blocks := upd (blocks (w_sys m)) k {| b_live := true; b_ext := b_ext b; b_cells := c |};
            objs := objs (w_sys m) |} (w_dims m) (w_wins m).

(** DenseMatrix.h 680-688 on a window. *)
Definition w_all (m : wsys) (w : win) (v : T) : res wsys :=
  do ads <- w_addrs w;
  match ads with
  | [] => Ok m
  | _ =>
      do kb <- w_block m w;
      do c <- foldM (fun a b => wrz b a v) ads (b_cells (snd kb));
      Ok (set_cells m (fst kb) (snd kb) c)
  end.

(** DenseMatrix.h 476-495: the elements of the new matrix; its storage has
    [other.getSize()] cells. *)
Definition w_dense (m : wsys) (w : win) (chk : T -> bool) (z : T) : res (buf T) :=
  do ads <- w_addrs w;
  match ads with
  | [] => Ok (alloc (w_rows w * w_cols w))
  | _ =>
      do kb <- w_block m w;
      foldM (fun '(k, a) d => do v <- rdz (b_cells (snd kb)) a; wr d k (if chk v then v else z))
            (enum ads) (alloc (w_rows w * w_cols w))
  end.

Definition wstep (m : wsys) (x : wop) : res (wsys * wout) :=
  let ds := w_dims m in
  let ws := w_wins m in
  match x with
  | WSized r c => w_storage m (OSized (r * c)) (ds ++ [(r, c)])
  | WCaller vs => w_storage m (OExtAlloc vs) ds
  | WExternal blk r c => w_storage m (OProxy blk (r * c)) (ds ++ [(r, c)])
  | WCopyCtor s => do d <- dims_of m s; w_storage m (OCopyCtor s) (ds ++ [d])
  | WMoveCtor s => do d <- dims_of m s; w_storage m (OMoveCtor s) (ds ++ [d])
  | WCopyAssign d s => do e <- dims_of m s; do _ <- dims_of m d; w_storage m (OCopyAssign d s) (upd ds d e)
  | WMoveAssign d s => do e <- dims_of m s; do _ <- dims_of m d; w_storage m (OMoveAssign d s) (upd ds d e)
  | WSwap a b => do e <- dims_of m a; do f <- dims_of m b; w_storage m (OSwap a b) (upd (upd ds a f) b e)
  | WResize s r c => do _ <- dims_of m s; w_storage m (OResize s (r * c)) (upd ds s (r, c))
  | WAll s v => w_storage m (OFill s v) ds
  | WWrite s i j v =>
      do d <- dims_of m s;
      do p <- position dbg (own_shape ColMajor (fst d) (snd d)) i j; w_storage m (OWrite s p v) ds
  | WRead s i j =>
      do d <- dims_of m s;
      do p <- position dbg (own_shape ColMajor (fst d) (snd d)) i j; w_storage m (ORead s p) ds
  | WDestroy s => w_storage m (ODestroy s) ds
  | VNew s nr nc br bc =>
      do r <- get_obj (w_sys m) s; do d <- dims_of m s;
      Ok (mkWsys (w_sys m) ds
            (ws ++ [Some (mkWin (st_data r) (br + bc * fst d) nr nc (fst d) (snd d)
                            ((Z.of_nat (fst d) - Z.of_nat nr) mod W64)%Z)]), WNone)
  | VCopy w => do v <- win_of m w; Ok (mkWsys (w_sys m) ds (ws ++ [Some v]), WNone)
  | VMove w =>
      (* the leadingDimension base is not named in the initialiser list, so its
         default constructor runs; the striped storage has no move constructor *)
      do v <- win_of m w;
      Ok (mkWsys (w_sys m) ds
            (ws ++ [Some (mkWin (w_data v) (w_off v) (w_rows v) (w_cols v) 0 0 (w_sep v))]), WNone)
  | VAssign d w | VMoveAssign d w =>
      do v <- win_of m w; do _ <- win_of m d; Ok (mkWsys (w_sys m) ds (upd ws d (Some v)), WNone)
  | VAll w v => do u <- win_of m w; do m1 <- w_all m u v; Ok (m1, WNone)
  | VWrite w i j v =>
      do u <- win_of m w;
      do c <- w_cell m u i j; let '(kb, p) := c in
      Ok (set_cells m (fst kb) (snd kb) (upd (b_cells (snd kb)) p (Some v)), WNone)
  | VRead w i j =>
      do u <- win_of m w;
      do c <- w_cell m u i j; let '(kb, p) := c in
      do v <- rdc (b_cells (snd kb)) p; Ok (m, WVal v)
  | VDims w => do u <- win_of m w; Ok (m, WPair (w_rows u) (w_cols u))
  | VLd w => do u <- win_of m w; Ok (m, WPair (w_ldr u) (w_ldc u))
  | VDense w chk z =>
      do u <- win_of m w;
      do c <- w_dense m u chk z;
      Ok (mkWsys (s_fresh (w_sys m) c) (ds ++ [(w_rows u, w_cols u)]) ws, WNone)
  | VDestroy w => do _ <- win_of m w; Ok (mkWsys (w_sys m) ds (upd ws w None), WNone)
  end.

Fixpoint wrun (m : wsys) (ops : list wop) : res (wsys * list wout) :=
  match ops with
  | [] => Ok (m, [])
  | x :: t =>
      do r <- wstep m x; let '(m1, z) := r in
      do r2 <- wrun m1 t; let '(m2, zs) := r2 in Ok (m2, z :: zs)
  end.
End WObj.
Arguments wop : clear implicits. Arguments wout : clear implicits. Arguments wsys : clear implicits.
