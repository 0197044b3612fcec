(** Specification of programs over matrices and windows into them: memory
    regions and who holds them (Alias_Spec.v), the dimensions of each matrix, and
    per window the region it looks at.  No pointers, no iterators. *)
From Verif Require Export Alias_Spec WObj_Model.

Section Spec.
Context {T : Type}.

(** A window shows cell [v_first + i + j * v_stride] of its region as element
    (i,j).  [v_ldc]: what getLdColumns() answers, [None] when the window has lost
    its leading dimensions and can only be traversed, not indexed. *)
Record swin := mkSwin { v_region : nat; v_first : nat; v_rows : nat; v_cols : nat;
                        v_stride : nat; v_ldc : option nat }.
Record wst := mkWst { x_mem : astate T; x_dims : list (nat * nat); x_wins : list (option swin) }.
Definition wst0 : wst := mkWst a0 [] [].

Definition place_in (w : swin) (i j : nat) : nat := v_first w + i + j * v_stride w.
Definition swin_of (x : wst) (w : nat) : option swin :=
  match nth_error (x_wins x) w with Some (Some v) => Some v | _ => None end.
(** The cells of the window's region, if that memory is still there. *)
Definition seen (x : wst) (w : swin) : option (buf T) :=
  match nth_error (regions (x_mem x)) (v_region w) with
  | None => None
  | Some g => if present (x_mem x) (v_region w) then Some (r_cells g) else None
  end.
(** Is cell [q] of the region an element of the window? *)
Definition covers (w : swin) (q : nat) : bool :=
  existsb (fun ij => place_in w (fst ij) (snd ij) =? q) (list_prod (seq 0 (v_rows w)) (seq 0 (v_cols w))).
(** The window has elements and its extent is addressable. *)
Definition traversable (w : swin) : bool :=
  (1 <=? v_rows w) && (1 <=? v_cols w) && (Z.of_nat (v_cols w * v_stride w) <? 2 ^ 63)%Z.

Definition set_region (x : wst) (r : nat) (f : buf T -> buf T) : wst :=
  match nth_error (regions (x_mem x)) r with
  | None => x
  | Some g => mkWst (mkA (upd (regions (x_mem x)) r (mkRegion (r_kind g) (f (r_cells g)))) (handles (x_mem x)))
                    (x_dims x) (x_wins x)
  end.
(** All cells initialised? *)
Fixpoint all_values (b : list (option (option T))) : option (list T) :=
  match b with
  | [] => Some []
  | Some (Some v) :: t => match all_values t with Some l => Some (v :: l) | None => None end
  | _ :: _ => None
  end.
(** The elements of a window, column after column. *)
Definition window_values (c : buf T) (w : swin) : option (list T) :=
  all_values (map (fun k => nth_error c (place_in w (k mod v_rows w) (k / v_rows w))) (seq 0 (v_rows w * v_cols w))).

(** The operation [so] on the matrix's memory, and the new dimensions. *)
Definition on_mem (x : wst) (so : op T) (ds : list (nat * nat)) : option (wst * wout T) :=
  match astep (x_mem x) so with
  | Some (a, o) => Some (mkWst a ds (x_wins x), wof o)
  | None => None
  end.

(** [None]: not a use this specification speaks about (a dead object is named, an
    index is out of range, memory is used that is gone, a window is made that does
    not lie inside a matrix with memory, an empty window is traversed, ...). *)
Definition xstep (x : wst) (o : wop T) : option (wst * wout T) :=
  let ds := x_dims x in
  match o with
  | WSized r c => on_mem x (OSized (r * c)) (ds ++ [(r, c)])
  | WCaller vs => on_mem x (OExtAlloc vs) ds
  | WExternal b r c => on_mem x (OProxy b (r * c)) (ds ++ [(r, c)])
  | WCopyCtor s => match nth_error ds s with Some d => on_mem x (OCopyCtor s) (ds ++ [d]) | None => None end
  | WMoveCtor s => match nth_error ds s with Some d => on_mem x (OMoveCtor s) (ds ++ [d]) | None => None end
  | WCopyAssign d s =>
      match nth_error ds s, nth_error ds d with
      | Some e, Some _ => on_mem x (OCopyAssign d s) (upd ds d e) | _, _ => None end
  | WMoveAssign d s =>
      match nth_error ds s, nth_error ds d with
      | Some e, Some _ => on_mem x (OMoveAssign d s) (upd ds d e) | _, _ => None end
  | WSwap a b =>
      match nth_error ds a, nth_error ds b with
      | Some e, Some f => on_mem x (OSwap a b) (upd (upd ds a f) b e) | _, _ => None end
  | WResize s r c => match nth_error ds s with Some _ => on_mem x (OResize s (r * c)) (upd ds s (r, c)) | None => None end
  | WAll s v => on_mem x (OFill s v) ds
  | WWrite s i j v =>
      match nth_error ds s with
      | Some (r, c) => if (i <? r) && (j <? c) then on_mem x (OWrite s (i + j * r) v) ds else None
      | None => None
      end
  | WRead s i j =>
      match nth_error ds s with
      | Some (r, c) => if (i <? r) && (j <? c) then on_mem x (ORead s (i + j * r)) ds else None
      | None => None
      end
  | WDestroy s => on_mem x (ODestroy s) ds
  | VNew s nr nc br bc =>
      match nth_error ds s, live (x_mem x) s with
      | Some (r, c), Some (HOwn g n | HView g n) =>
          if (br + nr <=? r) && (bc + nc <=? c) && (n =? r * c) then
            Some (mkWst (x_mem x) ds (x_wins x ++ [Some (mkSwin g (br + bc * r) nr nc r (Some c))]), WNone)
          else None
      | _, _ => None
      end
  | VCopy w =>
      match swin_of x w with
      | Some v => Some (mkWst (x_mem x) ds (x_wins x ++ [Some v]), WNone)
      | None => None
      end
  | VMove w =>
      (* the new window cannot be indexed *)
      match swin_of x w with
      | Some v => Some (mkWst (x_mem x) ds (x_wins x ++
                    [Some (mkSwin (v_region v) (v_first v) (v_rows v) (v_cols v) (v_stride v) None)]), WNone)
      | None => None
      end
  | VAssign d w | VMoveAssign d w =>
      (* the window looks elsewhere; no element is copied *)
      match swin_of x w, swin_of x d with
      | Some v, Some _ => Some (mkWst (x_mem x) ds (upd (x_wins x) d (Some v)), WNone)
      | _, _ => None
      end
  | VAll w v =>
      match swin_of x w with
      | Some u =>
          match seen x u with
          | Some _ =>
              if traversable u then
                Some (set_region x (v_region u)
                        (fun b => map (fun q => if covers u q then Some v else nth q b None) (seq 0 (length b))), WNone)
              else None
          | None => None
          end
      | None => None
      end
  | VWrite w i j v =>
      match swin_of x w with
      | Some u =>
          match seen x u, v_ldc u with
          | Some _, Some _ =>
              if (i <? v_rows u) && (j <? v_cols u) then
                Some (set_region x (v_region u) (fun b => upd b (place_in u i j) (Some v)), WNone)
              else None
          | _, _ => None
          end
      | None => None
      end
  | VRead w i j =>
      match swin_of x w with
      | Some u =>
          match seen x u, v_ldc u with
          | Some b, Some _ =>
              if (i <? v_rows u) && (j <? v_cols u) then
                match nth_error b (place_in u i j) with Some c => Some (x, WVal c) | None => None end
              else None
          | _, _ => None
          end
      | None => None
      end
  | VDims w => match swin_of x w with Some u => Some (x, WPair (v_rows u) (v_cols u)) | None => None end
  | VLd w =>
      match swin_of x w with
      | Some u => match v_ldc u with Some c => Some (x, WPair (v_stride u) c) | None => None end
      | None => None
      end
  | VDense w chk z =>
      match swin_of x w with
      | Some u =>
          match seen x u with
          | Some b =>
              if traversable u then
                match window_values b u with
                | Some vs =>
                    (* a new matrix with memory of its own *)
                    on_mem x (OList (map (fun v => if chk v then v else z) vs)) (ds ++ [(v_rows u, v_cols u)])
                | None => None
                end
              else None
          | None => None
          end
      | None => None
      end
  | VDestroy w =>
      match swin_of x w with
      | Some _ => Some (mkWst (x_mem x) ds (upd (x_wins x) w None), WNone)
      | None => None
      end
  end.

Fixpoint xrun (x : wst) (ops : list (wop T)) : option (wst * list (wout T)) :=
  match ops with
  | [] => Some (x, [])
  | o :: t =>
      match xstep x o with
      | None => None
      | Some (x1, z) => match xrun x1 t with None => None | Some (x2, zs) => Some (x2, z :: zs) end
      end
  end.

(** ** Who holds the memory a window was made on? *)

(** Number of matrices, and of windows, a program creates. *)
Definition makes_matrix (o : wop T) : bool :=
  match o with WSized _ _ | WExternal _ _ _ | WCopyCtor _ | WMoveCtor _ | VDense _ _ _ => true | _ => false end.
Definition makes_window (o : wop T) : bool :=
  match o with VNew _ _ _ _ _ | VCopy _ | VMove _ => true | _ => false end.
Definition matrices (ops : list (wop T)) : nat := length (filter makes_matrix ops).
Definition windows (ops : list (wop T)) : nat := length (filter makes_window ops).

(** The matrix that holds, after one operation, the memory matrix [s] held
    before; [n] matrices exist before.  [None]: none does, or its dimensions are
    no longer the same. *)
Definition holder1 (n s : nat) (o : wop T) : option nat :=
  match o with
  | WMoveCtor a => if a =? s then Some n else Some s
  | WMoveAssign d a => if a =? s then (if d =? s then None else Some d) else if d =? s then None else Some s
  | WSwap a b => if a =? s then Some b else if b =? s then Some a else Some s
  | WCopyAssign d a => if (d =? s) && negb (a =? s) then None else Some s
  | WResize a _ _ | WDestroy a => if a =? s then None else Some s
  | _ => Some s
  end.
Fixpoint holder (n s : nat) (ops : list (wop T)) : option nat :=
  match ops with
  | [] => Some s
  | o :: t => match holder1 n s o with
              | Some s' => holder (if makes_matrix o then S n else n) s' t
              | None => None
              end
  end.
(** The operation does not make window [w] look elsewhere, nor destroy it. *)
Definition keeps_window (w : nat) (o : wop T) : bool :=
  match o with VAssign d _ | VMoveAssign d _ | VDestroy d => negb (d =? w) | _ => true end.
(** The operation gives up the memory matrix [t] is responsible for. *)
Definition releases (x : wst) (t : nat) (o : wop T) : bool :=
  match o with
  | WDestroy s => s =? t
  | WResize s r c => (s =? t) && match nth_error (x_dims x) t with Some (r', c') => negb (r * c =? r' * c') | None => false end
  | WCopyAssign d s => (d =? t) && negb (s =? t)
  | WMoveAssign d _ => d =? t
  | _ => false
  end.
End Spec.
Arguments wst : clear implicits.
