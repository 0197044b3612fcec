(** Specification of matrix objects as values: no pointers, no caches. *)
From Verif Require Export Storage_Spec Obj_Model.

Section Spec.
Context {T N : Type} (o : orient) (norm_of : nat -> nat -> buf T -> res N) (eqv : T -> T -> bool).

(** May the cached norm be relied upon?  [Unasked]: never asked of this object;
    [Asked]: asked, and the contents have not changed since; [Stale]: asked and
    the contents changed afterwards. *)
Inductive nstate := Unasked | Asked | Stale.

(** What a matrix is worth: dimensions, elements in storage order and whether
    it may be resized (false only for a moved-from matrix), the unblocked
    dimensions of a blocked matrix if they are known, and whether getSize() and
    getNorm() may be relied upon. *)
Record mval := mkVal { x_rows : nat; x_cols : nat; x_st : @vobj T; x_ub : option (nat * nat);
                       x_size : bool; x_norm : nstate }.
Definition mvals := list (option mval).
Definition mget (v : mvals) (s : nat) : option mval :=
  match nth_error v s with Some (Some x) => Some x | _ => None end.

(** After a change of contents. *)
Definition touch (n : nstate) : nstate := match n with Unasked => Unasked | _ => Stale end.

(** Storage order position of element (i,j) of an r x c matrix. *)
Definition place (r c i j : nat) : nat := match o with ColMajor => i + j * r | RowMajor => i * c + j end.

Definition fresh_st (n : nat) : @vobj T := {| v_vals := repeat None n; v_resizable := true |}.

(** The initialised elements, if all are. *)
Fixpoint values (b : buf T) : option (list T) :=
  match b with
  | [] => Some []
  | Some x :: t => match values t with Some l => Some (x :: l) | None => None end
  | None :: _ => None
  end.
Fixpoint alike (a b : list T) : bool :=
  match a, b with
  | [], [] => true
  | x :: a, y :: b => eqv x y && alike a b
  | _, _ => false
  end.

(** [None]: not a use this specification speaks about. *)
Definition mvstep (v : mvals) (x : mop T) : option (mvals * mout T N) :=
  match x with
  | MDefault => Some (v ++ [Some (mkVal 0 0 (fresh_st 0) (Some (0, 0)) true Unasked)], MNone)
  | MSized r c => Some (v ++ [Some (mkVal r c (fresh_st (r * c)) (Some (0, 0)) true Unasked)], MNone)
  | MSizedB r c ur uc => Some (v ++ [Some (mkVal r c (fresh_st (r * c)) (Some (ur, uc)) true Unasked)], MNone)
  | MCopyCtor s => match mget v s with Some m => Some (v ++ [Some m], MNone) | None => None end
  | MMoveCtor s =>
      (* dimensions, elements and a norm that will be computed; the unblocked
         dimensions of the new object are not specified *)
      match mget v s with
      | Some m => Some (upd (v ++ [Some (mkVal (x_rows m) (x_cols m) (x_st m) None (x_size m) Unasked)]) s
                   (Some (mkVal (x_rows m) (x_cols m) moved_from (x_ub m) (x_size m) (touch (x_norm m)))), MNone)
      | None => None
      end
  | MCopyAssign d s =>
      match mget v d, mget v s with Some _, Some m => Some (upd v d (Some m), MNone) | _, _ => None end
  | MMoveAssign d s =>
      match mget v d, mget v s with
      | Some k, Some m =>
          Some (upd (upd v d (Some (mkVal (x_rows m) (x_cols m) (x_st m) (x_ub m) (x_size m) (touch (x_norm k)))))
                    s (Some (mkVal (x_rows m) (x_cols m) moved_from (x_ub m) (x_size m) (touch (x_norm m)))), MNone)
      | _, _ => None
      end
  | MSwap a b =>
      (* elements and dimensions are exchanged; getSize() stays reliable only if
         both have the same number of elements, the unblocked dimensions only if
         they agree *)
      match mget v a, mget v b with
      | Some k, Some m =>
          let same := (x_rows k * x_cols k =? x_rows m * x_cols m) in
          let sub := match x_ub k, x_ub m with
                     | Some (a1, a2), Some (b1, b2) => if (a1 =? b1) && (a2 =? b2) then Some (a1, a2) else None
                     | _, _ => None
                     end in
          Some (upd (upd v a (Some (mkVal (x_rows m) (x_cols m) (x_st m) sub (x_size k && same) (touch (x_norm k)))))
                    b (Some (mkVal (x_rows k) (x_cols k) (x_st k) sub (x_size m && same) (touch (x_norm m)))), MNone)
      | _, _ => None
      end
  | MResize s r c =>
      match mget v s with
      | Some m =>
          if length (v_vals (x_st m)) =? r * c
          then Some (upd v s (Some (mkVal r c (x_st m) (x_ub m) true (touch (x_norm m)))), MNone)
          else if v_resizable (x_st m)
          then Some (upd v s (Some (mkVal r c (fresh_st (r * c)) (x_ub m) true (touch (x_norm m)))), MNone)
          else Some (upd v s (Some (mkVal r c (x_st m) (x_ub m) true (touch (x_norm m)))), MThrew)
      | None => None
      end
  | MResizeB s r c ur uc =>
      match mget v s with
      | Some m =>
          let ok := x_size m && (x_rows m * x_cols m =? r * c) in
          if length (v_vals (x_st m)) =? r * c
          then Some (upd v s (Some (mkVal r c (x_st m) (Some (ur, uc)) ok (touch (x_norm m)))), MNone)
          else if v_resizable (x_st m)
          then Some (upd v s (Some (mkVal r c (fresh_st (r * c)) (Some (ur, uc)) ok (touch (x_norm m)))), MNone)
          else Some (upd v s (Some (mkVal r c (x_st m) (Some (ur, uc)) ok (touch (x_norm m)))), MThrew)
      | None => None
      end
  | MAll s z =>
      match mget v s with
      | Some m => Some (upd v s (Some (mkVal (x_rows m) (x_cols m)
                    {| v_vals := repeat (Some z) (length (v_vals (x_st m))); v_resizable := v_resizable (x_st m) |}
                    (x_ub m) (x_size m) (touch (x_norm m)))), MNone)
      | None => None
      end
  | MWrite s i j z =>
      match mget v s with
      | Some m =>
          let p := place (x_rows m) (x_cols m) i j in
          if (i <? x_rows m) && (j <? x_cols m) && (p <? length (v_vals (x_st m)))
          then Some (upd v s (Some (mkVal (x_rows m) (x_cols m)
                    {| v_vals := upd (v_vals (x_st m)) p (Some z); v_resizable := v_resizable (x_st m) |}
                    (x_ub m) (x_size m) (touch (x_norm m)))), MNone)
          else None
      | None => None
      end
  | MRead s i j =>
      match mget v s with
      | Some m =>
          if (i <? x_rows m) && (j <? x_cols m)
          then match nth_error (v_vals (x_st m)) (place (x_rows m) (x_cols m) i j) with
               | Some c => Some (v, MVal c)
               | None => None
               end
          else None
      | None => None
      end
  | MDims s => match mget v s with Some m => Some (v, MPair (x_rows m) (x_cols m)) | None => None end
  | MSize s => match mget v s with
               | Some m => if x_size m then Some (v, MNat (x_rows m * x_cols m)) else None
               | None => None
               end
  | MUb s => match mget v s with
             | Some m => match x_ub m with Some (a, b) => Some (v, MPair a b) | None => None end
             | None => None
             end
  | MNorm s =>
      match mget v s with
      | Some m =>
          match x_norm m, norm_of (x_rows m) (x_cols m) (v_vals (x_st m)) with
          | Stale, _ => None
          | _, Ok n => Some (upd v s (Some (mkVal (x_rows m) (x_cols m) (x_st m) (x_ub m) (x_size m) Asked)), MNormIs n)
          | _, _ => None
          end
      | None => None
      end
  | MEqual a b =>
      match mget v a, mget v b with
      | Some k, Some m =>
          match values (v_vals (x_st k)), values (v_vals (x_st m)) with
          | Some xs, Some ys => Some (v, MBool ((x_rows k =? x_rows m) && (x_cols k =? x_cols m) && alike xs ys))
          | _, _ => None
          end
      | _, _ => None
      end
  | MSame a b =>
      (* identity, not equality of contents: true of an object and itself,
         false of two objects that have elements *)
      match mget v a, mget v b with
      | Some k, Some m =>
          if a =? b then Some (v, MBool true)
          else if (length (v_vals (x_st k)) =? 0) && (length (v_vals (x_st m)) =? 0) then None
          else Some (v, MBool false)
      | _, _ => None
      end
  | MDestroy s => match mget v s with Some _ => Some (upd v s None, MNone) | None => None end
  end.

Fixpoint mvrun (v : mvals) (ops : list (mop T)) : option (mvals * list (mout T N)) :=
  match ops with
  | [] => Some (v, [])
  | x :: t => match mvstep v x with
              | Some (v1, z) => match mvrun v1 t with Some (v2, zs) => Some (v2, z :: zs) | None => None end
              | None => None
              end
  end.

(** No leak is promised if a moved-from matrix is copied (C01). *)
Definition mclean_op (v : mvals) (x : mop T) : bool :=
  match x with
  | MCopyCtor s => match mget v s with Some m => v_resizable (x_st m) | None => true end
  | _ => true
  end.
Fixpoint mclean (v : mvals) (ops : list (mop T)) : bool :=
  match ops with
  | [] => true
  | x :: t => mclean_op v x && match mvstep v x with Some (v1, _) => mclean v1 t | None => true end
  end.
End Spec.
Arguments mval : clear implicits.
