(** Specification of sparse matrix objects without memory: every object is a
    value of its own. *)
From Verif Require Import Base SObj_Model.

Section Spec.
Context {T : Type}.

(** What a program can know of a sparse matrix: dimensions, values, keys,
    offsets ([None]: never written); whether getSize() still is rows times
    columns; whether the matrix may be resized (it may not after being moved
    from, or after a copy of such a matrix was assigned to it). *)
Record sval := mkSv {
  sv_rows : nat; sv_cols : nat; sv_size : bool;
  sv_val : buf T; sv_key : buf nat; sv_off : buf nat; sv_res : bool }.
Definition svals := list (option sval).

Definition sget (v : svals) (s : nat) : option sval := match nth_error v s with Some (Some x) => Some x | _ => None end.

Definition sv_new (r c n : nat) : sval := mkSv r c true (repeat None n) (repeat None n) (repeat None (c + 1)) true.
(** The default constructor makes no offsets at all. *)
Definition sv_empty : sval := mkSv 0 0 true [] [] [] true.
(** A moved-from matrix keeps its dimensions and loses everything else. *)
Definition sv_moved (x : sval) : sval := mkSv (sv_rows x) (sv_cols x) (sv_size x) [] [] [] false.

(** Resized memory has no defined contents, unless the size stays the same. *)
Definition resized {A} (b : buf A) (n : nat) : buf A := if length b =? n then b else repeat None n.

Definition setv (x : sval) b := mkSv (sv_rows x) (sv_cols x) (sv_size x) b (sv_key x) (sv_off x) (sv_res x).
Definition setk (x : sval) b := mkSv (sv_rows x) (sv_cols x) (sv_size x) (sv_val x) b (sv_off x) (sv_res x).
Definition seto (x : sval) b := mkSv (sv_rows x) (sv_cols x) (sv_size x) (sv_val x) (sv_key x) b (sv_res x).

(** One call; [None]: not a legal use (destroyed object, index not below the
    size, getSize() after a swap). *)
Definition svstep (v : svals) (x : sop T) : option (svals * sout T) :=
  match x with
  | SDefault => Some (v ++ [Some sv_empty], SNone)
  | SSized r c n => Some (v ++ [Some (sv_new r c (nnz_or_all r c n))], SNone)
  | SCopyCtor s => match sget v s with Some x => Some (v ++ [Some x], SNone) | None => None end
  | SMoveCtor s => match sget v s with Some x => Some (upd (v ++ [Some x]) s (Some (sv_moved x)), SNone) | None => None end
  | SCopyAssign d s => match sget v d, sget v s with Some _, Some x => Some (upd v d (Some x), SNone) | _, _ => None end
  | SMoveAssign d s =>
      match sget v d, sget v s with Some _, Some x => Some (upd (upd v d (Some x)) s (Some (sv_moved x)), SNone) | _, _ => None end
  | SSwap a b =>
      match sget v a, sget v b with
      | Some x, Some y =>
          let but z (ok : bool) := mkSv (sv_rows z) (sv_cols z) ok (sv_val z) (sv_key z) (sv_off z) (sv_res z) in
          let same := sv_size x && sv_size y && (sv_rows x * sv_cols x =? sv_rows y * sv_cols y) in
          Some (upd (upd v a (Some (but y same))) b (Some (but x same)), SNone)
      | _, _ => None
      end
  | SResize s r c n =>
      match sget v s with
      | Some x =>
          let n := nnz_or_all r c n in
          if sv_res x then
            Some (upd v s (Some (mkSv r c true (resized (sv_val x) n) (resized (sv_key x) n) (resized (sv_off x) (c + 1)) true)), SNone)
          else
            (* the dimensions have been changed when the exception is thrown *)
            Some (upd v s (Some (mkSv r c true (sv_val x) (sv_key x) (sv_off x) false)),
                  if (length (sv_val x) =? n) && (length (sv_key x) =? n) && (length (sv_off x) =? c + 1) then SNone else SThrew)
      | None => None
      end
  | SPutVal s i w => match sget v s with
      | Some x => if i <? length (sv_val x) then Some (upd v s (Some (setv x (upd (sv_val x) i (Some w)))), SNone) else None
      | None => None end
  | SPutKey s i w => match sget v s with
      | Some x => if i <? length (sv_key x) then Some (upd v s (Some (setk x (upd (sv_key x) i (Some w)))), SNone) else None
      | None => None end
  | SPutOff s i w => match sget v s with
      | Some x => if i <? length (sv_off x) then Some (upd v s (Some (seto x (upd (sv_off x) i (Some w)))), SNone) else None
      | None => None end
  | SGetVal s i => match sget v s with
      | Some x => match nth_error (sv_val x) i with Some c => Some (v, SVal c) | None => None end
      | None => None end
  | SGetKey s i => match sget v s with
      | Some x => match nth_error (sv_key x) i with Some c => Some (v, SIdx c) | None => None end
      | None => None end
  | SGetOff s i => match sget v s with
      | Some x => match nth_error (sv_off x) i with Some c => Some (v, SIdx c) | None => None end
      | None => None end
  | SDims s => match sget v s with Some x => Some (v, SPair (sv_rows x) (sv_cols x)) | None => None end
  | SSize s => match sget v s with Some x => if sv_size x then Some (v, SNat (sv_rows x * sv_cols x)) else None | None => None end
  | SNnz s => match sget v s with Some x => Some (v, SNat (length (sv_val x))) | None => None end
  | SNoff s => match sget v s with Some x => Some (v, SNat (length (sv_off x))) | None => None end
  | SDestroy s => match sget v s with Some _ => Some (upd v s None, SNone) | None => None end
  end.

Fixpoint svrun (v : svals) (ops : list (sop T)) : option (svals * list (sout T)) :=
  match ops with
  | [] => Some (v, [])
  | x :: t =>
      match svstep v x with
      | Some (v1, z) => match svrun v1 t with Some (v2, zs) => Some (v2, z :: zs) | None => None end
      | None => None
      end
  end.

(** No copy construction from a moved-from matrix (it loses memory). *)
Definition sclean_op (v : svals) (x : sop T) : bool :=
  match x with SCopyCtor s => match sget v s with Some x => sv_res x | None => true end | _ => true end.
Fixpoint sclean (v : svals) (ops : list (sop T)) : bool :=
  match ops with
  | [] => true
  | x :: t => sclean_op v x && match svstep v x with Some (v1, _) => sclean v1 t | None => true end
  end.
End Spec.
Arguments sval : clear implicits. Arguments svals : clear implicits.
