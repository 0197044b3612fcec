(** Model of the matrix norms.  Sources (include/BlasBooster/Core): Norm.h,
    SparseStorage.h 117-121 (begin/end of the value array),
    Utilities/exec_dyn.h.

    Simplifications:
    - double and float are the abstract types of record [arith]; the remaining
      functions of <cmath> are in record [nops];
    - the combinations that do not compile (NormOne and NormMax of a Zero
      matrix, hence of a DynamicMatrix or a blocked matrix; NormMax of a float
      matrix) are given the value the same text would have after promotion. *)
From Verif Require Import Base Dense_Model Sparse_Model Mult_Model Dyn_Model.

(** std::abs on float, std::pow(x, 2), std::sqrt. *)
Record nops (F D : Type) := mkNops {
  absF : F -> D; sqF : F -> D; sqD : D -> D; sqrtD : D -> D
}.
Arguments absF {F D}. Arguments sqF {F D}. Arguments sqD {F D}. Arguments sqrtD {F D}.

(** Parameter.h 12-14. *)
Inductive nkind := NOne | NTwo | NMax.

Section Norm.
Context {F D : Type} (ar : arith F D) (nx : nops F D).

(** std::max(a, b): [b] if [a < b], else [a]. *)
Definition maxD (a b : D) : D := if ltD ar a b then b else a.

(** The loop bodies, Norm.h 47, 91, 136; the values after the loop, 49, 93, 138. *)
Definition n_accF (k : nkind) (acc : D) (x : F) : D :=
  match k with
  | NOne => addD ar acc (absF nx x)
  | NTwo => addD ar acc (sqF nx x)
  | NMax => maxD acc (absF nx x)
  end.
Definition n_accD (k : nkind) (acc : D) (x : D) : D :=
  match k with
  | NOne => addD ar acc (absD ar x)
  | NTwo => addD ar acc (sqD nx x)
  | NMax => maxD acc (absD ar x)
  end.
Definition n_fin (k : nkind) (acc : D) : D := match k with NTwo => sqrtD nx acc | _ => acc end.

(** Norm.h 36-51, 80-95, 125-140 on a dense matrix: from begin() to end(). *)
Definition norm_dense {T} (acc : D -> T -> D) (k : nkind) (d : dense T) : res D :=
  do ads <- iter_addrs d;
  do v <- foldM (fun a s => do x <- rdz (d_buf d) a; Ok (acc s x)) ads (d0 ar);
  Ok (n_fin k v).
(** The same on a sparse matrix: begin() and end() of the value array, whatever
    part of it is in use. *)
Definition norm_sparse {T} (acc : D -> T -> D) (k : nkind) (s : sparse T) : res D :=
  do v <- foldM (fun a t => do x <- rd (s_val s) a; Ok (acc t x)) (seq 0 (length (s_val s))) (d0 ar);
  Ok (n_fin k v).

(** One-part matrices; Norm.h 19-27 for Zero. *)
Definition norm_leaf (k : nkind) (l : leaf F D) : res D :=
  match l with
  | LZ _ => Ok (d0 ar)
  | LSf s => norm_sparse (n_accF k) k s
  | LSd s => norm_sparse (n_accD k) k s
  | LDf d => norm_dense (n_accF k) k d
  | LDd d => norm_dense (n_accD k) k d
  end.

(** Two-part matrices, Norm.h 70-78, 114-123, 159-167.  NormOne adds part 1 to
    itself. *)
Definition norm_dyn (k : nkind) (dbg : bool) (d : dyn F D) : res D :=
  match d with
  | DL l => norm_leaf k l
  | DM _ _ m1 m2 =>
      do a <- deref m1;
      do b <- (match k with NOne => deref m1 | _ => deref m2 end);
      do s <- bin_leaf ar Plus dbg a b;
      norm_leaf k s
  end.

(** Norm.h 169-187 and Utilities/exec_dyn.h: a static table of functors indexed
    by getTypeIndex(); a functor casts its argument without a check.  [ready]:
    the table was initialised before the call, otherwise it holds empty
    std::function objects, whose call throws. *)
Definition norm_table (ready : bool) (k : nkind) (dbg : bool) : list (dyn F D -> res D) :=
  map (fun t d => if ready then (if mty_eqb (dyn_ty d) t then norm_dyn k dbg d else UB DeadObject) else Throw) type_list.
Definition norm_ptr (ready : bool) (k : nkind) (dbg : bool) (p : option (dyn F D)) : res D :=
  do d <- deref p;
  match nth_error (norm_table ready k dbg) (type_index d) with
  | None => UB OOBRead
  | Some f => f d
  end.

(** Norm.h 53-68, 97-112, 142-157: blocked matrices. *)
Definition norm_blocked (ready : bool) (k : nkind) (dbg : bool) (b : blocked F D) : res D :=
  do ads <- iter_addrs (b_mat b);
  do v <- foldM (fun a s =>
      do p <- rdz (d_buf (b_mat b)) a;
      do n <- norm_ptr ready k dbg p;
      Ok (match k with
          | NOne => addD ar s n
          | NTwo => addD ar s (sqD nx n)
          | NMax => maxD s n
          end)) ads (d0 ar);
  Ok (n_fin k v).
End Norm.
