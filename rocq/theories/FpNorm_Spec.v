(** Rounding of norms: what is assumed of the library functions, and the real
    numbers the norms stand for. *)
From Coq Require Import Reals Lra.
From Verif Require Import Base Dense_Model Sparse_Model Dyn_Model Dyn_Spec Norm_Model Norm_Spec Fp_Spec.
#[local] Open Scope R_scope.

(** [std::pow(x, 2)] has relative error at most [u] and, if it underflows,
    absolute error [eta], and is not negative; the root of a number that is not
    negative has relative error at most [u]; a float has the absolute value and
    square of the double it is promoted to.  [std::abs] is exact (record
    [ordering]). *)
Record norm_rounding {F D} (ar : arith F D) (nx : nops F D) (v : D -> R) (fin : D -> Prop) (u eta : R) : Prop := mkNR {
  nr_sq : forall x, fin (sqD nx x) -> fin x /\ 0 <= v (sqD nx x) /\ Rabs (v (sqD nx x) - v x * v x) <= u * (v x * v x) + eta;
  nr_sqF : forall x, sqF nx x = sqD nx (toD ar x);
  nr_absF : forall x, absF nx x = absD ar (toD ar x);
  nr_abs : forall x, fin (absD ar x) -> fin x;
  nr_sqrt : forall x, fin (sqrtD nx x) -> fin x /\ (0 <= v x -> Rabs (v (sqrtD nx x) - sqrt (v x)) <= u * sqrt (v x))
}.

(** Sum, sum of squares and maximum over an r x c array of real numbers. *)
Definition rsum2 (r c : nat) (h : nat -> nat -> R) : R := rsum r (fun i => rsum c (fun j => h i j)).
Definition real_norm1 (r c : nat) (x : nat -> nat -> R) : R := rsum2 r c (fun i j => Rabs (x i j)).
Definition real_norm2 (r c : nat) (x : nat -> nat -> R) : R := sqrt (rsum2 r c (fun i j => x i j * x i j)).
Definition is_real_max (r c : nat) (x : nat -> nat -> R) (m : R) : Prop :=
  (forall i j, (i < r)%nat -> (j < c)%nat -> Rabs (x i j) <= m) /\
  (m = 0 \/ exists i j, (i < r)%nat /\ (j < c)%nat /\ m = Rabs (x i j)).

(** [m] is the norm of the r x c array [x] up to rounding: each element passes
    through at most r*c+1 roundings, and one more for the root.  The largest
    absolute value is exact. *)
Definition norm_close (u eta : R) (k : nkind) (r c : nat) (x : nat -> nat -> R) (m : R) : Prop :=
  let n := (r * c)%nat in
  match k with
  | NOne => (1 - u) ^ (n + 1) * real_norm1 r c x <= m <= (1 + u) ^ (n + 1) * real_norm1 r c x
  | NTwo => (1 - u) ^ (n + 2) * real_norm2 r c x - (1 + u) ^ (n + 2) * sqrt (INR n * eta) <= m
              <= (1 + u) ^ (n + 2) * (real_norm2 r c x + sqrt (INR n * eta))
  | NMax => is_real_max r c x m
  end.
