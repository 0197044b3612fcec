(** Rounding: what is assumed of the machine's arithmetic, and the size of the
    error of a product.  Everything here is about the real numbers the machine
    numbers stand for. *)
From Coq Require Import Reals Lra.
From Verif Require Import Base Dense_Model Dense_Spec Sparse_Model Dyn_Model Dyn_Spec Eval_Spec.
#[local] Open Scope R_scope.

Fixpoint rsum (n : nat) (f : nat -> R) : R := match n with O => 0 | S n => rsum n f + f n end.
Fixpoint lsum {A} (f : A -> R) (l : list A) : R := match l with [] => 0 | a :: l => f a + lsum f l end.

(** One floating-point format: [v x] is the real value of the number [x], [fin]
    says it is finite.  A finite sum has finite operands and relative error at
    most [u]; a finite [c + x*y] is a sum of [c] and of a product with relative
    error [u] and, if it underflows, absolute error [eta]; a finite inner
    product is within the usual bound of the sum of its products, in whatever
    order these are added, and has no non-finite factor unless the other factor
    is 0; a number the library recognises as 0 is 0. *)
Record format {A} (v : A -> R) (fin : A -> Prop) (zero : A) (add sub : A -> A -> A) (opp : A -> A)
    (fma : A -> A -> A -> A) (dot : list (A * A) -> A) (nz : A -> bool) (u eta : R) : Prop := mkFormat {
  fm_zero : fin zero /\ v zero = 0;
  fm_nz : forall x, nz x = false -> fin x /\ v x = 0;
  fm_add : forall a b, fin (add a b) -> fin a /\ fin b /\
    Rabs (v (add a b) - (v a + v b)) <= u * Rabs (v a + v b);
  fm_sub : forall a b, fin (sub a b) -> fin a /\ fin b /\
    Rabs (v (sub a b) - (v a - v b)) <= u * Rabs (v a - v b);
  fm_opp : forall a, fin (opp a) -> fin a /\ v (opp a) = - v a;
  fm_fma : forall c x y, fin (fma c x y) -> fin c /\ fin x /\ fin y /\
    exists q, Rabs (q - v x * v y) <= u * Rabs (v x * v y) + eta /\
      Rabs (v (fma c x y) - (v c + q)) <= u * Rabs (v c + q);
  fm_dot : forall l, fin (dot l) ->
    (forall x y, In (x, y) l -> (fin x \/ (fin y /\ v y = 0)) /\ (fin y \/ (fin x /\ v x = 0))) /\
    Rabs (v (dot l) - lsum (fun p => v (fst p) * v (snd p)) l) <=
      ((1 + u) ^ (length l + 1) - 1) * lsum (fun p => Rabs (v (fst p) * v (snd p))) l +
      (1 + u) ^ (length l + 1) * (INR (length l) * eta)
}.

(** double with unit roundoff [uD], float with [uF >= uD]; a float is promoted
    exactly; rounding a double to float has relative error [uF] and absolute
    error [eta]. *)
Record rounding {F D} (ar : arith F D) (v : D -> R) (fin : D -> Prop) (uD uF eta : R) : Prop := mkRounding {
  ro_u : 0 <= uD <= uF /\ 0 <= eta;
  ro_D : format v fin (d0 ar) (addD ar) (subD ar) (oppD ar) (fmaD ar) (dotD ar) (dnz ar) uD eta;
  ro_F : format (fun x => v (toD ar x)) (fun x => fin (toD ar x)) (f0 ar) (addF ar) (subF ar) (oppF ar)
           (fmaF ar) (dotF ar) (fnz ar) uF eta;
  ro_cv : forall y, fin (toD ar (toF ar y)) -> fin y /\ Rabs (v (toD ar (toF ar y)) - v y) <= uF * Rabs (v y) + eta
}.

(** The share of a product |x||y| that policy [p] computes in float, when [xd]
    and [xf] are the magnitudes of the double and the float part of [x]. *)
Definition in_float (p : policy) (xd xf yd yf : R) : R :=
  match p with PMKL => xf * yf + xd * yf + xf * yd | _ => xf * yf end.
Definition in_double (p : policy) (xd xf yd yf : R) : R :=
  match p with PMKL => xd * yd | _ => xd * yd + xd * yf + xf * yd end.

(** The bound: [k] roundings at most on the way of any product into the result,
    in double for the products [Sd], in float for the products [Sf], and the
    underflow [E]. *)
Definition err (uD uF : R) (k : nat) (Sd Sf E : R) : R :=
  ((1 + uD) ^ k - 1) * Sd + ((1 + uF) ^ k - 1) * Sf + (1 + uF) ^ k * E.

(** The sums for element (i, j) of a product with inner dimension [n] of
    matrices with these magnitudes: products formed in double, in float, and
    the underflow term (policy MKL rounds one factor to float). *)
Definition mkl (p : policy) : R := match p with PMKL => 1 | _ => 0 end.
Definition SdF (p : policy) (n : nat) (wda wfa wdb wfb : nat -> nat -> R) (i j : nat) : R :=
  rsum n (fun q => in_double p (wda i q) (wfa i q) (wdb q j) (wfb q j)).
Definition SfF (p : policy) (n : nat) (wda wfa wdb wfb : nat -> nat -> R) (i j : nat) : R :=
  rsum n (fun q => in_float p (wda i q) (wfa i q) (wdb q j) (wfb q j)).
Definition EuF (eta : R) (p : policy) (n : nat) (wda wfa wdb wfb : nat -> nat -> R) (i j : nat) : R :=
  eta * (4 * INR n + 2 * mkl p * rsum n (fun q => wda i q + wfa i q + (wdb q j + wfb q j))).

Section Rep.
Context {F D : Type} (ar : arith F D) (v : D -> R).

(** The object stands for the real matrix [val], of which the doubles have
    magnitude [wd] and the floats [wf]. *)
Definition leaf_real (l : leaf F D) (r c : nat) (val wd wf : nat -> nat -> R) : Prop :=
  exists g, rep_leaf ar l r c g /\ forall i j, (i < r)%nat -> (j < c)%nat ->
    val i j = v (g i j) /\
    wd i j = (if is_f (leaf_ty l) then 0 else Rabs (v (g i j))) /\
    wf i j = (if is_f (leaf_ty l) then Rabs (v (g i j)) else 0).
Definition dyn_real (d : dyn F D) (r c : nat) (val wd wf : nat -> nat -> R) : Prop :=
  match d with
  | DL l => leaf_real l r c val wd wf
  | DM t1 t2 (Some a) (Some b) => leaf_ty a = t1 /\ leaf_ty b = t2 /\
      exists val1 wd1 wf1 val2 wd2 wf2, leaf_real a r c val1 wd1 wf1 /\ leaf_real b r c val2 wd2 wf2 /\
        forall i j, (i < r)%nat -> (j < c)%nat ->
          val i j = val1 i j + val2 i j /\ wd i j = wd1 i j + wd2 i j /\ wf i j = wf1 i j + wf2 i j
  | DM _ _ _ _ => False
  end.
Definition blocked_real (b : blocked F D) (rl cl : list nat) (val wd wf : nat -> nat -> R) : Prop :=
  b_ubr b = list_sum rl /\ b_ubc b = list_sum cl /\ d_orient (b_mat b) = ColMajor /\
  exists f, is_mat (b_mat b) (length rl) (length cl) f /\
    forall I J, (I < length rl)%nat -> (J < length cl)%nat ->
      exists d, f I J = Some d /\ In (dyn_ty d) type_list /\
        dyn_real d (nth I rl 0%nat) (nth J cl 0%nat)
          (fun i j => val (offs rl I + i)%nat (offs cl J + j)%nat)
          (fun i j => wd (offs rl I + i)%nat (offs cl J + j)%nat)
          (fun i j => wf (offs rl I + i)%nat (offs cl J + j)%nat).
End Rep.

(** ** Conversion *)

(** Comparisons of finite numbers mean what they say, and a fraction n/m is 0
    only if n is 0. *)
Record ordering {F D} (ar : arith F D) (v : D -> R) (fin : D -> Prop) : Prop := mkOrdering {
  od_abs : forall x, fin x -> fin (absD ar x) /\ v (absD ar x) = Rabs (v x);
  od_lt : forall a b, fin a -> fin b -> (ltD ar a b = true <-> v a < v b);
  od_le : forall a b, fin a -> fin b -> (leD ar a b = true <-> v a <= v b);
  od_frac : forall n m, (n <= m)%nat -> (Z.of_nat m < 2 ^ 63)%Z -> leD ar (quotD ar n m) (d0 ar) = true -> n = 0%nat
}.

(** Which precisions a block type contains. *)
Definition has_d (t : mty) : bool :=
  match t with TL (TS ED) | TL (TD ED) => true | TM _ _ => true | _ => false end.
Definition has_f (t : mty) : bool :=
  match t with TL (TS EF) | TL (TD EF) => true | TM _ _ => true | _ => false end.

(** For an element of absolute value [x] in a block of type [t], with thresholds
    [sD] and [sF]: how much of it the conversion may lose, and the magnitudes of
    what it may be stored as. *)
Definition lost (uF eta sD sF : R) (t : mty) (x : R) : R :=
  match t with
  | TL (TD ED) => 0
  | TL TZ => Rmin x sD
  | TL (TS ED) => Rmin x sF
  | TL (TD EF) => uF * Rmin x sF + eta
  | _ => Rmax (Rmin x sD) (uF * Rmin x sF + eta)
  end.
Definition mag_d (t : mty) (x : R) : R := if has_d t then x else 0.
Definition mag_f (uF eta sF : R) (t : mty) (x : R) : R := if has_f t then (1 + uF) * Rmin x sF + eta else 0.
