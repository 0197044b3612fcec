(** Specification of the converter: which type is chosen and what each element
    becomes.  Nothing here refers to the converter's code. *)
From Verif Require Import Base Dense_Model Sparse_Spec Dyn_Model.

Section S.
Context {F D : Type} (ar : arith F D).

(** Fraction of the r*c elements of [f] whose magnitude exceeds [t]. *)
Definition fraction_above (t : D) (r c : nat) (f : nat -> nat -> D) : D :=
  quotD ar (count2 r c (fun i j => ltD ar t (absD ar (f i j)))) (r * c).

(** The two occupation limits of type [t] are respected. *)
Definition respects (th : threshold D) (r c : nat) (f : nat -> nat -> D) (t : mty) : bool :=
  leD ar (fraction_above (sigD th) r c f) (occ_set th t ED) &&
  leD ar (fraction_above (sigF th) r c f) (occ_set th t EF).

(** The single precision limit of Matrix<Zero> equals its double precision one
    (as in the default settings). *)
Definition zero_limits_agree (th : threshold D) : Prop := occ_set th (TL TZ) EF = occ_set th (TL TZ) ED.

(** [t] is the first type of [l] satisfying [p]. *)
Definition first_of (p : mty -> bool) (l : list mty) (t : mty) : Prop :=
  exists pre post, l = pre ++ t :: post /\ p t = true /\ forall u, In u pre -> p u = false.

(** Usable thresholds: 0 <= sigD < sigF. *)
Definition valid_thr (th : threshold D) : Prop :=
  ltD ar (sigD th) (d0 ar) = false /\ ltD ar (sigF th) (d0 ar) = false /\ leD ar (sigF th) (sigD th) = false /\
  ltD ar (d0 ar) (d0 ar) = false.

Definition nonneg_thr (th : threshold D) : Prop :=
  ltD ar (sigD th) (d0 ar) = false /\ ltD ar (sigF th) (d0 ar) = false.
(** Types that store the elements between the two thresholds apart. *)
Definition needs_range (t : mty) : bool :=
  match t with TL (TS EF) | TM _ _ => true | _ => false end.

(** |x| > sigF, and sigD < |x| <= sigF. *)
Definition large (th : threshold D) (x : D) : bool := ltD ar (sigF th) (absD ar x).
Definition medium (th : threshold D) (x : D) : bool := ltD ar (sigD th) (absD ar x) && leD ar (absD ar x) (sigF th).

(** The double value that stands for element [x] after conversion to type [t]
    of a window ([sub = true]) or of a plain matrix. *)
Definition stored_as (th : threshold D) (sub : bool) (t : mty) (x : D) : D :=
  let keep (p : bool) (v : D) := if p then v else d0 ar in
  let round := toD ar (toF ar x) in
  match t with
  | TL TZ => d0 ar
  | TL (TS EF) => keep (medium th x) round
  | TL (TS ED) => keep (large th x) x
  | TL (TD EF) => if sub then (if ltD ar (d0 ar) (absD ar x) then round else toD ar (f0 ar)) else round
  | TL (TD ED) => if sub then keep (ltD ar (d0 ar) (absD ar x)) x else x
  | TM t1 t2 =>
      let part (t : lty) (p : bool) : D :=
        match t with
        | TZ => d0 ar
        | TS EF => keep p round
        | TS ED => keep p x
        | TD EF => if sub then (if p then round else toD ar (f0 ar)) else round
        | TD ED => if sub then keep p x else x
        end in
      addD ar (part t1 (large th x)) (part t2 (medium th x))
  end.

(** What C34 promises of the value [v] stored for element [x]: unchanged; or 0
    if x is not above the double threshold; or rounded to float if x is not above
    the float threshold. *)
Definition loss_ok (th : threshold D) (x v : D) : Prop :=
  v = x \/
  (ltD ar (sigD th) (absD ar x) = false /\ v = d0 ar) \/
  (ltD ar (sigF th) (absD ar x) = false /\ v = toD ar (toF ar x)).

(** Facts about comparisons, the number 0 and fractions that hold for floating
    point numbers, NaN and -0 included (Fp_Props, [ieee_comparable]): adding 0 to
    a number above the float threshold, or to a medium one rounded to float,
    changes nothing. *)
Record comparable (th : threshold D) : Prop := mkComparable {
  cp_add00 : addD ar (d0 ar) (d0 ar) = d0 ar;
  cp_add0r : forall x, ltD ar (sigF th) (absD ar x) = true -> addD ar x (d0 ar) = x;
  cp_add0l : forall x, ltD ar (sigD th) (absD ar x) = true -> ltD ar (sigF th) (absD ar x) = false ->
               addD ar (d0 ar) (toD ar (toF ar x)) = toD ar (toF ar x);
  cp_f0 : toD ar (f0 ar) = d0 ar;
  cp_le : forall x, ltD ar (sigD th) (absD ar x) = true -> ltD ar (sigF th) (absD ar x) = false ->
            leD ar (absD ar x) (sigF th) = true;
  cp_lt : forall x, ltD ar (sigF th) (absD ar x) = true -> leD ar (absD ar x) (sigF th) = false;
  cp_0 : forall x, ltD ar (d0 ar) (absD ar x) = false -> ltD ar (sigD th) (absD ar x) = false;
  cp_frac : forall n m, n <= m -> (Z.of_nat m < 2 ^ 63)%Z -> leD ar (quotD ar n m) (d0 ar) = true -> n = 0
}.
(** The zero limits of the default settings: no element above the double
    threshold for Zero, none above the float threshold for the float types. *)
Definition zero_limits (th : threshold D) : Prop :=
  occ_set th (TL TZ) ED = d0 ar /\ occ_set th (TL TZ) EF = d0 ar /\
  occ_set th (TL (TS EF)) EF = d0 ar /\ occ_set th (TL (TD EF)) EF = d0 ar.
End S.
