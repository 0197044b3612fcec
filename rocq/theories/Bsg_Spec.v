(** What a user of the block-size generator relies on. *)
From Coq Require Export Sorting.Permutation.
From Verif Require Import Base Dense_Model Dense_Spec Bsg_Model.

(** The sizes cover a dimension of length [n] without gaps or overlaps. *)
Definition tiles (l : list nat) (n : nat) : Prop := list_sum l = n /\ Forall (fun s => 1 <= s) l.

(** [idx] is an order in which [sort_indices] may return the positions of
    [detect]: a permutation with no larger value after a smaller one. *)
Definition sorted_order {T} (bn : bnum T) (detect : list T) (idx : list nat) : Prop :=
  Permutation idx (seq 0 (length detect)) /\
  forall a b i j x y, a < b -> nth_error idx a = Some i -> nth_error idx b = Some j ->
    nth_error detect i = Some x -> nth_error detect j = Some y -> b_gt bn y x = false.

(** Comparison of values that are not NaN: equal values are not greater. *)
Definition eq_consistent {T} (bn : bnum T) : Prop :=
  forall v x y, b_eq bn v x = true -> b_eq bn v y = true -> b_gt bn x y = false.
Definition eq_refl_ok {T} (bn : bnum T) : Prop := forall v, b_eq bn v v = true.

(** A cut after position [p] of a profile, i.e. between line p and line p+1. *)
Definition cut_at (sizes : list nat) (p : nat) : Prop := exists k, k < length sizes /\ 1 <= k /\ list_sum (firstn k sizes) = p + 1.

(** Row profile: value [k] adds up, column by column, how much the exponents of
    rows k and k+1 differ; column profile accordingly. *)
Definition row_profile {T} (bn : bnum T) (c : nat) (e : nat -> nat -> T) (k : nat) : T :=
  fold_left (b_add bn) (map (fun j => b_abs bn (b_sub bn (e k j) (e (S k) j))) (seq 0 c)) (b_zero bn).
Definition col_profile {T} (bn : bnum T) (r : nat) (e : nat -> nat -> T) (k : nat) : T :=
  fold_left (b_add bn) (map (fun i => b_abs bn (b_sub bn (e i k) (e i (S k)))) (seq 0 r)) (b_zero bn).
