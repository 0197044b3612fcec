(** Specification of matrix products. *)
From Verif Require Import Base.

(** [((zero + a(i,0) b(0,j)) + a(i,1) b(1,j)) + ...], evaluated in this order;
    [fma c x y] stands for [c + x * y] as the machine evaluates it. *)
Definition prod_at {A B C} (fma : C -> A -> B -> C) (zero : C) (n : nat)
    (fa : nat -> nat -> A) (fb : nat -> nat -> B) (i j : nat) : C :=
  fold_left (fun acc k => fma acc (fa i k) (fb k j)) (seq 0 n) zero.

(** The same sum restricted to the stored elements of sparse operands. *)
Definition prod_ss_at {A B C} (fma : C -> A -> B -> C) (zero : C) (n : nat)
    (fa : nat -> nat -> option A) (fb : nat -> nat -> option B) (i j : nat) : C :=
  fold_left (fun acc k => match fa i k, fb k j with Some x, Some y => fma acc x y | _, _ => acc end)
            (seq 0 n) zero.
Definition prod_sd_at {A B C} (fma : C -> A -> B -> C) (zero : C) (n : nat)
    (fa : nat -> nat -> option A) (fb : nat -> nat -> B) (i j : nat) : C :=
  fold_left (fun acc k => match fa i k with Some x => fma acc x (fb k j) | None => acc end) (seq 0 n) zero.
Definition prod_ds_at {A B C} (fma : C -> A -> B -> C) (zero : C) (n : nat)
    (fa : nat -> nat -> A) (fb : nat -> nat -> option B) (i j : nat) : C :=
  fold_left (fun acc k => match fb k j with Some y => fma acc (fa i k) y | None => acc end) (seq 0 n) zero.

(** The product of two matrices over a ring: sum over k of f(i,k) g(k,j). *)
Fixpoint sum_n {T} `{Scalar T} (n : nat) (h : nat -> T) : T :=
  match n with 0 => s0 | S n => sadd (sum_n n h) (h n) end.
Definition mat_prod {T} `{Scalar T} (n : nat) (f g : nat -> nat -> T) (i j : nat) : T :=
  sum_n n (fun k => smul (f i k) (g k j)).
(** [c += x * y]. *)
Definition s_fma {T} `{Scalar T} (c x y : T) : T := sadd c (smul x y).
