(** What the machine evaluates for one element of a product or sum of run-time
    typed matrices, without any law of arithmetic: the operations performed, in
    their order, on the doubles and floats stored in the operands. *)
From Verif Require Import Base Dyn_Model.

Definition is_f (t : lty) : bool := match t with TS EF | TD EF => true | _ => false end.

Section Eval.
Context {F D : Type} (ar : arith F D).

(** The element of a product formed from a row [x] and a column [y] of length
    [n].  Pairs with a factor that is not stored (0) may be left out ([keep]);
    the rest is accumulated in index order or handed to the BLAS inner product;
    in float if [fl] and both operands are floats; policy MKL rounds the double
    operand of a mixed product to float; a sparse result does not store zeros. *)
Inductive dot_eval (p : policy) (fl : bool) (n : nat) (x y : nat -> D) : D -> Prop :=
| ev_fold keep : (forall k, k < n -> keep k = false -> x k = d0 ar \/ y k = d0 ar) ->
    dot_eval p fl n x y (fold_left (fun c k => fmaD ar c (x k) (y k)) (filter keep (seq 0 n)) (d0 ar))
| ev_dot keep : (forall k, k < n -> keep k = false -> x k = d0 ar \/ y k = d0 ar) ->
    dot_eval p fl n x y (dotD ar (map (fun k => (x k, y k)) (filter keep (seq 0 n))))
| ev_foldF keep (x' y' : nat -> F) : fl = true ->
    (forall k, k < n -> keep k = false -> x k = d0 ar \/ y k = d0 ar) ->
    (forall k, k < n -> keep k = true -> x k = toD ar (x' k) /\ y k = toD ar (y' k)) ->
    dot_eval p fl n x y (toD ar (fold_left (fun c k => fmaF ar c (x' k) (y' k)) (filter keep (seq 0 n)) (f0 ar)))
| ev_dotF (x' y' : nat -> F) : fl = true ->
    (forall k, k < n -> x k = toD ar (x' k) /\ y k = toD ar (y' k)) ->
    dot_eval p fl n x y (toD ar (dotF ar (map (fun k => (x' k, y' k)) (seq 0 n))))
| ev_mixed_fd (x' : nat -> F) : fl = true -> p = PMKL -> (forall k, k < n -> x k = toD ar (x' k)) ->
    dot_eval p fl n x y (toD ar (dotF ar (map (fun k => (x' k, toF ar (y k))) (seq 0 n))))
| ev_mixed_df (y' : nat -> F) : fl = true -> p = PMKL -> (forall k, k < n -> y k = toD ar (y' k)) ->
    dot_eval p fl n x y (toD ar (dotF ar (map (fun k => (toF ar (x k), y' k)) (seq 0 n))))
| ev_zero r : dot_eval p fl n x y r -> dnz ar r = false -> dot_eval p fl n x y (d0 ar)
| ev_zeroF r : fl = true -> dot_eval p fl n x y (toD ar r) -> fnz ar r = false -> dot_eval p fl n x y (d0 ar).

(** The element of a sum or difference of [x] and [y]: one operation in double,
    or in float if [fl] and both are floats (the operands of a sum in either
    order), or none if one operand is not stored. *)
Inductive bin_eval (o : pm) (fl : bool) (x y : D) : D -> Prop :=
| be_D : bin_eval o fl x y (binD ar o x y)
| be_Dr : o = Plus -> bin_eval o fl x y (addD ar y x)
| be_F x' y' : fl = true -> x = toD ar x' -> y = toD ar y' -> bin_eval o fl x y (toD ar (binF ar o x' y'))
| be_Fr x' y' : fl = true -> o = Plus -> x = toD ar x' -> y = toD ar y' -> bin_eval o fl x y (toD ar (addF ar y' x'))
| be_0r : y = d0 ar -> bin_eval o fl x y x
| be_0l : x = d0 ar -> bin_eval o fl x y (unD ar o y)
| be_0lF y' : x = d0 ar -> y = toD ar y' -> bin_eval o fl x y (toD ar (unF ar o y')).

End Eval.
