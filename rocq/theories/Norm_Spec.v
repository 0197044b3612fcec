(** Specification of norms. *)
From Verif Require Import Base Dense_Model Dense_Spec Sparse_Model Sparse_Spec Mult_Spec Dyn_Model Dyn_Spec
  Check_Model Check_Spec Norm_Model.

(** The elements of an r x c array in storage order. *)
Definition in_storage_order {T} (o : orient) (r c : nat) (f : nat -> nat -> T) : list T :=
  match o with
  | RowMajor => flat_map (fun i => map (fun j => f i j) (seq 0 c)) (seq 0 r)
  | ColMajor => flat_map (fun j => map (fun i => f i j) (seq 0 r)) (seq 0 c)
  end.

Section NSpec.
Context {F D : Type} (ar : arith F D) (nx : nops F D) {SD : Scalar D}.

(** Exact arithmetic (see [exact]); the functions on floats agree with those on
    doubles; |0| = 0^2 = 0. *)
Record nexact : Prop := mkNexact {
  nx_exact : exact ar;
  nx_absF : forall x, absF nx x = absD ar (toD ar x);
  nx_sqF : forall x, sqF nx x = sqD nx (toD ar x);
  nx_abs0 : absD ar s0 = s0;
  nx_sq0 : sqD nx s0 = s0
}.

Definition sum2 (r c : nat) (h : nat -> nat -> D) : D := sum_n r (fun i => sum_n c (fun j => h i j)).
(** Sum of absolute values; root of the sum of squares. *)
Definition norm1 (r c : nat) (g : nat -> nat -> D) : D := sum2 r c (fun i j => absD ar (g i j)).
Definition sumsq (r c : nat) (g : nat -> nat -> D) : D := sum2 r c (fun i j => sqD nx (g i j)).
Definition norm2 (r c : nat) (g : nat -> nat -> D) : D := sqrtD nx (sumsq r c g).
(** [m] is the largest absolute value, 0 if there is no element. *)
Definition is_norm_max (r c : nat) (g : nat -> nat -> D) (m : D) : Prop :=
  (forall i j, i < r -> j < c -> le ar (absD ar (g i j)) m) /\
  (m = s0 /\ (r = 0 \/ c = 0) \/ exists i j, i < r /\ j < c /\ m = absD ar (g i j)).
(** |x| is not negative. *)
Definition abs_pos : Prop := forall x, le ar s0 (absD ar x).

(** [v] is the norm of kind [k] of the array [g]. *)
Definition is_norm (k : nkind) (r c : nat) (g : nat -> nat -> D) (v : D) : Prop :=
  match k with
  | NOne => v = norm1 r c g
  | NTwo => v = norm2 r c g
  | NMax => is_norm_max r c g v
  end.
(** Additional laws needed for kind [k]. *)
Definition k_ok (k : nkind) : Prop :=
  match k with NMax => linear ar /\ abs_pos | NTwo => sqrtD nx s0 = s0 | NOne => True end.

(** A sparse matrix without unused cells: the last offset is nnz().  True of
    every matrix built by conversion, a literal or a filler, false of sums and
    products of sparse matrices. *)
Definition compact {T} (s : sparse T) : Prop := rd (s_off s) (s_minor s) = Ok (s_nnz s).
Definition l_compact (l : leaf F D) : Prop :=
  match l with LSf s => compact s | LSd s => compact s | _ => True end.
(** A matrix in two parts is usable if the sum of the parts is dense. *)
Definition normable (d : dyn F D) : Prop :=
  match d with
  | DL l => l_compact l
  | DM t1 t2 _ _ => match add_lty t1 t2 with TD _ => True | _ => False end
  end.
End NSpec.
