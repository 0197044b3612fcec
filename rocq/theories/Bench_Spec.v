(** What the benchmark's actions and its table are supposed to deliver. *)
From Verif Require Import Base Dense_Model Dense_Spec Mult_Spec Dyn_Model Bench_Model.

Section Spec.
Context {F D : Type} (ar : arith F D) (lb : libs F D).

(** Row [i] of the first factor paired with column [j] of the second. *)
Definition row_col {X Y} (n : nat) (f : nat -> nat -> X) (g : nat -> nat -> Y) (i j : nat) : list (X * Y) :=
  map (fun k => (f i k, g k j)) (seq 0 n).

(** Element (i, j) of the result of an action on matrices [f] and [g] with inner
    dimension [n]: an inner product in the precision the name of the action says. *)
Definition result_at (x : action) (n : nat) (f g : nat -> nat -> D) (i j : nat) : D :=
  let fs := fun i j => toF ar (f i j) in
  let gs := fun i j => toF ar (g i j) in
  match x with
  | ANativeDense => fold_left (fun acc p => fmaD ar acc (fst p) (snd p)) (row_col n f g i j) (d0 ar)
  | AOpenBLAS_d | AMKL_d => dotD ar (row_col n f g i j)
  | AEigen_d => eigenD lb (row_col n f g i j)
  | ABlaze_d => blazeD lb (row_col n f g i j)
  | AOpenBLAS_s | AMKL_s => toD ar (dotF ar (row_col n fs gs i j))
  | AEigen_s => toD ar (eigenF lb (row_col n fs gs i j))
  | ABlaze_s => toD ar (blazeF lb (row_col n fs gs i j))
  | ABlaze_sd => blazeFD lb (row_col n fs g i j)
  | ABlaze_ds => blazeDF lb (row_col n f gs i j)
  end.

(** When an action can be used for an [m] x [n] times [n] x [l] product. *)
Definition small_int (k : nat) : Prop := (Z.of_nat k < 2 ^ 31)%Z.
Definition gemm_legal (m n l : nat) : Prop := 1 <= n /\ small_int m /\ small_int n /\ small_int l.
(** Blaze accepts the memory every non-empty matrix of the library owns. *)
Definition accepts {T} (u : dense T -> bool) : Prop := forall d, d_own d = true -> d_buf d <> [] -> u d = true.
Definition blaze_legal (A B : dense D) (m n l : nat) : Prop :=
  accepts (usableF lb) /\ accepts (usableD lb) /\ 1 <= m /\ 1 <= n /\ 1 <= l /\ d_own A = true /\ d_own B = true.
Definition legal (x : action) (A B : dense D) (m n l : nat) : Prop :=
  match x with
  | ANativeDense | AEigen_d | AEigen_s => True
  | AOpenBLAS_d | AMKL_d | AOpenBLAS_s | AMKL_s => gemm_legal m n l
  | ABlaze_d => blaze_legal A B m n l /\ m mod simdD lb = 0 /\ n mod simdD lb = 0
  | ABlaze_s => blaze_legal A B m n l /\ m mod simdF lb = 0 /\ n mod simdF lb = 0
  | ABlaze_sd => blaze_legal A B m n l /\ m mod simdF lb = 0 /\ n mod simdD lb = 0 /\ m mod simdD lb = 0
  | ABlaze_ds => blaze_legal A B m n l /\ m mod simdD lb = 0 /\ n mod simdF lb = 0
  end.

(** Libraries that compute inner products exactly, in any order. *)
Record exact_libs {S : Scalar D} : Prop := mkExactLibs {
  xl_fma : forall c x y, fmaD ar c x y = sadd c (smul x y);
  xl_zero : d0 ar = s0;
  xl_d : forall dot, In dot [dotD ar; eigenD lb; blazeD lb] ->
    forall ps, dot ps = fold_left (fun acc p => sadd acc (smul (fst p) (snd p))) ps s0;
  xl_s : forall dot, In dot [dotF ar; eigenF lb; blazeF lb] ->
    forall ps, toD ar (dot ps) = fold_left (fun acc p => sadd acc (smul (toD ar (fst p)) (toD ar (snd p)))) ps s0;
  xl_sd : forall ps, blazeFD lb ps = fold_left (fun acc p => sadd acc (smul (toD ar (fst p)) (snd p))) ps s0;
  xl_ds : forall ps, blazeDF lb ps = fold_left (fun acc p => sadd acc (smul (fst p) (toD ar (snd p)))) ps s0
}.
End Spec.

(** The table: position (i, k) stands for pair [i] and action [k]; the rows come
    pair by pair, and within a pair in the order of the actions.  The first action
    gets zeros. *)
Definition positions (np na : nat) : list (nat * nat) :=
  flat_map (fun i => map (fun k => (i, k)) (seq 0 na)) (seq 0 np).
Definition row_at {D} (zero : D) (N : nat -> nat -> D * D) (p : nat * nat) : row :=
  let '(i, k) := p in
  if k =? 0 then mkRow i k zero zero else mkRow i k (fst (N i k)) (snd (N i k)).
(** The contents of file "diff_n.dat". *)
Definition contents {D} (fs : list (nat * buf D)) (n : nat) : option (buf D) :=
  option_map snd (find (fun x => fst x =? n) fs).
