(** The benchmark's block-wise action (src/Benchmark/Action_blasbooster_block.h).

    Simplifications: running times are left out; the order of equal values chosen
    by std::sort is an argument (Bsg_Model.v); [elide] says whether the compiler
    constructs the local variable a function returns by name in place (C++ allows
    it and does not demand it).  If it does not, the move constructor runs, which
    does not initialise the unblocked dimensions from its argument
    (DenseMatrix.h 200-205, Dimension.h 151-155). *)
From Verif Require Import Base Dense_Model Dyn_Model Bsg_Model Bench_Model.

Section BlockAction.
Context {F D : Type} (ar : arith F D) (bn : bnum D) (ready : mty -> bool) (p : policy)
  (exc dbg elide : bool) (th : threshold D).

(** Threshold.h 61-62: the limits are of type int; BlockSizeGenerator.h 57 takes size_t. *)
Definition to_size (x : Z) : N := Z.to_N (x mod 2 ^ 64).

(** Action_blasbooster_block.h 33-36: body of the first benchmark. *)
Definition block_sizes (mn mx : Z) (A B : dense D) (ri ki ci : list nat) : res (list nat * list nat * list nat) :=
  do g <- bsg_new (to_size mn) (to_size mx);
  generate_mult bn (fst g) (snd g) A B ri ki ci.

(** [return blockedMatrix;] (BlockedMatrixGenerator.h 50) and [return C;]
    (MatrixMultExp.h 69), then the move assignment, which transfers everything
    (DenseMatrix.h 214-221). *)
Definition returned (b : blocked F D) : blocked F D :=
  if elide then b else mkBlocked (b_mat b) 0 0.

(** 42-45: body of the second benchmark. *)
Definition cut_both (A B : dense D) (s : list nat * list nat * list nat) : res (blocked F D * blocked F D) :=
  let '(rl, nl, cl) := s in
  do a <- cut ar exc dbg th A rl nl;
  do b <- cut ar exc dbg th B nl cl;
  Ok (returned a, returned b).

(** 24-57, [execute]; each benchmark runs its body [runs] times. *)
Definition execute_block (mn mx : Z) (ri ki ci : list nat) (runs : nat) (A B : dense D) : res (dense D) :=
  do s <- bench_it runs (fun _ => block_sizes mn mx A B ri ki ci) ([], [], []);
  do ab <- bench_it runs (fun _ => cut_both A B s) (blk_new 0 0 0 0, blk_new 0 0 0 0);
  do c <- bench_it runs (fun _ => do c <- mul_blocked ar ready p dbg (fst ab) (snd ab); Ok (returned c)) (blk_new 0 0 0 0);
  dense_of_blocked ar exc dbg c.
End BlockAction.
