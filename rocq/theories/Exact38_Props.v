(** C34 in numbers: which elements of an IEEE block survive a conversion with the
    default settings, infinite elements included. *)
From Coq Require Import ZArith Reals Lra.
From Verif Require Import Base BaseLemmas Dense_Model Dense_Spec Dense_Proofs Dense2_Proofs Sparse_Model Sparse_Spec
  Sparse_Proofs Sparse2_Proofs Sparse3_Proofs Sparse4_Proofs SparseT_Proofs SparseP_Proofs
  Mult_Model Mult_Spec Mult_Proofs Mult2_Proofs Mult3_Proofs Dyn_Model Dyn_Spec Dyn_Proofs Dyn2_Proofs Block_Proofs
  Conv_Spec Conv_Proofs Check_Model Check_Spec Check_Props Dense_Props Sparse_Props Mult_Props Dyn_Props Fp_Ieee Fp_Props Exact27_Props Exact31_Props.
From Flocq Require Import Core BinarySingleNaN.
#[local] Open Scope R_scope.

(** C34.  With the default settings, whatever type is chosen: an element beyond 2^-23
    in absolute value, finite or infinite, is unchanged in the converted matrix; one
    beyond 2^-52 is unchanged or rounded to float, and 0 only in the type sparse
    double. *)
Theorem C34_large_elements_kept :
  forall exc dbg (m : dense f64) r c f t,
    col_source m -> view m r c f -> full_ok m -> (Z.of_nat (r * c) < 2 ^ 63)%Z ->
    first_of (respects ieee default_threshold r c f) type_list t -> sh_sub (d_sh m) = true \/ t <> TM (TS ED) (TD EF) ->
    exists d g, convert ieee exc dbg default_threshold m = Ok d /\ dyn_ty d = t /\ rep ieee d r c g /\
      forall i j, (i < r)%nat -> (j < c)%nat -> no_nan (f i j) ->
        (bpow radix2 (-23) < Rabs (place (f i j)) -> g i j = f i j) /\
        (bpow radix2 (-52) < Rabs (place (f i j)) ->
           g i j = f i j \/ g i j = toD ieee (toF ieee (f i j)) \/ t = TL (TS ED) /\ g i j = B754_zero false).
Proof.
  intros exc dbg m r c f t HS HV HF HL Ht Hsub.
  destruct (C34_default_ieee exc dbg m r c f t HS HV HF HL Ht Hsub) as (d & g & E & T & RP & H).
  exists d, g. split; [exact E|]. split; [exact T|]. split; [exact RP|]. intros i j Hi Hj N.
  destruct (H i j Hi Hj) as [H1 H2]. clear H.
  assert (LT : forall e x, (-1074 <= e < 1024)%Z -> no_nan x -> bpow radix2 e < Rabs (place x) -> ltD ieee (lit 1 e) (absD ieee x) = true).
  { intros e x [E1 E2] Nx L. destruct (lit_pow e E1 E2) as [V F]. cbn [ieee ltD absD].
    rewrite lt_place; [|destruct (lit 1 e); try discriminate; reflexivity|unfold no_nan; now rewrite abs_nan].
    rewrite abs_place, (place_fin (lit 1 e) F). unfold val in V. rewrite V. now apply Rlt_bool_true. }
  change (sigF default_threshold) with (lit 1 (-23)) in H2.
  assert (B : bpow radix2 (-52) < bpow radix2 (-23)) by (apply bpow_lt; lia).
  assert (TT : t = TL (TS ED) \/ t <> TL (TS ED)).
  { destruct t as [[|[]|[]]|]; (now left) || (right; discriminate). }
  split; intros L.
  - assert (L1 := LT (-23)%Z _ ltac:(lia) N L). destruct TT as [TT|TT].
    + destruct (H2 TT) as [G|[G _]]; [exact G|congruence].
    + unfold loss_ok in H1. change (sigF default_threshold) with (lit 1 (-23)) in H1. change (sigD default_threshold) with (lit 1 (-52)) in H1.
      assert (L2 := LT (-52)%Z _ ltac:(lia) N ltac:(lra)).
      destruct (H1 TT) as [G|[[G _]|[G _]]]; [exact G|congruence|congruence].
  - assert (L2 := LT (-52)%Z _ ltac:(lia) N L). destruct TT as [TT|TT].
    + destruct (H2 TT) as [G|[_ G]]; [now left|]. right. right. split; [exact TT|exact G].
    + unfold loss_ok in H1. change (sigD default_threshold) with (lit 1 (-52)) in H1.
      destruct (H1 TT) as [G|[[G _]|[_ G]]]; [now left|congruence|right; now left].
Qed.
Print Assumptions C34_large_elements_kept.

(** A 1 x 1 matrix of an infinity becomes a dense matrix of doubles. *)
Definition inf11 : dense f64 := mkDense (own_shape ColMajor 1 1) 1 [Some (B754_infinity true)] true.
Example C34_large_nonvacuous :
  col_source inf11 /\ view inf11 1 1 (fun _ _ => B754_infinity true) /\ full_ok inf11 /\
  first_of (respects ieee default_threshold 1 1 (fun _ _ => B754_infinity true)) type_list (TL (TD ED)) /\
  bpow radix2 (-23) < Rabs (place (B754_infinity true)) /\
  exists d, convert ieee true true default_threshold inf11 = Ok (DL (LDd d)) /\ dget true d 0 0 = Ok (B754_infinity true).
Proof.
  assert (M : is_mat inf11 1 1 (fun _ _ => B754_infinity true)).
  { split; [repeat split|]. split; [reflexivity|]. split; [reflexivity|]. intros [|i] [|j] Hi Hj; cbn in Hi, Hj; try lia. reflexivity. }
  split; [apply src_mat; [exact (proj1 M)|reflexivity]|]. split; [exact (proj2 M)|]. split; [reflexivity|]. split; [|split].
  - exists (List.removelast type_list), nil. split; [reflexivity|]. split; [vm_compute; reflexivity|].
    intros u Hu. cbn in Hu. repeat (destruct Hu as [<-|Hu]; [vm_compute; reflexivity|]). contradiction.
  - cbn [place]. rewrite Rabs_Ropp, Rabs_pos_eq by apply bpow_ge_0. apply bpow_lt. lia.
  - exists inf11. split; vm_compute; reflexivity.
Qed.
Print Assumptions C34_large_nonvacuous.

(** C62.  What the block-wise product does to an infinity: a factor that is 0 or below
    the threshold makes the result 0, where the plain dense product is NaN or infinite. *)
Definition one11 (x : f64) : dense f64 := mkDense (own_shape ColMajor 1 1) 1 [Some x] true.
Definition block_wise (A B : dense f64) (rl nl cl : list nat) : res (dense f64) :=
  do a <- cut ieee true true default_threshold A rl nl;
  do b <- cut ieee true true default_threshold B nl cl;
  do c <- mul_blocked ieee (fun _ => true) PNative true a b;
  dense_of_blocked ieee true true c.
Definition plain_product (A B : dense f64) : res (dense f64) :=
  mul_dd (fmaD ieee) (d0 ieee) true A B (d_default ColMajor).
Theorem C62_infinity_is_lost_refuted :
  (forall x, is_mat (one11 x) 1 1 (fun _ _ => x)) /\
  (forall s, block_wise (one11 (B754_infinity s)) (one11 (B754_zero false)) [1%nat] [1%nat] [1%nat] = Ok (one11 (B754_zero false)) /\
             plain_product (one11 (B754_infinity s)) (one11 (B754_zero false)) = Ok (one11 B754_nan)) /\
  (forall s, block_wise (one11 (lit 1 (-60))) (one11 (B754_infinity s)) [1%nat] [1%nat] [1%nat] = Ok (one11 (B754_zero false)) /\
             plain_product (one11 (lit 1 (-60))) (one11 (B754_infinity s)) = Ok (one11 (B754_infinity s))).
Proof.
  split; [|split].
  - intros x. split; [repeat split|]. split; [reflexivity|]. split; [reflexivity|]. intros [|i] [|j] Hi Hj; cbn in Hi, Hj; try lia. reflexivity.
  - intros []; split; vm_compute; reflexivity.
  - intros []; split; vm_compute; reflexivity.
Qed.
Print Assumptions C62_infinity_is_lost_refuted.
