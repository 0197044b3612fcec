(** C51: when a matrix equals itself, and what is left of transitivity. *)
From Coq Require Import ZArith Reals Lra Lia Floats.SpecFloat.
From Verif Require Import Base Dense_Model Dense_Spec Sparse_Model Sparse_Spec Eq_Model Eq_Spec Eq_Proofs Eq_Props Norm_Spec Fp_Ieee Exact18_Props.
From Flocq Require Import Core BinarySingleNaN.
#[local] Open Scope R_scope.
#[local] Notation f64 := (binary_float 53 1024).

(** A dense matrix of doubles, or of floats, equals itself exactly if all its
    elements are finite; a sparse matrix of doubles without unused cells exactly
    if all elements stored in it are. *)
Theorem C51_itself_exact :
  (forall (a : dense spec_float) r c f, is_mat a r c f ->
    d_equal within_dd a a = Ok true /\ (forall i j, (i < r)%nat -> (j < c)%nat -> number (f i j) = true) \/
    d_equal within_dd a a = Ok false /\ (exists i j, (i < r)%nat /\ (j < c)%nat /\ number (f i j) = false)) /\
  (forall (a : dense spec_float) r c f, is_mat a r c f ->
    d_equal within_ff a a = Ok true /\ (forall i j, (i < r)%nat -> (j < c)%nat -> number (f i j) = true) \/
    d_equal within_ff a a = Ok false /\ (exists i j, (i < r)%nat /\ (j < c)%nat /\ number (f i j) = false)) /\
  (forall (a : sparse spec_float) r c f, sp_mat a r c f -> Norm_Spec.compact a ->
    sp_equal within_dd a a = Ok true /\ (forall i j x, (i < r)%nat -> (j < c)%nat -> f i j = Some x -> number x = true) \/
    sp_equal within_dd a a = Ok false /\ (exists i j x, (i < r)%nat /\ (j < c)%nat /\ f i j = Some x /\ number x = false)).
Proof.
  assert (DEC : forall r c (P : nat -> nat -> bool),
    (forall i j, (i < r)%nat -> (j < c)%nat -> P i j = true) \/ (exists i j, (i < r)%nat /\ (j < c)%nat /\ P i j = false)).
  { intros r c P. induction r as [|r IH]; [left; intros; lia|]. destruct IH as [IH|(i & j & H1 & H2 & H3)]; [|right; exists i, j; auto with arith].
    assert (L : (forall j, (j < c)%nat -> P r j = true) \/ exists j, (j < c)%nat /\ P r j = false).
    { clear IH. induction c as [|c IH]; [left; intros; lia|]. destruct IH as [IH|(j & H1 & H2)]; [|right; exists j; auto with arith].
      destruct (P r c) eqn:E; [left; intros j Hj; destruct (Nat.eq_dec j c); [now subst|apply IH; lia]|right; exists c; auto]. }
    destruct L as [L|(j & H1 & H2)]; [left; intros i j Hi Hj; destruct (Nat.eq_dec i r); [subst; auto|apply IH; lia]|right; exists r, j; auto]. }
  assert (DENSE : forall eqv : spec_float -> spec_float -> bool, (forall x, eqv x x = number x) ->
    forall (a : dense spec_float) r c f, is_mat a r c f ->
    d_equal eqv a a = Ok true /\ (forall i j, (i < r)%nat -> (j < c)%nat -> number (f i j) = true) \/
    d_equal eqv a a = Ok false /\ (exists i j, (i < r)%nat /\ (j < c)%nat /\ number (f i j) = false)).
  { intros eqv R a r c f M. destruct (C51_dense_equal _ _ eqv a a r c f r c f M M eq_refl) as (e & -> & He).
    destruct (DEC r c (fun i j => number (f i j))) as [D|(i & j & Hi & Hj & D)]; [left|right].
    - split; [|exact D]. f_equal. apply He. split; [auto|]. split; [auto|]. intros. rewrite R. auto.
    - split; [|eauto]. f_equal. destruct e; [|reflexivity]. destruct (proj1 He eq_refl) as (_ & _ & H). specialize (H i j Hi Hj). rewrite R in H. congruence. }
  split; [apply DENSE, within_dd_refl|]. split; [apply DENSE, within_ff_refl|].
  intros a r c f M C. destruct (C51_sparse_equal _ _ within_dd a a r c f f M M eq_refl C C) as (e & -> & He).
  destruct (DEC r c (fun i j => match f i j with Some x => number x | None => true end)) as [D|(i & j & Hi & Hj & D)]; [left|right].
  - split.
    + f_equal. apply He. intros i j Hi Hj. specialize (D i j Hi Hj). destruct (f i j); cbn; [now rewrite within_dd_refl|exact I].
    + intros i j x Hi Hj E. specialize (D i j Hi Hj). now rewrite E in D.
  - destruct (f i j) as [x|] eqn:E; [|discriminate]. split; [|exists i, j, x; auto]. f_equal. destruct e; [|reflexivity].
    pose proof (proj1 He eq_refl i j Hi Hj) as H. rewrite E in H. cbn in H. rewrite within_dd_refl in H. congruence.
Qed.
Print Assumptions C51_itself_exact.

(** A matrix with NaN, one without; a sparse matrix with an infinity. *)
Definition one_nan (x : spec_float) : dense spec_float := mkDense (own_shape ColMajor 1 2) 2 [Some (S754_zero false); Some x] true.
Definition one_inf : sparse spec_float := mkSparse ColMajor 1 1 1 [Some (S754_infinity true)] [Some 0%nat] [Some 0%nat; Some 1%nat].
Example C51_itself_nonvacuous :
  is_mat (one_nan S754_nan) 1 2 (fun _ j => match j with O => S754_zero false | _ => S754_nan end) /\
  d_equal within_dd (one_nan S754_nan) (one_nan S754_nan) = Ok false /\
  d_equal within_dd (one_nan (S754_zero true)) (one_nan (S754_zero true)) = Ok true /\
  Norm_Spec.compact one_inf /\ sp_equal within_dd one_inf one_inf = Ok false.
Proof.
  split; [|repeat split].
  split; [repeat split|]. split; [|split]; try reflexivity. intros [|i] [|[|j]] Hi Hj; try lia; reflexivity.
Qed.
Print Assumptions C51_itself_nonvacuous.

(** The double after the one nearest to 1e-12. *)
Definition next_tol : R := IZR 4951760157141522 * bpow radix2 (-92).

Lemma within_real (x y : f64) : within_dd (B2SF x) (B2SF y) = true ->
  is_finite x = true /\ is_finite y = true /\ Rabs (B2R x - B2R y) < next_tol.
Proof.
  intros H. apply (proj1 C51_elements_in_reals) in H. destruct H as (Fx & Fy & H). split; [exact Fx|]. split; [exact Fy|].
  rewrite <- tol64_ok in H. apply Rnot_le_lt. intros K.
  assert (V : Valid_exp (FLT_exp (-1074) 53)) by (apply FLT_exp_valid; reflexivity).
  assert (G : generic_format radix2 (FLT_exp (-1074) 53) next_tol).
  { unfold next_tol. apply generic_format_FLT. exists (Float radix2 4951760157141522 (-92)); [reflexivity|cbn; lia|cbn; lia]. }
  assert (L : next_tol <= diff 53 1024 x y).
  { unfold diff. change (3 - 1024 - 53)%Z with (-1074)%Z. apply abs_round_ge_generic; auto. apply valid_rnd_N. }
  assert (T : SF2R radix2 tol64 < next_tol).
  { unfold next_tol, tol64, SF2R, F2R; cbn [Fnum Fexp cond_Zopp]. apply Rmult_lt_compat_r; [apply bpow_gt_0|]. apply IZR_lt. lia. }
  lra.
Qed.

(** If the first matrix equals the second and the second the third, the elements
    of the first and the third are finite and less than twice the double after
    1e-12 apart; in a chain of n comparisons, less than n times that. *)
Theorem C51_chain :
  forall n (a : nat -> dense spec_float) r c (f : nat -> nat -> nat -> f64),
    (forall k, (k <= n)%nat -> is_mat (a k) r c (fun i j => B2SF (f k i j))) ->
    (forall k, (k < n)%nat -> d_orient (a (S k)) = d_orient (a k) /\ d_equal within_dd (a k) (a (S k)) = Ok true) ->
    (1 <= n)%nat -> forall i j, (i < r)%nat -> (j < c)%nat ->
      is_finite (f O i j) = true /\ is_finite (f n i j) = true /\ Rabs (B2R (f O i j) - B2R (f n i j)) < INR n * next_tol.
Proof.
  intros n a r c f M E Hn i j Hi Hj.
  assert (ONE : forall k, (k < n)%nat -> is_finite (f k i j) = true /\ is_finite (f (S k) i j) = true /\ Rabs (B2R (f k i j) - B2R (f (S k) i j)) < next_tol).
  { intros k Hk. destruct (E k Hk) as [O Q].
    destruct (C51_dense_equal _ _ within_dd (a k) (a (S k)) r c _ r c _ (M k ltac:(lia)) (M (S k) ltac:(lia)) (eq_sym O)) as (e & Ee & He).
    rewrite Ee in Q. injection Q as ->. destruct (proj1 He eq_refl) as (_ & _ & H). apply within_real. auto. }
  clear M E. induction n as [|n IH]; [lia|]. destruct n as [|n].
  - rewrite Rmult_1_l. apply ONE. lia.
  - destruct IH as (F0 & Fn & B); [lia|intros k Hk; apply ONE; lia|]. destruct (ONE (S n) ltac:(lia)) as (_ & F2 & B2).
    split; [exact F0|]. split; [exact F2|]. rewrite (S_INR (S n)).
    replace (B2R (f O i j) - B2R (f (S (S n)) i j)) with ((B2R (f O i j) - B2R (f (S n) i j)) + (B2R (f (S n) i j) - B2R (f (S (S n)) i j))) by ring.
    eapply Rle_lt_trans; [apply Rabs_triang|]. lra.
Qed.
Print Assumptions C51_chain.

(** 0, 1e-12 and the next double: the first equals the second, the second the
    third, the first does not equal the third. *)
Definition chain_elt (k : nat) : f64 :=
  match k with
  | O => B754_zero false
  | S O => SF2B tol64 (eq_refl : valid_binary 53 1024 tol64 = true)
  | _ => SF2B (S754_finite false 4951760157141522 (-92)) (eq_refl : valid_binary 53 1024 (S754_finite false 4951760157141522 (-92)) = true)
  end.
Definition chain_mat (k : nat) : dense spec_float := mkDense (own_shape ColMajor 1 1) 1 [Some (B2SF (chain_elt k))] true.
Example C51_chain_nonvacuous :
  (forall k, (k <= 2)%nat -> is_mat (chain_mat k) 1 1 (fun i j => B2SF (chain_elt k))) /\
  (forall k, (k < 2)%nat -> d_orient (chain_mat (S k)) = d_orient (chain_mat k) /\ d_equal within_dd (chain_mat k) (chain_mat (S k)) = Ok true) /\
  d_equal within_dd (chain_mat 0) (chain_mat 2) = Ok false.
Proof.
  split; [|split].
  - intros k _. split; [repeat split|]. split; [|split]; try reflexivity. intros [|i] [|j] Hi Hj; try lia; reflexivity.
  - intros [|[|k]] Hk; try lia; split; vm_compute; reflexivity.
  - vm_compute. reflexivity.
Qed.
Print Assumptions C51_chain_nonvacuous.
