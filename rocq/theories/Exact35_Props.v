(** C77: what the benchmark reports for results with NaN or infinite elements. *)
From Coq Require Import ZArith Reals Lra.
From Verif Require Import Base BaseLemmas Dense_Model Dense_Spec Dense_Proofs Dense2_Proofs Sparse_Model Dyn_Model Dyn_Spec
  Norm_Model Norm_Spec Tools_Model Sparse3_Proofs Fp_Spec Fp_Proofs Fp_Ieee Fp_Props FpNorm_Spec FpNorm_Proofs FpNorm2_Props Exact27_Props Exact31_Props Exact34_Props.
From Flocq Require Import Core BinarySingleNaN.
#[local] Open Scope R_scope.

(** No difference can be told: one of the two is NaN, or both are the same infinity. *)
Definition incomparable (x y : f64) : Prop :=
  is_nan x = true \/ is_nan y = true \/ exists s, x = B754_infinity s /\ y = B754_infinity s.
(** Two finite numbers of the same value. *)
Definition same_number (x y : f64) : Prop := finite x /\ finite y /\ val x = val y.

Lemma fin_nn (x : f64) : is_finite x = true -> is_nan x = false.
Proof. now destruct x. Qed.

Lemma sub_nan (x y : f64) : is_nan (subD ieee x y) = true <-> incomparable x y.
Proof.
  unfold incomparable. cbn [subD ieee]. unfold bsub. destruct (is_finite x) eqn:Fx; destruct (is_finite y) eqn:Fy.
  - pose proof (Bminus_correct 53 1024 prec53 emax1024 mode_NE x y Fx Fy) as C.
    split; [intros H; exfalso|intros [H|[H|(s & -> & _)]]; exfalso; [rewrite (fin_nn x Fx) in H; discriminate|rewrite (fin_nn y Fy) in H; discriminate|cbn in Fx; discriminate]].
    destruct (Rlt_bool _ _).
    + destruct C as (_ & F & _). rewrite (fin_nn _ F) in H. discriminate.
    + destruct C as [C _]. apply SF_inf in C. rewrite C in H. discriminate.
  - destruct y as [|s| |]; try discriminate; destruct x as [|s'| |]; try discriminate; cbn; split; intros H; auto; try discriminate;
      destruct H as [H|[H|(t & H1 & H2)]]; try discriminate.
  - destruct x as [|s| |]; try discriminate; destruct y as [|s'| |]; try discriminate; cbn; split; intros H; auto; try discriminate;
      destruct H as [H|[H|(t & H1 & H2)]]; try discriminate.
  - destruct x as [|s| |]; try discriminate; destruct y as [|s'| |]; try discriminate; cbn; split; intros H; auto.
    + destruct s, s'; try discriminate; eauto.
    + destruct H as [H|[H|(t & [= ->] & [= ->])]]; try discriminate. now destruct t.
Qed.

Lemma sub_zero (x y : f64) : no_nan (subD ieee x y) -> (place (subD ieee x y) = 0 <-> same_number x y).
Proof.
  intros N. assert (NI : ~ incomparable x y) by (intros H; apply sub_nan in H; unfold no_nan in N; congruence).
  assert (INF : forall s, place (B754_infinity s : f64) <> 0).
  { intros s. cbn [place]. pose proof (bpow_gt_0 radix2 1024). destruct s; lra. }
  unfold same_number. destruct (is_finite x) eqn:Fx; destruct (is_finite y) eqn:Fy.
  - pose proof (Bminus_correct 53 1024 prec53 emax1024 mode_NE x y Fx Fy) as C. cbn [subD ieee] in *. unfold bsub in *.
    destruct (Rlt_bool_spec (Rabs (round radix2 (SpecFloat.fexp 53 1024) (round_mode mode_NE) (B2R x - B2R y))) (bpow radix2 1024)) as [L|L].
    + destruct C as (C1 & C2 & _).
      assert (P : place (Bminus mode_NE x y) = B2R (Bminus mode_NE x y)) by (destruct (Bminus mode_NE x y); try discriminate; reflexivity).
      rewrite P. split.
      * intros H. split; [exact Fx|]. split; [exact Fy|].
        destruct (fm_sub _ _ _ _ _ _ _ _ _ _ _ (ro_D _ _ _ _ _ _ ieee_rounding) x y C2) as (_ & _ & B).
        cbn [subD ieee] in B. unfold bsub in B. unfold val in *. rewrite H in B.
        assert (U1 : bpow radix2 (-53) < 1) by (change 1 with (bpow radix2 0); apply bpow_lt; lia).
        replace (0 - (B2R x - B2R y)) with (- (B2R x - B2R y)) in B by ring. rewrite Rabs_Ropp in B.
        destruct (Req_dec (B2R x - B2R y) 0) as [Z|Z]; [lra|]. apply Rabs_pos_lt in Z. nra.
      * intros (_ & _ & H). unfold val in H. rewrite C1, H, Rminus_diag_eq by reflexivity. apply round_0. apply valid_rnd_N.
    + split; [intros H; exfalso|intros (_ & _ & H); exfalso].
      * destruct C as [C _]. apply SF_inf in C. rewrite C in H. now apply INF in H.
      * unfold val in H. rewrite H, Rminus_diag_eq, round_0, Rabs_R0 in L by (reflexivity || apply valid_rnd_N).
        pose proof (bpow_gt_0 radix2 1024). lra.
  - split; [intros H; exfalso|intros (_ & H & _); unfold finite in H; congruence].
    destruct y as [|s| |]; try discriminate; try (apply NI; right; left; reflexivity).
    destruct x as [s'|s'| |s' m e B]; try discriminate; cbn [subD ieee] in H; now apply INF in H.
  - split; [intros H; exfalso|intros (H & _); unfold finite in H; congruence].
    destruct x as [|s| |]; try discriminate; try (apply NI; left; reflexivity).
    destruct y as [s'|s'| |s' m e B]; try discriminate; cbn [subD ieee] in H; now apply INF in H.
  - split; [intros H; exfalso|intros (H & _); unfold finite in H; congruence].
    destruct x as [|s| |]; try discriminate; try (apply NI; left; reflexivity).
    destruct y as [|s'| |]; try discriminate; try (apply NI; right; left; reflexivity).
    destruct s, s'; try (apply NI; right; right; eauto; fail); cbn [subD ieee] in H; now apply INF in H.
Qed.

(** C77.  For any two results of the same size the benchmark reports: a largest
    difference that is never NaN, and 0 exactly if every two elements are equal
    finite numbers or incomparable; and a two-norm that is NaN exactly if some two
    elements are incomparable, the same infinity in both results included. *)
Theorem C77_reported_special :
  forall dbg (C Rf : dense f64) r c f g,
    is_mat C r c f -> is_mat Rf r c g -> d_orient C = ColMajor -> d_orient Rf = ColMajor ->
    exists m t, bench_report ieee ieee_n dbg C Rf = Ok (m, t) /\
      no_nan m /\
      (place m = 0 <-> forall i j, (i < r)%nat -> (j < c)%nat -> same_number (f i j) (g i j) \/ incomparable (f i j) (g i j)) /\
      (is_nan t = true <-> exists i j, (i < r)%nat /\ (j < c)%nat /\ incomparable (f i j) (g i j)).
Proof.
  intros dbg C Rf r c f g MC MR OC OR. unfold bench_report.
  assert (B : exists e, bin_leaf ieee Minus dbg (LDd C) (LDd Rf) = Ok (LDd e) /\ rep_leaf ieee (LDd e) r c (fun i j => subD ieee (f i j) (g i j))).
  { destruct (d_binop_spec (binD ieee Minus) dbg C Rf r c f g MC MR ltac:(congruence)) as (e & E & M & O & _).
    rewrite OC in E. cbn [bin_leaf]. rewrite E. cbn [rmap bind]. exists e. split; [reflexivity|]. cbn [rep_leaf]. split; [congruence|exact M]. }
  destruct B as (e & E & Re). rewrite E. cbn [bind].
  destruct (C77_special_one_part NMax (LDd e) r c _ Re Coq.Init.Logic.I) as (m & Em & Nm & Hm & Am).
  destruct (C77_special_one_part NTwo (LDd e) r c _ Re Coq.Init.Logic.I) as (t & Et & Ht & _).
  rewrite Em. cbn [bind]. rewrite Et. cbn [bind]. exists m, t. split; [reflexivity|]. split; [exact Nm|]. split.
  - split.
    + intros H i j Hi Hj. destruct (is_nan (subD ieee (f i j) (g i j))) eqn:N; [right; now apply sub_nan|left].
      apply sub_zero; [exact N|]. specialize (Hm i j Hi Hj N). rewrite H in Hm.
      pose proof (Rabs_pos (place (subD ieee (f i j) (g i j)))) as P.
      destruct (Req_dec (place (subD ieee (f i j) (g i j))) 0) as [Z|Z]; [exact Z|]. apply Rabs_pos_lt in Z. lra.
    + intros H. destruct Am as [Am|(i & j & Hi & Hj & Nx & Am)]; [exact Am|]. rewrite Am.
      destruct (H i j Hi Hj) as [S|S]; [|apply sub_nan in S; unfold no_nan in Nx; congruence].
      apply sub_zero in S; [|exact Nx]. now rewrite S, Rabs_R0.
  - rewrite Ht. split; intros (i & j & Hi & Hj & H); exists i, j; (split; [exact Hi|]; split; [exact Hj|]); now apply sub_nan.
Qed.
Print Assumptions C77_reported_special.

(** The same infinity in both results is reported as difference 0, norm NaN; an
    infinity against a number as infinite. *)
Definition one_elt (x : f64) : dense f64 := mkDense (own_shape ColMajor 1 1) 1 [Some x] true.
Example C77_reported_special_nonvacuous :
  (forall x, is_mat (one_elt x) 1 1 (fun _ _ => x)) /\
  bench_report ieee ieee_n true (one_elt (B754_infinity false)) (one_elt (B754_infinity false)) = Ok (B754_zero false, B754_nan) /\
  bench_report ieee ieee_n true (one_elt (B754_infinity true)) (one_elt (B754_zero false)) = Ok (B754_infinity false, B754_infinity false).
Proof.
  split; [|split; reflexivity]. intros x. split; [repeat split|]. split; [|split]; try reflexivity.
  intros [|i] [|j] Hi Hj; try lia; reflexivity.
Qed.
Print Assumptions C77_reported_special_nonvacuous.
