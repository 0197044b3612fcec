(** C77 with IEEE 754 doubles: the assumptions hold, when norms are finite, and
    what happens to NaN. *)
From Coq Require Import ZArith Reals Lra Lia.
From Flocq Require Import Core BinarySingleNaN Relative.
From Verif Require Import Base BaseLemmas Dense_Model Dense_Spec Dense_Proofs Dense2_Proofs Sparse_Model Sparse_Spec Sparse2_Proofs Sparse3_Proofs
  Dyn_Model Dyn_Spec Norm_Model Norm_Spec Norm_Proofs Tools_Model Fp_Spec Fp_Proofs Fp_Ieee Fp_Props FpNorm_Spec FpNorm_Proofs FpNorm_Props.
#[local] Open Scope R_scope.

(** [std::pow(x, 2)] as the rounded product, [std::sqrt] correctly rounded. *)
Definition sq64 (x : f64) : f64 := Bmult mode_NE x x.
Definition ieee_n : nops f32 f64 := mkNops _ _ (fun x => Babs (promote x)) (fun x => sq64 (promote x)) sq64 (Bsqrt mode_NE).

#[local] Notation fexp64 := (FLT_exp (-1074) 53).
#[local] Notation rnd := (round radix2 fexp64 ZnearestE).
Lemma vexp64 : Valid_exp fexp64.
Proof. apply FLT_exp_valid. reflexivity. Qed.

Lemma sq64_val x : finite (sq64 x) -> finite x /\ val (sq64 x) = rnd (val x * val x).
Proof.
  intros H. unfold sq64, finite, val in *. pose proof (Bmult_correct 53 1024 prec53 emax1024 mode_NE x x) as C. destruct Rlt_bool.
  - destruct C as (C1 & C2 & _). rewrite C2 in H. apply andb_true_iff in H. split; [apply H|exact C1].
  - apply fin_SF in C. congruence.
Qed.

Theorem C77_ieee_norm_rounding : norm_rounding ieee ieee_n val finite (bpow radix2 (-53)) (bpow radix2 (-150)).
Proof.
  split; cbn [ieee ieee_n sqD sqF absF sqrtD absD toD].
  - intros x H. destruct (sq64_val x H) as [Fx E]. split; [exact Fx|]. split.
    + rewrite E. apply round_ge_generic; [apply vexp64|apply valid_rnd_N|apply generic_format_0|apply Rle_0_sqr].
    + destruct (bmult_ok 53 1024 prec53 emax1024 x x H) as (_ & _ & B). rewrite u53 in B.
      eapply Rle_trans; [exact B|]. rewrite (Rabs_pos_eq (B2R x * B2R x)) by apply Rle_0_sqr.
      apply Rplus_le_compat_l. apply ee53.
  - reflexivity.
  - reflexivity.
  - intros x. unfold finite. now rewrite is_finite_Babs.
  - intros x H. unfold finite, val in *. destruct (Bsqrt_correct 53 1024 prec53 emax1024 mode_NE x) as (C1 & C2 & _).
    rewrite C2 in H. split; [destruct x as [| | |[] ]; auto; discriminate|]. intros Hx. rewrite C1.
    change (round radix2 (SpecFloat.fexp 53 1024) (round_mode mode_NE)) with rnd. set (y := sqrt (B2R x)).
    assert (Y0 : 0 <= y) by apply sqrt_pos.
    destruct (Req_dec (B2R x) 0) as [E|NE].
    + assert (Y : y = 0) by (unfold y; rewrite E; apply sqrt_0). rewrite Y, round_0, Rminus_0_r, Rabs_R0 by apply valid_rnd_N. lra.
    + assert (L : bpow radix2 (-1074) <= B2R x).
      { rewrite <- (Rabs_pos_eq (B2R x)) by exact Hx. apply (abs_B2R_ge_emin 53 1024). destruct x as [| | |[] ]; cbn in *; auto; try discriminate; now elim NE. }
      assert (L2 : bpow radix2 (-537) <= y).
      { unfold y. rewrite <- (sqrt_square (bpow radix2 (-537))) by apply bpow_ge_0. rewrite <- bpow_plus. now apply sqrt_le_1_alt. }
      eapply Rle_trans.
      * apply (relative_error_N_FLT radix2 (-1074) 53 prec53 (fun z => negb (Z.even z)) y).
        rewrite Rabs_pos_eq by lra. eapply Rle_trans; [|exact L2]. apply bpow_le. lia.
      * rewrite Rabs_pos_eq by lra. apply Rmult_le_compat_r; [lra|]. change (/ 2) with (bpow radix2 (-1)). rewrite <- bpow_plus. apply bpow_le. lia.
Qed.
Print Assumptions C77_ieee_norm_rounding.

(** Sums of at most 2^53 terms from 0 to 2^e do not overflow for e <= 970. *)
Lemma grid k e : (Z.of_nat k <= 2 ^ 53)%Z -> (-1074 <= e)%Z -> generic_format radix2 fexp64 (INR k * bpow radix2 e).
Proof.
  intros Hk He. destruct (Z.eq_dec (Z.of_nat k) (2 ^ 53)) as [E|NE].
  - rewrite INR_IZR_INZ, E. change (IZR (2 ^ 53)) with (bpow radix2 53). rewrite <- bpow_plus. apply generic_format_bpow.
    unfold FLT_exp. lia.
  - rewrite INR_IZR_INZ. apply generic_format_FLT. exists (Float radix2 (Z.of_nat k) e); [reflexivity| |exact He].
    cbn [Fnum]. rewrite Z.abs_eq by lia. change (Zpower radix2 53) with (2 ^ 53)%Z. lia.
Qed.
Lemma sum_fin {T} (g : T -> f64) l e : (-1074 <= e <= 970)%Z -> (Z.of_nat (length l) <= 2 ^ 53)%Z ->
  (forall x, In x l -> finite (g x) /\ 0 <= val (g x) <= bpow radix2 e) ->
  let s := fold_left (fun s x => addD ieee s (g x)) l (d0 ieee) in
  finite s /\ 0 <= val s <= INR (length l) * bpow radix2 e.
Proof.
  intros He. cbv zeta. induction l as [|x l IH] using rev_ind; intros HL H.
  - cbn. split; [reflexivity|]. lra.
  - rewrite fold_left_app. cbn [fold_left]. set (s := fold_left _ l _) in *. rewrite app_length in *. cbn [length] in *.
    destruct IH as [Fs Bs]; [lia|intros; apply H, in_or_app; now left|].
    destruct (H x) as [Fx Bx]; [apply in_or_app; right; now left|].
    pose proof (bpow_gt_0 radix2 e) as Pe.
    assert (B : 0 <= val s + val (g x) <= INR (length l + 1) * bpow radix2 e) by (rewrite plus_INR; cbn [INR]; lra).
    cbn [ieee addD]. unfold badd. unfold val, finite in *.
    pose proof (Bplus_correct 53 1024 prec53 emax1024 mode_NE s (g x) Fs Fx) as C.
    change (round radix2 (SpecFloat.fexp 53 1024) (round_mode mode_NE)) with rnd in C.
    assert (L : 0 <= rnd (B2R s + B2R (g x))) by (apply round_ge_generic; [apply vexp64|apply valid_rnd_N|apply generic_format_0|apply B]).
    assert (U : rnd (B2R s + B2R (g x)) <= INR (length l + 1) * bpow radix2 e).
    { apply round_le_generic; [apply vexp64|apply valid_rnd_N|apply grid; lia|apply B]. }
    rewrite Rlt_bool_true in C.
    + destruct C as (C1 & C2 & _). rewrite C1. auto.
    + rewrite Rabs_pos_eq by exact L. eapply Rle_lt_trans; [exact U|].
      apply Rle_lt_trans with (bpow radix2 53 * bpow radix2 e).
      * apply Rmult_le_compat_r; [lra|]. rewrite INR_IZR_INZ. change (bpow radix2 53) with (IZR (2 ^ 53)). apply IZR_le. lia.
      * rewrite <- bpow_plus. apply bpow_lt. lia.
Qed.

Definition norm_limit (k : nkind) : Z := match k with NOne => 970 | NTwo => 485 | NMax => 1024 end.
(** A matrix of at most 2^53 finite elements below 2^970 (norm one) or 2^485
    (norm two) has a finite norm; the maximum norm always. *)
Theorem C77_norms_do_not_overflow :
  forall k (l : leaf f32 f64) r c g, rep_leaf ieee l r c g -> l_compact l ->
    (Z.of_nat (r * c) <= 2 ^ 53)%Z ->
    (forall i j, (i < r)%nat -> (j < c)%nat -> finite (g i j) /\ Rabs (val (g i j)) <= bpow radix2 (norm_limit k)) ->
    exists m, norm_leaf ieee ieee_n k l = Ok m /\ finite m /\
      norm_close (bpow radix2 (-53)) (bpow radix2 (-150)) k r c (fun i j => val (g i j)) (val m).
Proof.
  intros k l r c g Rl Cl HN HG.
  assert (U1 : bpow radix2 (-53) < 1) by (change 1 with (bpow radix2 0); apply bpow_lt; lia).
  destruct (C77_norm_of_one_part ieee ieee_n val finite _ _ _ ieee_rounding ieee_ordering C77_ieee_norm_rounding U1 k l r c g Rl Cl) as (m & E & H).
  assert (FG : forall i j, (i < r)%nat -> (j < c)%nat -> finite (g i j)) by (intros; apply HG; auto).
  exists m. split; [exact E|].
  assert (Q : k <> NMax -> finite m).
  { intros NK. destruct (norm_leaf_lists ieee ieee_n val finite _ _ C77_ieee_norm_rounding k l r c g Rl Cl) as [(el & LI & E')|[_ E']].
    - rewrite E in E'. injection E' as ->.
      assert (LL : (Z.of_nat (length el) <= 2 ^ 53)%Z) by (pose proof (li_len _ _ _ _ _ LI); lia).
      assert (HE : forall x, In x el -> finite x /\ Rabs (val x) <= bpow radix2 (norm_limit k)).
      { intros x Hx. destruct (li_in _ _ _ _ _ LI x Hx) as (i & j & Hi & Hj & ->). auto. }
      destruct k; [| |congruence]; cbn [n_fin norm_limit] in *.
      + apply (sum_fin (absD ieee) el 970 ltac:(lia) LL). intros x Hx. destruct (HE x Hx) as [Fx Bx].
        destruct (od_abs _ _ _ ieee_ordering x Fx) as [Fa ->]. split; [exact Fa|]. split; [apply Rabs_pos|exact Bx].
      + assert (S : finite (fold_left (n_accD ieee ieee_n NTwo) el (d0 ieee)) /\ 0 <= val (fold_left (n_accD ieee ieee_n NTwo) el (d0 ieee)) <= INR (length el) * bpow radix2 970).
        { apply (sum_fin (sqD ieee_n) el 970 ltac:(lia) LL). intros x Hx. destruct (HE x Hx) as [Fx Bx]. cbn [sqD ieee_n].
          assert (B : 0 <= val x * val x <= bpow radix2 970).
          { split; [apply Rle_0_sqr|]. replace (val x * val x) with (Rabs (val x) * Rabs (val x)) by (symmetry; apply Rsqr_abs).
            change 970%Z with (485 + 485)%Z. rewrite bpow_plus. apply Rmult_le_compat; auto using Rabs_pos. }
          assert (L : 0 <= rnd (val x * val x)) by (apply round_ge_generic; [apply vexp64|apply valid_rnd_N|apply generic_format_0|apply B]).
          assert (U : rnd (val x * val x) <= bpow radix2 970) by (apply round_le_generic; [apply vexp64|apply valid_rnd_N|apply generic_format_bpow; unfold FLT_exp; lia|apply B]).
          unfold val, finite, sq64 in *. pose proof (Bmult_correct 53 1024 prec53 emax1024 mode_NE x x) as C.
          change (round radix2 (SpecFloat.fexp 53 1024) (round_mode mode_NE)) with rnd in C. rewrite Rlt_bool_true in C.
          - destruct C as (C1 & C2 & _). rewrite C1, C2, Fx. auto.
          - rewrite Rabs_pos_eq by exact L. eapply Rle_lt_trans; [exact U|]. apply bpow_lt. lia. }
        destruct S as [S1 S2]. cbn [sqrtD ieee_n]. set (s := fold_left _ el _) in *. clearbody s. unfold finite, val in *.
        rewrite (proj1 (proj2 (Bsqrt_correct 53 1024 prec53 emax1024 mode_NE s))).
        destruct s as [| | |[] m' e' B']; try reflexivity; try discriminate.
        exfalso. destruct S2 as [S2 _]. cbn [B2R] in S2. pose proof (F2R_lt_0 radix2 (Float radix2 (Zneg m') e') ltac:(reflexivity)). cbn in *. lra.
    - rewrite E in E'. injection E' as ->. reflexivity. }
  destruct k; cbn [norm_ok] in H.
  - specialize (Q ltac:(discriminate)). split; [exact Q|]. apply (H Q).
  - specialize (Q ltac:(discriminate)). split; [exact Q|]. apply (H Q).
  - exact (H FG).
Qed.
Print Assumptions C77_norms_do_not_overflow.

(** Known violation: a norm of moderate size overflows on the way, because the
    squares do. *)
Theorem C77_overflow_refuted :
  let x := lit 1 512 in finite x /\ ~ finite (sq64 x) /\
  forall (d : dense f64), is_mat d 1 1 (fun _ _ => x) -> exists m, norm_dense ieee ieee_n (n_accD ieee ieee_n NTwo) NTwo d = Ok m /\ ~ finite m.
Proof.
  cbv zeta. split; [vm_compute; reflexivity|]. split; [vm_compute; discriminate|].
  intros d [W V]. rewrite (norm_dense_val ieee ieee_n _ NTwo d 1 1 _ V (or_introl W)). eexists. split; [reflexivity|].
  destruct (d_orient d); vm_compute; discriminate.
Qed.
Print Assumptions C77_overflow_refuted.

(** NaN: a result without a single number in it is reported with the largest
    difference 0; only the two-norm shows it. *)
Theorem C77_nan_reported_as_exact_refuted :
  forall dbg (C Rf : dense f64) r c g,
    is_mat C r c (fun _ _ => B754_nan) -> is_mat Rf r c g -> d_orient C = ColMajor -> d_orient Rf = ColMajor -> (1 <= r * c)%nat ->
    bench_report ieee ieee_n dbg C Rf = Ok (B754_zero false, B754_nan).
Proof.
  intros dbg C Rf r c g MC MR OC OR Hrc. unfold bench_report.
  destruct (d_binop_spec (binD ieee Minus) dbg C Rf r c _ g MC MR ltac:(congruence)) as (e & E & [W V] & O & _).
  rewrite OC in E. cbn [bin_leaf]. rewrite E. cbn [rmap bind norm_leaf].
  rewrite !(norm_dense_val ieee ieee_n _ _ e r c _ V (or_introl W)). cbn [bind].
  assert (EL : exists n, in_storage_order (d_orient e) r c (fun i j => binD ieee Minus B754_nan (g i j)) = repeat B754_nan (S n)).
  { exists (r * c - 1)%nat. replace (S (r * c - 1)) with (length (in_storage_order (d_orient e) r c (fun i j => binD ieee Minus B754_nan (g i j)))).
    - apply Forall_eq_repeat. rewrite storage_order_map, Forall_map, Forall_forall. intros p _. cbn. now destruct (g (fst p) (snd p)).
    - rewrite storage_order_map, map_length. unfold order. destruct (d_orient e); rewrite ?map_length, len_pairs; lia. }
  destruct EL as (n & ->). f_equal. f_equal.
  - cbn [n_fin]. induction n as [|n IH]; [reflexivity|exact IH].
  - cbn [n_fin sqrtD ieee_n].
    assert (G : forall n, fold_left (n_accD ieee ieee_n NTwo) (repeat B754_nan n) (B754_nan : f64) = B754_nan) by (clear; induction n as [|n IH]; [reflexivity|exact IH]).
    cbn [repeat fold_left]. change (n_accD ieee ieee_n NTwo (d0 ieee) B754_nan) with (B754_nan : f64). now rewrite G.
Qed.
Print Assumptions C77_nan_reported_as_exact_refuted.

Example C77_nonvacuous :
  rounding ieee val finite (bpow radix2 (-53)) (bpow radix2 (-24)) (bpow radix2 (-150)) /\ ordering ieee val finite /\
  rep_leaf ieee (LDd demoI) 2 2 demoI_f /\ l_compact (LDd demoI : leaf f32 f64) /\
  (forall i j, (i < 2)%nat -> (j < 2)%nat -> finite (demoI_f i j) /\ finite (subD ieee (demoI_f i j) (demoI_f 1 1))) /\
  (do m <- norm_leaf ieee ieee_n NOne (LDd demoI); Ok (B2SF m)) = Ok (SpecFloat.S754_finite false 6755399441057792 (-11))%Z /\
  (do m <- norm_leaf ieee ieee_n NTwo (LDd demoI); Ok (B2SF m)) = Ok (SpecFloat.S754_finite false 6755399441055744 (-11))%Z /\
  (do m <- norm_leaf ieee ieee_n NMax (LDd demoI); Ok (B2SF m)) = Ok (SpecFloat.S754_finite false 6755399441055744 (-11))%Z.
Proof.
  split; [exact ieee_rounding|]. split; [exact ieee_ordering|]. split; [split; [reflexivity|exact demoI_mat]|]. split; [exact Coq.Init.Logic.I|].
  split; [intros i j Hi Hj; destruct i as [|[|i]], j as [|[|j]]; try lia; split; vm_compute; reflexivity|].
  split; [vm_compute; reflexivity|]. split; vm_compute; reflexivity.
Qed.
