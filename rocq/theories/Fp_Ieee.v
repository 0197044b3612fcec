(** IEEE 754 binary32 and binary64, rounding to nearest even, as an instance of
    the arithmetic of [Dyn_Model]: the assumptions [rounding] and [ordering]
    hold of it, so the theorems about rounding are not vacuous. *)
From Coq Require Import ZArith Reals Lra Lia.
From Flocq Require Import Core BinarySingleNaN Relative Plus_error.
From Verif Require Import Base Dense_Model Dense_Spec Sparse_Model Dyn_Model Dyn_Spec Conv_Spec Eval_Spec Fp_Spec Fp_Proofs.
#[local] Open Scope R_scope.

Section Fmt.
Context (prec emax : Z) (Hp : Prec_gt_0 prec) (Hm : Prec_lt_emax prec emax).
#[local] Notation bf := (binary_float prec emax).
#[local] Notation em := (3 - emax - prec)%Z.
#[local] Notation B2R := (@B2R prec emax).
#[local] Notation fin := (fun x : bf => is_finite x = true).

(** The operations of the hardware: sum, difference, c + x*y with two
    roundings, inner product from left to right. *)
Definition badd (x y : bf) : bf := Bplus mode_NE x y.
Definition bsub (x y : bf) : bf := Bminus mode_NE x y.
Definition bfma (c x y : bf) : bf := badd c (Bmult mode_NE x y).
Definition bdot (l : list (bf * bf)) : bf := fold_left (fun c p => bfma c (fst p) (snd p)) l (B754_zero false).
Definition bnz (x : bf) : bool := match x with B754_zero _ => false | _ => true end.
Definition uu : R := u_ro radix2 prec.
Definition ee : R := / 2 * bpow radix2 em.

Lemma uu_pos : 0 <= uu < 1.
Proof. split; [apply u_ro_pos|now apply u_ro_lt_1]. Qed.
Lemma ee_pos : 0 <= ee.
Proof. unfold ee. pose proof (bpow_ge_0 radix2 em). lra. Qed.

Lemma bfmt (x : bf) : generic_format radix2 (FLT_exp em prec) (B2R x).
Proof. apply (generic_format_B2R prec emax). Qed.

Lemma sum_err x y : Rabs (round radix2 (FLT_exp em prec) (round_mode mode_NE) (B2R x + B2R y) - (B2R x + B2R y)) <= uu * Rabs (B2R x + B2R y).
Proof.
  destruct (FLT_plus_error_N_ex radix2 em prec (fun z => negb (Z.even z)) (B2R x) (B2R y) (bfmt x) (bfmt y)) as (eps & He & E).
  cbn [round_mode]. rewrite E. replace ((B2R x + B2R y) * (1 + eps) - (B2R x + B2R y)) with (eps * (B2R x + B2R y)) by ring.
  rewrite Rabs_mult. apply Rmult_le_compat_r; [apply Rabs_pos|]. eapply Rle_trans; [exact He|]. now apply u_rod1pu_ro_le_u_ro.
Qed.

Lemma any_err x : Rabs (round radix2 (FLT_exp em prec) (round_mode mode_NE) x - x) <= uu * Rabs x + ee.
Proof.
  destruct (@relative_error_N_FLT'_ex radix2 em prec Hp (fun z => negb (Z.even z)) x) as (eps & et & He & Ht & _ & E).
  cbn [round_mode]. rewrite E. replace (x * (1 + eps) + et - x) with (eps * x + et) by ring.
  eapply Rle_trans; [apply Rabs_triang|]. rewrite Rabs_mult. apply Rplus_le_compat; [|exact Ht].
  apply Rmult_le_compat_r; [apply Rabs_pos|]. eapply Rle_trans; [exact He|]. now apply u_rod1pu_ro_le_u_ro.
Qed.

Lemma fin_SF (x : bf) s : B2SF x = binary_overflow prec emax mode_NE s -> is_finite x = false.
Proof. destruct x; cbn; intros H; inversion H; reflexivity. Qed.

Lemma badd_ok x y : fin (badd x y) -> fin x /\ fin y /\ Rabs (B2R (badd x y) - (B2R x + B2R y)) <= uu * Rabs (B2R x + B2R y).
Proof.
  intros H. assert (Fx : fin x /\ fin y).
  { unfold badd, Bplus in H. destruct x as [[]|[]| |], y as [[]|[]| |]; cbn in *; auto; discriminate. }
  destruct Fx as [Fx Fy]. split; auto. split; auto.
  pose proof (Bplus_correct prec emax Hp Hm mode_NE x y Fx Fy) as C. destruct Rlt_bool.
  - unfold badd. rewrite (proj1 C). apply sum_err.
  - destruct C as [C _]. apply fin_SF in C. unfold badd in H. congruence.
Qed.

Lemma bsub_ok x y : fin (bsub x y) -> fin x /\ fin y /\ Rabs (B2R (bsub x y) - (B2R x - B2R y)) <= uu * Rabs (B2R x - B2R y).
Proof.
  intros H. assert (Fx : fin x /\ fin y).
  { unfold bsub, Bminus in H. destruct x as [[]|[]| |], y as [[]|[]| |]; cbn in *; auto; discriminate. }
  destruct Fx as [Fx Fy]. split; auto. split; auto.
  pose proof (Bminus_correct prec emax Hp Hm mode_NE x y Fx Fy) as C. destruct Rlt_bool.
  - unfold bsub. rewrite (proj1 C). pose proof (sum_err x (Bopp y)) as S. rewrite B2R_Bopp in S. exact S.
  - destruct C as [C _]. apply fin_SF in C. unfold bsub in H. congruence.
Qed.

Lemma bmult_ok x y : fin (Bmult mode_NE x y) -> fin x /\ fin y /\ Rabs (B2R (Bmult mode_NE x y) - B2R x * B2R y) <= uu * Rabs (B2R x * B2R y) + ee.
Proof.
  intros H. pose proof (Bmult_correct prec emax Hp Hm mode_NE x y) as C. destruct Rlt_bool.
  - destruct C as (C1 & C2 & _). cbv beta in H. rewrite C2 in H. apply andb_true_iff in H. split; [apply H|]. split; [apply H|].
    rewrite C1. apply any_err.
  - apply fin_SF in C. congruence.
Qed.

Lemma bfma_ok c x y : fin (bfma c x y) -> fin c /\ fin x /\ fin y /\
  exists q, Rabs (q - B2R x * B2R y) <= uu * Rabs (B2R x * B2R y) + ee /\
    Rabs (B2R (bfma c x y) - (B2R c + q)) <= uu * Rabs (B2R c + q).
Proof.
  intros H. destruct (badd_ok _ _ H) as (Fc & Fq & E). destruct (bmult_ok _ _ Fq) as (Fx & Fy & E').
  split; auto. split; auto. split; auto. exists (B2R (Bmult mode_NE x y)). auto.
Qed.

Lemma bdot_ok eta l : ee <= eta -> fin (bdot l) ->
  (forall x y, In (x, y) l -> fin x /\ fin y) /\
  Rabs (B2R (bdot l) - lsum (fun p => B2R (fst p) * B2R (snd p)) l) <=
    ((1 + uu) ^ (length l + 1) - 1) * lsum (fun p => Rabs (B2R (fst p) * B2R (snd p))) l +
    (1 + uu) ^ (length l + 1) * (INR (length l) * eta).
Proof.
  intros He. pose proof ee_pos as Pe. pose proof uu_pos as Pu.
  induction l as [|[x y] l IH] using rev_ind; intros H.
  - split; [intros ? ? []|]. cbn. rewrite Rminus_0_r, Rabs_R0. lra.
  - unfold bdot in *. rewrite fold_left_app in *. cbn [fold_left fst snd] in *.
    set (c := fold_left _ l _) in *. destruct (bfma_ok _ _ _ H) as (Fc & Fx & Fy & q & Hq & Hs).
    destruct (IH Fc) as [IH1 IH2]. split.
    { intros x' y' [Hi|[[= <- <-]|[]]]%in_app_iff; auto. }
    rewrite !lsum_app, app_length, plus_INR. cbn [lsum fst snd length INR].
    set (k := (length l + 1)%nat) in *. replace (k + 1)%nat with (S k) by lia.
    set (s := lsum (fun p => B2R (fst p) * B2R (snd p)) l) in *.
    set (sa := lsum (fun p => Rabs (B2R (fst p) * B2R (snd p))) l) in *.
    set (p := B2R x * B2R y) in *. set (r := B2R (bfma c x y)) in *. set (n := INR (length l)) in *.
    assert (Ps : Rabs s <= sa).
    { unfold s, sa. clear. induction l as [|a l IH]; cbn; [rewrite Rabs_R0; lra|].
      eapply Rle_trans; [apply Rabs_triang|]. lra. }
    assert (Pk : 1 + uu <= (1 + uu) ^ k).
    { unfold k. rewrite Nat.add_1_r. cbn [pow]. pose proof (pow_ge uu (length l) ltac:(lra)). nra. }
    assert (Pn : 0 <= n) by apply pos_INR. pose proof (Rabs_pos s) as Qs. pose proof (Rabs_pos p) as Qp.
    cbn [pow]. set (w := (1 + uu) ^ k) in *.
    set (e := (w - 1) * sa + w * (n * eta)) in *.
    assert (H1 : Rabs (B2R c + q - (s + p)) <= e + (uu * Rabs p + ee)).
    { replace (B2R c + q - (s + p)) with ((B2R c - s) + (q - p)) by ring. eapply Rle_trans; [apply Rabs_triang|]. lra. }
    assert (H2 : Rabs (B2R c + q) <= sa + Rabs p + (e + (uu * Rabs p + ee))).
    { replace (B2R c + q) with ((s + p) + (B2R c + q - (s + p))) by ring. eapply Rle_trans; [apply Rabs_triang|].
      eapply Rle_trans; [apply Rplus_le_compat_r, Rabs_triang|]. lra. }
    assert (H3 : Rabs (r - (s + p)) <= uu * (sa + Rabs p + (e + (uu * Rabs p + ee))) + (e + (uu * Rabs p + ee))).
    { replace (r - (s + p)) with ((r - (B2R c + q)) + (B2R c + q - (s + p))) by ring. eapply Rle_trans; [apply Rabs_triang|].
      apply Rplus_le_compat; [|exact H1]. eapply Rle_trans; [exact Hs|]. apply Rmult_le_compat_l; [lra|exact H2]. }
    rewrite (Rplus_0_r p), (Rplus_0_r (Rabs p)). eapply Rle_trans; [exact H3|].
    assert (H4 : uu * Rabs p + (1 + uu) * (uu * Rabs p) <= ((1 + uu) * w - 1) * Rabs p).
    { replace (uu * Rabs p + (1 + uu) * (uu * Rabs p)) with ((uu + (1 + uu) * uu) * Rabs p) by ring.
      apply Rmult_le_compat_r; [lra|]. nra. }
    assert (H5 : (1 + uu) * ee <= (1 + uu) * w * eta).
    { rewrite Rmult_assoc. apply Rmult_le_compat_l; [lra|]. nra. }
    replace (uu * (sa + Rabs p + (e + (uu * Rabs p + ee))) + (e + (uu * Rabs p + ee)))
      with (((1 + uu) * w - 1) * sa + (uu * Rabs p + (1 + uu) * (uu * Rabs p)) + (1 + uu) * w * (n * eta) + (1 + uu) * ee)
      by (unfold e; ring).
    replace (((1 + uu) * w - 1) * (sa + Rabs p) + (1 + uu) * w * ((n + 1) * eta))
      with (((1 + uu) * w - 1) * sa + ((1 + uu) * w - 1) * Rabs p + (1 + uu) * w * (n * eta) + (1 + uu) * w * eta) by ring.
    lra.
Qed.

Lemma b_format eta : ee <= eta ->
  format B2R fin (B754_zero false) badd bsub (@Bopp prec emax) bfma bdot bnz uu eta.
Proof.
  intros He. split.
  - split; reflexivity.
  - intros [| | |]; cbn; try discriminate. now split.
  - apply badd_ok.
  - apply bsub_ok.
  - intros a. rewrite is_finite_Bopp, B2R_Bopp. auto.
  - intros c x y H. destruct (bfma_ok c x y H) as (Fc & Fx & Fy & q & Hq & Hs). repeat (split; auto). exists q. split; [lra|exact Hs].
  - intros l H. destruct (bdot_ok eta l He H) as [Hf HE]. split; [|exact HE]. intros x y Hi. destruct (Hf x y Hi). auto.
Qed.
End Fmt.

(** Conversion between formats: special values are kept, finite ones rounded. *)
Definition bcv (p1 e1 p2 e2 : Z) (Hp2 : Prec_gt_0 p2) (Hm2 : Prec_lt_emax p2 e2) (x : binary_float p1 e1) : binary_float p2 e2 :=
  match x with
  | B754_zero s => B754_zero s
  | B754_infinity s => B754_infinity s
  | B754_nan => B754_nan
  | B754_finite s m e _ => binary_normalize p2 e2 Hp2 Hm2 mode_NE (cond_Zopp s (Zpos m)) e s
  end.

Section Cv.
Context (p1 e1 p2 e2 : Z) (Hp1 : Prec_gt_0 p1) (Hm1 : Prec_lt_emax p1 e1) (Hp2 : Prec_gt_0 p2) (Hm2 : Prec_lt_emax p2 e2).

Lemma bcv_ok (x : binary_float p1 e1) : 
  let r := round radix2 (FLT_exp (3 - e2 - p2) p2) (round_mode mode_NE) (@B2R p1 e1 x) in
  if Rlt_bool (Rabs r) (bpow radix2 e2)
  then is_finite (bcv p1 e1 p2 e2 Hp2 Hm2 x) = is_finite x /\ @B2R p2 e2 (bcv p1 e1 p2 e2 Hp2 Hm2 x) = r
  else is_finite (bcv p1 e1 p2 e2 Hp2 Hm2 x) = false.
Proof.
  intros r. destruct x as [s|s| |s m e H]; cbn [bcv is_finite] in *.
  1-3: unfold r; cbn [B2R]; rewrite round_0 by apply valid_rnd_round_mode; rewrite Rabs_R0, Rlt_bool_true by apply bpow_gt_0; now split.
  pose proof (binary_normalize_correct p2 e2 Hp2 Hm2 mode_NE (cond_Zopp s (Zpos m)) e s) as C. cbv zeta in C.
  change (F2R (Float radix2 (cond_Zopp s (Z.pos m)) e)) with (@B2R p1 e1 (B754_finite s m e H)) in C.
  change (round radix2 (SpecFloat.fexp p2 e2) (round_mode mode_NE) (@B2R p1 e1 (B754_finite s m e H))) with r in C.
  destruct Rlt_bool.
  - split; apply C.
  - now apply fin_SF in C.
Qed.

Lemma bcv_fin x : is_finite (bcv p1 e1 p2 e2 Hp2 Hm2 x) = true ->
  is_finite x = true /\ @B2R p2 e2 (bcv p1 e1 p2 e2 Hp2 Hm2 x) = round radix2 (FLT_exp (3 - e2 - p2) p2) (round_mode mode_NE) (@B2R p1 e1 x).
Proof. intros H. pose proof (bcv_ok x) as C. cbv zeta in C. destruct Rlt_bool; [|congruence]. destruct C as [C1 C2]. split; congruence. Qed.

(** A narrower format is converted exactly. *)
Lemma bcv_exact (x : binary_float p1 e1) : (p1 <= p2)%Z -> (e1 <= e2)%Z -> (3 - e2 - p2 <= 3 - e1 - p1)%Z ->
  is_finite (bcv p1 e1 p2 e2 Hp2 Hm2 x) = is_finite x /\ @B2R p2 e2 (bcv p1 e1 p2 e2 Hp2 Hm2 x) = @B2R p1 e1 x.
Proof.
  intros L1 L2 L3. pose proof (bcv_ok x) as C. cbv zeta in C.
  rewrite (round_generic radix2 (FLT_exp (3 - e2 - p2) p2)) in C.
  - rewrite Rlt_bool_true in C; [exact C|]. eapply Rlt_le_trans; [apply abs_B2R_lt_emax|]. now apply bpow_le.
  - apply valid_rnd_round_mode.
  - apply generic_inclusion_mag with (fexp1 := FLT_exp (3 - e1 - p1) p1).
    + intros z. unfold FLT_exp. lia.
    + apply (generic_format_B2R p1 e1).
Qed.
End Cv.

(** binary32 and binary64 *)
#[export] Instance prec24 : Prec_gt_0 24 := eq_refl.
#[export] Instance prec53 : Prec_gt_0 53 := eq_refl.
#[export] Instance emax128 : Prec_lt_emax 24 128 := eq_refl.
#[export] Instance emax1024 : Prec_lt_emax 53 1024 := eq_refl.
Definition f32 := binary_float 24 128.
Definition f64 := binary_float 53 1024.
Definition nat64 (n : nat) : f64 := binary_normalize 53 1024 prec53 emax1024 mode_NE (Z.of_nat n) 0 false.
Definition promote : f32 -> f64 := bcv 24 128 53 1024 prec53 emax1024.
Definition demote : f64 -> f32 := bcv 53 1024 24 128 prec24 emax128.

Definition ieee : arith f32 f64 := {|
  f0 := B754_zero false; d0 := B754_zero false;
  fnz := bnz 24 128; dnz := bnz 53 1024;
  toD := promote; toF := demote;
  addF := badd 24 128 _ _; subF := bsub 24 128 _ _; oppF := Bopp;
  addD := badd 53 1024 _ _; subD := bsub 53 1024 _ _; oppD := Bopp;
  fmaF := bfma 24 128 _ _; fmaD := bfma 53 1024 _ _;
  dotF := bdot 24 128 _ _; dotD := bdot 53 1024 _ _;
  absD := Babs; ltD := Bltb; leD := Bleb;
  quotD := fun n m => Bdiv mode_NE (nat64 n) (nat64 m)
|}.
Definition val (x : f64) : R := B2R x.
Definition finite (x : f64) : Prop := is_finite x = true.

Lemma promote_ok x : is_finite (promote x) = is_finite x /\ B2R (promote x) = B2R x.
Proof. apply bcv_exact; lia. Qed.

Lemma u24 : uu 24 = bpow radix2 (-24).
Proof. unfold uu, u_ro. change (/ 2) with (bpow radix2 (-1)). rewrite <- bpow_plus. reflexivity. Qed.
Lemma u53 : uu 53 = bpow radix2 (-53).
Proof. unfold uu, u_ro. change (/ 2) with (bpow radix2 (-1)). rewrite <- bpow_plus. reflexivity. Qed.
Lemma ee24 : ee 24 128 = bpow radix2 (-150).
Proof. unfold ee. change (/ 2) with (bpow radix2 (-1)). rewrite <- bpow_plus. reflexivity. Qed.
Lemma ee53 : ee 53 1024 <= bpow radix2 (-150).
Proof. unfold ee. change (/ 2) with (bpow radix2 (-1)). rewrite <- bpow_plus. apply bpow_le. lia. Qed.

Lemma ieee_rounding : rounding ieee val finite (bpow radix2 (-53)) (bpow radix2 (-24)) (bpow radix2 (-150)).
Proof.
  split.
  - split; [split|]; [apply bpow_ge_0|apply bpow_le; lia|apply bpow_ge_0].
  - rewrite <- u53. apply b_format. apply ee53.
  - rewrite <- u24. pose proof (b_format 24 128 prec24 emax128 (bpow radix2 (-150)) ltac:(rewrite ee24; lra)) as [H1 H2 H3 H4 H5 H6 H7].
    cbn [ieee f0 fnz addF subF oppF fmaF dotF toD]. unfold val, finite.
    assert (PV : forall x, B2R (promote x) = B2R x) by (intros; apply promote_ok).
    assert (PF : forall x, is_finite (promote x) = true <-> is_finite x = true) by (intros; now rewrite (proj1 (promote_ok x))).
    split.
    + split; reflexivity.
    + intros x Hx. rewrite PF, PV. auto.
    + intros a b. rewrite !PF, !PV. auto.
    + intros a b. rewrite !PF, !PV. auto.
    + intros a. rewrite !PF, !PV. auto.
    + intros c x y. rewrite !PF, !PV. auto.
    + intros l Hl. rewrite PF in Hl. destruct (H7 l Hl) as [G1 G2]. split.
      * intros x y Hi. rewrite !PF, !PV. auto.
      * rewrite PV. 
        assert (E1 : forall l : list (f32 * f32), lsum (fun p => B2R (promote (fst p)) * B2R (promote (snd p))) l = lsum (fun p => B2R (fst p) * B2R (snd p)) l).
        { clear - PV. induction l as [|a l IH]; cbn; [reflexivity|]. now rewrite !PV, IH. }
        assert (E2 : forall l : list (f32 * f32), lsum (fun p => Rabs (B2R (promote (fst p)) * B2R (promote (snd p)))) l = lsum (fun p => Rabs (B2R (fst p) * B2R (snd p))) l).
        { clear - PV. induction l as [|a l IH]; cbn; [reflexivity|]. now rewrite !PV, IH. }
        rewrite E1, E2. exact G2.
  - intros y. cbn [ieee toD toF]. unfold val, finite. rewrite (proj1 (promote_ok _)), (proj2 (promote_ok _)). intros H.
    destruct (bcv_fin 53 1024 24 128 prec24 emax128 y H) as [Fy E]. split; [exact Fy|]. unfold demote. rewrite E, <- u24, <- ee24.
    apply any_err. exact prec24.
Qed.

Lemma one64 : generic_format radix2 (FLT_exp (-1074) 53) 1.
Proof. change 1 with (bpow radix2 0). apply generic_format_bpow. cbn. lia. Qed.

Lemma nat64_ok n : (1 <= n)%nat -> (Z.of_nat n < 2 ^ 63)%Z ->
  B2R (nat64 n) = round radix2 (FLT_exp (-1074) 53) ZnearestE (IZR (Z.of_nat n)) /\ is_finite (nat64 n) = true /\
  1 <= B2R (nat64 n) <= bpow radix2 63.
Proof.
  intros H1 H2. pose proof (binary_normalize_correct 53 1024 prec53 emax1024 mode_NE (Z.of_nat n) 0 false) as C. cbv zeta in C.
  replace (F2R (Float radix2 (Z.of_nat n) 0)) with (IZR (Z.of_nat n)) in C by (unfold F2R; cbn [Fnum Fexp bpow]; ring).
  change (round radix2 (SpecFloat.fexp 53 1024) (round_mode mode_NE)) with (round radix2 (FLT_exp (-1074) 53) ZnearestE) in C.
  set (x := IZR (Z.of_nat n)) in *.
  assert (V : Valid_exp (FLT_exp (-1074) 53)) by (apply FLT_exp_valid; reflexivity).
  assert (L : 1 <= round radix2 (FLT_exp (-1074) 53) ZnearestE x).
  { apply round_ge_generic; [exact V|apply valid_rnd_N|apply one64|]. apply IZR_le. lia. }
  assert (U : round radix2 (FLT_exp (-1074) 53) ZnearestE x <= bpow radix2 63).
  { apply round_le_generic; [exact V|apply valid_rnd_N|apply generic_format_bpow; cbn; lia|].
    change (bpow radix2 63) with (IZR (2 ^ 63)). apply IZR_le. lia. }
  rewrite Rlt_bool_true in C.
  - destruct C as (C1 & C2 & _). fold (nat64 n) in C1, C2. rewrite C1. auto.
  - rewrite Rabs_pos_eq by lra. eapply Rle_lt_trans; [exact U|]. apply bpow_lt. lia.
Qed.

Lemma ieee_ordering : ordering ieee val finite.
Proof.
  split; cbn [ieee absD ltD leD quotD d0]; unfold val, finite.
  - intros x Hx. now rewrite is_finite_Babs, B2R_Babs.
  - intros a b Ha Hb. rewrite Bltb_correct by auto. destruct (Rlt_bool_spec (B2R a) (B2R b)); split; intros; try lra; auto; discriminate.
  - intros a b Ha Hb. rewrite Bleb_correct by auto. destruct (Rle_bool_spec (B2R a) (B2R b)); split; intros; try lra; auto; discriminate.
  - intros n m Hnm Hm H. destruct n as [|n]; [reflexivity|exfalso].
    destruct (nat64_ok (S n) ltac:(lia) ltac:(lia)) as (En & Fn & Ln & Un). destruct (nat64_ok m ltac:(lia) Hm) as (Em & Fm & Lm & Um).
    pose proof (Bdiv_correct 53 1024 prec53 emax1024 mode_NE (nat64 (S n)) (nat64 m) ltac:(lra)) as C.
    change (round radix2 (SpecFloat.fexp 53 1024) (round_mode mode_NE)) with (round radix2 (FLT_exp (-1074) 53) ZnearestE) in C.
    assert (V : Valid_exp (FLT_exp (-1074) 53)) by (apply FLT_exp_valid; reflexivity).
    assert (Le : B2R (nat64 (S n)) <= B2R (nat64 m)).
    { rewrite En, Em. apply round_le; [exact V|apply valid_rnd_N|]. apply IZR_le. lia. }
    assert (Q : bpow radix2 (-63) <= B2R (nat64 (S n)) / B2R (nat64 m) <= 1).
    { split.
      - apply Rle_trans with (1 / bpow radix2 63).
        + change (-63)%Z with (- (63))%Z. rewrite bpow_opp. unfold Rdiv. lra.
        + unfold Rdiv. apply Rmult_le_compat; [lra| |lra|]. { apply Rlt_le, Rinv_0_lt_compat, bpow_gt_0. } apply Rinv_le; lra.
      - apply Rmult_le_reg_r with (B2R (nat64 m)); [lra|]. unfold Rdiv. rewrite Rmult_assoc, Rinv_l by lra. lra. }
    set (q := B2R (nat64 (S n)) / B2R (nat64 m)) in *.
    assert (L : bpow radix2 (-63) <= round radix2 (FLT_exp (-1074) 53) ZnearestE q).
    { apply round_ge_generic; [exact V|apply valid_rnd_N|apply generic_format_bpow; cbn; lia|apply Q]. }
    assert (U : round radix2 (FLT_exp (-1074) 53) ZnearestE q <= 1).
    { apply round_le_generic; [exact V|apply valid_rnd_N|apply one64|apply Q]. }
    pose proof (bpow_gt_0 radix2 (-63)) as P.
    rewrite Rlt_bool_true in C.
    + destruct C as (C1 & C2 & _). rewrite Fn in C2. rewrite Bleb_correct in H by (auto; reflexivity). rewrite C1 in H. cbn [B2R] in H.
      destruct (Rle_bool_spec (round radix2 (FLT_exp (-1074) 53) ZnearestE q) 0); [lra|discriminate].
    + rewrite Rabs_pos_eq by lra. eapply Rle_lt_trans; [exact U|]. change 1 with (bpow radix2 0). apply bpow_lt. lia.
Qed.

(** Rounding to float does not overflow below 2^127. *)
Lemma ieee_small s : val s <= bpow radix2 127 ->
  forall x, finite x -> Rabs (val x) <= val s -> finite (toD ieee (toF ieee x)).
Proof.
  intros Hs x Fx Hx. unfold finite, val in *. cbn [ieee toD toF]. rewrite (proj1 (promote_ok _)).
  pose proof (bcv_ok 53 1024 24 128 prec24 emax128 x) as C. cbv zeta in C.
  rewrite Rlt_bool_true in C; [unfold demote; now rewrite (proj1 C)|].
  apply Rle_lt_trans with (bpow radix2 127); [|apply bpow_lt; lia].
  apply abs_round_le_generic; [apply FLT_exp_valid; reflexivity|apply valid_rnd_N|apply generic_format_bpow; cbn; lia|lra].
Qed.

(** Threshold.h 15-35: the default settings; 0.2 and 0.4 are the nearest
    doubles.  (The two settings for Matrix<Zero>, the block size limits and the
    decoding of a settings file are not needed or not modelled here.) *)
Definition lit (m e : Z) : f64 := binary_normalize 53 1024 prec53 emax1024 mode_NE m e false.
Definition c02 : f64 := lit 3602879701896397 (-54).
Definition c04 : f64 := lit 3602879701896397 (-53).
Definition c1 : f64 := lit 1 0.
Definition default_threshold : threshold f64 := mkThreshold (lit 1 (-23)) (lit 1 (-52)) (fun t e =>
  match t, e with
  | TL TZ, _ => d0 ieee
  | TL (TS EF), EF => d0 ieee
  | TL (TS EF), ED => c02
  | TL (TD EF), EF => d0 ieee
  | TL (TD EF), ED => c1
  | TL (TS ED), _ => c02
  | TM (TS ED) (TS EF), EF => c02
  | TM (TS ED) (TS EF), ED => c04
  | TM _ _, EF => c02
  | TM _ _, ED => c1
  | TL (TD ED), _ => c1
  end).

Lemma lit_pow e : (-1074 <= e)%Z -> (e < 1024)%Z -> val (lit 1 e) = bpow radix2 e /\ finite (lit 1 e).
Proof.
  intros H1 H2. pose proof (binary_normalize_correct 53 1024 prec53 emax1024 mode_NE 1 e false) as C. cbv zeta in C.
  replace (F2R (Float radix2 1 e)) with (bpow radix2 e) in C by (unfold F2R; cbn [Fnum Fexp]; ring).
  rewrite round_generic in C; [|apply valid_rnd_round_mode|].
  - rewrite Rlt_bool_true in C; [split; apply C|]. rewrite Rabs_pos_eq by apply bpow_ge_0. now apply bpow_lt.
  - apply generic_format_bpow. unfold SpecFloat.fexp, SpecFloat.emin. lia.
Qed.

Lemma default_valid : valid_thr ieee default_threshold /\ zero_limits ieee default_threshold.
Proof. split; [|repeat split]. repeat split; vm_compute; reflexivity. Qed.

(** A fraction n/m with n <= m is at most 1. *)
Lemma frac_le1 n m : (n <= m)%nat -> (1 <= m)%nat -> (Z.of_nat m < 2 ^ 63)%Z -> leD ieee (quotD ieee n m) c1 = true.
Proof.
  intros Hnm H1 Hm. cbn [ieee leD quotD]. destruct (nat64_ok m H1 Hm) as (Em & Fm & Lm & Um).
  assert (V : Valid_exp (FLT_exp (-1074) 53)) by (apply FLT_exp_valid; reflexivity).
  assert (Q : 0 <= B2R (nat64 n) <= B2R (nat64 m) /\ is_finite (nat64 n) = true).
  { destruct n as [|n].
    - split; [|reflexivity]. cbn. lra.
    - destruct (nat64_ok (S n) ltac:(lia) ltac:(lia)) as (En & Fn & Ln & Un). split; [|exact Fn]. split; [lra|].
      rewrite En, Em. apply round_le; [exact V|apply valid_rnd_N|]. apply IZR_le. lia. }
  destruct Q as [[Q0 Q1] Fn].
  pose proof (Bdiv_correct 53 1024 prec53 emax1024 mode_NE (nat64 n) (nat64 m) ltac:(lra)) as C.
  change (round radix2 (SpecFloat.fexp 53 1024) (round_mode mode_NE)) with (round radix2 (FLT_exp (-1074) 53) ZnearestE) in C.
  assert (Q : 0 <= B2R (nat64 n) / B2R (nat64 m) <= 1).
  { split; [apply Rmult_le_pos; [lra|]; apply Rlt_le, Rinv_0_lt_compat; lra|].
    apply Rmult_le_reg_r with (B2R (nat64 m)); [lra|]. unfold Rdiv. rewrite Rmult_assoc, Rinv_l by lra. lra. }
  set (q := B2R (nat64 n) / B2R (nat64 m)) in *.
  assert (L : 0 <= round radix2 (FLT_exp (-1074) 53) ZnearestE q).
  { apply round_ge_generic; [exact V|apply valid_rnd_N|apply generic_format_0|apply Q]. }
  assert (U : round radix2 (FLT_exp (-1074) 53) ZnearestE q <= 1).
  { apply round_le_generic; [exact V|apply valid_rnd_N|apply one64|apply Q]. }
  destruct (lit_pow 0 ltac:(lia) ltac:(lia)) as [E1 F1].
  rewrite Rlt_bool_true in C.
  - destruct C as (C1 & C2 & _). rewrite Fn in C2. rewrite Bleb_correct by auto. rewrite C1.
    unfold c1, val in *. rewrite E1. cbn [bpow]. now apply Rle_bool_true.
  - rewrite Rabs_pos_eq by lra. eapply Rle_lt_trans; [exact U|]. change 1 with (bpow radix2 0). apply bpow_lt. lia.
Qed.
