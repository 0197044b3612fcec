(** C51, the comparison of elements in terms of real numbers (Eq_Model.v models
    EqualWithinNumericalAccuracy.h 10-21). *)
From Coq Require Import ZArith Reals Lra Lia Floats.SpecFloat.
From Verif Require Import Base Eq_Model Fp_Ieee.
From Flocq Require Import Core BinarySingleNaN.
#[local] Open Scope R_scope.

Section Any.
Context (prec emax : Z) {Hp : Prec_gt_0 prec} {Hm : Prec_lt_emax prec emax}.
#[local] Notation bf := (binary_float prec emax).

(** The executable numbers of the standard library are those of Flocq. *)
Lemma aux_equiv sx mx ex lx :
  SpecFloat.binary_round_aux prec emax sx mx ex lx = binary_round_aux prec emax mode_NE sx mx ex lx.
Proof.
  unfold SpecFloat.binary_round_aux, binary_round_aux. set (mrse := shr_fexp _ _ _). case mrse; intros mrs e; simpl.
  replace (round_nearest_even (shr_m mrs) (loc_of_shr_record mrs)) with (choice_mode mode_NE sx (shr_m mrs) (loc_of_shr_record mrs)); [reflexivity|].
  generalize (shr_m mrs) (loc_of_shr_record mrs). intros m [|[]]; try reflexivity. simpl. unfold Round.cond_incr. case Z.even; reflexivity.
Qed.
Lemma norm_equiv m e sz : SpecFloat.binary_normalize prec emax m e sz = B2SF (binary_normalize prec emax Hp Hm mode_NE m e sz).
Proof.
  case m as [|p|p]; [reflexivity| |]; simpl; rewrite B2SF_SF2B; unfold SpecFloat.binary_round, binary_round, shl_align_fexp;
    set (mez := shl_align _ _ _); case mez as [mz ez]; apply aux_equiv.
Qed.
Lemma sub_equiv (x y : bf) : SFsub prec emax (B2SF x) (B2SF y) = B2SF (Bminus mode_NE x y).
Proof.
  case x as [sx|sx| |sx mx ex Bx]; case y as [sy|sy| |sy my ey By]; try (now (trivial || simpl; case Bool.eqb)).
  simpl. unfold Zminus. rewrite <- cond_Zopp_negb. apply norm_equiv.
Qed.
Lemma abs_equiv (x : bf) : SFabs (B2SF x) = B2SF (Babs x).
Proof. now case x. Qed.

(** Difference of two numbers of the format, as [std::abs(v1 - v2)] sees it. *)
Definition diff (x y : bf) : R := Rabs (round radix2 (FLT_exp (3 - emax - prec) prec) ZnearestE (B2R x - B2R y)).

Lemma sub_abs (x y : bf) : is_finite x = true -> is_finite y = true ->
  (is_finite (Babs (Bminus mode_NE x y)) = true /\ B2R (Babs (Bminus mode_NE x y)) = diff x y) \/
  (B2SF (Babs (Bminus mode_NE x y)) = S754_infinity false /\ bpow radix2 emax <= diff x y).
Proof.
  intros Fx Fy. pose proof (Bminus_correct prec emax Hp Hm mode_NE x y Fx Fy) as C. unfold diff.
  destruct (Rlt_bool_spec (Rabs (round radix2 (SpecFloat.fexp prec emax) (round_mode mode_NE) (B2R x - B2R y))) (bpow radix2 emax)) as [H|H].
  - destruct C as (C1 & C2 & _). left. rewrite B2R_Babs, C1, is_finite_Babs. auto.
  - right. destruct C as [C _]. split; [|exact H]. rewrite <- abs_equiv, C. reflexivity.
Qed.
Lemma sub_bad (x y : bf) : is_finite x && is_finite y = false -> is_finite (Bminus mode_NE x y) = false.
Proof. destruct x as [[]|[]| |], y as [[]|[]| |]; cbn; try discriminate; auto. Qed.
Lemma nonfinite_leb (x : bf) (t : spec_float) : is_finite x = false -> is_finite_SF t = true -> SFleb (SFabs (B2SF x)) t = false.
Proof. destruct x as [[]|[]| |], t as [[]|[]| |[]]; cbn; try discriminate; auto. Qed.
End Any.

#[local] Instance p53 : Prec_gt_0 53 := eq_refl.
#[local] Instance p53e : Prec_lt_emax 53 1024 := eq_refl.
#[local] Instance p24 : Prec_gt_0 24 := eq_refl.
#[local] Instance p24e : Prec_lt_emax 24 128 := eq_refl.

(** The tolerances: the doubles nearest to 10^-12 and to 10^-4. *)
Definition d64 (m e : Z) : binary_float 53 1024 := binary_normalize 53 1024 p53 p53e mode_NE m e false.
Lemma d64_int n : (0 <= n < 2 ^ 53)%Z -> B2R (d64 n 0) = IZR n /\ is_finite (d64 n 0) = true.
Proof.
  intros H. pose proof (binary_normalize_correct 53 1024 p53 p53e mode_NE n 0 false) as C. cbv zeta in C.
  assert (G : generic_format radix2 (SpecFloat.fexp 53 1024) (F2R (Float radix2 n 0))).
  { apply generic_format_FLT. exists (Float radix2 n 0); [reflexivity| |cbn; lia]. cbn [Fnum]. rewrite Z.abs_eq by lia. apply H. }
  rewrite round_generic in C by (auto; apply valid_rnd_N).
  assert (V : F2R (Float radix2 n 0) = IZR n) by (unfold F2R; cbn; ring). rewrite V in C.
  rewrite Rlt_bool_true in C; [destruct C as (C1 & C2 & _); auto|].
  rewrite Rabs_pos_eq by (apply IZR_le; lia). apply Rlt_trans with (IZR (2 ^ 53)); [apply IZR_lt; lia|].
  change (IZR (2 ^ 53)) with (bpow radix2 53). apply bpow_lt. lia.
Qed.
Lemma quotient (n : Z) (t : spec_float) : (0 < n < 2 ^ 53)%Z -> B2SF (Bdiv mode_NE (d64 1 0) (d64 n 0)) = t -> is_finite_SF t = true ->
  SF2R radix2 t = round radix2 (FLT_exp (-1074) 53) ZnearestE (/ IZR n).
Proof.
  intros H E Ft. destruct (d64_int n) as [V Fn]; [lia|]. destruct (d64_int 1) as [V1 F1]; [lia|].
  pose proof (Bdiv_correct 53 1024 p53 p53e mode_NE (d64 1 0) (d64 n 0)) as C.
  rewrite V, V1 in C. specialize (C (not_0_IZR n ltac:(lia))).
  destruct (Rlt_bool _ _).
  - destruct C as (C & _). rewrite <- E, SF2R_B2SF, C. unfold Rdiv. rewrite Rmult_1_l. reflexivity.
  - rewrite E in C. rewrite C in Ft. destruct (xorb _ _); discriminate.
Qed.

Lemma tol64_ok : SF2R radix2 tol64 = round radix2 (FLT_exp (-1074) 53) ZnearestE (/ IZR (10 ^ 12)).
Proof. apply quotient; [lia| |reflexivity]. vm_compute. reflexivity. Qed.
Lemma tol32_ok : SF2R radix2 tol32 = round radix2 (FLT_exp (-1074) 53) ZnearestE (/ IZR (10 ^ 4)).
Proof. apply quotient; [lia| |reflexivity]. vm_compute. reflexivity. Qed.


Lemma leb_tol (z : binary_float 53 1024) t (Ht : valid_binary 53 1024 t = true) : is_finite z = true -> is_finite_SF t = true ->
  (SFleb (B2SF z) t = true <-> B2R z <= SF2R radix2 t).
Proof.
  intros Fz Ft. pose proof (Bleb_correct 53 1024 z (SF2B t Ht) Fz) as C. rewrite is_finite_SF2B in C. specialize (C Ft).
  unfold Bleb in C. rewrite B2SF_SF2B, B2R_SF2B in C. rewrite C. destruct (Rle_bool_spec (B2R z) (SF2R radix2 t)); split; auto; try discriminate; lra.
Qed.
Lemma tol_small t : t = tol64 \/ t = tol32 -> SF2R radix2 t < bpow radix2 0.
Proof. intros [-> | ->]; unfold SF2R, tol64, tol32, F2R; cbn [Fnum Fexp cond_Zopp];
  [apply Rlt_trans with (bpow radix2 53 * bpow radix2 (-92))|apply Rlt_trans with (bpow radix2 53 * bpow radix2 (-66))];
  try (apply Rmult_lt_compat_r; [apply bpow_gt_0|]; change (bpow radix2 53) with (IZR (2 ^ 53)); apply IZR_lt; lia);
  rewrite <- bpow_plus; apply bpow_lt; lia. Qed.

(** Conversion of a float to double is exact. *)
Lemma widen_ok (y : binary_float 24 128) : exists z : binary_float 53 1024, widen (B2SF y) = B2SF z /\
  is_finite z = is_finite y /\ (is_finite y = true -> B2R z = B2R y) /\ (forall s, B2SF y = S754_infinity s -> B2SF z = S754_infinity s).
Proof.
  destruct y as [s|s| |s m e By].
  - exists (B754_zero s). cbn. auto 6. 
  - exists (B754_infinity s). cbn. auto 6.
  - exists B754_nan. cbn. repeat split; auto; discriminate.
  - exists (binary_normalize 53 1024 p53 p53e mode_NE (cond_Zopp s (Z.pos m)) e s). split; [cbn [widen B2SF]; apply norm_equiv|].
    pose proof (binary_normalize_correct 53 1024 p53 p53e mode_NE (cond_Zopp s (Z.pos m)) e s) as C. cbv zeta in C.
    assert (V : F2R (Float radix2 (cond_Zopp s (Z.pos m)) e) = B2R (B754_finite s m e By)) by reflexivity.
    assert (G : generic_format radix2 (SpecFloat.fexp 53 1024) (F2R (Float radix2 (cond_Zopp s (Z.pos m)) e))).
    { rewrite V. apply (generic_inclusion_mag radix2 (SpecFloat.fexp 24 128)); [|apply generic_format_B2R].
      intros _. unfold SpecFloat.fexp, SpecFloat.emin. lia. }
    rewrite round_generic in C by (auto; apply valid_rnd_N). rewrite V in C.
    rewrite Rlt_bool_true in C.
    + destruct C as (C1 & C2 & _). rewrite C2. repeat split; auto. discriminate.
    + eapply Rlt_trans; [apply abs_B2R_lt_emax|]. apply bpow_lt. lia.
Qed.

(** Two doubles are within numerical accuracy exactly if both are finite and
    their rounded difference is at most the double nearest to 1e-12; a double and
    a float, or two floats, if it is at most the double nearest to 1e-4, where the
    difference is rounded to double or, of two floats, to float. *)
Theorem C51_elements_in_reals :
  (forall x y : binary_float 53 1024,
    within_dd (B2SF x) (B2SF y) = true <->
    is_finite x = true /\ is_finite y = true /\ diff 53 1024 x y <= round radix2 (FLT_exp (-1074) 53) ZnearestE (/ IZR (10 ^ 12))) /\
  (forall x y : binary_float 24 128,
    within_ff (B2SF x) (B2SF y) = true <->
    is_finite x = true /\ is_finite y = true /\ diff 24 128 x y <= round radix2 (FLT_exp (-1074) 53) ZnearestE (/ IZR (10 ^ 4))) /\
  (forall (x : binary_float 53 1024) (y : binary_float 24 128),
    within_df (B2SF x) (B2SF y) = true <->
    is_finite x = true /\ is_finite y = true /\
    Rabs (round radix2 (FLT_exp (-1074) 53) ZnearestE (B2R x - B2R y)) <= round radix2 (FLT_exp (-1074) 53) ZnearestE (/ IZR (10 ^ 4))).
Proof.
  rewrite <- tol64_ok, <- tol32_ok.
  assert (BIG : forall t k, t = tol64 \/ t = tol32 -> (0 <= k)%Z -> SF2R radix2 t < bpow radix2 k).
  { intros t k Ht Hk. eapply Rlt_le_trans; [apply tol_small; exact Ht|]. apply bpow_le. exact Hk. }
  assert (DD : forall t (Ht : valid_binary 53 1024 t = true), t = tol64 \/ t = tol32 -> is_finite_SF t = true -> forall x y : binary_float 53 1024,
    SFleb (SFabs (sub64 (B2SF x) (B2SF y))) t = true <-> is_finite x = true /\ is_finite y = true /\ diff 53 1024 x y <= SF2R radix2 t).
  { intros t Ht Et Ft x y. unfold sub64. rewrite (sub_equiv 53 1024 (Hp := p53) (Hm := p53e)), abs_equiv.
    destruct (is_finite x && is_finite y) eqn:FF.
    - apply andb_prop in FF as [Fx Fy]. destruct (sub_abs 53 1024 x y Fx Fy) as [[Fd Vd]|[Ed Vd]].
      + rewrite (leb_tol _ t Ht Fd Ft), Vd. tauto.
      + rewrite Ed. split; [destruct t as [[]|[]| |[]]; discriminate|]. intros (_ & _ & H). pose proof (BIG t 1024%Z Et ltac:(lia)). lra.
    - pose proof (nonfinite_leb 53 1024 (Bminus mode_NE x y) t (sub_bad 53 1024 x y FF) Ft) as N. rewrite abs_equiv in N. rewrite N.
      split; [discriminate|]. intros (H1 & H2 & _). rewrite H1, H2 in FF. discriminate. }
  split; [|split].
  - intros x y. apply (DD tol64 eq_refl); auto.
  - intros x y. unfold within_ff, sub32. rewrite (sub_equiv 24 128 (Hp := p24) (Hm := p24e)), abs_equiv.
    destruct (widen_ok (Babs (Bminus mode_NE x y))) as (z & Ez & Fz & Vz & Iz). rewrite Ez.
    destruct (is_finite x && is_finite y) eqn:FF.
    + apply andb_prop in FF as [Fx Fy]. destruct (sub_abs 24 128 x y Fx Fy) as [[Fd Vd]|[Ed Vd]].
      * rewrite (leb_tol z tol32 eq_refl), (Vz Fd), Vd; [tauto| |reflexivity]. now rewrite Fz.
      * rewrite (Iz _ Ed). split; [discriminate|]. intros (_ & _ & H). pose proof (BIG tol32 128%Z ltac:(auto) ltac:(lia)). lra.
    + assert (N : SFleb (B2SF z) tol32 = false).
      { rewrite is_finite_Babs, (sub_bad 24 128 (Hp := p24) (Hm := p24e) x y FF) in Fz.
        pose proof (sub_bad 24 128 x y FF) as B. destruct (Bminus mode_NE x y) as [s|s| |]; try discriminate; cbn in *.
        - destruct z as [[]|[]| |]; try discriminate; auto. all: rewrite (Iz false eq_refl) in *; discriminate.
        - destruct z as [[]|[]| |]; try discriminate; auto. }
      rewrite N. split; [discriminate|]. intros (H1 & H2 & _). rewrite H1, H2 in FF. discriminate.
  - intros x y. unfold within_df. destruct (widen_ok y) as (z & Ez & Fz & Vz & _). rewrite Ez.
    rewrite (DD tol32 eq_refl), Fz by auto. unfold diff. split; intros (H1 & H2 & H3); (split; [exact H1|]; split; [exact H2|]); rewrite (Vz H2) in *; exact H3.
Qed.
Print Assumptions C51_elements_in_reals.

(** The boundary: 1e-12 itself is within the tolerance of 0, the next double is not;
    of two floats, 1 and 1 + 2^-14 are alike, 1 and 1 + 2^-13 are not. *)
Example C51_elements_in_reals_nonvacuous :
  (exists x y : binary_float 53 1024, is_finite x = true /\ is_finite y = true /\ B2SF y = tol64 /\ within_dd (B2SF x) (B2SF y) = true) /\
  (exists x y : binary_float 53 1024, is_finite x = true /\ is_finite y = true /\
     B2SF y = S754_finite false 4951760157141522 (-92) /\ within_dd (B2SF x) (B2SF y) = false) /\
  within_ff (S754_finite false 8388608 (-23)) (S754_finite false 8389120 (-23)) = true /\
  within_ff (S754_finite false 8388608 (-23)) (S754_finite false 8389632 (-23)) = false.
Proof.
  split; [|split; [|split; vm_compute; reflexivity]].
  - exists (B754_zero false), (SF2B tol64 (eq_refl : valid_binary 53 1024 tol64 = true)). repeat split.
  - exists (B754_zero false), (SF2B (S754_finite false 4951760157141522 (-92)) (eq_refl : valid_binary 53 1024 (S754_finite false 4951760157141522 (-92)) = true)). repeat split.
Qed.
