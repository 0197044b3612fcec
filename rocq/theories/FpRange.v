(** IEEE numbers below 2^127 do not overflow: the assumptions [range] hold. *)
From Coq Require Import ZArith Reals Lra Lia.
From Flocq Require Import Core BinarySingleNaN Relative Plus_error.
From Verif Require Import Base Dense_Model Dense_Spec Sparse_Model Dyn_Model Dyn_Spec Conv_Spec Eval_Spec Fp_Spec Fp_Proofs Fp_Ieee FpFin_Proofs.
#[local] Open Scope R_scope.

Section Fmt.
Context (prec emax : Z) (Hp : Prec_gt_0 prec) (Hm : Prec_lt_emax prec emax).
#[local] Notation bf := (binary_float prec emax).
#[local] Notation em := (3 - emax - prec)%Z.
#[local] Notation B2R := (@B2R prec emax).
#[local] Notation fin := (fun x : bf => is_finite x = true).
Context (o : Z) (Ho : (em + prec <= o)%Z) (Ho' : (o < emax)%Z).
#[local] Notation om := (bpow radix2 o).

Lemma round_om x : Rabs x <= om -> Rabs (round radix2 (SpecFloat.fexp prec emax) (round_mode mode_NE) x) < bpow radix2 emax.
Proof.
  intros H. apply Rle_lt_trans with om; [|now apply bpow_lt].
  apply abs_round_le_generic; [apply FLT_exp_valid; exact Hp|apply valid_rnd_N| |exact H].
  apply generic_format_bpow. red in Hp. unfold SpecFloat.fexp, SpecFloat.emin. lia.
Qed.

Lemma badd_fin x y : fin x -> fin y -> Rabs (B2R x + B2R y) <= om -> fin (badd prec emax Hp Hm x y).
Proof.
  intros Fx Fy H. pose proof (Bplus_correct prec emax Hp Hm mode_NE x y Fx Fy) as C.
  rewrite Rlt_bool_true in C by (now apply round_om). apply C.
Qed.

Lemma bfma_fin eta c x y : ee prec emax <= eta -> fin c -> fin x -> fin y ->
  (forall q, Rabs (q - B2R x * B2R y) <= uu prec * Rabs (B2R x * B2R y) + eta -> Rabs q <= om /\ Rabs (B2R c + q) <= om) ->
  fin (bfma prec emax Hp Hm c x y).
Proof.
  intros He Fc Fx Fy H. set (q := round radix2 (SpecFloat.fexp prec emax) (round_mode mode_NE) (B2R x * B2R y)).
  assert (Hq : Rabs (q - B2R x * B2R y) <= uu prec * Rabs (B2R x * B2R y) + eta).
  { eapply Rle_trans; [apply (any_err prec emax Hp)|]. lra. }
  destruct (H q Hq) as [H1 H2].
  pose proof (Bmult_correct prec emax Hp Hm mode_NE x y) as C. rewrite Rlt_bool_true in C.
  - destruct C as (C1 & C2 & _). unfold bfma. apply badd_fin; [exact Fc|rewrite C2, Fx, Fy; reflexivity|]. rewrite C1. exact H2.
  - apply Rle_lt_trans with om; [exact H1|now apply bpow_lt].
Qed.

Lemma bdot_fin eta g l : ee prec emax <= eta -> 1 + uu prec <= g ->
  (forall x y, In (x, y) l -> fin x /\ fin y) ->
  g ^ (length l + 1) * (lsum (fun p => Rabs (B2R (fst p) * B2R (snd p))) l + INR (length l) * eta) <= om -> fin (bdot prec emax Hp Hm l).
Proof.
  intros He Hg. pose proof (ee_pos prec emax) as Pe. pose proof (uu_pos prec Hp) as Pu.
  induction l as [|[x y] l IH] using rev_ind; intros HF HB; [reflexivity|].
  assert (Fl : forall x y, In (x, y) l -> fin x /\ fin y) by (intros x' y' Hi; apply HF, in_or_app; now left).
  destruct (HF x y ltac:(apply in_or_app; right; now left)) as [Fx Fy].
  rewrite !lsum_app, app_length, plus_INR in HB. cbn [lsum fst snd length INR] in HB.
  set (sa := lsum (fun p => Rabs (B2R (fst p) * B2R (snd p))) l) in *. set (p := B2R x * B2R y) in *.
  assert (Ps : 0 <= sa) by (unfold sa; clear; induction l as [|a l IH]; cbn; [lra|]; pose proof (Rabs_pos (B2R (fst a) * B2R (snd a))); lra).
  set (n := INR (length l)) in *. assert (Pn : 0 <= n) by apply pos_INR. pose proof (Rabs_pos p) as Pp.
  assert (Pe' : 0 <= n * eta) by (apply Rmult_le_pos; lra).
  set (k := (length l + 1)%nat) in *.
  assert (Pw : 1 + uu prec <= (1 + uu prec) ^ k).
  { unfold k. rewrite Nat.add_1_r. cbn [pow]. pose proof (pow_ge (uu prec) (length l) ltac:(lra)). nra. }
  assert (Pg : (1 + uu prec) ^ k <= g ^ k) by (apply pow_incr; lra).
  assert (Pg1 : g ^ k <= g ^ (k + 1)) by (apply Rle_pow; [lra|lia]).
  assert (B0 : g ^ k * (sa + n * eta + (Rabs p + eta)) <= om).
  { eapply Rle_trans; [|exact HB]. replace (length l + 1 + 1)%nat with (k + 1)%nat by (unfold k; lia).
    replace (sa + (Rabs p + 0) + (n + 1) * eta) with (sa + n * eta + (Rabs p + eta)) by ring. apply Rmult_le_compat_r; lra. }
  assert (FC : fin (bdot prec emax Hp Hm l)).
  { apply IH; [exact Fl|]. fold sa n. eapply Rle_trans; [|exact B0]. apply Rmult_le_compat_l; lra. }
  destruct (bdot_ok prec emax Hp Hm eta l He FC) as [_ BD].
  unfold bdot in *. rewrite fold_left_app. cbn [fold_left fst snd]. set (c := fold_left _ l _) in *.
  apply (bfma_fin eta); auto. fold p. intros q Hq. fold sa n k in BD.
  set (s := lsum (fun p => B2R (fst p) * B2R (snd p)) l) in *.
  assert (Pss : Rabs s <= sa).
  { unfold s, sa. clear. induction l as [|a l IH]; cbn; [rewrite Rabs_R0; lra|]. eapply Rle_trans; [apply Rabs_triang|]. lra. }
  set (w := (1 + uu prec) ^ k) in *.
  assert (Hc : Rabs (B2R c) <= w * (sa + n * eta)).
  { replace (B2R c) with ((B2R c - s) + s) by ring. eapply Rle_trans; [apply Rabs_triang|]. lra. }
  assert (Hq' : Rabs q <= (1 + uu prec) * Rabs p + eta).
  { replace q with ((q - p) + p) by ring. eapply Rle_trans; [apply Rabs_triang|]. lra. }
  assert (Hq2 : Rabs q <= w * (Rabs p + eta)).
  { eapply Rle_trans; [exact Hq'|]. assert ((1 + uu prec) * Rabs p <= w * Rabs p) by (apply Rmult_le_compat_r; lra). nra. }
  assert (W : w * (sa + n * eta + (Rabs p + eta)) <= om).
  { eapply Rle_trans; [|exact B0]. apply Rmult_le_compat_r; lra. }
  split.
  - eapply Rle_trans; [exact Hq2|]. eapply Rle_trans; [|exact W]. apply Rmult_le_compat_l; lra.
  - eapply Rle_trans; [apply Rabs_triang|]. lra.
Qed.
End Fmt.

Lemma ieee_range : range ieee val finite (bpow radix2 (-53)) (bpow radix2 (-24)) (bpow radix2 (-150)) (bpow radix2 127).
Proof.
  assert (G : 1 + uu 53 <= 1 + bpow radix2 (-24)) by (rewrite u53; apply Rplus_le_compat_l, bpow_le; lia).
  split.
  - split; cbn [ieee addD fmaD dotD]; unfold val, finite.
    + intros a b. apply (badd_fin 53 1024 _ _ 127); lia.
    + intros c x y. rewrite <- u53. apply (bfma_fin 53 1024 _ _ 127); [lia|lia|apply ee53].
    + intros l. apply (bdot_fin 53 1024 _ _ 127); [lia|lia|apply ee53|exact G].
  - split; cbn [ieee addF fmaF dotF toD]; unfold val, finite.
    + intros a b. rewrite !(proj1 (promote_ok _)), !(proj2 (promote_ok _)). apply (badd_fin 24 128 _ _ 127); lia.
    + intros c x y. rewrite !(proj1 (promote_ok _)), !(proj2 (promote_ok _)), <- u24.
      apply (bfma_fin 24 128 _ _ 127); [lia|lia|rewrite ee24; lra].
    + intros l HF HB. rewrite (proj1 (promote_ok _)).
      apply (bdot_fin 24 128 _ _ 127 ltac:(lia) ltac:(lia) (bpow radix2 (-150)) (1 + bpow radix2 (-24))); [rewrite ee24; lra|rewrite u24; lra| |].
      * intros x y Hi. destruct (HF x y Hi) as [H1 H2]. rewrite (proj1 (promote_ok x)) in H1. rewrite (proj1 (promote_ok y)) in H2. auto.
      * eapply Rle_trans; [|exact HB]. apply Req_le. do 2 f_equal. clear.
        induction l as [|a l IH]; cbn [lsum]; [reflexivity|]. now rewrite IH, !(proj2 (promote_ok _)).
  - intros y Fy Hy. destruct (lit_pow 127 ltac:(lia) ltac:(lia)) as [V _].
    apply (ieee_small (lit 1 127)); [rewrite V; lra|exact Fy|rewrite V; exact Hy].
Qed.
