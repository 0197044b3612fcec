(** C77: rounding errors of norms and of the error the benchmark reports.
    Vocabulary: FpNorm_Spec.v, Fp_Spec.v. *)
From Coq Require Import Reals Lra.
From Flocq Require Import Core BinarySingleNaN Relative.
From Verif Require Import Base BaseLemmas Dense_Model Dense_Spec Dense_Proofs Dense2_Proofs Sparse_Model Sparse_Spec Sparse2_Proofs Sparse3_Proofs
  Dyn_Model Dyn_Spec Norm_Model Norm_Spec Norm_Proofs Tools_Model Fp_Spec Fp_Proofs Fp_Ieee FpNorm_Spec FpNorm_Proofs.
#[local] Open Scope R_scope.

Lemma sqrt_le_self w : 1 <= w -> sqrt w <= w.
Proof.
  intros H. rewrite <- (sqrt_square w) at 2 by lra. apply sqrt_le_1_alt. nra.
Qed.
Lemma sqrt_ge_self w : 0 <= w <= 1 -> w <= sqrt w.
Proof.
  intros H. rewrite <- (sqrt_square w) at 1 by lra. apply sqrt_le_1_alt. nra.
Qed.
Lemma sqrt_plus a b : 0 <= a -> 0 <= b -> sqrt (a + b) <= sqrt a + sqrt b.
Proof.
  intros Ha Hb. pose proof (sqrt_pos a) as Pa. pose proof (sqrt_pos b) as Pb.
  rewrite <- (sqrt_square (sqrt a + sqrt b)) by lra. apply sqrt_le_1_alt.
  pose proof (sqrt_sqrt a Ha) as Sa. pose proof (sqrt_sqrt b Hb) as Sb. nra.
Qed.

Lemma root_bounds u n s S e m : 0 <= u < 1 -> 0 <= S -> 0 <= e -> 0 <= s ->
  (1 - u) ^ (n + 1) * S - (1 + u) ^ n * e <= s <= (1 + u) ^ (n + 1) * S + (1 + u) ^ n * e ->
  Rabs (m - sqrt s) <= u * sqrt s ->
  (1 - u) ^ (n + 2) * sqrt S - (1 + u) ^ (n + 2) * sqrt e <= m <= (1 + u) ^ (n + 2) * (sqrt S + sqrt e).
Proof.
  intros Hu HS He Hs [L U] HM. apply Raux.Rabs_le_inv in HM.
  pose proof (sqrt_pos s) as P. pose proof (sqrt_pos S) as PS. pose proof (sqrt_pos e) as Pe.
  assert (W : 1 <= (1 + u) ^ n) by (apply pow_R1_Rle; lra).
  assert (W1 : (1 + u) ^ (n + 1) = (1 + u) * (1 + u) ^ n) by (rewrite Nat.add_1_r; reflexivity).
  assert (W2 : (1 + u) ^ (n + 2) = (1 + u) * (1 + u) ^ (n + 1)) by (replace (n + 2)%nat with (Datatypes.S (n + 1)) by lia; reflexivity).
  assert (V2 : (1 - u) ^ (n + 2) = (1 - u) * (1 - u) ^ (n + 1)) by (replace (n + 2)%nat with (Datatypes.S (n + 1)) by lia; reflexivity).
  assert (V0 : 0 <= (1 - u) ^ (n + 1) <= 1).
  { split; [apply pow_le; lra|]. apply Rle_trans with (1 ^ (n + 1)); [apply pow_incr; lra|rewrite pow1; lra]. }
  set (w := (1 + u) ^ n) in *. set (p := (1 - u) ^ (n + 1)) in *. rewrite V2, W2, W1.
  assert (WW : 1 <= (1 + u) * w) by nra.
  split.
  - assert (A : p * sqrt S <= sqrt s + w * sqrt e).
    { apply Rle_trans with (sqrt p * sqrt S); [apply Rmult_le_compat_r; [exact PS|now apply sqrt_ge_self]|].
      rewrite <- sqrt_mult by lra. apply Rle_trans with (sqrt (s + w * e)); [apply sqrt_le_1_alt; lra|].
      eapply Rle_trans; [apply sqrt_plus; [lra|nra]|]. apply Rplus_le_compat_l. rewrite sqrt_mult by lra.
      apply Rmult_le_compat_r; [exact Pe|]. now apply sqrt_le_self. }
    assert (B : (1 - u) * (w * sqrt e) <= (1 + u) * ((1 + u) * w) * sqrt e).
    { rewrite <- !Rmult_assoc. apply Rmult_le_compat_r; [exact Pe|]. nra. }
    assert (Cc : (1 - u) * (p * sqrt S) <= (1 - u) * (sqrt s + w * sqrt e)) by (apply Rmult_le_compat_l; lra).
    lra.
  - assert (A : sqrt s <= (1 + u) * w * (sqrt S + sqrt e)).
    { apply Rle_trans with (sqrt ((1 + u) * w * (S + e))).
      - apply sqrt_le_1_alt. eapply Rle_trans; [exact U|]. rewrite W1, Rmult_plus_distr_l. apply Rplus_le_compat_l.
        apply Rmult_le_compat_r; [exact He|]. nra.
      - rewrite sqrt_mult by lra. apply Rmult_le_compat; [apply sqrt_pos|apply sqrt_pos|now apply sqrt_le_self|now apply sqrt_plus]. }
    rewrite Rmult_assoc. apply Rle_trans with ((1 + u) * sqrt s); [lra|]. apply Rmult_le_compat_l; lra.
Qed.

Lemma pow_lo_mono u k m : 0 <= u < 1 -> (k <= m)%nat -> (1 - u) ^ m <= (1 - u) ^ k.
Proof.
  intros Hu H. replace m with (k + (m - k))%nat by lia. rewrite pow_add. rewrite <- (Rmult_1_r ((1 - u) ^ k)) at 2.
  apply Rmult_le_compat_l; [apply pow_le; lra|]. apply Rle_trans with (1 ^ (m - k)); [apply pow_incr; lra|rewrite pow1; lra].
Qed.

Section C77.
Context {F D : Type} (ar : arith F D) (nx : nops F D) (v : D -> R) (fin : D -> Prop) (uD uF eta : R).
Context (RO : rounding ar v fin uD uF eta) (OD : ordering ar v fin) (NR : norm_rounding ar nx v fin uD eta) (U1 : uD < 1).

Let ZD := fm_zero _ _ _ _ _ _ _ _ _ _ _ (ro_D _ _ _ _ _ _ RO).
Let u0 : 0 <= uD < 1. Proof. split; [apply (ro_u _ _ _ _ _ _ RO)|exact U1]. Qed.

(** What is claimed of a norm [m] of the array [g]. *)
Definition norm_ok (k : nkind) (r c : nat) (g : nat -> nat -> D) (m : D) : Prop :=
  match k with
  | NMax => (forall i j, (i < r)%nat -> (j < c)%nat -> fin (g i j)) ->
            fin m /\ norm_close uD eta NMax r c (fun i j => v (g i j)) (v m)
  | k => fin m -> (forall i j, (i < r)%nat -> (j < c)%nat -> fin (g i j)) /\
                  norm_close uD eta k r c (fun i j => v (g i j)) (v m)
  end.

Lemma rsum2_pos r c h : (forall i j, 0 <= h i j) -> 0 <= rsum2 r c h.
Proof. intros H. unfold rsum2. apply rsum_pos. intros. apply rsum_pos. auto. Qed.

Lemma norm_lists_ok k r c g el : lists ar r c g el -> norm_ok k r c g (n_fin nx k (fold_left (n_accD ar nx k) el (d0 ar))).
Proof.
  intros LI. pose proof (li_len _ _ _ _ _ LI) as LN. set (N := (r * c)%nat) in *.
  destruct k; cbn [norm_ok n_fin].
  - intros HF. change (n_accD ar nx NOne) with (fun a x => addD ar a (absD ar x)) in *.
    pose proof (sum_bounds ar v fin uD uF eta RO U1 0 (absD ar) (fun x => Rabs (v x)) el (Rle_refl 0)) as S.
    destruct S as (S1 & S2 & S3); [|exact HF|].
    { intros x _ Hx. apply (nr_abs _ _ _ _ _ _ NR) in Hx. destruct (od_abs ar v fin OD x Hx) as [_ ->].
      pose proof (Rabs_pos (v x)). split; [assumption|]. split; [assumption|]. nra. }
    split.
    { intros i j Hi Hj. destruct (li_all _ _ _ _ _ LI i j Hi Hj) as [H| ->]; [|apply ZD]. apply (nr_abs _ _ _ _ _ _ NR). now apply S1. }
    rewrite (li_sum _ _ _ _ _ LI (fun x => Rabs (v x))) in S3 by (rewrite (proj2 ZD); apply Rabs_R0).
    cbn [norm_close]. fold N. unfold real_norm1.
    assert (P : 0 <= rsum2 r c (fun i j => Rabs (v (g i j)))) by (apply rsum2_pos; intros; apply Rabs_pos).
    set (Sm := rsum2 r c _) in *. rewrite !Rmult_0_r, Rminus_0_r, Rplus_0_r in S3.
    pose proof (pow_lo_mono uD (length el + 1) (N + 1) u0 ltac:(lia)) as M1.
    pose proof (pow_mono uD (length el + 1) (N + 1) ltac:(apply u0) ltac:(lia)) as M2. split.
    + eapply Rle_trans; [|apply S3]. now apply Rmult_le_compat_r.
    + eapply Rle_trans; [apply S3|]. now apply Rmult_le_compat_r.
  - intros HF. destruct (nr_sqrt _ _ _ _ _ _ NR _ HF) as [HF' HS].
    change (n_accD ar nx NTwo) with (fun a x => addD ar a (sqD nx x)) in *.
    pose proof (ro_u _ _ _ _ _ _ RO) as [_ E0].
    pose proof (sum_bounds ar v fin uD uF eta RO U1 eta (sqD nx) (fun x => v x * v x) el E0) as S.
    destruct S as (S1 & S2 & S3); [|exact HF'|].
    { intros x _ Hx. destruct (nr_sq _ _ _ _ _ _ NR x Hx) as (_ & H1 & H2). apply Raux.Rabs_le_inv in H2.
      split; [apply Rle_0_sqr|]. split; [assumption|]. lra. }
    split.
    { intros i j Hi Hj. destruct (li_all _ _ _ _ _ LI i j Hi Hj) as [H| ->]; [|apply ZD]. apply (nr_sq _ _ _ _ _ _ NR). now apply S1. }
    rewrite (li_sum _ _ _ _ _ LI (fun x => v x * v x)) in S3 by (rewrite (proj2 ZD); apply Rmult_0_l).
    cbn [norm_close]. fold N. unfold real_norm2.
    assert (P : 0 <= rsum2 r c (fun i j => v (g i j) * v (g i j))) by (apply rsum2_pos; intros; apply Rle_0_sqr).
    set (Sm := rsum2 r c _) in *. set (s := fold_left _ el _) in *. pose proof (pos_INR (length el)) as PI.
    pose proof (root_bounds uD (length el) (v s) Sm (INR (length el) * eta) (v (sqrtD nx s)) u0 P ltac:(nra) S2 S3 (HS S2)) as [B1 B2].
    pose proof (pow_lo_mono uD (length el + 2) (N + 2) u0 ltac:(lia)) as M1.
    pose proof (pow_mono uD (length el + 2) (N + 2) ltac:(apply u0) ltac:(lia)) as M2.
    assert (M3 : sqrt (INR (length el) * eta) <= sqrt (INR N * eta)).
    { apply sqrt_le_1_alt. apply Rmult_le_compat_r; [exact E0|]. now apply le_INR. }
    pose proof (sqrt_pos Sm) as Q1. pose proof (sqrt_pos (INR (length el) * eta)) as Q2.
    pose proof (pow_ge uD (length el + 2) ltac:(apply u0)) as Q3.
    assert (M4 : (1 + uD) ^ (length el + 2) * sqrt (INR (length el) * eta) <= (1 + uD) ^ (N + 2) * sqrt (INR N * eta)).
    { apply Rmult_le_compat; lra. }
    assert (M5 : (1 - uD) ^ (N + 2) * sqrt Sm <= (1 - uD) ^ (length el + 2) * sqrt Sm) by now apply Rmult_le_compat_r.
    assert (M6 : (1 + uD) ^ (length el + 2) * sqrt Sm <= (1 + uD) ^ (N + 2) * sqrt Sm) by now apply Rmult_le_compat_r.
    lra.
  - intros Hg. assert (HE : forall x, In x el -> fin x).
    { intros x Hx. destruct (li_in _ _ _ _ _ LI x Hx) as (i & j & Hi & Hj & ->). auto. }
    destruct (max_exact ar nx v fin uD uF eta RO OD el HE) as (M1 & M2 & M3).
    split; [exact M1|]. cbn [norm_close]. set (m := fold_left _ el _) in *.
    assert (M0 : 0 <= v m).
    { destruct M3 as [->|(x & _ & ->)]; [lra|apply Rabs_pos]. }
    split.
    + intros i j Hi Hj. destruct (li_all _ _ _ _ _ LI i j Hi Hj) as [H| ->]; [auto|]. rewrite (proj2 ZD), Rabs_R0. exact M0.
    + destruct M3 as [M3|(x & Hx & M3)]; [now left|right]. destruct (li_in _ _ _ _ _ LI x Hx) as (i & j & Hi & Hj & ->). eauto.
Qed.

(** Every one-part matrix of run-time type, dense, sparse (without unused value
    cells) or zero. *)
Theorem C77_norm_of_one_part :
  forall k (l : leaf F D) r c g, rep_leaf ar l r c g -> l_compact l ->
    exists m, norm_leaf ar nx k l = Ok m /\ norm_ok k r c g m.
Proof.
  intros k l r c g Rl Cl. destruct (norm_leaf_lists ar nx v fin uD eta NR k l r c g Rl Cl) as [(el & LI & E)|[H0 E]].
  - eexists. split; [exact E|]. now apply norm_lists_ok.
  - exists (d0 ar). split; [exact E|].
    assert (S0 : forall h : D -> R, h (d0 ar) = 0 -> rsum2 r c (fun i j => h (g i j)) = 0).
    { intros h Hh. unfold rsum2. apply rsum_0. intros i Hi. apply rsum_0. intros j Hj. now rewrite H0. }
    assert (FG : forall i j, (i < r)%nat -> (j < c)%nat -> fin (g i j)) by (intros i j Hi Hj; rewrite H0 by auto; apply ZD).
    pose proof (ro_u _ _ _ _ _ _ RO) as [_ E0]. pose proof (pos_INR (r * c)) as PI.
    pose proof (sqrt_pos (INR (r * c) * eta)) as Q. pose proof (pow_ge uD (r * c + 2) ltac:(apply u0)) as Q3.
    destruct k; cbn [norm_ok norm_close]; unfold real_norm1, real_norm2; rewrite (proj2 ZD).
    + intros _. split; [exact FG|]. rewrite (S0 (fun x => Rabs (v x))) by (rewrite (proj2 ZD); apply Rabs_R0). lra.
    + intros _. split; [exact FG|]. rewrite (S0 (fun x => v x * v x)) by (rewrite (proj2 ZD); apply Rmult_0_l). rewrite sqrt_0. nra.
    + intros _. split; [apply ZD|]. split; [|now left]. intros i j Hi Hj. rewrite H0, (proj2 ZD), Rabs_R0 by auto. lra.
Qed.

(** Dense matrices and windows of either orientation. *)
Theorem C77_norm_of_window :
  forall k (d : dense D) r c f, view d r c f -> iterable d ->
    exists m, norm_dense ar nx (n_accD ar nx k) k d = Ok m /\ norm_ok k r c f m.
Proof.
  intros k d r c f V IT. rewrite (norm_dense_val ar nx _ k d r c f V IT). eexists. split; [reflexivity|].
  apply norm_lists_ok, lists_dense.
Qed.

Let SD := fm_sub _ _ _ _ _ _ _ _ _ _ _ (ro_D _ _ _ _ _ _ RO).

(** The two numbers the benchmark prints for a result [C] against the reference
    [R]: the largest difference and the two-norm of the difference. *)
Theorem C77_reported_error :
  forall dbg (C Rf : dense D) r c f g,
    is_mat C r c f -> is_mat Rf r c g -> d_orient C = ColMajor -> d_orient Rf = ColMajor ->
    let diff i j := v (f i j) - v (g i j) in
    let n := (r * c)%nat in
    exists m t, bench_report ar nx dbg C Rf = Ok (m, t) /\
      ((forall i j, (i < r)%nat -> (j < c)%nat -> fin (subD ar (f i j) (g i j))) ->
         fin m /\ (forall i j, (i < r)%nat -> (j < c)%nat -> (1 - uD) * Rabs (diff i j) <= v m) /\
         (v m = 0 \/ exists i j, (i < r)%nat /\ (j < c)%nat /\ v m <= (1 + uD) * Rabs (diff i j)) /\
         (v m = 0 <-> forall i j, (i < r)%nat -> (j < c)%nat -> v (f i j) = v (g i j))) /\
      (fin t ->
         (forall i j, (i < r)%nat -> (j < c)%nat -> fin (f i j) /\ fin (g i j)) /\
         (1 - uD) ^ (n + 3) * real_norm2 r c diff - (1 + uD) ^ (n + 2) * sqrt (INR n * eta) <= v t
           <= (1 + uD) ^ (n + 3) * real_norm2 r c diff + (1 + uD) ^ (n + 2) * sqrt (INR n * eta)).
Proof.
  intros dbg C Rf r c f g MC MR OC OR diff n. unfold bench_report.
  assert (B : exists e, bin_leaf ar Minus dbg (LDd C) (LDd Rf) = Ok (LDd e) /\ rep_leaf ar (LDd e) r c (fun i j => subD ar (f i j) (g i j))).
  { destruct (d_binop_spec (binD ar Minus) dbg C Rf r c f g MC MR ltac:(congruence)) as (e & E & M & O & _).
    rewrite OC in E. cbn [bin_leaf]. rewrite E. cbn [rmap bind]. exists e. split; [reflexivity|]. cbn [rep_leaf]. split; [congruence|exact M]. }
  destruct B as (e & E & Re). rewrite E. cbn [bind].
  destruct (C77_norm_of_one_part NMax (LDd e) r c _ Re Coq.Init.Logic.I) as (m & Em & Hm).
  destruct (C77_norm_of_one_part NTwo (LDd e) r c _ Re Coq.Init.Logic.I) as (t & Et & Ht).
  rewrite Em. cbn [bind]. rewrite Et. cbn [bind]. exists m, t. split; [reflexivity|].
  assert (SE : forall i j, fin (subD ar (f i j) (g i j)) ->
    (1 - uD) * Rabs (diff i j) <= Rabs (v (subD ar (f i j) (g i j))) <= (1 + uD) * Rabs (diff i j)).
  { intros i j Hs. destruct (SD _ _ Hs) as (_ & _ & X). fold (diff i j) in X.
    pose proof (Rabs_triang_inv (v (subD ar (f i j) (g i j))) (diff i j)) as T1.
    pose proof (Rabs_triang_inv (diff i j) (v (subD ar (f i j) (g i j)))) as T2.
    rewrite (Rabs_minus_sym (diff i j)) in T2. lra. }
  cbn [norm_ok] in *. split.
  - intros Hs. destruct (Hm Hs) as [Fm [M1 M2]]. clear Hm Ht. split; [exact Fm|].
    assert (A1 : forall i j, (i < r)%nat -> (j < c)%nat -> (1 - uD) * Rabs (diff i j) <= v m).
    { intros i j Hi Hj. eapply Rle_trans; [apply (SE i j (Hs i j Hi Hj))|]. now apply M1. }
    assert (A2 : v m = 0 \/ exists i j, (i < r)%nat /\ (j < c)%nat /\ v m <= (1 + uD) * Rabs (diff i j)).
    { destruct M2 as [M2|(i & j & Hi & Hj & M2)]; [now left|right]. exists i, j. split; [exact Hi|]. split; [exact Hj|].
      rewrite M2. apply (SE i j (Hs i j Hi Hj)). }
    split; [exact A1|]. split; [exact A2|]. split.
    + intros H0 i j Hi Hj. specialize (A1 i j Hi Hj). rewrite H0 in A1. pose proof (Rabs_pos (diff i j)) as P.
      assert (Z : diff i j = 0) by (destruct (Req_dec (diff i j) 0) as [|NZ]; [assumption|apply Rabs_pos_lt in NZ; nra]).
      unfold diff in Z. lra.
    + intros H. destruct A2 as [A2|(i & j & Hi & Hj & A2)]; [exact A2|].
      unfold diff in A2. rewrite (H i j Hi Hj), Rminus_diag_eq, Rabs_R0, Rmult_0_r in A2 by reflexivity.
      destruct M2 as [M2|(i' & j' & _ & _ & M2)]; [exact M2|]. rewrite M2 in *. pose proof (Rabs_pos (v (subD ar (f i' j') (g i' j')))). lra.
  - intros Hf. destruct (Ht Hf) as [Hs [B1 B2]]. clear Hm Ht. split.
    { intros i j Hi Hj. destruct (SD _ _ (Hs i j Hi Hj)) as (? & ? & _). auto. }
    set (N := real_norm2 r c (fun i j => v (subD ar (f i j) (g i j)))) in *. set (N0 := real_norm2 r c diff).
    assert (NB : (1 - uD) * N0 <= N <= (1 + uD) * N0).
    { assert (SQ : forall a, 0 <= a -> a * N0 = sqrt (rsum2 r c (fun i j => a * Rabs (diff i j) * (a * Rabs (diff i j))))).
      { intros a Ha. unfold N0, real_norm2. rewrite <- (sqrt_square a) at 1 by exact Ha. rewrite <- sqrt_mult.
        - f_equal. unfold rsum2. rewrite <- rsum_scal. apply rsum_ext. intros i _. rewrite <- rsum_scal. apply rsum_ext. intros j _.
          replace (a * Rabs (diff i j) * (a * Rabs (diff i j))) with (a * a * (Rabs (diff i j) * Rabs (diff i j))) by ring.
          f_equal. apply Rsqr_abs.
        - nra.
        - apply rsum2_pos. intros. apply Rle_0_sqr. }
      rewrite !SQ by lra. unfold N, real_norm2. split; apply sqrt_le_1_alt; unfold rsum2; apply rsum_le; intros i Hi; apply rsum_le; intros j Hj;
        pose proof (SE i j (Hs i j Hi Hj)) as [X Y]; pose proof (Rabs_pos (diff i j)) as P;
        (replace (v (subD ar (f i j) (g i j)) * v (subD ar (f i j) (g i j)))
           with (Rabs (v (subD ar (f i j) (g i j))) * Rabs (v (subD ar (f i j) (g i j)))) by (symmetry; apply Rsqr_abs));
        apply Rmult_le_compat; nra. }
    fold n in B1, B2. replace (n + 3)%nat with (S (n + 2)) by lia. cbn [pow].
    pose proof (pow_ge uD (n + 2) ltac:(apply u0)) as Q3. assert (Q4 : 0 <= (1 - uD) ^ (n + 2)) by (apply pow_le; lra).
    assert (C1 : (1 - uD) ^ (n + 2) * ((1 - uD) * N0) <= (1 - uD) ^ (n + 2) * N) by (apply Rmult_le_compat_l; lra).
    assert (C2 : (1 + uD) ^ (n + 2) * N <= (1 + uD) ^ (n + 2) * ((1 + uD) * N0)) by (apply Rmult_le_compat_l; lra).
    lra.
Qed.
End C77.
Print Assumptions C77_norm_of_one_part.
Print Assumptions C77_norm_of_window.
Print Assumptions C77_reported_error.
