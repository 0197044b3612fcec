(** C62, C68: when the result of the block-wise product cannot overflow. *)
From Coq Require Import Reals Lra Lia List Permutation.
From Flocq Require Import Core.
From Verif Require Import Base BaseLemmas Dense_Model Dense_Spec Dense_Proofs Sparse_Model Sparse_Spec Dyn_Model Dyn_Spec Dyn_Proofs
  Dyn2_Proofs Conv_Spec Block_Proofs Bsg_Model Bsg_Spec Bsg_Props Bench_Model BlkAct_Model BlkAct_Props Eval_Spec Eval_Proofs
  Fp_Spec Fp_Proofs Fp_Ieee Dyn_Props Fp_Props FpFin_Proofs FpFin2_Proofs FpFin3_Proofs FpRange FpBlk_Props.
#[local] Open Scope R_scope.

(** The size of one element of a product whose n factors have these absolute
    values, after [k] roundings in float at most. *)
Definition element_size (p : policy) (k n : nat) (a b : nat -> R) : R :=
  let s := bpow radix2 (-23) in let e := bpow radix2 (-150) in
  (1 + bpow radix2 (-24)) ^ k *
    (rsum n (fun q => (a q + 2 * s) * (b q + 2 * s)) +
     e * (4 * INR n + 2 * mkl p * rsum n (fun q => a q + 2 * s + (b q + 2 * s)))).

(** IEEE numbers, default settings, any finite matrices whose element sizes stay
    below 2^127 (the largest float is just below 2^128): every element of the
    result is finite. *)
Theorem C62_no_overflow :
  forall ready p exc dbg (A B : dense f64) m n l fa fb rl nl cl,
    (forall t, In t type_list -> ready t = true) ->
    (forall I K J, I < length rl -> K < length nl -> J < length cl -> fits p (nth I rl 0) (nth K nl 0) (nth J cl 0))%nat ->
    is_mat A m n fa -> d_orient A = ColMajor -> (Z.of_nat (length (d_buf A)) < 2 ^ 63)%Z ->
    is_mat B n l fb -> d_orient B = ColMajor -> (Z.of_nat (length (d_buf B)) < 2 ^ 63)%Z ->
    partition rl m -> partition nl n -> partition cl l -> (1 <= n)%nat ->
    (forall i j, (i < m)%nat -> (j < n)%nat -> finite (fa i j)) -> (forall i j, (i < n)%nat -> (j < l)%nat -> finite (fb i j)) ->
    let a i q := Rabs (val (fa i q)) in let b q j := Rabs (val (fb q j)) in
    (p = PMKL -> forall i j q, (i < m)%nat -> (j < l)%nat -> (q < n)%nat -> a i q <= bpow radix2 126 /\ b q j <= bpow radix2 126) ->
    (forall i j, (i < m)%nat -> (j < l)%nat ->
       element_size p (list_max nl + length nl + 4) n (fun q => a i q) (fun q => b q j) <= bpow radix2 127) ->
    forall a' b' c d h, cut ieee exc dbg default_threshold A rl nl = Ok a' -> cut ieee exc dbg default_threshold B nl cl = Ok b' ->
      mul_blocked ieee ready p dbg a' b' = Ok c -> dense_of_blocked ieee exc dbg c = Ok d -> is_mat d m l h ->
      forall i j, (i < m)%nat -> (j < l)%nat -> finite (h i j).
Proof.
  intros ready p exc dbg A B m n l fa fb rl nl cl Hr Hf MA OA LA MB OB LB P1 P2 P3 Hn FA FB a b HM HB a' b' c d h Ea Eb Ec Ed Md.
  destruct (default_types A m n fa rl nl MA LA P1 P2) as (ta & HTA).
  destruct (default_types B n l fb nl cl MB LB P2 P3) as (tb & HTB).
  destruct default_valid as [HT ZL].
  destruct (lit_pow (-52) ltac:(lia) ltac:(lia)) as [VD FD]. destruct (lit_pow (-23) ltac:(lia) ltac:(lia)) as [VF FF].
  assert (SM : forall x, finite x -> Rabs (val x) <= val (sigF default_threshold) -> finite (toD ieee (toF ieee x))).
  { apply ieee_small. cbn [default_threshold sigF]. rewrite VF. apply bpow_le. lia. }
  set (s := bpow radix2 (-23)) in *. set (uF := bpow radix2 (-24)) in *. set (e := bpow radix2 (-150)) in *.
  assert (Ps : 0 < s) by apply bpow_gt_0. assert (Pe : 0 <= e) by apply bpow_ge_0. assert (PuF : 0 <= uF) by apply bpow_ge_0.
  assert (Pu : uF * s + e <= s).
  { unfold uF, s, e. rewrite <- bpow_plus. assert (bpow radix2 (-24 + -23) <= bpow radix2 (-24)) by (apply bpow_le; lia).
    assert (bpow radix2 (-150) <= bpow radix2 (-24)) by (apply bpow_le; lia).
    replace (bpow radix2 (-23)) with (2 * bpow radix2 (-24)); [lra|]. change 2 with (bpow radix2 1). rewrite <- bpow_plus. reflexivity. }
  assert (MAG : forall t x, 0 <= x -> 0 <= mag_d t x + mag_f uF e s t x <= x + 2 * s).
  { intros t x Hx. assert (M1 : 0 <= Rmin x s <= s) by (split; [apply Rmin_glb; lra|apply Rmin_r]).
    assert (M2 : 0 <= mag_d t x <= x) by (unfold mag_d; destruct (has_d t); lra).
    assert (M3 : 0 <= mag_f uF e s t x <= 2 * s) by (unfold mag_f; destruct (has_f t); [|lra]; split; nra). lra. }
  assert (S1 : 2 * s <= bpow radix2 126).
  { unfold s. change 2 with (bpow radix2 1). rewrite <- bpow_plus. apply bpow_le. lia. }
  assert (S2 : bpow radix2 126 + bpow radix2 126 = bpow radix2 127).
  { replace (bpow radix2 127) with (bpow radix2 1 * bpow radix2 126) by (rewrite <- bpow_plus; reflexivity). change (bpow radix2 1) with 2. ring. }
  apply (pipeline_fin ieee val finite _ _ _ _ ieee_rounding ieee_range ieee_ordering default_threshold FD FF SM
    ready p exc dbg A B m n l fa fb rl nl cl ta tb d h a' b' c Hr Hf MA OA LA MB OB LB P1 P2 P3 Hn HT ZL FA FB HTA HTB); auto;
    cbn [default_threshold sigF]; rewrite VF; fold s uF e.
  - intros Hp i j q Hi Hj Hq. destruct (HM Hp i j q Hi Hj Hq) as [A1 B1]. fold (a i q) (b q j).
    pose proof (MAG (ta i q) (a i q) (Rabs_pos _)). pose proof (MAG (tb q j) (b q j) (Rabs_pos _)). lra.
  - intros i j Hi Hj. eapply Rle_trans; [|apply (HB i j Hi Hj)]. unfold element_size. cbv zeta. fold s uF e.
    apply (weight_mono ieee val finite (bpow radix2 (-53)) uF e ieee_rounding p _ _ n _ _ (fun q => a i q + 2 * s) (fun q => b q j + 2 * s)); [lia|..]; intros q Hq; apply MAG, Rabs_pos.
Qed.
Print Assumptions C62_no_overflow.

(** ** A simple sufficient condition: elements up to 2^50, inner dimension up to 2^20. *)
Lemma pow_half u k : 0 <= u -> INR k * u <= / 2 -> (1 + u) ^ k <= 2.
Proof.
  intros Hu Hk. assert (G : forall k, (1 + u) ^ k * (1 - INR k * u) <= 1).
  { clear k Hk. induction k as [|k IH]; [cbn; lra|]. rewrite S_INR. cbn [pow].
    assert (0 <= (1 + u) ^ k) by (apply pow_le; lra). pose proof (pos_INR k).
    assert (0 <= (1 + u) ^ k * (u * u * (INR k + 1))) by (apply Rmult_le_pos; [auto|]; apply Rmult_le_pos; [nra|lra]). nra. }
  specialize (G k). assert (0 < (1 + u) ^ k) by (apply pow_lt; lra). nra.
Qed.

Lemma moderate_size p k n a b : (n <= 2 ^ 20)%nat -> (k <= n + 5)%nat ->
  (forall q, (q < n)%nat -> 0 <= a q <= bpow radix2 50) -> (forall q, (q < n)%nat -> 0 <= b q <= bpow radix2 50) ->
  element_size p k n a b <= bpow radix2 127.
Proof.
  intros Hn Hk HA HB. unfold element_size. cbv zeta.
  assert (IN : INR n <= bpow radix2 20).
  { apply le_INR in Hn. eapply Rle_trans; [exact Hn|]. rewrite pow_INR. cbn [INR]. change (1 + 1) with (bpow radix2 1). rewrite (bpow_powerRZ radix2 20), (bpow_powerRZ radix2 1).
    cbn -[pow]. simpl. lra. }
  assert (PW : (1 + bpow radix2 (-24)) ^ k <= 2).
  { apply pow_half; [apply bpow_ge_0|]. assert (INR k <= INR n + 5).
    { replace 5 with (INR 5) by (cbn; lra). rewrite <- plus_INR. now apply le_INR. }
    assert (B5 : INR n + 5 <= bpow radix2 21).
    { replace (bpow radix2 21) with (2 * bpow radix2 20) by (change 2 with (bpow radix2 1); rewrite <- bpow_plus; reflexivity).
      assert (5 <= bpow radix2 20); [|lra]. apply Rle_trans with (bpow radix2 3); [cbn; lra|apply bpow_le; lia]. }
    apply Rle_trans with (bpow radix2 21 * bpow radix2 (-24)).
    - apply Rmult_le_compat_r; [apply bpow_ge_0|lra].
    - rewrite <- bpow_plus. change (/ 2) with (bpow radix2 (-1)). apply bpow_le. lia. }
  set (s := bpow radix2 (-23)). assert (Ps : 0 <= 2 * s <= 1).
  { unfold s. pose proof (bpow_ge_0 radix2 (-23)). split; [lra|]. change 2 with (bpow radix2 1). rewrite <- bpow_plus. change 1 with (bpow radix2 0). apply bpow_le. lia. }
  assert (P51 : bpow radix2 50 + 1 <= bpow radix2 51).
  { replace (bpow radix2 51) with (2 * bpow radix2 50) by (change 2 with (bpow radix2 1); rewrite <- bpow_plus; reflexivity).
    assert (bpow radix2 0 <= bpow radix2 50) by (apply bpow_le; lia). change (bpow radix2 0) with 1 in H. lra. }
  assert (T1 : rsum n (fun q => (a q + 2 * s) * (b q + 2 * s)) <= INR n * bpow radix2 102).
  { rewrite <- rsum_const. apply rsum_le. intros q Hq. specialize (HA q Hq). specialize (HB q Hq).
    replace (bpow radix2 102) with (bpow radix2 51 * bpow radix2 51) by (rewrite <- bpow_plus; reflexivity). apply Rmult_le_compat; lra. }
  assert (T2 : rsum n (fun q => a q + 2 * s + (b q + 2 * s)) <= INR n * bpow radix2 52).
  { rewrite <- rsum_const. apply rsum_le. intros q Hq. specialize (HA q Hq). specialize (HB q Hq).
    replace (bpow radix2 52) with (2 * bpow radix2 51) by (change 2 with (bpow radix2 1); rewrite <- bpow_plus; reflexivity). lra. }
  assert (T0 : 0 <= rsum n (fun q => a q + 2 * s + (b q + 2 * s))).
  { apply Fp_Proofs.rsum_pos. intros q Hq. specialize (HA q Hq). specialize (HB q Hq). lra. }
  assert (T3 : 0 <= rsum n (fun q => (a q + 2 * s) * (b q + 2 * s))).
  { apply Fp_Proofs.rsum_pos. intros q Hq. specialize (HA q Hq). specialize (HB q Hq). apply Rmult_le_pos; lra. }
  pose proof (pos_INR n) as Pn. assert (Pm : 0 <= mkl p <= 1) by (destruct p; cbn; lra).
  assert (N1 : INR n * bpow radix2 102 <= bpow radix2 122).
  { replace (bpow radix2 122) with (bpow radix2 20 * bpow radix2 102) by (rewrite <- bpow_plus; reflexivity). apply Rmult_le_compat_r; [apply bpow_ge_0|lra]. }
  assert (N2 : INR n * bpow radix2 52 <= bpow radix2 72).
  { replace (bpow radix2 72) with (bpow radix2 20 * bpow radix2 52) by (rewrite <- bpow_plus; reflexivity). apply Rmult_le_compat_r; [apply bpow_ge_0|lra]. }
  assert (N3 : 4 * INR n <= bpow radix2 22).
  { replace (bpow radix2 22) with (4 * bpow radix2 20) by (change 4 with (bpow radix2 2); rewrite <- bpow_plus; reflexivity). lra. }
  set (T := rsum n (fun q => a q + 2 * s + (b q + 2 * s))) in *.
  assert (E1 : bpow radix2 (-150) * (4 * INR n + 2 * mkl p * T) <= 1).
  { assert (M : 2 * mkl p * T <= 2 * T) by nra.
    assert (M0 : 0 <= 2 * mkl p * T) by nra.
    apply Rle_trans with (bpow radix2 (-150) * bpow radix2 74).
    - apply Rmult_le_compat_l; [apply bpow_ge_0|].
      replace (bpow radix2 74) with (2 * bpow radix2 72 + 2 * bpow radix2 72) by (replace (bpow radix2 74) with (bpow radix2 2 * bpow radix2 72) by (rewrite <- bpow_plus; reflexivity); change (bpow radix2 2) with 4; ring).
      assert (bpow radix2 22 <= bpow radix2 72) by (apply bpow_le; lia). pose proof (bpow_ge_0 radix2 72). lra.
    - rewrite <- bpow_plus. change 1 with (bpow radix2 0). apply bpow_le. lia. }
  assert (E0 : 0 <= bpow radix2 (-150) * (4 * INR n + 2 * mkl p * T)) by (apply Rmult_le_pos; [apply bpow_ge_0|nra]).
  assert (PW0 : 0 <= (1 + bpow radix2 (-24)) ^ k) by (apply pow_le; pose proof (bpow_ge_0 radix2 (-24)); lra).
  apply Rle_trans with (2 * (bpow radix2 122 + 1)).
  - apply Rmult_le_compat; lra.
  - assert (bpow radix2 0 <= bpow radix2 122) by (apply bpow_le; lia). change (bpow radix2 0) with 1 in H.
    apply Rle_trans with (bpow radix2 2 * bpow radix2 122); [change (bpow radix2 2) with 4; lra|]. rewrite <- bpow_plus. apply bpow_le. lia.
Qed.

(** IEEE numbers up to 2^50, default settings, at most 2^20 products per element:
    the pipeline succeeds, every element is finite and within the bound of C68. *)
Theorem C62_moderate_matrices :
  forall ready p exc dbg (A B : dense f64) m n l fa fb rl nl cl,
    (forall t, In t type_list -> ready t = true) ->
    (forall I K J, I < length rl -> K < length nl -> J < length cl -> fits p (nth I rl 0) (nth K nl 0) (nth J cl 0))%nat ->
    is_mat A m n fa -> d_orient A = ColMajor -> (Z.of_nat (length (d_buf A)) < 2 ^ 63)%Z ->
    is_mat B n l fb -> d_orient B = ColMajor -> (Z.of_nat (length (d_buf B)) < 2 ^ 63)%Z ->
    partition rl m -> partition nl n -> partition cl l -> (1 <= n <= 2 ^ 20)%nat ->
    (forall i j, (i < m)%nat -> (j < n)%nat -> finite (fa i j) /\ Rabs (val (fa i j)) <= bpow radix2 50) ->
    (forall i j, (i < n)%nat -> (j < l)%nat -> finite (fb i j) /\ Rabs (val (fb i j)) <= bpow radix2 50) ->
    exists a' b' c d h, cut ieee exc dbg default_threshold A rl nl = Ok a' /\ cut ieee exc dbg default_threshold B nl cl = Ok b' /\
      mul_blocked ieee ready p dbg a' b' = Ok c /\ dense_of_blocked ieee exc dbg c = Ok d /\ is_mat d m l h /\
      forall i j, (i < m)%nat -> (j < l)%nat -> finite (h i j) /\
        Rabs (val (h i j) - rsum n (fun q => val (fa i q) * val (fb q j))) <=
          block_bound p n (fun q => Rabs (val (fa i q))) (fun q => Rabs (val (fb q j))).
Proof.
  intros ready p exc dbg A B m n l fa fb rl nl cl Hr Hf MA OA LA MB OB LB P1 P2 P3 Hn FA FB.
  pose proof (fun i j Hi Hj => proj1 (FA i j Hi Hj)) as FA1. pose proof (fun i j Hi Hj => proj1 (FB i j Hi Hj)) as FB1.
  destruct (C62_default_settings ready p exc dbg A B m n l fa fb rl nl cl Hr Hf
      MA OA LA MB OB LB P1 P2 P3 (proj1 Hn) FA1 FB1) as (a & b & c & d & h & Ea & Eb & Ec & Ed & Md & Hh).
  exists a, b, c, d, h. repeat (split; [assumption|]). intros i j Hi Hj.
  assert (Fh : finite (h i j)).
  { apply (C62_no_overflow ready p exc dbg A B m n l fa fb rl nl cl Hr Hf MA OA LA MB OB LB P1 P2 P3 (proj1 Hn) FA1 FB1) with (a' := a) (b' := b) (c := c) (d := d); auto.
    - intros _ i0 j0 q Hi0 Hj0 Hq. destruct (FA i0 q Hi0 Hq) as [_ A1], (FB q j0 Hq Hj0) as [_ B1].
      assert (bpow radix2 50 <= bpow radix2 126) by (apply bpow_le; lia). split; lra.
    - intros i0 j0 Hi0 Hj0. apply moderate_size; [apply Hn|pose proof (max_and_count nl n P2); lia| |]; intros q Hq; (split; [apply Rabs_pos|]);
        [apply (FA i0 q Hi0 Hq)|apply (FB q j0 Hq Hj0)]. }
  split; [exact Fh|]. eapply Rle_trans; [exact (Hh i j Hi Hj Fh)|]. apply bound_mono. pose proof (max_and_count nl n P2). lia.
Qed.
Print Assumptions C62_moderate_matrices.

(** The whole block-wise action on such matrices, minimum block size 0 or 1: it
    always ends, with finite elements within the bound. *)
Theorem C68_rounding_total :
  forall (bn : bnum f64) ready p exc dbg mn mx (A B : dense f64) m n l fa fb ri ki ci runs,
    (forall t, In t type_list -> ready t = true) -> fits p m n l ->
    is_mat A m n fa -> d_orient A = ColMajor -> (Z.of_nat (length (d_buf A)) < 2 ^ 63)%Z ->
    is_mat B n l fb -> d_orient B = ColMajor -> (Z.of_nat (length (d_buf B)) < 2 ^ 63)%Z ->
    (1 <= m)%nat -> (1 <= n <= 2 ^ 20)%nat -> (1 <= l)%nat -> (1 <= runs)%nat ->
    order_of ri (m - 1) -> order_of ki (n - 1) -> order_of ci (l - 1) ->
    (forall i j, (i < m)%nat -> (j < n)%nat -> finite (fa i j) /\ Rabs (val (fa i j)) <= bpow radix2 50) ->
    (forall i j, (i < n)%nat -> (j < l)%nat -> finite (fb i j) /\ Rabs (val (fb i j)) <= bpow radix2 50) ->
    (0 <= mn <= 1)%Z -> (2 * mn <= mx)%Z -> (mx < 2 ^ 31)%Z ->
    exists d h, execute_block ieee bn ready p exc dbg true default_threshold mn mx ri ki ci runs A B = Ok d /\ is_mat d m l h /\
      forall i j, (i < m)%nat -> (j < l)%nat -> finite (h i j) /\
        Rabs (val (h i j) - rsum n (fun q => val (fa i q) * val (fb q j))) <=
          block_bound p n (fun q => Rabs (val (fa i q))) (fun q => Rabs (val (fb q j))).
Proof.
  intros bn ready p exc dbg mn mx A B m n l fa fb ri ki ci runs Hr Hf MA OA LA MB OB LB Lm Ln Ll Lr P1 P2 P3 FA FB H1 H2 H3.
  pose proof (limits_ok mn mx (proj1 H1) H2 H3) as EL.
  destruct (sizes_cases bn A B m n l fa fb ri ki ci MA MB Lm (proj1 Ln) Ll P1 P2 P3 (Z.to_nat mn) (Z.to_nat mx)) as [(rl & nl & cl & G)|[L G]]; [|lia].
  destruct (C39_product_sizes_tile f64 bn A B m n l fa fb _ _ ri ki ci rl nl cl MA MB Lm (proj1 Ln) Ll P1 P2 P3 G) as (T1 & T2 & T3).
  destruct (C62_moderate_matrices ready p exc dbg A B m n l fa fb rl nl cl Hr (fits_blocks p m n l rl nl cl Hf T1 T2 T3)
      MA OA LA MB OB LB T1 T2 T3 Ln FA FB) as (a & b & c & d & h & Ea & Eb & Ec & Ed & Md & Hh).
  exists d, h. split; [|split; [exact Md|exact Hh]].
  eapply execute_sizes; eauto. unfold block_sizes. rewrite EL. exact G.
Qed.
Print Assumptions C68_rounding_total.

(** 3*2^40, -5*2^-30, 7*2^-60 and 1 satisfy the hypotheses. *)
Example C68_total_nonvacuous :
  is_mat demoI 2 2 demoI_f /\ fits PNative 2 2 2 /\ (1 <= 2 <= 2 ^ 20)%nat /\
  (forall i j, (i < 2)%nat -> (j < 2)%nat -> finite (demoI_f i j) /\ Rabs (val (demoI_f i j)) <= bpow radix2 50).
Proof.
  split; [exact demoI_mat|]. split; [exact Coq.Init.Logic.I|]. split; [cbn [Nat.pow]; lia|].
  intros i j Hi Hj. split; [destruct i as [|[|i]], j as [|[|j]]; try lia; vm_compute; reflexivity|].
  destruct (lit_pow 50 ltac:(lia) ltac:(lia)) as [V F]. rewrite <- V.
  assert (L : leD ieee (absD ieee (demoI_f i j)) (lit 1 50) = true) by (destruct i as [|[|i]], j as [|[|j]]; try lia; vm_compute; reflexivity).
  assert (Fi : finite (demoI_f i j)) by (destruct i as [|[|i]], j as [|[|j]]; try lia; vm_compute; reflexivity).
  destruct (od_abs _ _ _ ieee_ordering _ Fi) as [Fa Va]. rewrite <- Va. now apply (od_le _ _ _ ieee_ordering).
Qed.
Print Assumptions C68_total_nonvacuous.
