(** C76 with IEEE 754 doubles: the occupation as a number. *)
From Coq Require Import ZArith Reals Lra Lia.
From Flocq Require Import Core BinarySingleNaN Relative.
From Verif Require Import Base BaseLemmas Dense_Model Dense_Spec Dense_Proofs Sparse_Model Sparse_Spec Sparse2_Proofs
  Dyn_Model Dyn_Spec Check_Model Check_Spec Fp_Spec Fp_Ieee Fp_Props Query_Model Query_Spec Query_Props.
#[local] Open Scope R_scope.

(** The range of a checker, in real numbers. *)
Definition real_in_range (chk : checker f64) (x : f64) : Prop :=
  let lo := val (ck_lo chk) in let hi := val (ck_hi chk) in let a := Rabs (val x) in
  match ck_k chk with
  | ExclNo => lo < a
  | ExclIncl => lo < a <= hi
  | InclIncl => lo <= a <= hi
  | ExclExcl => lo < a < hi
  end.
Lemma ck_ok_real chk x : finite (ck_lo chk) -> finite (ck_hi chk) -> finite x ->
  ck_ok ieee chk x = true <-> real_in_range chk x.
Proof.
  intros Fl Fh Fx. destruct (od_abs _ _ _ ieee_ordering x Fx) as [Fa Ea].
  pose proof (od_lt _ _ _ ieee_ordering) as LT. pose proof (od_le _ _ _ ieee_ordering) as LE.
  unfold ck_ok, real_in_range. cbv zeta. destruct (ck_k chk); rewrite ?andb_true_iff, ?LT, ?LE, ?Ea by auto; reflexivity.
Qed.

#[local] Notation rnd := (round radix2 (FLT_exp (-1074) 53) ZnearestE).
Lemma vexp : Valid_exp (FLT_exp (-1074) 53).
Proof. apply FLT_exp_valid. reflexivity. Qed.

(** Integers below 2^53 are exact. *)
Lemma nat64_exact n : (Z.of_nat n < 2 ^ 53)%Z -> B2R (nat64 n) = INR n /\ is_finite (nat64 n) = true.
Proof.
  intros H. destruct n as [|n]; [split; reflexivity|].
  destruct (nat64_ok (S n) ltac:(lia) ltac:(lia)) as (E & Fn & _). split; [|exact Fn]. rewrite E, <- INR_IZR_INZ.
  apply round_generic; [apply valid_rnd_N|]. rewrite INR_IZR_INZ.
  apply generic_format_FLT. exists (Float radix2 (Z.of_nat (S n)) 0).
  - unfold F2R. cbn [Fnum Fexp bpow]. ring.
  - cbn [Fnum]. rewrite Z.abs_eq by lia. exact H.
  - cbn. lia.
Qed.

Lemma quot_real n m : (n <= m)%nat -> (1 <= m)%nat -> (Z.of_nat m < 2 ^ 53)%Z ->
  finite (quotD ieee n m) /\ val (quotD ieee n m) = rnd (INR n / INR m).
Proof.
  intros Hn Hm H. destruct (nat64_exact n ltac:(lia)) as [En Fn]. destruct (nat64_exact m H) as [Em Fm].
  assert (P : 1 <= INR m) by (apply (le_INR 1); lia). assert (Q : 0 <= INR n <= INR m) by (split; [apply pos_INR|now apply le_INR]).
  pose proof (Bdiv_correct 53 1024 prec53 emax1024 mode_NE (nat64 n) (nat64 m) ltac:(rewrite Em; lra)) as C.
  change (round radix2 (SpecFloat.fexp 53 1024) (round_mode mode_NE)) with rnd in C. rewrite En, Em in C.
  assert (B : 0 <= INR n / INR m <= 1).
  { split; [apply Rmult_le_pos; [lra|]; apply Rlt_le, Rinv_0_lt_compat; lra|].
    apply Rmult_le_reg_r with (INR m); [lra|]. unfold Rdiv. rewrite Rmult_assoc, Rinv_l by lra. lra. }
  rewrite Rlt_bool_true in C.
  - destruct C as (C1 & C2 & _). rewrite Fn in C2. split; [exact C2|exact C1].
  - assert (L : 0 <= rnd (INR n / INR m)) by (apply round_ge_generic; [apply vexp|apply valid_rnd_N|apply generic_format_0|apply B]).
    assert (U : rnd (INR n / INR m) <= 1) by (apply round_le_generic; [apply vexp|apply valid_rnd_N|apply one64|apply B]).
    rewrite Rabs_pos_eq by exact L. eapply Rle_lt_trans; [exact U|]. change 1 with (bpow radix2 0). apply bpow_lt. lia.
Qed.

Lemma quot_err n m : (n <= m)%nat -> (1 <= m)%nat -> (Z.of_nat m < 2 ^ 53)%Z ->
  Rabs (val (quotD ieee n m) - INR n / INR m) <= bpow radix2 (-53) * (INR n / INR m).
Proof.
  intros Hn Hm H. rewrite (proj2 (quot_real n m Hn Hm H)).
  assert (P : 1 <= INR m) by (apply (le_INR 1); lia).
  assert (M : INR m <= bpow radix2 53).
  { rewrite INR_IZR_INZ. change (bpow radix2 53) with (IZR (2 ^ 53)). apply IZR_le. lia. }
  destruct n as [|n].
  - cbn [INR]. unfold Rdiv. rewrite Rmult_0_l, round_0 by apply valid_rnd_N. rewrite Rminus_0_r, Rabs_R0. lra.
  - set (x := INR (S n) / INR m). assert (N : 1 <= INR (S n)) by (apply (le_INR 1); lia).
    assert (X : bpow radix2 (-53) <= x).
    { change (-53)%Z with (- (53))%Z. rewrite bpow_opp. apply Rle_trans with (/ INR m); [apply Rinv_le; lra|].
      unfold x, Rdiv. rewrite <- (Rmult_1_l (/ INR m)) at 1. apply Rmult_le_compat_r; [|exact N]. apply Rlt_le, Rinv_0_lt_compat. lra. }
    assert (X0 : 0 < x) by (eapply Rlt_le_trans; [apply bpow_gt_0|exact X]).
    eapply Rle_trans.
    + apply (relative_error_N_FLT radix2 (-1074) 53 prec53 (fun z => negb (Z.even z)) x).
      rewrite Rabs_pos_eq by lra. eapply Rle_trans; [|exact X]. apply bpow_le. lia.
    + rewrite Rabs_pos_eq by lra. apply Rmult_le_compat_r; [lra|]. change (/ 2) with (bpow radix2 (-1)). rewrite <- bpow_plus. apply bpow_le. lia.
Qed.

(** Below 2^52 elements, different counts give different occupations. *)
Theorem C76_share_ieee :
  forall n n' m, (n < n' <= m)%nat -> (Z.of_nat m < 2 ^ 52)%Z ->
    finite (quotD ieee n m) /\ finite (quotD ieee n' m) /\ 0 <= val (quotD ieee n m) < val (quotD ieee n' m) /\ val (quotD ieee n' m) <= 1 /\
    ltD ieee (quotD ieee n m) (quotD ieee n' m) = true.
Proof.
  intros n n' m [H1 H2] H3. 
  destruct (quot_real n m ltac:(lia) ltac:(lia) ltac:(lia)) as [Fn En].
  destruct (quot_real n' m ltac:(lia) ltac:(lia) ltac:(lia)) as [Fn' En'].
  pose proof (quot_err n m ltac:(lia) ltac:(lia) ltac:(lia)) as X. pose proof (quot_err n' m ltac:(lia) ltac:(lia) ltac:(lia)) as X'.
  assert (P : 1 <= INR m) by (apply (le_INR 1); lia).
  assert (M : INR m < bpow radix2 52).
  { rewrite INR_IZR_INZ. change (bpow radix2 52) with (IZR (2 ^ 52)). apply IZR_lt. exact H3. }
  assert (N : INR n + 1 <= INR n') by (rewrite <- S_INR; apply le_INR; lia).
  assert (N' : 0 <= INR n /\ INR n' <= INR m) by (split; [apply pos_INR|now apply le_INR]).
  assert (I0 : 0 < / INR m) by (apply Rinv_0_lt_compat; lra).
  assert (I1 : bpow radix2 (-52) < / INR m).
  { change (-52)%Z with (- (52))%Z. rewrite bpow_opp. apply Rinv_lt_contravar; [apply Rmult_lt_0_compat; [lra|apply bpow_gt_0]|exact M]. }
  assert (B : 0 <= INR n / INR m /\ INR n / INR m + / INR m <= INR n' / INR m /\ INR n' / INR m <= 1).
  { unfold Rdiv. split; [apply Rmult_le_pos; lra|]. split; [nra|]. apply Rmult_le_reg_r with (INR m); [lra|]. rewrite Rmult_assoc, Rinv_l by lra. lra. }
  set (x := INR n / INR m) in *. set (y := INR n' / INR m) in *. destruct B as (B1 & B2 & B3).
  apply Raux.Rabs_le_inv in X. apply Raux.Rabs_le_inv in X'.
  assert (E : bpow radix2 (-52) = 2 * bpow radix2 (-53)) by (change 2 with (bpow radix2 1); rewrite <- bpow_plus; reflexivity).
  pose proof (bpow_gt_0 radix2 (-53)) as G. set (u := bpow radix2 (-53)) in *.
  assert (L : 0 <= val (quotD ieee n m)).
  { rewrite En. apply round_ge_generic; [apply vexp|apply valid_rnd_N|apply generic_format_0|exact B1]. }
  assert (U : val (quotD ieee n' m) <= 1).
  { rewrite En'. apply round_le_generic; [apply vexp|apply valid_rnd_N|apply one64|exact B3]. }
  assert (LT : val (quotD ieee n m) < val (quotD ieee n' m)) by nra.
  repeat split; auto. apply (od_lt _ _ _ ieee_ordering); auto.
Qed.
Print Assumptions C76_share_ieee.

Lemma count2_bounds r c p : (count2 r c p <= r * c)%nat /\
  (count2 r c p = 0%nat <-> forall i j, (i < r)%nat -> (j < c)%nat -> p i j = false) /\
  (count2 r c p = (r * c)%nat <-> forall i j, (i < r)%nat -> (j < c)%nat -> p i j = true).
Proof.
  unfold count2. set (l := flat_map _ _).
  assert (L : length l = (r * c)%nat).
  { unfold l. rewrite <- (seq_length r 0) at 2. generalize (seq 0 r) as k. induction k as [|x k IH]; [reflexivity|].
    cbn [flat_map length]. rewrite app_length, map_length, seq_length, IH. reflexivity. }
  assert (M : forall i j, In (i, j) l <-> (i < r)%nat /\ (j < c)%nat).
  { intros i j. unfold l. rewrite in_flat_map. split.
    - intros (k & Hk & H). apply in_map_iff in H as (j' & E & Hj). inversion E; subst. apply in_seq in Hk, Hj. lia.
    - intros [Hi Hj]. exists i. split; [apply in_seq; lia|]. apply in_map_iff. exists j. split; [reflexivity|]. apply in_seq. lia. }
  rewrite <- L. clearbody l.
  set (q := fun z : nat * nat => _).
  assert (G : (length (filter q l) <= length l)%nat /\
    (length (filter q l) = 0%nat <-> forall z, In z l -> q z = false) /\ (length (filter q l) = length l <-> forall z, In z l -> q z = true)).
  { clear. induction l as [|z l (I1 & I2 & I3)].
    - cbn. split; [lia|]. split; (split; [intros _ ? []|reflexivity]).
    - cbn [filter]. destruct (q z) eqn:E; cbn [length].
      + split; [lia|]. split.
        * split; [lia|]. intros H. rewrite (H z (or_introl eq_refl)) in E. discriminate.
        * split; [|intros H; f_equal; apply I3; intros; apply H; now right].
          intros H [a b] [<-|Hz]; [exact E|]. apply I3; [lia|exact Hz].
      + split; [lia|]. split.
        * rewrite I2. split; [intros H z' [<-|Hz]; auto|intros H z' Hz; apply H; now right].
        * split; [lia|]. intros H. rewrite (H z (or_introl eq_refl)) in E. discriminate. }
  destruct G as (G1 & G2 & G3). split; [exact G1|]. rewrite G2, G3. unfold q. split; split.
  - intros H i j Hi Hj. apply (H (i, j)). apply M. auto.
  - intros H [i j] Hz. apply M in Hz. now apply H.
  - intros H i j Hi Hj. apply (H (i, j)). apply M. auto.
  - intros H [i j] Hz. apply M in Hz. now apply H.
Qed.

(** The occupation of a matrix of finite doubles: the accepted share, up to one
    rounding; 0 and 1 are exact. *)
Theorem C76_occupation_ieee :
  forall (d : dense f64) r c (f : nat -> nat -> f64) (chk : checker f64),
    is_mat d r c f -> full_ok d -> (1 <= r * c)%nat -> (Z.of_nat (r * c) < 2 ^ 52)%Z ->
    finite (ck_lo chk) -> finite (ck_hi chk) -> (forall i j, (i < r)%nat -> (j < c)%nat -> finite (f i j)) ->
    exists q p, rmap snd (o_getOcc ieee count_in d_getSize chk (@o_new f64 (dense f64) f64 d)) = Ok q /\ finite q /\ 0 <= val q <= 1 /\
      (forall i j, (i < r)%nat -> (j < c)%nat -> p i j = true <-> real_in_range chk (f i j)) /\
      Rabs (val q - INR (count2 r c p) / INR (r * c)) <= bpow radix2 (-53) * (INR (count2 r c p) / INR (r * c)) /\
      (val q = 0 <-> forall i j, (i < r)%nat -> (j < c)%nat -> ~ real_in_range chk (f i j)) /\
      (val q = 1 <-> forall i j, (i < r)%nat -> (j < c)%nat -> real_in_range chk (f i j)).
Proof.
  intros d r c f chk [W V] HF H1 H2 Fl Fh Ff.
  set (p := fun i j => ck_ok ieee chk (f i j)). set (n := count2 r c p). set (m := (r * c)%nat).
  assert (HP : forall i j, (i < r)%nat -> (j < c)%nat -> p i j = true <-> real_in_range chk (f i j)) by (intros; apply ck_ok_real; auto).
  destruct (count2_bounds r c p) as (B1 & B2 & B3). fold n m in B1, B2, B3.
  exists (quotD ieee n m), p.
  destruct (quot_real n m B1 H1 ltac:(lia)) as [Fq Eq].
  assert (Q0 : val (quotD ieee 0 m) = 0).
  { rewrite (proj2 (quot_real 0 m ltac:(lia) H1 ltac:(lia))). cbn [INR]. unfold Rdiv. rewrite Rmult_0_l. apply round_0, valid_rnd_N. }
  assert (Q1 : val (quotD ieee m m) = 1).
  { rewrite (proj2 (quot_real m m ltac:(lia) H1 ltac:(lia))).
    assert (1 <= INR m) by (apply (le_INR 1); exact H1). unfold Rdiv. rewrite Rinv_r by lra. apply round_generic; [apply valid_rnd_N|apply one64]. }
  assert (QL : n = 0%nat \/ 0 < val (quotD ieee n m)).
  { destruct (Nat.eq_dec n 0) as [|Hn]; [now left|right].
    destruct (C76_share_ieee 0 n m ltac:(lia) H2) as (_ & _ & [_ S] & _). rewrite Q0 in S. exact S. }
  assert (QU : n = m \/ val (quotD ieee n m) < 1).
  { destruct (Nat.eq_dec n m) as [|Hn]; [now left|right].
    destruct (C76_share_ieee n m m ltac:(lia) H2) as (_ & _ & [_ S] & _). rewrite Q1 in S. exact S. }
  assert (ES : d_getSize d = m) by (unfold full_ok in HF; destruct V as (Er & Ec & _); unfold m; now rewrite HF, Er, Ec).
  split.
  { unfold o_getOcc, o_getCount, o_new. cbn [o_occ o_c map_find bind rmap snd].
    unfold count_in at 1. rewrite (d_count_spec _ d r c _ V (or_introl W)), ES. reflexivity. }
  split; [exact Fq|]. split; [|split; [exact HP|split; [exact (quot_err n m B1 H1 ltac:(lia))|split]]].
  - destruct QL as [->|QL], QU as [E|QU]; try (rewrite ?E in *); rewrite ?Q0, ?Q1 in *; lra.
  - assert (G : val (quotD ieee n m) = 0 <-> n = 0%nat) by (split; [intros E; destruct QL; [assumption|lra]|intros ->; exact Q0]).
    rewrite G, B2. split; intros H i j Hi Hj; specialize (H i j Hi Hj); rewrite <- HP in * by auto; destruct (p i j); auto; try congruence; try discriminate.
  - assert (G : val (quotD ieee n m) = 1 <-> n = m) by (split; [intros E; destruct QU; [assumption|lra]|intros ->; exact Q1]).
    rewrite G, B3. split; intros H i j Hi Hj; specialize (H i j Hi Hj); apply HP; auto.
Qed.
Print Assumptions C76_occupation_ieee.

(** A matrix without elements has no occupation: the quotient is not a number,
    so it is neither larger nor smaller than anything. *)
Theorem C76_empty_matrix_refuted :
  forall x, let q := quotD ieee 0 0 in ~ finite q /\ ltD ieee x q = false /\ ltD ieee q x = false.
Proof.
  intros x. cbv zeta. assert (E : quotD ieee 0 0 = B754_nan) by (vm_compute; reflexivity). rewrite E.
  split; [discriminate|]. destruct x as [[]|[]| |]; split; reflexivity.
Qed.
Print Assumptions C76_empty_matrix_refuted.

Example C76_occupation_ieee_nonvacuous :
  let chk := mkChecker TTdouble InclIncl c02 c1 in
  is_mat demoI 2 2 demoI_f /\ full_ok demoI /\ finite (ck_lo chk) /\ finite (ck_hi chk) /\
  (forall i j, (i < 2)%nat -> (j < 2)%nat -> finite (demoI_f i j)) /\ real_in_range chk (demoI_f 1 1) /\ ~ real_in_range chk (demoI_f 0 1).
Proof.
  cbv zeta. set (chk := mkChecker _ _ _ _).
  assert (Fl : finite (ck_lo chk)) by (vm_compute; reflexivity). assert (Fh : finite (ck_hi chk)) by (vm_compute; reflexivity).
  assert (FI : forall i j, (i < 2)%nat -> (j < 2)%nat -> finite (demoI_f i j)) by
    (intros i j Hi Hj; destruct i as [|[|i]], j as [|[|j]]; try lia; vm_compute; reflexivity).
  split; [exact demoI_mat|]. split; [reflexivity|]. split; [exact Fl|]. split; [exact Fh|]. split; [exact FI|]. split.
  - apply (ck_ok_real chk _ Fl Fh (FI 1 1 ltac:(lia) ltac:(lia))%nat). vm_compute. reflexivity.
  - intros H. apply (ck_ok_real chk _ Fl Fh (FI 0 1 ltac:(lia) ltac:(lia))%nat) in H. vm_compute in H. discriminate H.
Qed.
