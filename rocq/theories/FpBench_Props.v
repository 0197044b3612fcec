(** C65, rounding: how far the result of a benchmark action may be from the
    product of the real matrices. *)
From Coq Require Import Reals Lra.
From Verif Require Import Base BaseLemmas Dense_Model Dense_Spec Dense_Proofs Dense2_Proofs Sparse_Model
  Mult_Model Mult_Spec Mult_Proofs Mult2_Proofs Dyn_Model Fp_Spec Fp_Proofs Bench_Model Bench_Spec Bench_Proofs Bench_Props Eval_Proofs.
#[local] Open Scope R_scope.

(** A finite inner product is within the usual bound of the sum of its products. *)
Definition dot_bound {A B C} (v1 : A -> R) (v2 : B -> R) (v3 : C -> R) (fin3 : C -> Prop) (u eta : R)
    (dot : list (A * B) -> C) : Prop :=
  forall l, fin3 (dot l) ->
    Rabs (v3 (dot l) - lsum (fun p => v1 (fst p) * v2 (snd p)) l) <=
      ((1 + u) ^ (length l + 1) - 1) * lsum (fun p => Rabs (v1 (fst p) * v2 (snd p))) l +
      (1 + u) ^ (length l + 1) * (INR (length l) * eta).

(** Eigen and Blaze: float products with unit roundoff [uF], double and mixed
    ones with [uD]. *)
Record libs_rounding {F D} (ar : arith F D) (lb : libs F D) (v : D -> R) (fin : D -> Prop) (uD uF eta : R) : Prop := mkLR {
  lr_eF : dot_bound (fun x => v (toD ar x)) (fun x => v (toD ar x)) (fun x => v (toD ar x)) (fun x => fin (toD ar x)) uF eta (eigenF lb);
  lr_bF : dot_bound (fun x => v (toD ar x)) (fun x => v (toD ar x)) (fun x => v (toD ar x)) (fun x => fin (toD ar x)) uF eta (blazeF lb);
  lr_eD : dot_bound v v v fin uD eta (eigenD lb);
  lr_bD : dot_bound v v v fin uD eta (blazeD lb);
  lr_bFD : dot_bound (fun x => v (toD ar x)) v v fin uD eta (blazeFD lb);
  lr_bDF : dot_bound v (fun x => v (toD ar x)) v fin uD eta (blazeDF lb)
}.

(** Which factors an action rounds to float, and whether it adds in float. *)
Definition single_left (x : action) : bool :=
  match x with AOpenBLAS_s | AMKL_s | AEigen_s | ABlaze_s | ABlaze_sd => true | _ => false end.
Definition single_right (x : action) : bool :=
  match x with AOpenBLAS_s | AMKL_s | AEigen_s | ABlaze_s | ABlaze_ds => true | _ => false end.
Definition single_sum (x : action) : bool := single_left x && single_right x.

(** What rounding to float may lose of an element. *)
Definition cut_off (uF eta : R) (rounded : bool) (x : R) : R := if rounded then uF * Rabs x + eta else 0.

(** The bound for element (i, j): rounding errors of at most n+1 operations per
    product, underflow, and the errors the operands start with. *)
Definition action_bound (uD uF eta : R) (x : action) (n : nat) (a b : nat -> R) : R :=
  let la k := cut_off uF eta (single_left x) (a k) in
  let lb k := cut_off uF eta (single_right x) (b k) in
  let u := if single_sum x then uF else uD in
  ((1 + u) ^ (n + 1) - 1) * rsum n (fun k => (Rabs (a k) + la k) * (Rabs (b k) + lb k)) +
  (1 + uF) ^ (n + 1) * (INR n * eta) +
  rsum n (fun k => la k * Rabs (b k) + Rabs (a k) * lb k + la k * lb k).

Lemma perturbed n (a b p q la lb : nat -> R) r w U : 0 <= w ->
  (forall k, (k < n)%nat -> Rabs (p k - a k) <= la k) -> (forall k, (k < n)%nat -> Rabs (q k - b k) <= lb k) ->
  Rabs (r - rsum n (fun k => p k * q k)) <= w * rsum n (fun k => Rabs (p k * q k)) + U ->
  Rabs (r - rsum n (fun k => a k * b k)) <=
    w * rsum n (fun k => (Rabs (a k) + la k) * (Rabs (b k) + lb k)) + U +
    rsum n (fun k => la k * Rabs (b k) + Rabs (a k) * lb k + la k * lb k).
Proof.
  intros Hw Hp Hq Hr.
  assert (Bp : forall k, (k < n)%nat -> Rabs (p k) <= Rabs (a k) + la k).
  { intros k Hk. specialize (Hp k Hk). replace (p k) with (a k + (p k - a k)) by ring. eapply Rle_trans; [apply Rabs_triang|]. lra. }
  assert (Bq : forall k, (k < n)%nat -> Rabs (q k) <= Rabs (b k) + lb k).
  { intros k Hk. specialize (Hq k Hk). replace (q k) with (b k + (q k - b k)) by ring. eapply Rle_trans; [apply Rabs_triang|]. lra. }
  assert (S1 : rsum n (fun k => Rabs (p k * q k)) <= rsum n (fun k => (Rabs (a k) + la k) * (Rabs (b k) + lb k))).
  { apply rsum_le. intros k Hk. rewrite Rabs_mult. apply Rmult_le_compat; auto using Rabs_pos. }
  assert (S2 : Rabs (rsum n (fun k => p k * q k) - rsum n (fun k => a k * b k)) <=
     rsum n (fun k => la k * Rabs (b k) + Rabs (a k) * lb k + la k * lb k)).
  { replace (rsum n (fun k => p k * q k) - rsum n (fun k => a k * b k)) with (rsum n (fun k => p k * q k - a k * b k)).
    - eapply Rle_trans; [apply rsum_abs|]. apply rsum_le. intros k Hk. specialize (Hp k Hk). specialize (Hq k Hk).
      replace (p k * q k - a k * b k) with ((p k - a k) * b k + a k * (q k - b k) + (p k - a k) * (q k - b k)) by ring.
      eapply Rle_trans; [apply Rabs_triang|]. apply Rplus_le_compat.
      + eapply Rle_trans; [apply Rabs_triang|]. rewrite !Rabs_mult. apply Rplus_le_compat.
        * apply Rmult_le_compat_r; auto using Rabs_pos.
        * apply Rmult_le_compat_l; auto using Rabs_pos.
      + rewrite Rabs_mult. apply Rmult_le_compat; auto using Rabs_pos.
    - clear. induction n; cbn; [lra|]. rewrite IHn. lra. }
  replace (r - rsum n (fun k => a k * b k)) with ((r - rsum n (fun k => p k * q k)) + (rsum n (fun k => p k * q k) - rsum n (fun k => a k * b k))) by ring.
  eapply Rle_trans; [apply Rabs_triang|].
  assert (w * rsum n (fun k => Rabs (p k * q k)) <= w * rsum n (fun k => (Rabs (a k) + la k) * (Rabs (b k) + lb k))) by (apply Rmult_le_compat_l; auto).
  lra.
Qed.

Lemma lsum_row_col {A B} (h : A * B -> R) n (f : nat -> nat -> A) (g : nat -> nat -> B) i j :
  lsum h (row_col n f g i j) = rsum n (fun k => h (f i k, g k j)).
Proof.
  unfold row_col. rewrite lsum_map. rewrite <- (lsum_filter n (fun _ => true)) by discriminate. f_equal.
  induction (seq 0 n) as [|x l IH]; cbn; [reflexivity|]. now rewrite <- IH.
Qed.

Section P.
Context {F D : Type} (ar : arith F D) (lb : libs F D) (v : D -> R) (fin : D -> Prop) (uD uF eta : R).
Context (X : rounding ar v fin uD uF eta) (XL : libs_rounding ar lb v fin uD uF eta).

Lemma one_dot {A B C} (v1 : A -> R) (v2 : B -> R) (v3 : C -> R) (fin3 : C -> Prop) u dot n
    (f : nat -> nat -> A) (g : nat -> nat -> B) i j :
  dot_bound v1 v2 v3 fin3 u eta dot -> 0 <= u <= uF -> fin3 (dot (row_col n f g i j)) ->
  Rabs (v3 (dot (row_col n f g i j)) - rsum n (fun k => v1 (f i k) * v2 (g k j))) <=
    ((1 + u) ^ (n + 1) - 1) * rsum n (fun k => Rabs (v1 (f i k) * v2 (g k j))) + (1 + uF) ^ (n + 1) * (INR n * eta).
Proof.
  intros HD Hu Hf. specialize (HD _ Hf). rewrite !lsum_row_col in HD. cbn [fst snd] in HD.
  assert (L : length (row_col n f g i j) = n) by (unfold row_col; now rewrite map_length, seq_length). rewrite L in HD.
  eapply Rle_trans; [exact HD|]. apply Rplus_le_compat_l. apply Rmult_le_compat_r.
  - apply Rmult_le_pos; [apply pos_INR|]. pose proof (ro_u _ _ _ _ _ _ X). lra.
  - apply pow_incr. lra.
Qed.

(** For every action, every element that is finite is within the bound of the
    element of the product of the real matrices. *)
Theorem C65_rounding :
  forall dbg runs x (A B : dense D) m n l f g,
    is_mat A m n f -> d_orient A = ColMajor -> is_mat B n l g -> d_orient B = ColMajor ->
    (1 <= runs)%nat -> legal lb x A B m n l ->
    (single_left x = true -> forall i k, (i < m)%nat -> (k < n)%nat -> fin (toD ar (toF ar (f i k)))) ->
    (single_right x = true -> forall k j, (k < n)%nat -> (j < l)%nat -> fin (toD ar (toF ar (g k j)))) ->
    exists d h, execute ar lb dbg runs x A B = Ok d /\ is_mat d m l h /\
      forall i j, (i < m)%nat -> (j < l)%nat -> fin (h i j) ->
        Rabs (v (h i j) - rsum n (fun k => v (f i k) * v (g k j))) <=
          action_bound uD uF eta x n (fun k => v (f i k)) (fun k => v (g k j)).
Proof.
  intros dbg runs x A B m n l f g MA OA MB OB Hr HL FA FB.
  destruct (C65_action_result ar lb dbg runs x A B m n l f g MA OA MB OB Hr HL) as (d & E & M & _).
  exists d, (result_at ar lb x n f g). split; [exact E|]. split; [exact M|].
  intros i j Hi Hj Hf. pose proof (ro_u _ _ _ _ _ _ X) as [Hu He].
  set (vF := fun y => v (toD ar y)).
  assert (Z : forall y, Rabs (v y - v y) <= 0) by (intros y; rewrite Rminus_diag_eq by reflexivity; rewrite Rabs_R0; lra).
  assert (CA : forall k, (k < n)%nat -> single_left x = true -> Rabs (vF (toF ar (f i k)) - v (f i k)) <= uF * Rabs (v (f i k)) + eta).
  { intros k Hk HS. apply (ro_cv _ _ _ _ _ _ X). auto. }
  assert (CB : forall k, (k < n)%nat -> single_right x = true -> Rabs (vF (toF ar (g k j)) - v (g k j)) <= uF * Rabs (v (g k j)) + eta).
  { intros k Hk HS. apply (ro_cv _ _ _ _ _ _ X). auto. }
  assert (WD : 0 <= (1 + uD) ^ (n + 1) - 1) by (pose proof (pow_R1_Rle (1 + uD) (n + 1) ltac:(lra)); lra).
  assert (WF : 0 <= (1 + uF) ^ (n + 1) - 1) by (pose proof (pow_R1_Rle (1 + uF) (n + 1) ltac:(lra)); lra).
  assert (DD : dot_bound v v v fin uD eta (dotD ar)) by (intros ps Hps; apply (fm_dot _ _ _ _ _ _ _ _ _ _ _ (ro_D _ _ _ _ _ _ X)); auto).
  assert (DF : dot_bound vF vF vF (fun y => fin (toD ar y)) uF eta (dotF ar))
    by (intros ps Hps; apply (fm_dot _ _ _ _ _ _ _ _ _ _ _ (ro_F _ _ _ _ _ _ X)); auto).
  destruct XL as [LeF LbF LeD LbD LbFD LbDF].
  assert (DBL : forall dot, dot_bound v v v fin uD eta dot -> fin (dot (row_col n f g i j)) ->
     single_left x = false -> single_right x = false ->
     Rabs (v (dot (row_col n f g i j)) - rsum n (fun k => v (f i k) * v (g k j))) <=
       action_bound uD uF eta x n (fun k => v (f i k)) (fun k => v (g k j))).
  { intros dot HD HF S1 S2. unfold action_bound, single_sum, cut_off. rewrite S1, S2. cbn [andb].
    apply (perturbed n (fun k => v (f i k)) (fun k => v (g k j)) (fun k => v (f i k)) (fun k => v (g k j)) (fun _ => 0) (fun _ => 0) _
      ((1 + uD) ^ (n + 1) - 1) ((1 + uF) ^ (n + 1) * (INR n * eta))); auto.
    apply (one_dot v v v fin uD dot); auto; lra. }
  assert (SGL : forall dot, dot_bound vF vF vF (fun y => fin (toD ar y)) uF eta dot ->
     fin (toD ar (dot (row_col n (fun i j => toF ar (f i j)) (fun i j => toF ar (g i j)) i j))) ->
     single_left x = true -> single_right x = true ->
     Rabs (v (toD ar (dot (row_col n (fun i j => toF ar (f i j)) (fun i j => toF ar (g i j)) i j))) - rsum n (fun k => v (f i k) * v (g k j))) <=
       action_bound uD uF eta x n (fun k => v (f i k)) (fun k => v (g k j))).
  { intros dot HD HF S1 S2. unfold action_bound, single_sum, cut_off. rewrite S1, S2. cbn [andb].
    apply (perturbed n (fun k => v (f i k)) (fun k => v (g k j)) (fun k => vF (toF ar (f i k))) (fun k => vF (toF ar (g k j)))
      (fun k => uF * Rabs (v (f i k)) + eta) (fun k => uF * Rabs (v (g k j)) + eta) _
      ((1 + uF) ^ (n + 1) - 1) ((1 + uF) ^ (n + 1) * (INR n * eta))); auto.
    apply (one_dot vF vF vF (fun y => fin (toD ar y)) uF dot n (fun i j => toF ar (f i j)) (fun i j => toF ar (g i j))); auto; lra. }
  destruct x; cbn [result_at] in Hf |- *.
  - (* native *)
    unfold row_col in *. rewrite fold_left_map in *. cbn [fst snd] in *.
    unfold action_bound, single_sum, cut_off. cbn [single_left single_right andb].
    apply (perturbed n (fun k => v (f i k)) (fun k => v (g k j)) (fun k => v (f i k)) (fun k => v (g k j)) (fun _ => 0) (fun _ => 0) _
      ((1 + uD) ^ (n + 1) - 1) ((1 + uF) ^ (n + 1) * (INR n * eta))); auto.
    pose proof (fmt_fold ar v fin uD uF eta X v fin (d0 ar) _ _ _ _ _ _ uD (ro_D _ _ _ _ _ _ X) false eq_refl n (fun _ => true)
      (fun k => f i k) (fun k => g k j) (fun k => v (f i k)) (fun k => v (g k j)) ltac:(discriminate) ltac:(auto)) as N.
    cbv zeta in N. rewrite filter_true in N. specialize (N Hf). destruct N as (_ & _ & _ & _ & N). unfold err in N. lra.
  - apply DBL; auto.
  - apply SGL; auto.
  - apply DBL; auto.
  - apply SGL; auto.
  - apply DBL; auto.
  - apply SGL; auto.
  - apply DBL; auto.
  - apply SGL; auto.
  - unfold action_bound, single_sum, cut_off. cbn [single_left single_right andb].
    apply (perturbed n (fun k => v (f i k)) (fun k => v (g k j)) (fun k => vF (toF ar (f i k))) (fun k => v (g k j))
      (fun k => uF * Rabs (v (f i k)) + eta) (fun _ => 0) _ ((1 + uD) ^ (n + 1) - 1) ((1 + uF) ^ (n + 1) * (INR n * eta))); auto.
    apply (one_dot vF v v fin uD (blazeFD lb) n (fun i j => toF ar (f i j)) g); auto; lra.
  - unfold action_bound, single_sum, cut_off. cbn [single_left single_right andb].
    apply (perturbed n (fun k => v (f i k)) (fun k => v (g k j)) (fun k => v (f i k)) (fun k => vF (toF ar (g k j)))
      (fun _ => 0) (fun k => uF * Rabs (v (g k j)) + eta) _ ((1 + uD) ^ (n + 1) - 1) ((1 + uF) ^ (n + 1) * (INR n * eta))); auto.
    apply (one_dot v vF v fin uD (blazeDF lb) n f (fun i j => toF ar (g i j))); auto; lra.
Qed.
End P.
Print Assumptions C65_rounding.

(** Libraries that add like the BLAS do satisfy the assumptions. *)
Definition plain_libs {F D} (ar : arith F D) (w : nat) : libs F D := {|
  eigenF := dotF ar; eigenD := dotD ar; blazeF := dotF ar; blazeD := dotD ar;
  blazeFD := fun l => dotD ar (map (fun p => (toD ar (fst p), snd p)) l);
  blazeDF := fun l => dotD ar (map (fun p => (fst p, toD ar (snd p))) l);
  simdF := w; simdD := w; usableF := fun _ => true; usableD := fun _ => true |}.
Lemma plain_libs_rounding {F D} (ar : arith F D) w v fin uD uF eta :
  rounding ar v fin uD uF eta -> libs_rounding ar (plain_libs ar w) v fin uD uF eta.
Proof.
  intros X. pose proof (ro_D _ _ _ _ _ _ X) as XD. pose proof (ro_F _ _ _ _ _ _ X) as XF.
  split; cbn [eigenF eigenD blazeF blazeD blazeFD blazeDF plain_libs]; intros l Hf.
  - apply (fm_dot _ _ _ _ _ _ _ _ _ _ _ XF); auto.
  - apply (fm_dot _ _ _ _ _ _ _ _ _ _ _ XF); auto.
  - apply (fm_dot _ _ _ _ _ _ _ _ _ _ _ XD); auto.
  - apply (fm_dot _ _ _ _ _ _ _ _ _ _ _ XD); auto.
  - destruct (fm_dot _ _ _ _ _ _ _ _ _ _ _ XD _ Hf) as [_ H]. rewrite !lsum_map, map_length in H. exact H.
  - destruct (fm_dot _ _ _ _ _ _ _ _ _ _ _ XD _ Hf) as [_ H]. rewrite !lsum_map, map_length in H. exact H.
Qed.

From Flocq Require Import Core BinarySingleNaN.
From Verif Require Import Fp_Ieee Fp_Props.
(** IEEE numbers: 3*2^40, -5*2^-30, 7*2^-60 and 1, in double and in float. *)
Example C65_rounding_nonvacuous :
  rounding ieee val finite (bpow radix2 (-53)) (bpow radix2 (-24)) (bpow radix2 (-150)) /\
  libs_rounding ieee (plain_libs ieee 2) val finite (bpow radix2 (-53)) (bpow radix2 (-24)) (bpow radix2 (-150)) /\
  is_mat demoI 2 2 demoI_f /\ d_orient demoI = ColMajor /\
  (forall x, legal (plain_libs ieee 2) x demoI demoI 2 2 2) /\
  (forall i j, (i < 2)%nat -> (j < 2)%nat -> finite (toD ieee (toF ieee (demoI_f i j)))) /\
  (do d <- execute ieee (plain_libs ieee 2) true 3 AEigen_s demoI demoI; do y <- dget true d 0 0; Ok (B2SF y)) =
    Ok (SpecFloat.S754_finite false 5066549580791808 31)%Z.
Proof.
  split; [exact ieee_rounding|]. split; [apply plain_libs_rounding, ieee_rounding|]. split; [exact demoI_mat|]. split; [reflexivity|].
  split.
  { intros x. assert (gemm_legal 2 2 2) by (repeat split; unfold small_int; lia).
    assert (blaze_legal (plain_libs ieee 2) demoI demoI 2 2 2) by (unfold blaze_legal, accepts; repeat split; auto; lia).
    destruct x; cbn [legal]; auto. }
  split; [intros [|[|i]] [|[|j]] Hi Hj; try lia; vm_compute; reflexivity|]. vm_compute. reflexivity.
Qed.
