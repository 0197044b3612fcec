(** C68, rounding: how far the result of the block-wise benchmark action may be
    from the product of the real matrices, with IEEE numbers and the default
    conversion settings. *)
From Coq Require Import Reals Lra Lia List Permutation.
From Flocq Require Import Core.
From Verif Require Import Base BaseLemmas Dense_Model Dense_Spec Dense_Proofs Sparse_Model Sparse_Spec Dyn_Model Dyn_Spec Dyn_Proofs
  Dyn2_Proofs Conv_Spec Block_Proofs Bsg_Model Bsg_Spec Bsg_Props Bench_Model BlkAct_Model BlkAct_Props Eval_Spec Eval_Proofs
  Fp_Spec Fp_Proofs Fp_Ieee Dyn_Props Fp_Props.
#[local] Open Scope R_scope.

(** The bound for one element of an m x n times n x l product, from the absolute
    values of the n factors on either side:
    what the conversion of the blocks may drop (everything not above 2^-23), and
    n+5 roundings of every product, in double or (MKL may work in float) in float. *)
Definition block_bound (p : policy) (n : nat) (a b : nat -> R) : R :=
  let s := bpow radix2 (-23) in let uD := bpow radix2 (-53) in let uF := bpow radix2 (-24) in let e := bpow radix2 (-150) in
  let k := (n + 5)%nat in
  rsum n (fun q => s * (a q + b q) + s * s) +
  match p with
  | PMKL => ((1 + uF) ^ k - 1) * rsum n (fun q => (a q + 2 * s) * (b q + 2 * s)) +
            (1 + uF) ^ k * (e * (4 * INR n + 2 * rsum n (fun q => a q + 2 * s + (b q + 2 * s))))
  | _ => ((1 + uD) ^ k - 1) * rsum n (fun q => (a q + 2 * s) * (b q + 2 * s)) +
         ((1 + uF) ^ k - 1) * (INR n * (4 * (s * s))) + (1 + uF) ^ k * (4 * INR n * e)
  end.

Lemma max_and_count l n : partition l n -> (list_max l + length l <= n + 1)%nat.
Proof.
  intros [<- H]. induction H as [|x l Hx H IH]; [cbn; lia|].
  cbn [list_max fold_right length list_sum]. change (fold_right Nat.max 0%nat l) with (list_max l). fold (list_sum l).
  assert (length l <= list_sum l)%nat.
  { clear - H. induction H; cbn; [lia|]. fold (list_sum l). lia. }
  destruct (Nat.max_spec x (list_max l)) as [[_ ->]|[_ ->]]; lia.
Qed.

Lemma rsum_pos n f : (forall k, (k < n)%nat -> 0 <= f k) -> 0 <= rsum n f.
Proof. induction n; cbn; intros H; [lra|]. assert (0 <= f n) by (apply H; lia). assert (0 <= rsum n f) by (apply IHn; intros; apply H; lia). lra. Qed.

(** Fewer roundings, smaller bound: the bound of C62 with [k] roundings. *)
Lemma bound_mono p k n (a b : nat -> R) : (k <= n + 5)%nat ->
  let s := bpow radix2 (-23) in let uD := bpow radix2 (-53) in let uF := bpow radix2 (-24) in let e := bpow radix2 (-150) in
  rsum n (fun q => s * (Rabs (a q) + Rabs (b q)) + s * s) +
  match p with
  | PMKL => ((1 + uF) ^ k - 1) * rsum n (fun q => (Rabs (a q) + 2 * s) * (Rabs (b q) + 2 * s)) +
            (1 + uF) ^ k * (e * (4 * INR n + 2 * rsum n (fun q => Rabs (a q) + 2 * s + (Rabs (b q) + 2 * s))))
  | _ => ((1 + uD) ^ k - 1) * rsum n (fun q => (Rabs (a q) + 2 * s) * (Rabs (b q) + 2 * s)) +
         ((1 + uF) ^ k - 1) * (INR n * (4 * (s * s))) + (1 + uF) ^ k * (4 * INR n * e)
  end <= block_bound p n (fun q => Rabs (a q)) (fun q => Rabs (b q)).
Proof.
  intros Hk. unfold block_bound. cbv zeta. apply Rplus_le_compat_l.
  set (s := bpow radix2 (-23)). assert (Ps : 0 <= s) by apply bpow_ge_0.
  assert (PW : forall u, 0 <= u -> (1 + u) ^ k <= (1 + u) ^ (n + 5)) by (intros u Hu; apply Rle_pow; [lra|exact Hk]).
  pose proof (PW (bpow radix2 (-53)) (bpow_ge_0 _ _)) as WD. pose proof (PW (bpow radix2 (-24)) (bpow_ge_0 _ _)) as WF.
  pose proof (bpow_ge_0 radix2 (-150)) as Pe. pose proof (pos_INR n) as Pn.
  assert (S1 : 0 <= rsum n (fun q => (Rabs (a q) + 2 * s) * (Rabs (b q) + 2 * s))).
  { apply rsum_pos. intros q _. pose proof (Rabs_pos (a q)). pose proof (Rabs_pos (b q)). apply Rmult_le_pos; lra. }
  assert (S2 : 0 <= rsum n (fun q => Rabs (a q) + 2 * s + (Rabs (b q) + 2 * s))).
  { apply rsum_pos. intros q _. pose proof (Rabs_pos (a q)). pose proof (Rabs_pos (b q)). lra. }
  assert (S3 : 0 <= INR n * (4 * (s * s))) by (apply Rmult_le_pos; [lra|]; apply Rmult_le_pos; [lra|]; now apply Rmult_le_pos).
  assert (S4 : 0 <= 4 * INR n * bpow radix2 (-150)) by (apply Rmult_le_pos; lra).
  destruct p; repeat apply Rplus_le_compat; apply Rmult_le_compat_r; try lra; try (apply Rmult_le_pos; lra); auto.
Qed.

(** For every setting of the block size limits, every way std::sort may order
    equal values, any number of repetitions and all finite matrices: the action
    ends with a dense matrix whose every finite element is within [block_bound] of
    the real product, or (minimum at least 2) reads an uninitialised variable. *)
Theorem C68_rounding :
  forall (bn : bnum f64) ready p exc dbg mn mx (A B : dense f64) m n l fa fb ri ki ci runs,
    (forall t, In t type_list -> ready t = true) -> fits p m n l ->
    is_mat A m n fa -> d_orient A = ColMajor -> (Z.of_nat (length (d_buf A)) < 2 ^ 63)%Z ->
    is_mat B n l fb -> d_orient B = ColMajor -> (Z.of_nat (length (d_buf B)) < 2 ^ 63)%Z ->
    (1 <= m)%nat -> (1 <= n)%nat -> (1 <= l)%nat -> (1 <= runs)%nat ->
    order_of ri (m - 1) -> order_of ki (n - 1) -> order_of ci (l - 1) ->
    (forall i j, (i < m)%nat -> (j < n)%nat -> finite (fa i j)) -> (forall i j, (i < n)%nat -> (j < l)%nat -> finite (fb i j)) ->
    (0 <= mn)%Z -> (2 * mn <= mx)%Z -> (mx < 2 ^ 31)%Z ->
    let run := execute_block ieee bn ready p exc dbg true default_threshold mn mx ri ki ci runs A B in
    (exists d h, run = Ok d /\ is_mat d m l h /\
      forall i j, (i < m)%nat -> (j < l)%nat -> finite (h i j) ->
        Rabs (val (h i j) - rsum n (fun q => val (fa i q) * val (fb q j))) <=
          block_bound p n (fun q => Rabs (val (fa i q))) (fun q => Rabs (val (fb q j)))) \/
    (2 <= mn)%Z /\ run = UB UninitRead.
Proof.
  intros bn ready p exc dbg mn mx A B m n l fa fb ri ki ci runs Hr Hf MA OA LA MB OB LB Lm Ln Ll Lr P1 P2 P3 FA FB H1 H2 H3 run.
  subst run. pose proof (limits_ok mn mx H1 H2 H3) as EL.
  destruct (sizes_cases bn A B m n l fa fb ri ki ci MA MB Lm Ln Ll P1 P2 P3 (Z.to_nat mn) (Z.to_nat mx)) as [(rl & nl & cl & G)|[L G]].
  - left. destruct (C39_product_sizes_tile f64 bn A B m n l fa fb _ _ ri ki ci rl nl cl MA MB Lm Ln Ll P1 P2 P3 G) as (T1 & T2 & T3).
    destruct (C62_default_settings ready p exc dbg A B m n l fa fb rl nl cl Hr (fits_blocks p m n l rl nl cl Hf T1 T2 T3)
      MA OA LA MB OB LB T1 T2 T3 Ln FA FB) as (a & b & c & d & h & Ea & Eb & Ec & Ed & Md & Hh).
    exists d, h. split; [|split; [exact Md|]].
    + eapply execute_sizes; eauto. unfold block_sizes. rewrite EL. exact G.
    + intros i j Hi Hj Fh. eapply Rle_trans; [exact (Hh i j Hi Hj Fh)|]. apply bound_mono. pose proof (max_and_count nl n T2). lia.
  - right. split; [lia|]. unfold execute_block. rewrite bench_fail; [|exact Lr|].
    + unfold block_sizes. rewrite EL. cbn [bind fst snd]. rewrite G. reflexivity.
    + unfold block_sizes. rewrite EL. cbn [bind fst snd]. rewrite G. discriminate.
Qed.
Print Assumptions C68_rounding.

(** IEEE numbers 3*2^40, -5*2^-30, 7*2^-60 and 1, with the profile computed in
    double (the exponential is left out: the theorem holds for every function). *)
Definition ibn : bnum f64 := mkBnum f64 (d0 ieee) (fun x => x) (absD ieee) (bsub 53 1024 prec53 emax1024) (badd 53 1024 prec53 emax1024)
  (badd 53 1024 prec53 emax1024) (fun x y => ltD ieee y x) (fun x y => leD ieee x y && leD ieee y x).
Example C68_rounding_nonvacuous :
  is_mat demoI 2 2 demoI_f /\ d_orient demoI = ColMajor /\ fits PNative 2 2 2 /\ order_of [0]%nat (2 - 1) /\
  (forall i j, (i < 2)%nat -> (j < 2)%nat -> finite (demoI_f i j)) /\
  (do d <- execute_block ieee ibn (fun _ => true) PNative true true true default_threshold 1 2 [0]%nat [0]%nat [0]%nat 2 demoI demoI;
   do x <- dget true d 0 0; Ok (BinarySingleNaN.B2SF x)) = Ok (SpecFloat.S754_finite false 5066549580791808 31)%Z.
Proof.
  split; [exact demoI_mat|]. split; [reflexivity|]. split; [exact Coq.Init.Logic.I|]. split; [apply Permutation_refl|]. split.
  { intros [|[|i]] [|[|j]] Hi Hj; try lia; vm_compute; reflexivity. }
  vm_compute. reflexivity.
Qed.
Print Assumptions C68_rounding_nonvacuous.
