(** C64: the Eigen and Blaze back ends; C65: the benchmark's actions. *)
From Verif Require Import Base BaseLemmas Dense_Model Dense_Spec Dense_Proofs Dense2_Proofs Sparse_Model
  Mult_Model Mult_Spec Mult_Proofs Mult2_Proofs Mult3_Proofs Dyn_Model Norm_Model Tools_Model Bench_Model Bench_Spec
  Bench_Proofs.

(** * C64 *)

Theorem C64_eigen :
  forall (T1 T2 T3 : Type) (dot : list (T1 * T2) -> T3) dbg (a : dense T1) (b : dense T2) (c : dense T3) m n l f g,
    is_mat a m n f -> d_orient a = ColMajor -> is_mat b n l g -> d_orient b = ColMajor ->
    fresh_ok c -> d_orient c = ColMajor ->
    exists d, mul_eigen dot dbg a b c = Ok d /\
      is_mat d m l (fun i j => dot (row_col n f g i j)) /\ full_ok d /\ d_orient d = ColMajor /\ d_own d = true.
Proof. exact @mul_eigen_spec. Qed.
Print Assumptions C64_eigen.

Theorem C64_blaze :
  forall (T1 T2 T3 : Type) (u1 : dense T1 -> bool) (u2 : dense T2 -> bool) (u3 : dense T3 -> bool) s1 s2 s3
      (dot : list (T1 * T2) -> T3) dbg (a : dense T1) (b : dense T2) (c : dense T3) m n l f g,
    is_mat a m n f -> d_orient a = ColMajor -> is_mat b n l g -> d_orient b = ColMajor ->
    fresh_ok c -> d_orient c = ColMajor -> 1 <= m -> 1 <= l ->
    u1 a = true -> u2 b = true -> accepts u3 ->
    m mod s1 = 0 -> n mod s2 = 0 -> m mod s3 = 0 ->
    exists d, mul_blaze u1 u2 u3 s1 s2 s3 dot dbg a b c = Ok d /\
      is_mat d m l (fun i j => dot (row_col n f g i j)) /\ full_ok d /\ d_orient d = ColMajor /\ d_own d = true.
Proof.
  intros T1 T2 T3 u1 u2 u3 s1 s2 s3 dot dbg a b c m n l f g Ma Oa Mb Ob Fc Oc Hm Hl U1 U2 U3 H1 H2 H3.
  apply mul_blaze_spec; auto. intros d O L. apply U3; auto. intros E. rewrite E in L. cbn in L. nia.
Qed.
Print Assumptions C64_blaze.

(** If the number of rows of an operand is not a multiple of the number of
    elements in a SIMD register, the product throws: no result, no damage. *)
Theorem C64_blaze_rejects :
  forall (T1 T2 T3 : Type) (u1 : dense T1 -> bool) (u2 : dense T2 -> bool) (u3 : dense T3 -> bool) s1 s2 s3
      (dot : list (T1 * T2) -> T3) dbg (a : dense T1) (b : dense T2) (c : dense T3) m n l f g,
    is_mat a m n f -> is_mat b n l g -> fresh_ok c ->
    m mod s1 <> 0 \/ n mod s2 <> 0 \/ m mod s3 <> 0 ->
    mul_blaze u1 u2 u3 s1 s2 s3 dot dbg a b c = Throw.
Proof.
  intros T1 T2 T3 u1 u2 u3 s1 s2 s3 dot dbg a b c m n l f g [_ (Ra & Ca & _)] [_ (Rb & Cb & _)] Fc H.
  apply mul_blaze_rejects; [congruence|auto|]. now rewrite Ra, Rb.
Qed.
Print Assumptions C64_blaze_rejects.

(** Dimensions that do not match: an assertion with assertions, an exception without (Blaze);
    for Eigen only the assertion. *)
Theorem C64_dimensions :
  forall (T1 T2 T3 : Type) (u1 : dense T1 -> bool) (u2 : dense T2 -> bool) (u3 : dense T3 -> bool) s1 s2 s3
      (dot : list (T1 * T2) -> T3) (a : dense T1) (b : dense T2) (c : dense T3),
    d_cols a <> d_rows b -> fresh_ok c ->
    mul_blaze u1 u2 u3 s1 s2 s3 dot true a b c = AssertFail /\
    mul_blaze u1 u2 u3 s1 s2 s3 dot false a b c = Throw /\
    mul_eigen dot true a b c = AssertFail.
Proof.
  intros T1 T2 T3 u1 u2 u3 s1 s2 s3 dot a b c H Fc. unfold mul_blaze, mul_eigen, cassert, blaze_view.
  apply Nat.eqb_neq in H. rewrite H. cbn [andb negb bind]. split; [reflexivity|]. split; [|reflexivity].
  destruct (resize_shape c (d_rows a) (d_cols b) Fc) as (c0 & E0 & _). rewrite E0.
  destruct (u1 a && _); [|reflexivity]. destruct (u2 b && _); [|reflexivity]. destruct (u3 c0 && _); reflexivity.
Qed.
Print Assumptions C64_dimensions.

(** Both adapters read every operand column by column: for row-major operands the
    result is not the product. *)
Definition zdot (ps : list (Z * Z)) : Z := fold_left (fun acc p => acc + fst p * snd p)%Z ps 0%Z.
Definition demoRM : dense Z := mkDense (own_shape RowMajor 2 2) 4 (map Some [1; 2; 3; 4]%Z) true.
Definition demoRM_f (i j : nat) : Z := Z.of_nat (2 * i + j + 1).
Lemma demoRM_mat : is_mat demoRM 2 2 demoRM_f.
Proof.
  split; [repeat split; vm_compute; auto|]. repeat split; try reflexivity.
  intros i j Hi Hj. destruct i as [|[|i]]; try lia; destruct j as [|[|j]]; try lia; vm_compute; reflexivity.
Qed.
Definition demoI2 : dense Z := mkDense (own_shape ColMajor 2 2) 4 (map Some [1; 0; 0; 1]%Z) true.
Definition demoI2_f (i j : nat) : Z := if i =? j then 1%Z else 0%Z.
Lemma demoI2_mat : is_mat demoI2 2 2 demoI2_f.
Proof.
  split; [repeat split; vm_compute; auto|]. repeat split; try reflexivity.
  intros i j Hi Hj. destruct i as [|[|i]]; try lia; destruct j as [|[|j]]; try lia; vm_compute; reflexivity.
Qed.
Theorem C64_row_major_refuted :
  ~ (forall dbg (a b : dense Z) m n l f g, is_mat a m n f -> is_mat b n l g ->
       exists d, mul_eigen zdot dbg a b (d_default ColMajor) = Ok d /\
         is_mat d m l (fun i j => zdot (row_col n f g i j))) /\
  ~ (forall dbg (a b : dense Z) m n l f g, is_mat a m n f -> is_mat b n l g ->
       m mod 2 = 0 -> n mod 2 = 0 ->
       exists d, mul_blaze (fun _ => true) (fun _ => true) (fun _ => true) 2 2 2 zdot dbg a b (d_default ColMajor) = Ok d /\
         is_mat d m l (fun i j => zdot (row_col n f g i j))).
Proof.
  split; intros H.
  - destruct (H true demoRM demoI2 2 2 2 _ _ demoRM_mat demoI2_mat) as (d & E & _ & _ & _ & V).
    specialize (V 0 1 ltac:(lia) ltac:(lia)). vm_compute in E. injection E as <-. vm_compute in V. discriminate.
  - destruct (H true demoRM demoI2 2 2 2 _ _ demoRM_mat demoI2_mat eq_refl eq_refl) as (d & E & _ & _ & _ & V).
    specialize (V 0 1 ltac:(lia) ltac:(lia)). vm_compute in E. injection E as <-. vm_compute in V. discriminate.
Qed.
Print Assumptions C64_row_major_refuted.

Definition demoP : dense Z := mkDense (own_shape ColMajor 2 2) 4 (map Some [1; 2; 3; 4]%Z) true.
Definition demoP_f (i j : nat) : Z := Z.of_nat (2 * j + i + 1).
Lemma demoP_mat : is_mat demoP 2 2 demoP_f.
Proof.
  split; [repeat split; vm_compute; auto|]. repeat split; try reflexivity.
  intros i j Hi Hj. destruct i as [|[|i]]; try lia; destruct j as [|[|j]]; try lia; vm_compute; reflexivity.
Qed.
Example C64_nonvacuous :
  exists d e, mul_eigen zdot true demoP demoP (d_default ColMajor) = Ok d /\
    mul_blaze (fun _ => true) (fun _ => true) (fun _ => true) 2 1 2 zdot true demoP demoP (d_default ColMajor) = Ok e /\
    d_buf d = map Some [7; 10; 15; 22]%Z /\ d_buf e = d_buf d /\
    mul_blaze (fun _ => true) (fun _ => true) (fun _ => true) 4 4 4 zdot true demoP demoP (d_default ColMajor) = Throw.
Proof. do 2 eexists. repeat split; vm_compute; reflexivity. Qed.

(** * C65 *)
Section Actions.
Context {F D : Type} (ar : arith F D) (lb : libs F D).

Lemma result_native n f g i j :
  result_at ar lb ANativeDense n f g i j = prod_at (fmaD ar) (d0 ar) n f g i j.
Proof. unfold result_at, row_col, prod_at. rewrite fold_left_map. reflexivity. Qed.

Definition good {T} (m l : nat) (h : nat -> nat -> T) (d : dense T) : Prop :=
  is_mat d m l h /\ full_ok d /\ d_orient d = ColMajor /\ d_own d = true.
Lemma bench_replace {T} (mul : dense T -> res (dense T)) m l h runs :
  1 <= runs -> (exists d, mul (d_default ColMajor) = Ok d /\ good m l h d) ->
  exists d, bench_it runs (replace_by mul) (d_default ColMajor) = Ok d /\ good m l h d.
Proof.
  intros Hr H. apply (bench_it_spec (replace_by mul) (good m l h) (fun _ => True)); auto.
Qed.
Lemma bench_double (r : res (dense F)) m l h :
  (exists d, r = Ok d /\ good m l h d) ->
  exists d, rmap (to_double ar) r = Ok d /\ good m l (fun i j => toD ar (h i j)) d.
Proof.
  intros (d & -> & M & _ & O & _). eexists. split; [reflexivity|].
  destruct (conv_same_spec (toD ar) d m l h M) as (M' & O' & F' & N'). unfold good, to_double. rewrite O', O. auto.
Qed.
Lemma single_good (A : dense D) m n f :
  is_mat A m n f -> d_orient A = ColMajor -> good m n (fun i j => toF ar (f i j)) (to_single ar A).
Proof.
  intros M O. destruct (conv_same_spec (toF ar) A m n f M) as (M' & O' & F' & N').
  unfold good, to_single. rewrite O', O. auto.
Qed.
Lemma own_usable {T} (u : dense T -> bool) (d : dense T) m n f :
  accepts u -> is_mat d m n f -> d_own d = true -> 1 <= m -> 1 <= n -> u d = true.
Proof.
  intros U [(_ & _ & L) (R & C & _)] O Hm Hn. apply U; auto. intros E. rewrite E in L. cbn in L.
  unfold d_rows, d_cols in *. nia.
Qed.

(** However often the benchmark repeats the multiplication (at least once), the
    result is the [m] x [l] matrix with these elements, and nothing undefined
    happens. *)
Theorem C65_action_result :
  forall dbg runs x (A B : dense D) m n l f g,
    is_mat A m n f -> d_orient A = ColMajor -> is_mat B n l g -> d_orient B = ColMajor ->
    1 <= runs -> legal lb x A B m n l ->
    exists d, execute ar lb dbg runs x A B = Ok d /\
      is_mat d m l (result_at ar lb x n f g) /\ full_ok d /\ d_orient d = ColMajor /\ d_own d = true.
Proof.
  intros dbg runs x A B m n l f g MA OA MB OB Hr HL.
  pose proof (single_good A m n f MA OA) as (SA & _ & SOA & SNA).
  pose proof (single_good B n l g MB OB) as (SB & _ & SOB & SNB).
  change (exists d, execute ar lb dbg runs x A B = Ok d /\ good m l (result_at ar lb x n f g) d).
  destruct x; cbn [execute legal] in *.
  - apply (bench_it_spec _ (good m l (result_at ar lb ANativeDense n f g)) (fun c => fresh_ok c /\ d_orient c = ColMajor)); auto.
    + split; [apply default_fresh|reflexivity].
    + intros c [Fc Oc]. destruct MA as [WA VA], MB as [WB VB].
      destruct (mul_dd_spec (fmaD ar) (d0 ar) dbg A B c m n l f g VA (or_introl WA) OA VB (or_introl WB) OB Fc Oc) as (e & E & M & R).
      exists e. split; auto. split; auto. eapply is_mat_ext; [exact M|]. intros i j _ _. symmetry. apply result_native.
    + intros d ((Wd & _) & Fd & Od & Nd). split; auto.
      destruct Wd as (Sd & Bd & _). repeat split; auto.
  - destruct HL as (Hn & B1 & B2 & B3). apply bench_replace; auto.
    destruct (mul_blas_spec (dotD ar) dbg A B (d_default ColMajor) m n l f g) as (d & E & R); auto using default_fresh.
    exists d. split; [exact E|exact R].
  - destruct HL as (Hn & B1 & B2 & B3). apply bench_double. apply bench_replace; auto.
    destruct (mul_blas_spec (dotF ar) dbg (to_single ar A) (to_single ar B) (d_default ColMajor) m n l _ _ SA SOA SB SOB
      (default_fresh _) eq_refl) as (d & E & R); auto. exists d. split; [exact E|exact R].
  - destruct HL as (Hn & B1 & B2 & B3). apply bench_replace; auto.
    destruct (mul_blas_spec (dotD ar) dbg A B (d_default ColMajor) m n l f g) as (d & E & R); auto using default_fresh.
    exists d. split; [exact E|exact R].
  - destruct HL as (Hn & B1 & B2 & B3). apply bench_double. apply bench_replace; auto.
    destruct (mul_blas_spec (dotF ar) dbg (to_single ar A) (to_single ar B) (d_default ColMajor) m n l _ _ SA SOA SB SOB
      (default_fresh _) eq_refl) as (d & E & R); auto. exists d. split; [exact E|exact R].
  - apply bench_replace; auto. apply C64_eigen; auto using default_fresh.
  - apply bench_double. apply bench_replace; auto.
    destruct (C64_eigen F F F (eigenF lb) dbg _ _ (d_default ColMajor) m n l _ _ SA SOA SB SOB (default_fresh _) eq_refl) as (d & E & R).
    exists d. split; [exact E|exact R].
  - destruct HL as ((UF & UD & Hm & Hn & Hl & NA & NB) & H1 & H2). apply bench_replace; auto.
    apply C64_blaze; eauto using default_fresh, own_usable.
  - destruct HL as ((UF & UD & Hm & Hn & Hl & NA & NB) & H1 & H2). apply bench_double. apply bench_replace; auto.
    destruct (C64_blaze F F F (usableF lb) (usableF lb) (usableF lb) (simdF lb) (simdF lb) (simdF lb) (blazeF lb) dbg
      (to_single ar A) (to_single ar B) (d_default ColMajor) m n l _ _ SA SOA SB SOB (default_fresh _) eq_refl) as (d & E & R);
      eauto using own_usable.
  - destruct HL as ((UF & UD & Hm & Hn & Hl & NA & NB) & H1 & H2 & H3). apply bench_replace; auto.
    destruct (C64_blaze F D D (usableF lb) (usableD lb) (usableD lb) (simdF lb) (simdD lb) (simdD lb) (blazeFD lb) dbg
      (to_single ar A) B (d_default ColMajor) m n l _ _ SA SOA MB OB (default_fresh _) eq_refl) as (d & E & R);
      eauto using own_usable.
  - destruct HL as ((UF & UD & Hm & Hn & Hl & NA & NB) & H1 & H2). apply bench_replace; auto.
    destruct (C64_blaze D F D (usableD lb) (usableF lb) (usableD lb) (simdD lb) (simdF lb) (simdD lb) (blazeDF lb) dbg
      A (to_single ar B) (d_default ColMajor) m n l _ _ MA OA SB SOB (default_fresh _) eq_refl) as (d & E & R);
      eauto using own_usable.
Qed.

(** The number of runs makes no difference. *)
Theorem C65_runs_irrelevant :
  forall dbg runs runs' x (A B : dense D) m n l f g,
    is_mat A m n f -> d_orient A = ColMajor -> is_mat B n l g -> d_orient B = ColMajor ->
    1 <= runs -> 1 <= runs' -> legal lb x A B m n l ->
    exists d e h, execute ar lb dbg runs x A B = Ok d /\ execute ar lb dbg runs' x A B = Ok e /\
      is_mat d m l h /\ is_mat e m l h.
Proof.
  intros. destruct (C65_action_result dbg runs x A B m n l f g) as (d & E & M & _); auto.
  destruct (C65_action_result dbg runs' x A B m n l f g) as (e & E' & M' & _); auto.
  exists d, e, (result_at ar lb x n f g). auto.
Qed.

(** Without a run the result is an empty matrix. *)
Theorem C65_no_run :
  forall dbg x (A B : dense D), exists d, execute ar lb dbg 0 x A B = Ok d /\ d_rows d = 0 /\ d_cols d = 0.
Proof. intros dbg x A B. destruct x; eexists; (split; [reflexivity|split; reflexivity]). Qed.

(** With exact arithmetic, and elements that survive the conversion to float if
    the action makes it, all actions deliver the product. *)
Theorem C65_exact_product :
  forall (S : Scalar D), RingLaws D -> exact_libs ar lb ->
  forall dbg runs x (A B : dense D) m n l f g,
    is_mat A m n f -> d_orient A = ColMajor -> is_mat B n l g -> d_orient B = ColMajor ->
    1 <= runs -> legal lb x A B m n l ->
    (forall i j, i < m -> j < n -> toD ar (toF ar (f i j)) = f i j) ->
    (forall i j, i < n -> j < l -> toD ar (toF ar (g i j)) = g i j) ->
    exists d, execute ar lb dbg runs x A B = Ok d /\ is_mat d m l (mat_prod n f g).
Proof.
  intros S RL X dbg runs x A B m n l f g MA OA MB OB Hr HL HA HB.
  destruct (C65_action_result dbg runs x A B m n l f g MA OA MB OB Hr HL) as (d & E & M & _).
  exists d. split; [exact E|]. eapply is_mat_ext; [exact M|]. intros i j Hi Hj. cbv beta.
  rewrite <- (prod_at_ring n f g i j). unfold prod_at, s_fma.
  destruct x; cbn [result_at]; unfold row_col.
  - rewrite fold_left_map. rewrite (xl_zero ar lb X). apply fold_left_ext. intros k acc _. apply (xl_fma ar lb X).
  - rewrite (xl_d ar lb X) by (cbn; auto). now rewrite fold_left_map.
  - rewrite (xl_s ar lb X) by (cbn; auto). rewrite fold_left_map. apply fold_left_ext. intros k acc Hk. apply in_seq in Hk.
    cbn [fst snd]. rewrite HA, HB by lia. reflexivity.
  - rewrite (xl_d ar lb X) by (cbn; auto). now rewrite fold_left_map.
  - rewrite (xl_s ar lb X) by (cbn; auto). rewrite fold_left_map. apply fold_left_ext. intros k acc Hk. apply in_seq in Hk.
    cbn [fst snd]. rewrite HA, HB by lia. reflexivity.
  - rewrite (xl_d ar lb X) by (cbn; auto). now rewrite fold_left_map.
  - rewrite (xl_s ar lb X) by (cbn; auto). rewrite fold_left_map. apply fold_left_ext. intros k acc Hk. apply in_seq in Hk.
    cbn [fst snd]. rewrite HA, HB by lia. reflexivity.
  - rewrite (xl_d ar lb X) by (cbn; auto). now rewrite fold_left_map.
  - rewrite (xl_s ar lb X) by (cbn; auto). rewrite fold_left_map. apply fold_left_ext. intros k acc Hk. apply in_seq in Hk.
    cbn [fst snd]. rewrite HA, HB by lia. reflexivity.
  - rewrite (xl_sd ar lb X). rewrite fold_left_map. apply fold_left_ext. intros k acc Hk. apply in_seq in Hk.
    cbn [fst snd]. rewrite HA by lia. reflexivity.
  - rewrite (xl_ds ar lb X). rewrite fold_left_map. apply fold_left_ext. intros k acc Hk. apply in_seq in Hk.
    cbn [fst snd]. rewrite HB by lia. reflexivity.
Qed.
End Actions.
Print Assumptions C65_action_result.
Print Assumptions C65_runs_irrelevant.
Print Assumptions C65_no_run.
Print Assumptions C65_exact_product.

(** All actions on concrete matrices: 2x2, SIMD width 2. *)
Example C65_nonvacuous :
  is_mat demoP 2 2 demoP_f /\ d_orient demoP = ColMajor /\ d_own demoP = true /\
  (forall lb : libs Z Z, simdF lb = 2 -> simdD lb = 2 -> accepts (usableF lb) -> accepts (usableD lb) ->
     forall x, legal lb x demoP demoP 2 2 2).
Proof.
  split; [exact demoP_mat|]. split; [reflexivity|]. split; [reflexivity|]. intros lb H1 H2 H3 H4 x.
  assert (gemm_legal 2 2 2) by (repeat split; unfold small_int; lia).
  assert (blaze_legal lb demoP demoP 2 2 2) by (unfold blaze_legal; repeat split; auto; lia).
  destruct x; cbn [legal]; rewrite ?H1, ?H2; auto.
Qed.
