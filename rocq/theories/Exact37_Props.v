(** NaN and infinite elements: the norms of matrices in two parts (C77). *)
From Coq Require Import ZArith Reals Lra.
From Verif Require Import Base BaseLemmas Dense_Model Dense_Spec Sparse_Model Sparse_Spec Dyn_Model Dyn_Spec Dyn_Props
  Norm_Model Norm_Spec Norm_Proofs Eval_Spec Eval_Proofs Fp_Spec Fp_Proofs Fp_Ieee Fp_Props FpNorm_Spec FpNorm_Proofs FpNorm2_Props
  Exact27_Props Exact31_Props Exact34_Props.
From Flocq Require Import Core BinarySingleNaN.
#[local] Open Scope R_scope.

(** The same up to the sign of a zero. *)
Definition same_as (x y : f64) : Prop := is_nan x = is_nan y /\ place x = place y.

Lemma fin_no_nan (x : f64) : is_finite x = true -> is_nan x = false.
Proof. now destruct x. Qed.

Lemma plus_comm_same (x y : f64) : same_as (addD ieee y x) (addD ieee x y).
Proof.
  cbn [addD ieee]. unfold badd. destruct (is_finite x) eqn:Fx; destruct (is_finite y) eqn:Fy.
  - pose proof (Bplus_correct 53 1024 prec53 emax1024 mode_NE x y Fx Fy) as C.
    pose proof (Bplus_correct 53 1024 prec53 emax1024 mode_NE y x Fy Fx) as C'. rewrite (Rplus_comm (B2R y)) in C'.
    destruct (Rlt_bool _ _).
    + destruct C as (C1 & C2 & _), C' as (C1' & C2' & _).
      unfold same_as. rewrite !place_fin by assumption. rewrite C1, C1'. split; [|reflexivity].
      destruct (Bplus mode_NE x y), (Bplus mode_NE y x); try discriminate; reflexivity.
    + destruct C as [C S], C' as [C' _]. rewrite S in C. rewrite <- C in C'. apply B2SF_inj in C'. rewrite C'. split; reflexivity.
  - destruct y as [|[]| |]; try discriminate; destruct x as [|[]| |]; try discriminate; split; reflexivity.
  - destruct x as [|[]| |]; try discriminate; destruct y as [|[]| |]; try discriminate; split; reflexivity.
  - destruct x as [|[]| |]; try discriminate; destruct y as [|[]| |]; try discriminate; split; reflexivity.
Qed.
Lemma plus_0_same (x : f64) : same_as x (addD ieee x (d0 ieee)).
Proof.
  cbn [addD ieee d0]. unfold badd. destruct (is_finite x) eqn:Fx; [|destruct x as [|[]| |]; try discriminate; split; reflexivity].
  pose proof (Bplus_correct 53 1024 prec53 emax1024 mode_NE x (B754_zero false) Fx eq_refl) as C. cbn [B2R] in C.
  rewrite Rplus_0_r, round_generic in C by (apply valid_rnd_N || apply generic_format_B2R).
  rewrite Rlt_bool_true in C by apply abs_B2R_lt_emax. destruct C as (C1 & C2 & _).
  unfold same_as. rewrite !place_fin by assumption. rewrite C1. split; [|reflexivity].
  rewrite (fin_no_nan x Fx). symmetry. now apply fin_no_nan.
Qed.
Lemma eval_same x y h : bin_eval ieee Plus false x y h -> same_as h (addD ieee x y).
Proof.
  intros [ | _ | x' y' H | x' y' H | -> | -> | y' -> -> ]; try discriminate.
  - split; reflexivity.
  - apply plus_comm_same.
  - apply plus_0_same.
  - destruct (plus_0_same y) as [A1 A2]. destruct (plus_comm_same (d0 ieee) y) as [B1 B2]. cbn [unD]. split; congruence.
  - destruct (plus_0_same (toD ieee y')) as [A1 A2]. destruct (plus_comm_same (d0 ieee) (toD ieee y')) as [B1 B2]. cbn [unF]. split; congruence.
Qed.
Lemma same_inf x y : same_as x y -> is_inf y -> is_inf x.
Proof.
  intros [N P] [s ->]. destruct (is_finite x) eqn:Fx.
  - pose proof (place_in x Fx) as H. rewrite P in H. cbn [place] in H. destruct s; lra.
  - destruct x as [|s'| |]; try discriminate. now exists s'.
Qed.

(** C77.  A matrix in two parts [a] and [b], of which the sum is dense and not both
    are of floats, asked for its two-norm or its maximum norm: it is that of the
    matrix of the sums of the elements.  In particular the two-norm is NaN exactly
    if some sum is NaN (opposite infinities in the two parts included), and a
    maximum norm hides such elements. *)
Theorem C77_special_two_parts :
  forall k dbg t1 t2 (a b : leaf f32 f64) r c g1 g2,
    rep_leaf ieee a r c g1 -> rep_leaf ieee b r c g2 -> leaf_ty a = t1 -> leaf_ty b = t2 ->
    normable (DM t1 t2 (Some a) (Some b)) -> is_f t1 && is_f t2 = false -> k <> NOne ->
    exists m, norm_dyn ieee ieee_n k dbg (DM t1 t2 (Some a) (Some b)) = Ok m /\
    let sum i j := addD ieee (g1 i j) (g2 i j) in
    let some (P : f64 -> Prop) := exists i j, (i < r)%nat /\ (j < c)%nat /\ P (sum i j) in
    match k with
    | NMax => no_nan m /\ (forall i j, (i < r)%nat -> (j < c)%nat -> no_nan (sum i j) -> Rabs (place (sum i j)) <= place m) /\
              (place m = 0 \/ some (fun x => no_nan x /\ place m = Rabs (place x)))
    | _ => (is_nan m = true <-> some (fun x => is_nan x = true)) /\
           (~ some (fun x => is_nan x = true) -> some is_inf -> m = B754_infinity false)
    end.
Proof.
  intros k dbg t1 t2 a b r c g1 g2 Ha Hb T1 T2 N NF K.
  destruct (bin_leaf_eval ieee Plus false dbg a b r c g1 g2 Ha Hb eq_refl) as (e & h & Ee & Ye & Re & HE).
  { intros F1 F2. rewrite <- T1, <- T2, F1, F2 in NF. discriminate. }
  assert (Ce : l_compact e) by (cbn [normable] in N; rewrite <- T1, <- T2, <- Ye in N; destruct e; cbn in *; try contradiction; exact Coq.Init.Logic.I).
  assert (SA : forall i j, (i < r)%nat -> (j < c)%nat -> same_as (h i j) (addD ieee (g1 i j) (g2 i j))) by (intros; now apply eval_same, HE).
  destruct (C77_special_one_part k e r c h Re Ce) as (m & Em & Hm). exists m. split.
  { cbn [norm_dyn deref bind]. destruct k; [congruence| |]; cbn [bind]; rewrite Ee; exact Em. }
  cbv zeta in *. destruct k; [congruence| |].
  - destruct Hm as [H1 H2].
    assert (EN : (exists i j, (i < r)%nat /\ (j < c)%nat /\ is_nan (h i j) = true) <->
                 exists i j, (i < r)%nat /\ (j < c)%nat /\ is_nan (addD ieee (g1 i j) (g2 i j)) = true).
    { split; intros (i & j & Hi & Hj & H); exists i, j; (split; [exact Hi|]; split; [exact Hj|]); destruct (SA i j Hi Hj) as [S _]; congruence. }
    rewrite <- EN. split; [exact H1|]. intros HN (i & j & Hi & Hj & H). apply H2; [exact HN|].
    exists i, j. split; [exact Hi|]. split; [exact Hj|]. now apply (same_inf _ _ (SA i j Hi Hj)).
  - destruct Hm as (H1 & H2 & H3). split; [exact H1|]. split.
    + intros i j Hi Hj H. destruct (SA i j Hi Hj) as [S P]. rewrite <- P. apply H2; auto. unfold no_nan in *. congruence.
    + destruct H3 as [H3|(i & j & Hi & Hj & Hn & H)]; [now left|right]. exists i, j. destruct (SA i j Hi Hj) as [S P].
      split; [exact Hi|]. split; [exact Hj|]. rewrite <- P. split; [unfold no_nan in *; congruence|exact H].
Qed.
Print Assumptions C77_special_two_parts.

(** Opposite infinities in the two parts: two-norm NaN, maximum norm 0. *)
Definition de_one (x : f64) : dense f64 := mkDense (own_shape ColMajor 1 1) 1 [Some x] true.
Definition fl_one (x : f32) : dense f32 := mkDense (own_shape ColMajor 1 1) 1 [Some x] true.
Example C77_special_two_parts_nonvacuous :
  (forall x, rep_leaf ieee (LDf (fl_one x)) 1 1 (fun _ _ => toD ieee x)) /\
  (forall x, rep_leaf ieee (LDd (de_one x)) 1 1 (fun _ _ => x)) /\
  List.In (TM (TS ED) (TD EF)) type_list /\
  (forall a b : option (leaf f32 f64), normable (DM (TS ED) (TD EF) a b)) /\ is_f (TS ED) && is_f (TD EF) = false /\
  (forall x y, normable (DM (TD EF) (TD ED) (Some (LDf (fl_one x))) (Some (LDd (de_one y))))) /\
  norm_dyn ieee ieee_n NTwo true (DM (TD EF) (TD ED) (Some (LDf (fl_one (B754_infinity true)))) (Some (LDd (de_one (B754_infinity false))))) = Ok B754_nan /\
  norm_dyn ieee ieee_n NMax true (DM (TD EF) (TD ED) (Some (LDf (fl_one (B754_infinity true)))) (Some (LDd (de_one (B754_infinity false))))) = Ok (B754_zero false).
Proof.
  assert (M : forall T (x : T), is_mat (mkDense (own_shape ColMajor 1 1) 1 [Some x] true) 1 1 (fun _ _ => x)).
  { intros T x. split; [repeat split|]. split; [|split]; try reflexivity. intros [|i] [|j] Hi Hj; try lia; reflexivity. }
  split; [|split; [|split; [cbn; tauto|split; [intros; exact Coq.Init.Logic.I|split; [reflexivity|split; [|split; reflexivity]]]]]].
  - intros x. split; [reflexivity|]. exists (fun _ _ => x). split; [apply M|reflexivity].
  - intros x. split; [reflexivity|]. apply M.
  - intros x y. exact Coq.Init.Logic.I.
Qed.
Print Assumptions C77_special_two_parts_nonvacuous.
