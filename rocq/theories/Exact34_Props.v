(** NaN and infinite elements: the norms of every one-part matrix, dense, sparse or
    zero, of doubles or of floats (C77). *)
From Coq Require Import ZArith Reals Lra.
From Verif Require Import Base BaseLemmas Dense_Model Dense_Spec Sparse_Model Sparse_Spec Dyn_Model Dyn_Spec
  Norm_Model Norm_Spec Fp_Spec Fp_Proofs Fp_Ieee Fp_Props FpNorm_Spec FpNorm_Proofs FpNorm2_Props Exact27_Props Exact31_Props.
From Flocq Require Import Core BinarySingleNaN.
#[local] Open Scope R_scope.

Lemma special_list k r c (g : nat -> nat -> f64) (l : list f64) :
  (forall x, List.In x l -> exists i j, (i < r)%nat /\ (j < c)%nat /\ x = g i j) ->
  (forall i j, (i < r)%nat -> (j < c)%nat -> List.In (g i j) l \/ g i j = d0 ieee) ->
  let m := n_fin ieee_n k (fold_left (n_accD ieee ieee_n k) l (d0 ieee)) in
  let some (P : f64 -> Prop) := exists i j, (i < r)%nat /\ (j < c)%nat /\ P (g i j) in
  match k with
  | NMax => no_nan m /\ (forall i j, (i < r)%nat -> (j < c)%nat -> no_nan (g i j) -> Rabs (place (g i j)) <= place m) /\
            (place m = 0 \/ some (fun x => no_nan x /\ place m = Rabs (place x)))
  | _ => (is_nan m = true <-> some (fun x => is_nan x = true)) /\
         (~ some (fun x => is_nan x = true) -> some is_inf -> m = B754_infinity false)
  end.
Proof.
  intros I1 I2.
  assert (EX : forall P : f64 -> Prop, ~ P (d0 ieee) -> List.Exists P l <-> exists i j, (i < r)%nat /\ (j < c)%nat /\ P (g i j)).
  { intros P P0. rewrite List.Exists_exists. split.
    - intros (x & H & Hx). destruct (I1 x H) as (i & j & Hi & Hj & ->). eauto.
    - intros (i & j & Hi & Hj & H). exists (g i j). split; [|exact H]. destruct (I2 i j Hi Hj) as [G|G]; [exact G|]. rewrite G in H. contradiction. }
  assert (P0 : plain (d0 ieee)) by (split; reflexivity).
  assert (EN := EX (fun x => is_nan x = true) ltac:(discriminate)).
  assert (EI := EX is_inf ltac:(intros [s H]; discriminate)).
  assert (D : List.Exists (fun x => is_nan x = true) l \/ List.Forall no_nan l).
  { clear. induction l as [|x l IH]; [right; constructor|]. destruct (is_nan x) eqn:N; [left; now constructor|].
    destruct IH; [left; now constructor 2|right; now constructor]. }
  assert (SUM : forall (h : f64 -> f64), (forall x, is_nan x = true -> is_nan (h x) = true) ->
     (forall x, no_nan x -> plain (h x) /\ (is_inf x -> is_inf (h x))) ->
     let m := fold_left (fun a x => addD ieee a (h x)) l (d0 ieee) in
     (is_nan m = true <-> List.Exists (fun x => is_nan x = true) l) /\
     (is_nan m = false -> plain m) /\
     (~ List.Exists (fun x => is_nan x = true) l -> List.Exists is_inf l -> plain m /\ is_inf m)).
  { intros h G1 G2 m. destruct (sum_special h l G1 G2 _ P0) as [S1 S2]. fold m in S1, S2. split; [|split].
    - split; [|exact S1]. intros Hm. destruct D as [D|D]; [exact D|]. destruct (S2 D) as [[N _] _]. unfold no_nan in N. congruence.
    - intros Hm. destruct D as [D|D]; [apply S1 in D; congruence|]. apply (S2 D).
    - intros HN HI. destruct D as [D|D]; [contradiction|]. destruct (S2 D) as [A B]. auto. }
  destruct k; cbn [n_fin]; cbv zeta.
  - destruct (SUM Babs) as (S1 & _ & S3); [intros x H; now rewrite abs_nan|exact abs_plain|].
    rewrite EN, EI in S3. rewrite EN in S1. split; [exact S1|]. intros HN HI. destruct (S3 HN HI) as [[_ Q] [s Hs]].
    change (n_accD ieee ieee_n NOne) with (fun a x => addD ieee a (Babs x)). rewrite Hs in *. cbn in Q. now subst s.
  - destruct (SUM sq64) as (S1 & S2 & S3); [intros x H; destruct x; try discriminate; reflexivity|exact sq_plain|].
    rewrite EN, EI in S3. rewrite EN in S1. change (n_accD ieee ieee_n NTwo) with (fun a x => addD ieee a (sq64 x)). cbn [ieee_n sqrtD].
    set (m := fold_left _ l (d0 ieee)) in *. split.
    + rewrite <- S1. split; [|destruct m; try discriminate; reflexivity]. intros H. destruct (is_nan m) eqn:E; [reflexivity|].
      destruct (sqrt_plain m (S2 eq_refl)) as [N _]. unfold no_nan in N. congruence.
    + intros HN HI. destruct (S3 HN HI) as [A B]. now apply sqrt_plain.
  - destruct (max_special l _ P0) as (M1 & M2 & M3 & M4). change (n_accD ieee ieee_n NMax) with (fun a x => maxD ieee a (Babs x)).
    split; [apply M1|]. split.
    + intros i j Hi Hj H. destruct (I2 i j Hi Hj) as [G|G]; [now apply M3|]. rewrite G in *. cbn [place] in *.
      change (place (d0 ieee)) with 0 in *. rewrite Rabs_R0. exact M2.
    + destruct M4 as [M4|(x & X1 & X2 & X3)]; [left; exact M4|right]. destruct (I1 x X1) as (i & j & Hi & Hj & ->). eauto 6.
Qed.

(** C77.  Every one-part matrix (dense or sparse, of doubles or floats, or zero)
    that stands for the array [g]: the one-norm and the two-norm are NaN exactly if
    an element is, and infinite if none is NaN and one is infinite; the maximum
    norm is never NaN but the largest absolute value of the elements that are not
    NaN. *)
Theorem C77_special_one_part :
  forall k (l : leaf f32 f64) r c g, rep_leaf ieee l r c g -> l_compact l ->
    exists m, norm_leaf ieee ieee_n k l = Ok m /\
    let some (P : f64 -> Prop) := exists i j, (i < r)%nat /\ (j < c)%nat /\ P (g i j) in
    match k with
    | NMax => no_nan m /\ (forall i j, (i < r)%nat -> (j < c)%nat -> no_nan (g i j) -> Rabs (place (g i j)) <= place m) /\
              (place m = 0 \/ some (fun x => no_nan x /\ place m = Rabs (place x)))
    | _ => (is_nan m = true <-> some (fun x => is_nan x = true)) /\
           (~ some (fun x => is_nan x = true) -> some is_inf -> m = B754_infinity false)
    end.
Proof.
  intros k l r c g H C.
  destruct (norm_leaf_lists ieee ieee_n val finite (bpow radix2 (-53)) (bpow radix2 (-150)) C77_ieee_norm_rounding k l r c g H C) as [(el & [L1 L2 L3 L4] & E)|[H0 E]].
  - rewrite E. eexists. split; [reflexivity|]. apply special_list; assumption.
  - rewrite E. eexists. split; [reflexivity|].
    pose proof (special_list k r c g [] ltac:(intros x []) ltac:(intros i j Hi Hj; right; auto)) as S.
    destruct k; exact S.
Qed.
Print Assumptions C77_special_one_part.

(** A sparse matrix of floats with NaN and an infinity, and one with an infinity. *)
Definition sf_nan (x : f32) : sparse f32 := mkSparse ColMajor 2 2 4 [Some (B754_infinity true); Some x] [Some 0%nat; Some 1%nat] [Some 0%nat; Some 1%nat; Some 2%nat].
Definition sf_nan_f (x : f32) (i j : nat) : option f32 :=
  match i, j with O, O => Some (B754_infinity true) | 1%nat, 1%nat => Some x | _, _ => None end.
Example C77_special_one_part_nonvacuous :
  (forall x, sp_mat (sf_nan x) 2 2 (sf_nan_f x) /\ l_compact (F:=f32) (D:=f64) (LSf (sf_nan x))) /\
  norm_leaf ieee ieee_n NTwo (LSf (sf_nan B754_nan)) = Ok B754_nan /\
  norm_leaf ieee ieee_n NMax (LSf (sf_nan B754_nan)) = Ok (B754_infinity false) /\
  norm_leaf ieee ieee_n NOne (LSf (sf_nan (B754_zero true))) = Ok (B754_infinity false).
Proof.
  split; [|split; [|split]]; try reflexivity.
  intros x. split; [|reflexivity]. apply Sparse_Proofs.sp_mat_lines. repeat split; try reflexivity.
  exists [[(0%nat, B754_infinity true)]; [(1%nat, x)]]. split; [|split; [reflexivity|split]].
  - split; [reflexivity|]. exists [], []. repeat split.
  - repeat constructor; cbn; try lia.
  - intros [|[|i]] [|[|j]] Hi Hj; try (cbn in Hi, Hj; lia); reflexivity.
Qed.
Print Assumptions C77_special_one_part_nonvacuous.
