(** NaN and infinite elements: the norms over IEEE doubles for all matrices
    whatsoever (C77), and the whole block-wise product of matrices with NaN
    elements (C68). *)
From Coq Require Import ZArith Reals Lra Permutation.
From Verif Require Import Base BaseLemmas Dense_Model Dense_Spec Dense_Proofs Dense2_Proofs Dyn_Model Dyn_Spec Dyn_Proofs Dyn2_Proofs
  Conv_Spec Block_Proofs Bsg_Model Bsg_Spec Bsg_Props Bench_Model BlkAct_Model BlkAct_Props Dyn_Props Mult_Model
  Norm_Model Norm_Spec Norm_Proofs Fp_Spec Fp_Proofs Fp_Ieee Fp_Props FpBlk_Props FpRange_Props FpNorm_Spec FpNorm2_Props Exact27_Props Exact29_Props.
From Flocq Require Import Core BinarySingleNaN.
#[local] Open Scope R_scope.

Definition is_inf (x : f64) : Prop := exists s, x = B754_infinity s.
(** Not NaN and without sign. *)
Definition plain (x : f64) : Prop := no_nan x /\ Bsign x = false.

Lemma bin_nan_l (x : f64) : badd 53 1024 prec53 emax1024 B754_nan x = B754_nan.
Proof. reflexivity. Qed.
Lemma bin_nan_r (x y : f64) : is_nan y = true -> is_nan (badd 53 1024 prec53 emax1024 x y) = true.
Proof. destruct y; try discriminate. intros _. destruct x as [|[]| |]; reflexivity. Qed.
Lemma SF_inf (x : f64) s : B2SF x = SpecFloat.S754_infinity s -> x = B754_infinity s.
Proof. destruct x; try discriminate. now intros [= ->]. Qed.
Lemma plus_plain (x y : f64) : plain x -> plain y ->
  plain (badd 53 1024 prec53 emax1024 x y) /\ (is_inf x \/ is_inf y -> badd 53 1024 prec53 emax1024 x y = B754_infinity false).
Proof.
  intros [Nx Sx] [Ny Sy]. destruct (is_finite x) eqn:Fx; destruct (is_finite y) eqn:Fy.
  - split; [|intros [[s ->]|[s ->]]; discriminate].
    pose proof (Bplus_correct 53 1024 prec53 emax1024 mode_NE x y Fx Fy) as C. unfold badd.
    destruct Rlt_bool.
    + destruct C as (C1 & C2 & C3).
      assert (Px : 0 <= B2R x) by (destruct x as [| | |[]]; try discriminate; cbn; try lra; apply F2R_ge_0; cbn; lia).
      assert (Py : 0 <= B2R y) by (destruct y as [| | |[]]; try discriminate; cbn; try lra; apply F2R_ge_0; cbn; lia).
      split; [unfold no_nan; destruct (Bplus mode_NE x y); try discriminate; reflexivity|].
      rewrite C3, Sx, Sy. destruct (Rcompare_spec (B2R x + B2R y) 0); try reflexivity. lra.
    + destruct C as [C _]. rewrite Sx in C. apply SF_inf in C. rewrite C. split; reflexivity.
  - destruct y as [|s| |]; try discriminate. cbn in Sy. subst s. destruct x as [|[]| |]; try discriminate; (split; [split|]; reflexivity).
  - destruct x as [|s| |]; try discriminate. cbn in Sx. subst s. destruct y as [|[]| |]; try discriminate; (split; [split|]; reflexivity).
  - destruct x as [|s| |]; try discriminate. destruct y as [|s'| |]; try discriminate. cbn in Sx, Sy. subst. split; [split|]; reflexivity.
Qed.
Lemma abs_plain (x : f64) : no_nan x -> plain (Babs x) /\ (is_inf x -> is_inf (Babs x)).
Proof. intros N. split; [split; [unfold no_nan; now rewrite abs_nan|now destruct x]|]. intros [s ->]. now exists false. Qed.
Lemma sq_plain (x : f64) : no_nan x -> plain (sq64 x) /\ (is_inf x -> is_inf (sq64 x)).
Proof.
  intros N. unfold sq64. destruct (is_finite x) eqn:Fx.
  - split; [|intros [s ->]; discriminate].
    pose proof (Bmult_correct 53 1024 prec53 emax1024 mode_NE x x) as C. destruct Rlt_bool.
    + destruct C as (_ & C2 & C3). rewrite Fx in C2. cbn [andb] in C2.
      assert (NN : is_nan (Bmult mode_NE x x) = false) by (destruct (Bmult mode_NE x x); try discriminate; reflexivity).
      split; [exact NN|]. rewrite (C3 NN). apply xorb_nilpotent.
    + rewrite xorb_nilpotent in C. apply SF_inf in C. rewrite C. split; reflexivity.
  - destruct x as [|[]| |]; try discriminate; (split; [split; reflexivity|intros _; now exists false]).
Qed.
Lemma sqrt_plain (x : f64) : plain x -> no_nan (Bsqrt mode_NE x) /\ (is_inf x -> Bsqrt mode_NE x = B754_infinity false).
Proof.
  intros [N S]. split.
  - destruct x as [s|[]| |[] m e B]; try discriminate; try reflexivity.
    destruct (Bsqrt_correct 53 1024 prec53 emax1024 mode_NE (B754_finite false m e B)) as (_ & F & _).
    unfold no_nan. destruct (Bsqrt mode_NE _); try discriminate; reflexivity.
  - intros [s ->]. cbn in S. subst s. reflexivity.
Qed.

(** The loops over the elements in storage order. *)
Lemma sum_special (g : f64 -> f64) (l : list f64) : (forall x, is_nan x = true -> is_nan (g x) = true) ->
  (forall x, no_nan x -> plain (g x) /\ (is_inf x -> is_inf (g x))) ->
  forall s, plain s ->
  let m := fold_left (fun a x => addD ieee a (g x)) l s in
  (List.Exists (fun x => is_nan x = true) l -> is_nan m = true) /\
  (List.Forall no_nan l -> plain m /\ (is_inf s \/ List.Exists is_inf l -> is_inf m)).
Proof.
  intros GN GP. induction l as [|x l IH]; intros s Ps m; subst m; cbn [fold_left].
  - split; [intros H; inversion H|]. intros _. split; [exact Ps|]. intros [H|H]; [exact H|inversion H].
  - destruct (is_nan x) eqn:N.
    + split; [|intros H; inversion H; subst; unfold no_nan in *; congruence]. intros _.
      assert (E : is_nan (addD ieee s (g x)) = true) by (apply bin_nan_r; now apply GN).
      assert (Z : forall l (a : f64), is_nan a = true -> is_nan (fold_left (fun a x => addD ieee a (g x)) l a) = true).
      { clear. induction l as [|x l IH]; intros a Ha; [exact Ha|]. cbn [fold_left]. apply IH. destruct a; try discriminate. reflexivity. }
      now apply Z.
    + destruct (GP x N) as [P1 P2]. destruct (plus_plain s (g x) Ps P1) as [Q1 Q2].
      destruct (IH (addD ieee s (g x)) Q1) as [I1 I2]. split.
      * intros H. inversion H; subst; [congruence|]. auto.
      * intros H. inversion H; subst. destruct (I2 H3) as [J1 J2]. split; [exact J1|].
        intros [K|K]; [apply J2; left; exists false; apply Q2; auto|].
        inversion K; subst; apply J2; [left; exists false; apply Q2; auto|now right].
Qed.

Lemma max_special (l : list f64) : forall s, plain s ->
  let m := fold_left (fun a x => maxD ieee a (Babs x)) l s in
  plain m /\ place s <= place m /\ (forall x, List.In x l -> no_nan x -> Rabs (place x) <= place m) /\
  (place m = place s \/ exists x, List.In x l /\ no_nan x /\ place m = Rabs (place x)).
Proof.
  induction l as [|x l IH]; intros s Ps m; subst m; cbn [fold_left].
  - split; [exact Ps|]. split; [lra|]. split; [intros ? []|now left].
  - assert (M : plain (maxD ieee s (Babs x)) /\ place s <= place (maxD ieee s (Babs x)) /\
       (no_nan x -> Rabs (place x) <= place (maxD ieee s (Babs x))) /\
       (place (maxD ieee s (Babs x)) = place s \/ no_nan x /\ place (maxD ieee s (Babs x)) = Rabs (place x))).
    { unfold maxD. cbn [ieee ltD]. destruct (is_nan x) eqn:N.
      - rewrite (proj1 (nan_lt_r s (Babs x) ltac:(now rewrite abs_nan))). split; [exact Ps|]. split; [lra|]. split; [|now left].
        intros H. unfold no_nan in H. congruence.
      - destruct (abs_plain x N) as [PA _]. rewrite lt_place by (apply Ps || apply PA). rewrite abs_place.
        destruct (Rlt_bool_spec (place s) (Rabs (place x))); [rewrite abs_place; split; [exact PA|]|split; [exact Ps|]];
          (split; [lra|]); (split; [intros; lra|]); auto. }
    destruct M as (M1 & M2 & M3 & M4). destruct (IH _ M1) as (I1 & I2 & I3 & I4).
    split; [exact I1|]. split; [lra|]. split.
    + intros y [<-|Hy] Ny; [specialize (M3 Ny); lra|auto].
    + destruct I4 as [I4|(y & Y1 & Y2 & Y3)]; [|right; exists y; auto using List.in_cons].
      rewrite I4. destruct M4 as [M4|[M4 M5]]; [now left|right]. exists x. split; [now left|]. auto.
Qed.

(** C77.  Dense matrices and windows with any elements: the one-norm and the
    two-norm are NaN exactly if some element is, and infinite if none is NaN and
    one is infinite; the maximum norm is never NaN, it is the largest absolute
    value of the elements that are not NaN, infinities included. *)
Theorem C77_special_elements :
  forall k (d : dense f64) r c f, view d r c f -> iterable d ->
    exists m, norm_dense ieee ieee_n (n_accD ieee ieee_n k) k d = Ok m /\
    let some (P : f64 -> Prop) := exists i j, (i < r)%nat /\ (j < c)%nat /\ P (f i j) in
    match k with
    | NMax => no_nan m /\ (forall i j, (i < r)%nat -> (j < c)%nat -> no_nan (f i j) -> Rabs (place (f i j)) <= place m) /\
              (place m = 0 \/ some (fun x => no_nan x /\ place m = Rabs (place x)))
    | _ => (is_nan m = true <-> some (fun x => is_nan x = true)) /\
           (~ some (fun x => is_nan x = true) -> some is_inf -> m = B754_infinity false)
    end.
Proof.
  intros k d r c f V IT. rewrite (norm_dense_val ieee ieee_n _ k d r c f V IT). eexists. split; [reflexivity|].
  set (l := in_storage_order (d_orient d) r c f).
  assert (IN : forall x, List.In x l <-> exists i j, (i < r)%nat /\ (j < c)%nat /\ x = f i j).
  { intros x. unfold l. rewrite storage_order_map, List.in_map_iff. split.
    - intros ([i j] & <- & H). apply in_order in H. exists i, j. cbn. tauto.
    - intros (i & j & Hi & Hj & ->). exists (i, j). split; [reflexivity|]. apply in_order. tauto. }
  assert (EX : forall P : f64 -> Prop, List.Exists P l <-> exists i j, (i < r)%nat /\ (j < c)%nat /\ P (f i j)).
  { intros P. rewrite List.Exists_exists. split.
    - intros (x & H & Hx). apply IN in H. destruct H as (i & j & Hi & Hj & ->). eauto.
    - intros (i & j & Hi & Hj & H). exists (f i j). split; [apply IN; eauto|exact H]. }
  assert (P0 : plain (d0 ieee)) by (split; reflexivity).
  assert (SUM : forall (g : f64 -> f64), (forall x, is_nan x = true -> is_nan (g x) = true) ->
     (forall x, no_nan x -> plain (g x) /\ (is_inf x -> is_inf (g x))) ->
     let m := fold_left (fun a x => addD ieee a (g x)) l (d0 ieee) in
     (is_nan m = true <-> exists i j, (i < r)%nat /\ (j < c)%nat /\ is_nan (f i j) = true) /\
     (is_nan m = false -> plain m) /\
     (~ (exists i j, (i < r)%nat /\ (j < c)%nat /\ is_nan (f i j) = true) -> (exists i j, (i < r)%nat /\ (j < c)%nat /\ is_inf (f i j)) -> plain m /\ is_inf m)).
  { intros g G1 G2 m. destruct (sum_special g l G1 G2 _ P0) as [S1 S2]. fold m in S1, S2.
    assert (D : List.Exists (fun x => is_nan x = true) l \/ List.Forall no_nan l).
    { clear. induction l as [|x l IH]; [right; constructor|]. destruct (is_nan x) eqn:N; [left; now constructor|].
      destruct IH; [left; now constructor 2|right; now constructor]. }
    split; [|split].
    - rewrite <- (EX (fun x => is_nan x = true)). split; [|exact S1]. intros Hm. destruct D as [D|D]; [exact D|]. destruct (S2 D) as [[N _] _]. unfold no_nan in N. congruence.
    - intros Hm. destruct D as [D|D]; [apply S1 in D; congruence|]. apply (S2 D).
    - intros HN HI. rewrite <- (EX (fun x => is_nan x = true)) in HN. rewrite <- EX in HI. destruct D as [D|D]; [contradiction|]. destruct (S2 D) as [A B]. auto. }
  destruct k; cbn [n_fin]; cbv zeta.
  - destruct (SUM Babs) as (S1 & _ & S3); [intros x H; now rewrite abs_nan|exact abs_plain|].
    split; [exact S1|]. intros HN HI. destruct (S3 HN HI) as [[_ Q] [s Hs]]. change (n_accD ieee ieee_n NOne) with (fun a x => addD ieee a (Babs x)).
    rewrite Hs in *. cbn in Q. now subst s.
  - destruct (SUM sq64) as (S1 & S2 & S3); [intros x H; destruct x; try discriminate; reflexivity|exact sq_plain|].
    change (n_accD ieee ieee_n NTwo) with (fun a x => addD ieee a (sq64 x)). cbn [ieee_n sqrtD].
    set (m := fold_left _ l (d0 ieee)) in *. split.
    + rewrite <- S1. split; [|destruct m; try discriminate; reflexivity]. intros H. destruct (is_nan m) eqn:E; [reflexivity|].
      destruct (sqrt_plain m (S2 eq_refl)) as [N _]. unfold no_nan in N. congruence.
    + intros HN HI. destruct (S3 HN HI) as [A B]. now apply sqrt_plain.
  - destruct (max_special l _ P0) as (M1 & M2 & M3 & M4). change (n_accD ieee ieee_n NMax) with (fun a x => maxD ieee a (Babs x)).
    split; [apply M1|]. split.
    + intros i j Hi Hj H. apply M3; [apply IN; eauto|exact H].
    + destruct M4 as [M4|(x & X1 & X2 & X3)]; [left; exact M4|right]. apply IN in X1. destruct X1 as (i & j & Hi & Hj & ->). eauto 6.
Qed.
Print Assumptions C77_special_elements.

(** A 1 x 2 matrix with an infinity and NaN: two elements of the three classes. *)
Definition inf_nan : dense f64 := mkDense (own_shape ColMajor 1 2) 2 [Some (B754_infinity true); Some B754_nan] true.
Definition inf_nan_f (_ j : nat) : f64 := match j with O => B754_infinity true | _ => B754_nan end.
Definition inf_one : dense f64 := mkDense (own_shape ColMajor 1 2) 2 [Some (B754_infinity true); Some (B754_zero false)] true.
Example C77_special_nonvacuous :
  view inf_nan 1 2 inf_nan_f /\ iterable inf_nan /\
  norm_dense ieee ieee_n (n_accD ieee ieee_n NOne) NOne inf_nan = Ok B754_nan /\
  norm_dense ieee ieee_n (n_accD ieee ieee_n NTwo) NTwo inf_nan = Ok B754_nan /\
  norm_dense ieee ieee_n (n_accD ieee ieee_n NMax) NMax inf_nan = Ok (B754_infinity false) /\
  norm_dense ieee ieee_n (n_accD ieee ieee_n NTwo) NTwo inf_one = Ok (B754_infinity false).
Proof.
  split; [|split; [|split; [|split; [|split]]]]; try reflexivity.
  - split; [reflexivity|]. split; [reflexivity|]. intros [|i] [|[|j]] Hi Hj; try lia; reflexivity.
  - left. repeat split.
Qed.
Print Assumptions C77_special_nonvacuous.

(** C68.  The whole block-wise product with the sizes the program chooses, of
    matrices whose elements are NaN or finite and at most 2^50 in absolute value:
    it finishes without an error and its elements are finite, close to the product
    of the matrices with 0 in place of NaN ([val] of NaN is 0): NaN is lost. *)
Theorem C68_nan_is_lost_refuted :
  forall (bn : bnum f64) ready p exc dbg mn mx (A B : dense f64) m n l fa fb ri ki ci runs,
    (forall t, List.In t type_list -> ready t = true) -> fits p m n l ->
    is_mat A m n fa -> d_orient A = ColMajor -> (Z.of_nat (length (d_buf A)) < 2 ^ 63)%Z ->
    is_mat B n l fb -> d_orient B = ColMajor -> (Z.of_nat (length (d_buf B)) < 2 ^ 63)%Z ->
    (1 <= m)%nat -> (1 <= n <= 2 ^ 20)%nat -> (1 <= l)%nat -> (1 <= runs)%nat ->
    order_of ri (m - 1) -> order_of ki (n - 1) -> order_of ci (l - 1) ->
    (forall i j, (i < m)%nat -> (j < n)%nat -> is_nan (fa i j) = true \/ finite (fa i j) /\ Rabs (val (fa i j)) <= bpow radix2 50) ->
    (forall i j, (i < n)%nat -> (j < l)%nat -> is_nan (fb i j) = true \/ finite (fb i j) /\ Rabs (val (fb i j)) <= bpow radix2 50) ->
    (0 <= mn <= 1)%Z -> (2 * mn <= mx)%Z -> (mx < 2 ^ 31)%Z ->
    exists d h, execute_block ieee bn ready p exc dbg true default_threshold mn mx ri ki ci runs A B = Ok d /\ is_mat d m l h /\
      forall i j, (i < m)%nat -> (j < l)%nat -> finite (h i j) /\
        Rabs (val (h i j) - rsum n (fun q => val (fa i q) * val (fb q j))) <=
          block_bound p n (fun q => Rabs (val (fa i q))) (fun q => Rabs (val (fb q j))).
Proof.
  intros bn ready p exc dbg mn mx A B m n l fa fb ri ki ci runs Hr Hf MA OA LA MB OB LB Lm Ln Ll Lr P1 P2 P3 FA FB H1 H2 H3.
  pose proof (limits_ok mn mx (proj1 H1) H2 H3) as EL.
  destruct (sizes_cases bn A B m n l fa fb ri ki ci MA MB Lm (proj1 Ln) Ll P1 P2 P3 (Z.to_nat mn) (Z.to_nat mx)) as [(rl & nl & cl & G)|[L G]]; [|lia].
  destruct (C39_product_sizes_tile f64 bn A B m n l fa fb _ _ ri ki ci rl nl cl MA MB Lm (proj1 Ln) Ll P1 P2 P3 G) as (T1 & T2 & T3).
  destruct (C62_nan_is_multiplied_as_zero_refuted ready p exc dbg A B m n l fa fb rl nl cl Hr (fits_blocks p m n l rl nl cl Hf T1 T2 T3)
      MA OA LA MB OB LB T1 T2 T3 Ln FA FB) as (a & b & c & d & h & Ea & Eb & Ec & Ed & Md & Hh).
  exists d, h. split; [|split; [exact Md|exact Hh]].
  eapply execute_sizes; eauto. unfold block_sizes. rewrite EL. exact G.
Qed.
Print Assumptions C68_nan_is_lost_refuted.

(** A 1 x 1 matrix of NaN meets the hypotheses. *)
Example C68_nan_nonvacuous :
  is_mat nan11 1 1 (fun _ _ => B754_nan) /\ d_orient nan11 = ColMajor /\ fits PNative 1 1 1 /\
  order_of (@nil nat) 0 /\ is_nan (B754_nan : f64) = true.
Proof.
  split; [exact (proj1 C62_nan_nonvacuous)|]. split; [reflexivity|]. split; [exact Coq.Init.Logic.I|].
  split; [|reflexivity]. unfold order_of. cbn. constructor.
Qed.
Print Assumptions C68_nan_nonvacuous.
