(** C79 for IEEE doubles: the order of the keys is sound for every checker whose
    bounds are not NaN (infinities, signed zeros and subnormals included). *)
From Coq Require Import ZArith Reals Lra.
From Flocq Require Import Core BinarySingleNaN.
From Verif Require Import Base BaseLemmas Dense_Model Dense_Spec Dense_Proofs Sparse_Model Mult_Model Dyn_Model Check_Model Check_Spec
  Check_Props Dyn_Props Fp_Ieee ConvC_Model ConvC_Props.

Definition not_nan (x : f64) : Prop := is_nan x = false.

Section Cmp.
#[local] Notation cmp := (@Bcompare 53 1024).
Lemma cmp_fin (x y : f64) : is_finite x = true -> is_finite y = true -> cmp x y = Some (Rcompare (B2R x) (B2R y)).
Proof. apply Bcompare_correct. Qed.

(** Neither below the other: the same place among all doubles. *)
Lemma tie (x y : f64) : not_nan x -> not_nan y -> Bltb x y = false -> Bltb y x = false ->
  forall v, cmp x v = cmp y v /\ cmp v x = cmp v y.
Proof.
  unfold not_nan, Bltb, SpecFloat.SFltb. fold cmp. change (SpecFloat.SFcompare (B2SF x) (B2SF y)) with (cmp x y).
  change (SpecFloat.SFcompare (B2SF y) (B2SF x)) with (cmp y x). intros Nx Ny H1 H2 v.
  destruct (is_finite x) eqn:Fx.
  - destruct (is_finite y) eqn:Fy.
    + rewrite (cmp_fin x y Fx Fy) in H1. rewrite (cmp_fin y x Fy Fx) in H2.
      assert (E : B2R x = B2R y).
      { destruct (Rcompare_spec (B2R x) (B2R y)) as [L|L|L]; [discriminate|exact L|]. rewrite Rcompare_Lt in H2 by exact L. discriminate. }
      destruct (is_finite v) eqn:Fv.
      * rewrite !cmp_fin by assumption. rewrite E. auto.
      * destruct v as [|[]| |]; try discriminate; destruct x, y; try discriminate; split; reflexivity.
    + destruct y as [|[]| |]; try discriminate; destruct x; discriminate.
  - destruct x as [|[]| |]; try discriminate; destruct y as [|[]| |[] ]; try discriminate; split; reflexivity.
Qed.
End Cmp.

Lemma tie_lt (x y : f64) : not_nan x -> not_nan y -> Bltb x y = false -> Bltb y x = false ->
  forall v, Bltb x v = Bltb y v /\ Bltb v x = Bltb v y /\ Bleb x v = Bleb y v /\ Bleb v x = Bleb v y.
Proof.
  intros Nx Ny H1 H2 v. destruct (tie x y Nx Ny H1 H2 v) as [A B]. unfold Bcompare in A, B.
  unfold Bltb, Bleb, SpecFloat.SFltb, SpecFloat.SFleb. rewrite A, B. auto.
Qed.

(** A checker a program can build over doubles without naming NaN. *)
Definition proper (k : checker f64) : Prop := ck_t k = TTdouble /\ not_nan (ck_lo k) /\ not_nan (ck_hi k).

Lemma ieee_keys_agree : keys_agree ieee proper.
Proof.
  intros [t k lo hi] [t' k' lo' hi'] (Et & Nl & Nh) (Et' & Nl' & Nh'). cbn in Et, Et', Nl, Nh, Nl', Nh'. subst t t'. split; [reflexivity|].
  intros H1 H2 x. unfold ck_lt, ck_id in H1, H2. cbn [ck_t ck_k ck_lo ck_hi] in H1, H2.
  destruct k, k'; cbn in H1, H2; try discriminate; unfold ck_ok; cbn [ck_k ck_lo ck_hi ieee ltD leD absD].
  - injection H1 as H1. injection H2 as H2. apply (tie_lt lo lo' Nl Nl' H1 H2).
  - injection H1 as H1. injection H2 as H2. unfold lex2 in H1, H2. cbn [ieee ltD] in H1, H2.
    destruct (Bltb lo lo') eqn:E1; [discriminate|]. destruct (Bltb lo' lo) eqn:E2; [discriminate|].
    destruct (tie_lt lo lo' Nl Nl' E1 E2 (Babs x)) as (A1 & A2 & A3 & A4).
    destruct (tie_lt hi hi' Nh Nh' H1 H2 (Babs x)) as (B1 & B2 & B3 & B4). now rewrite A1, B4.
  - injection H1 as H1. injection H2 as H2. unfold lex2 in H1, H2. cbn [ieee ltD] in H1, H2.
    destruct (Bltb lo lo') eqn:E1; [discriminate|]. destruct (Bltb lo' lo) eqn:E2; [discriminate|].
    destruct (tie_lt lo lo' Nl Nl' E1 E2 (Babs x)) as (A1 & A2 & A3 & A4).
    destruct (tie_lt hi hi' Nh Nh' H1 H2 (Babs x)) as (B1 & B2 & B3 & B4). now rewrite A3, B4.
  - injection H1 as H1. injection H2 as H2. unfold lex2 in H1, H2. cbn [ieee ltD] in H1, H2.
    destruct (Bltb lo lo') eqn:E1; [discriminate|]. destruct (Bltb lo' lo) eqn:E2; [discriminate|].
    destruct (tie_lt lo lo' Nl Nl' E1 E2 (Babs x)) as (A1 & A2 & A3 & A4).
    destruct (tie_lt hi hi' Nh Nh' H1 H2 (Babs x)) as (B1 & B2 & B3 & B4). now rewrite A1, B2.
Qed.

(** Doubles, any recorded true counts for checkers without NaN, thresholds without
    NaN: what is recorded does not change the conversion, and stays true. *)
Theorem C79_recorded_counts_ieee :
  forall exc dbg (th : threshold f64) (m : dense f64) c, not_nan (sigD th) -> not_nan (sigF th) ->
    counts_true ieee proper m c ->
    value (convert_c ieee exc dbg th m c) = convert ieee exc dbg th m /\
    forall c' d, convert_c ieee exc dbg th m c = Ok (c', d) -> counts_true ieee proper m c'.
Proof.
  intros exc dbg th m c Hd Hf HC. apply same_value.
  apply convert_same; auto using ieee_keys_agree; unfold proper, not_nan in *; cbn; auto.
Qed.
Print Assumptions C79_recorded_counts_ieee.

(** Cutting a matrix of doubles, whatever its elements. *)
Theorem C79_cut_ieee :
  forall exc dbg (th : threshold f64) (m : dense f64) rl cl, not_nan (sigD th) -> not_nan (sigF th) ->
    cut_c ieee exc dbg th m rl cl = cut ieee exc dbg th m rl cl.
Proof.
  intros exc dbg th m rl cl Hd Hf. apply C79_cut. intros H1 H2 x. apply (tie_lt (sigD th) (sigF th) Hd Hf H1 H2 x).
Qed.
Print Assumptions C79_cut_ieee.

(** With a NaN threshold the two questions are one key: the count for the other
    threshold is answered with it, and a full matrix becomes one without storage.
    Here double is Z plus NaN. *)
Definition nan_th : threshold (option Z) :=
  mkThreshold (Some 1%Z) None (fun t e => match t with TL TZ => Some 0%Z | _ => Some 1000%Z end).
Definition full_nan : dense (option Z) := mkDense (own_shape ColMajor 2 2) 4 (map (fun x => Some (Some x)) [5; 6; 7; 8]%Z) true.
Theorem C79_nan_threshold_refuted :
  value (convert_c nan_ar true true nan_th full_nan []) = Ok (DL (LZ (z_new 2 2))) /\
  value (convert_c nan_ar true true nan_th full_nan []) <> convert nan_ar true true nan_th full_nan.
Proof. split; vm_compute; [reflexivity|discriminate]. Qed.
