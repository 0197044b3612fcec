(** No overflow in products of run-time typed and blocked matrices and in the
    whole pipeline. *)
From Coq Require Import Reals Lra Psatz.
From Verif Require Import Base BaseLemmas Dense_Model Dense_Spec Dense_Proofs Dense2_Proofs Sparse_Model Sparse_Spec
  Mult_Model Mult_Spec Dyn_Model Dyn_Spec Dyn_Proofs Dyn2_Proofs
  Block_Proofs Conv_Spec Conv_Proofs Eval_Spec Eval_Proofs Fp_Spec Fp_Proofs FpConv_Proofs Sparse_Props Dyn_Props FpFin_Proofs.
#[local] Open Scope R_scope.

Lemma is_mat_uniq {T} (d : dense T) r c f f' : is_mat d r c f -> is_mat d r c f' ->
  forall i j, (i < r)%nat -> (j < c)%nat -> f i j = f' i j.
Proof.
  intros (_ & _ & _ & M) (_ & _ & _ & M') i j Hi Hj. specialize (M i j Hi Hj). rewrite (M' i j Hi Hj) in M. now injection M.
Qed.

Section P.
Context {F D : Type} (ar : arith F D) (v : D -> R) (fin : D -> Prop) (uD uF eta om : R).
Context (X : rounding ar v fin uD uF eta) (Y : range ar v fin uD uF eta om).
Let Hu : 0 <= uD <= uF /\ 0 <= eta := ro_u _ _ _ _ _ _ X.
#[local] Notation weight := (weight uF eta).
#[local] Notation leaf_fin := (leaf_fin ar fin).
#[local] Notation dyn_fin := (dyn_fin ar fin).

(** The two sums of one product. *)
Lemma sum_in p n (a b c d : nat -> R) :
  rsum n (fun q => in_double p (a q) (b q) (c q) (d q)) + rsum n (fun q => in_float p (a q) (b q) (c q) (d q)) =
  rsum n (fun q => (a q + b q) * (c q + d q)).
Proof. rewrite <- rsum_add. apply rsum_ext. intros q _. apply in_sum. Qed.

Definition Pr n (A B : nat -> R) := rsum n (fun q => A q * B q).
Definition Er p n (A B : nat -> R) := eta * (INR n + mkl p * rsum n (fun q => A q + B q)).
Lemma Pr_pos n A B : (forall q, (q < n)%nat -> 0 <= A q /\ 0 <= B q) -> 0 <= Pr n A B.
Proof. intros H. apply rsum_pos. intros q Hq. destruct (H q Hq). now apply Rmult_le_pos. Qed.
Lemma Er_pos p n A B : (forall q, (q < n)%nat -> 0 <= A q /\ 0 <= B q) -> 0 <= Er p n A B.
Proof.
  intros H. unfold Er. pose proof (mkl_pos p). pose proof (pos_INR n).
  assert (0 <= rsum n (fun q => A q + B q)) by (apply rsum_pos; intros q Hq; destruct (H q Hq); lra).
  apply Rmult_le_pos; [lra|]. assert (0 <= mkl p * rsum n (fun q => A q + B q)) by (now apply Rmult_le_pos). lra.
Qed.

Lemma mul_dyn_fin p dbg a b m n l va wda wfa vb wdb wfb c :
  dyn_real ar v a m n va wda wfa -> dyn_real ar v b n l vb wdb wfb -> fits p m n l ->
  dyn_fin a m n -> dyn_fin b n l ->
  (p = PMKL -> forall i j q, (i < m)%nat -> (j < l)%nat -> (q < n)%nat -> wda i q + wfa i q <= om /\ wdb q j + wfb q j <= om) ->
  (forall i j, (i < m)%nat -> (j < l)%nat -> weight p (n + 5) n (fun q => wda i q + wfa i q) (fun q => wdb q j + wfb q j) <= om) ->
  mul_dyn ar p dbg a b = Ok c -> leaf_fin c m l.
Proof.
  intros Ha Hb Hf Fa Fb HM HB E. pose proof (mkl_pos p) as Pm. pose proof (pos_INR n) as Pn.
  destruct a as [a|t1 t2 [a1|] [a2|]], b as [b|u1 u2 [b1|] [b2|]]; cbn [dyn_real] in Ha, Hb; try contradiction; cbn [FpFin_Proofs.dyn_fin] in Fa, Fb.
  - pose proof (leaf_real_pos ar v _ _ _ _ _ _ Ha) as Pa. pose proof (leaf_real_pos ar v _ _ _ _ _ _ Hb) as Pb.
    cbn [mul_dyn] in E. eapply (mul_leaf_fin ar v fin uD uF eta om X Y p dbg a b m n l _ _ _ _ _ _ c Ha Hb Hf Fa Fb HM); [|exact E].
    intros i j Hi Hj. eapply Rle_trans; [|apply (HB i j Hi Hj)]. apply (weight_mono ar v fin uD uF eta X); [lia|..]; intros q Hq.
    + destruct (Pa i q Hi Hq). lra.
    + destruct (Pb q j Hq Hj). lra.
  - destruct Hb as (_ & _ & vb1 & wdb1 & wfb1 & vb2 & wdb2 & wfb2 & H1 & H2 & Hs). destruct Fb as [Fb1 Fb2]. cbn [mul_dyn deref bind] in E.
    pose proof (leaf_real_pos ar v _ _ _ _ _ _ Ha) as Pa. pose proof (leaf_real_pos ar v _ _ _ _ _ _ H1) as P1. pose proof (leaf_real_pos ar v _ _ _ _ _ _ H2) as P2.
    destruct (approx_mul ar v fin uD uF eta X p dbg a b1 m n l _ _ _ _ _ _ Ha H1 Hf) as (c1 & E1 & _ & A1).
    destruct (approx_mul ar v fin uD uF eta X p dbg a b2 m n l _ _ _ _ _ _ Ha H2 Hf) as (c2 & E2 & _ & A2). rewrite E1, E2 in E. cbn [bind] in E.
    assert (L1 : leaf_fin c1 m l).
    { eapply (mul_leaf_fin ar v fin uD uF eta om X Y p dbg a b1 m n l _ _ _ _ _ _ c1 Ha H1 Hf Fa Fb1); [| |exact E1].
      - intros Hp i j q Hi Hj Hq. destruct (HM Hp i j q Hi Hj Hq). destruct (Hs q j Hq Hj) as (_ & S1 & S2), (P1 q j Hq Hj), (P2 q j Hq Hj). split; lra.
      - intros i j Hi Hj. eapply Rle_trans; [|apply (HB i j Hi Hj)]. apply (weight_mono ar v fin uD uF eta X); [lia|..]; intros q Hq.
        + destruct (Pa i q Hi Hq). lra.
        + destruct (Hs q j Hq Hj) as (_ & S1 & S2), (P1 q j Hq Hj), (P2 q j Hq Hj). lra. }
    assert (L2 : leaf_fin c2 m l).
    { eapply (mul_leaf_fin ar v fin uD uF eta om X Y p dbg a b2 m n l _ _ _ _ _ _ c2 Ha H2 Hf Fa Fb2); [| |exact E2].
      - intros Hp i j q Hi Hj Hq. destruct (HM Hp i j q Hi Hj Hq). destruct (Hs q j Hq Hj) as (_ & S1 & S2), (P1 q j Hq Hj), (P2 q j Hq Hj). split; lra.
      - intros i j Hi Hj. eapply Rle_trans; [|apply (HB i j Hi Hj)]. apply (weight_mono ar v fin uD uF eta X); [lia|..]; intros q Hq.
        + destruct (Pa i q Hi Hq). lra.
        + destruct (Hs q j Hq Hj) as (_ & S1 & S2), (P1 q j Hq Hj), (P2 q j Hq Hj). lra. }
    eapply (plus_fin ar v fin uD uF eta om X Y dbg c1 c2 m l _ _ _ _ _ _ _ _ _ c A1 A2 L1 L2); [|exact E].
    intros i j Hi Hj. eapply Rle_trans; [|apply (HB i j Hi Hj)]. unfold FpFin_Proofs.weight. apply (size_mono ar v fin uD uF eta X); [lia|].
    pose proof (sum_in p n (wda i) (wfa i) (fun q => wdb1 q j) (fun q => wfb1 q j)) as Q1.
    pose proof (sum_in p n (wda i) (wfa i) (fun q => wdb2 q j) (fun q => wfb2 q j)) as Q2.
    cbv beta in Q1, Q2.
    change (rsum n (fun q => (wda i q + wfa i q) * (wdb1 q j + wfb1 q j))) with (Pr n (fun q => wda i q + wfa i q) (fun q => wdb1 q j + wfb1 q j)) in Q1.
    change (rsum n (fun q => (wda i q + wfa i q) * (wdb2 q j + wfb2 q j))) with (Pr n (fun q => wda i q + wfa i q) (fun q => wdb2 q j + wfb2 q j)) in Q2.
    change (eta * (INR n + mkl p * rsum n (fun q => wda i q + wfa i q + (wdb1 q j + wfb1 q j)))) with (Er p n (fun q => wda i q + wfa i q) (fun q => wdb1 q j + wfb1 q j)).
    change (eta * (INR n + mkl p * rsum n (fun q => wda i q + wfa i q + (wdb2 q j + wfb2 q j)))) with (Er p n (fun q => wda i q + wfa i q) (fun q => wdb2 q j + wfb2 q j)).
    set (Wa := fun q => wda i q + wfa i q) in *. set (W1 := fun q => wdb1 q j + wfb1 q j) in *. set (W2 := fun q => wdb2 q j + wfb2 q j) in *.
    assert (N1 : forall q, (q < n)%nat -> 0 <= Wa q /\ 0 <= W1 q) by (intros q Hq; unfold Wa, W1; destruct (Pa i q Hi Hq), (P1 q j Hq Hj); lra).
    assert (N2 : forall q, (q < n)%nat -> 0 <= Wa q /\ 0 <= W2 q) by (intros q Hq; unfold Wa, W2; destruct (Pa i q Hi Hq), (P2 q j Hq Hj); lra).
    assert (SP : Pr n Wa W1 + Pr n Wa W2 = rsum n (fun q => (wda i q + wfa i q) * (wdb q j + wfb q j))).
    { unfold Pr. rewrite <- rsum_add. apply rsum_ext. intros q Hq. destruct (Hs q j Hq Hj) as (_ & -> & ->). unfold Wa, W1, W2. ring. }
    assert (SE : Er p n Wa W1 + Er p n Wa W2 <= eta * (4 * INR n + 2 * mkl p * rsum n (fun q => wda i q + wfa i q + (wdb q j + wfb q j)))).
    { unfold Er. rewrite <- Rmult_plus_distr_l. apply Rmult_le_compat_l; [lra|].
      assert (T : rsum n (fun q => Wa q + W1 q) + rsum n (fun q => Wa q + W2 q) <= 2 * rsum n (fun q => wda i q + wfa i q + (wdb q j + wfb q j))).
      { rewrite <- rsum_add, <- rsum_scal. apply rsum_le. intros q Hq. destruct (Hs q j Hq Hj) as (_ & -> & ->).
        destruct (N1 q Hq), (N2 q Hq). unfold Wa, W1, W2 in *. lra. }
      apply (Rmult_le_compat_l (mkl p)) in T; lra. }
    pose proof (Pr_pos n Wa W1 N1). pose proof (Pr_pos n Wa W2 N2). pose proof (Er_pos p n Wa W1 N1). pose proof (Er_pos p n Wa W2 N2). lra.
  - destruct Ha as (_ & _ & va1 & wda1 & wfa1 & va2 & wda2 & wfa2 & H1 & H2 & Hs). destruct Fa as [Fa1 Fa2]. cbn [mul_dyn deref bind] in E.
    pose proof (leaf_real_pos ar v _ _ _ _ _ _ Hb) as Pb. pose proof (leaf_real_pos ar v _ _ _ _ _ _ H1) as P1. pose proof (leaf_real_pos ar v _ _ _ _ _ _ H2) as P2.
    destruct (approx_mul ar v fin uD uF eta X p dbg a1 b m n l _ _ _ _ _ _ H1 Hb Hf) as (c1 & E1 & _ & A1).
    destruct (approx_mul ar v fin uD uF eta X p dbg a2 b m n l _ _ _ _ _ _ H2 Hb Hf) as (c2 & E2 & _ & A2). rewrite E1, E2 in E. cbn [bind] in E.
    assert (L1 : leaf_fin c1 m l).
    { eapply (mul_leaf_fin ar v fin uD uF eta om X Y p dbg a1 b m n l _ _ _ _ _ _ c1 H1 Hb Hf Fa1 Fb); [| |exact E1].
      - intros Hp i j q Hi Hj Hq. destruct (HM Hp i j q Hi Hj Hq). destruct (Hs i q Hi Hq) as (_ & S1 & S2), (P1 i q Hi Hq), (P2 i q Hi Hq). split; lra.
      - intros i j Hi Hj. eapply Rle_trans; [|apply (HB i j Hi Hj)]. apply (weight_mono ar v fin uD uF eta X); [lia|..]; intros q Hq.
        + destruct (Hs i q Hi Hq) as (_ & S1 & S2), (P1 i q Hi Hq), (P2 i q Hi Hq). lra.
        + destruct (Pb q j Hq Hj). lra. }
    assert (L2 : leaf_fin c2 m l).
    { eapply (mul_leaf_fin ar v fin uD uF eta om X Y p dbg a2 b m n l _ _ _ _ _ _ c2 H2 Hb Hf Fa2 Fb); [| |exact E2].
      - intros Hp i j q Hi Hj Hq. destruct (HM Hp i j q Hi Hj Hq). destruct (Hs i q Hi Hq) as (_ & S1 & S2), (P1 i q Hi Hq), (P2 i q Hi Hq). split; lra.
      - intros i j Hi Hj. eapply Rle_trans; [|apply (HB i j Hi Hj)]. apply (weight_mono ar v fin uD uF eta X); [lia|..]; intros q Hq.
        + destruct (Hs i q Hi Hq) as (_ & S1 & S2), (P1 i q Hi Hq), (P2 i q Hi Hq). lra.
        + destruct (Pb q j Hq Hj). lra. }
    eapply (plus_fin ar v fin uD uF eta om X Y dbg c1 c2 m l _ _ _ _ _ _ _ _ _ c A1 A2 L1 L2); [|exact E].
    intros i j Hi Hj. eapply Rle_trans; [|apply (HB i j Hi Hj)]. unfold FpFin_Proofs.weight. apply (size_mono ar v fin uD uF eta X); [lia|].
    pose proof (sum_in p n (wda1 i) (wfa1 i) (fun q => wdb q j) (fun q => wfb q j)) as Q1.
    pose proof (sum_in p n (wda2 i) (wfa2 i) (fun q => wdb q j) (fun q => wfb q j)) as Q2.
    cbv beta in Q1, Q2.
    change (rsum n (fun q => (wda1 i q + wfa1 i q) * (wdb q j + wfb q j))) with (Pr n (fun q => wda1 i q + wfa1 i q) (fun q => wdb q j + wfb q j)) in Q1.
    change (rsum n (fun q => (wda2 i q + wfa2 i q) * (wdb q j + wfb q j))) with (Pr n (fun q => wda2 i q + wfa2 i q) (fun q => wdb q j + wfb q j)) in Q2.
    change (eta * (INR n + mkl p * rsum n (fun q => wda1 i q + wfa1 i q + (wdb q j + wfb q j)))) with (Er p n (fun q => wda1 i q + wfa1 i q) (fun q => wdb q j + wfb q j)).
    change (eta * (INR n + mkl p * rsum n (fun q => wda2 i q + wfa2 i q + (wdb q j + wfb q j)))) with (Er p n (fun q => wda2 i q + wfa2 i q) (fun q => wdb q j + wfb q j)).
    set (Wb := fun q => wdb q j + wfb q j) in *. set (W1 := fun q => wda1 i q + wfa1 i q) in *. set (W2 := fun q => wda2 i q + wfa2 i q) in *.
    assert (N1 : forall q, (q < n)%nat -> 0 <= W1 q /\ 0 <= Wb q) by (intros q Hq; unfold Wb, W1; destruct (Pb q j Hq Hj), (P1 i q Hi Hq); lra).
    assert (N2 : forall q, (q < n)%nat -> 0 <= W2 q /\ 0 <= Wb q) by (intros q Hq; unfold Wb, W2; destruct (Pb q j Hq Hj), (P2 i q Hi Hq); lra).
    assert (SP : Pr n W1 Wb + Pr n W2 Wb = rsum n (fun q => (wda i q + wfa i q) * (wdb q j + wfb q j))).
    { unfold Pr. rewrite <- rsum_add. apply rsum_ext. intros q Hq. destruct (Hs i q Hi Hq) as (_ & -> & ->). unfold Wb, W1, W2. ring. }
    assert (SE : Er p n W1 Wb + Er p n W2 Wb <= eta * (4 * INR n + 2 * mkl p * rsum n (fun q => wda i q + wfa i q + (wdb q j + wfb q j)))).  
    { unfold Er. rewrite <- Rmult_plus_distr_l. apply Rmult_le_compat_l; [lra|].
      assert (T : rsum n (fun q => W1 q + Wb q) + rsum n (fun q => W2 q + Wb q) <= 2 * rsum n (fun q => wda i q + wfa i q + (wdb q j + wfb q j))).
      { rewrite <- rsum_add, <- rsum_scal. apply rsum_le. intros q Hq. destruct (Hs i q Hi Hq) as (_ & -> & ->).
        destruct (N1 q Hq), (N2 q Hq). unfold Wb, W1, W2 in *. lra. }
      apply (Rmult_le_compat_l (mkl p)) in T; lra. }
    pose proof (Pr_pos n W1 Wb N1). pose proof (Pr_pos n W2 Wb N2). pose proof (Er_pos p n W1 Wb N1). pose proof (Er_pos p n W2 Wb N2). lra.
  - destruct Ha as (_ & _ & va1 & wda1 & wfa1 & va2 & wda2 & wfa2 & H1 & H2 & Hs). destruct Fa as [Fa1 Fa2].
    destruct Hb as (_ & _ & vb1 & wdb1 & wfb1 & vb2 & wdb2 & wfb2 & K1 & K2 & Ks). destruct Fb as [Fb1 Fb2]. cbn [mul_dyn deref bind] in E.
    pose proof (leaf_real_pos ar v _ _ _ _ _ _ H1) as P1. pose proof (leaf_real_pos ar v _ _ _ _ _ _ H2) as P2.
    pose proof (leaf_real_pos ar v _ _ _ _ _ _ K1) as Q1. pose proof (leaf_real_pos ar v _ _ _ _ _ _ K2) as Q2.
    destruct (approx_mul ar v fin uD uF eta X p dbg a1 b1 m n l _ _ _ _ _ _ H1 K1 Hf) as (c1 & E1 & _ & A1).
    destruct (approx_mul ar v fin uD uF eta X p dbg a1 b2 m n l _ _ _ _ _ _ H1 K2 Hf) as (c2 & E2 & _ & A2).
    destruct (approx_mul ar v fin uD uF eta X p dbg a2 b1 m n l _ _ _ _ _ _ H2 K1 Hf) as (c3 & E3 & _ & A3).
    destruct (approx_mul ar v fin uD uF eta X p dbg a2 b2 m n l _ _ _ _ _ _ H2 K2 Hf) as (c4 & E4 & _ & A4).
    rewrite E1, E2, E3, E4 in E. cbn [bind] in E.
    assert (LL : forall ax wdx wfx vx bx wdy wfy vy cx,
       leaf_real ar v ax m n vx wdx wfx -> leaf_real ar v bx n l vy wdy wfy -> leaf_fin ax m n -> leaf_fin bx n l ->
       (forall i q, (i < m)%nat -> (q < n)%nat -> 0 <= wdx i q /\ 0 <= wfx i q /\ wdx i q + wfx i q <= wda i q + wfa i q) ->
       (forall q j, (q < n)%nat -> (j < l)%nat -> 0 <= wdy q j /\ 0 <= wfy q j /\ wdy q j + wfy q j <= wdb q j + wfb q j) ->
       mul_leaf ar p dbg ax bx = Ok cx -> leaf_fin cx m l).
    { intros ax wdx wfx vx bx wdy wfy vy cx RX RY FX FY GX GY EX.
      eapply (mul_leaf_fin ar v fin uD uF eta om X Y p dbg ax bx m n l _ _ _ _ _ _ cx RX RY Hf FX FY); [| |exact EX].
      - intros Hp i j q Hi Hj Hq. destruct (HM Hp i j q Hi Hj Hq). destruct (GX i q Hi Hq) as (? & ? & ?), (GY q j Hq Hj) as (? & ? & ?). split; lra.
      - intros i j Hi Hj. eapply Rle_trans; [|apply (HB i j Hi Hj)]. apply (weight_mono ar v fin uD uF eta X); [lia|..]; intros q Hq.
        + destruct (GX i q Hi Hq) as (? & ? & ?). lra.
        + destruct (GY q j Hq Hj) as (? & ? & ?). lra. }
    assert (GA1 : forall i q, (i < m)%nat -> (q < n)%nat -> 0 <= wda1 i q /\ 0 <= wfa1 i q /\ wda1 i q + wfa1 i q <= wda i q + wfa i q).
    { intros i q Hi Hq. destruct (Hs i q Hi Hq) as (_ & S1 & S2), (P1 i q Hi Hq), (P2 i q Hi Hq). repeat split; lra. }
    assert (GA2 : forall i q, (i < m)%nat -> (q < n)%nat -> 0 <= wda2 i q /\ 0 <= wfa2 i q /\ wda2 i q + wfa2 i q <= wda i q + wfa i q).
    { intros i q Hi Hq. destruct (Hs i q Hi Hq) as (_ & S1 & S2), (P1 i q Hi Hq), (P2 i q Hi Hq). repeat split; lra. }
    assert (GB1 : forall q j, (q < n)%nat -> (j < l)%nat -> 0 <= wdb1 q j /\ 0 <= wfb1 q j /\ wdb1 q j + wfb1 q j <= wdb q j + wfb q j).
    { intros q j Hq Hj. destruct (Ks q j Hq Hj) as (_ & S1 & S2), (Q1 q j Hq Hj), (Q2 q j Hq Hj). repeat split; lra. }
    assert (GB2 : forall q j, (q < n)%nat -> (j < l)%nat -> 0 <= wdb2 q j /\ 0 <= wfb2 q j /\ wdb2 q j + wfb2 q j <= wdb q j + wfb q j).
    { intros q j Hq Hj. destruct (Ks q j Hq Hj) as (_ & S1 & S2), (Q1 q j Hq Hj), (Q2 q j Hq Hj). repeat split; lra. }
    pose proof (LL _ _ _ _ _ _ _ _ _ H1 K1 Fa1 Fb1 GA1 GB1 E1) as L1. pose proof (LL _ _ _ _ _ _ _ _ _ H1 K2 Fa1 Fb2 GA1 GB2 E2) as L2.
    pose proof (LL _ _ _ _ _ _ _ _ _ H2 K1 Fa2 Fb1 GA2 GB1 E3) as L3. pose proof (LL _ _ _ _ _ _ _ _ _ H2 K2 Fa2 Fb2 GA2 GB2 E4) as L4.
    clear LL.
    destruct (approx_plus ar v fin uD uF eta X dbg c1 c2 m l _ _ _ _ _ _ _ _ _ A1 A2) as (s1 & Es1 & _ & B1). rewrite Es1 in E. cbn [bind] in E.
    assert (A3' : approx ar v fin uD uF c3 m l (S (n + 2)) _ _ _ _) by (eapply (approx_weaken ar v fin uD uF eta X); [exact A3|lia|intros; repeat split; try apply Rle_refl]).
    destruct (approx_plus ar v fin uD uF eta X dbg s1 c3 m l _ _ _ _ _ _ _ _ _ B1 A3') as (s2 & Es2 & _ & B2). rewrite Es2 in E. cbn [bind] in E.
    assert (A4' : approx ar v fin uD uF c4 m l (S (S (n + 2))) _ _ _ _) by (eapply (approx_weaken ar v fin uD uF eta X); [exact A4|lia|intros; repeat split; try apply Rle_refl]).
    (* all partial sums stay below the whole *)
    assert (BND : forall i j, (i < m)%nat -> (j < l)%nat ->
      let Wa1 := fun q => wda1 i q + wfa1 i q in let Wa2 := fun q => wda2 i q + wfa2 i q in
      let Wb1 := fun q => wdb1 q j + wfb1 q j in let Wb2 := fun q => wdb2 q j + wfb2 q j in
      0 <= Pr n Wa1 Wb1 /\ 0 <= Pr n Wa1 Wb2 /\ 0 <= Pr n Wa2 Wb1 /\ 0 <= Pr n Wa2 Wb2 /\
      0 <= Er p n Wa1 Wb1 /\ 0 <= Er p n Wa1 Wb2 /\ 0 <= Er p n Wa2 Wb1 /\ 0 <= Er p n Wa2 Wb2 /\
      Pr n Wa1 Wb1 + Pr n Wa1 Wb2 + Pr n Wa2 Wb1 + Pr n Wa2 Wb2 + (Er p n Wa1 Wb1 + Er p n Wa1 Wb2 + Er p n Wa2 Wb1 + Er p n Wa2 Wb2) <=
        rsum n (fun q => (wda i q + wfa i q) * (wdb q j + wfb q j)) +
        eta * (4 * INR n + 2 * mkl p * rsum n (fun q => wda i q + wfa i q + (wdb q j + wfb q j)))).
    { intros i j Hi Hj Wa1 Wa2 Wb1 Wb2.
      assert (N11 : forall q, (q < n)%nat -> 0 <= Wa1 q /\ 0 <= Wb1 q) by (intros q Hq; destruct (GA1 i q Hi Hq) as (?&?&?), (GB1 q j Hq Hj) as (?&?&?); unfold Wa1, Wb1; lra).
      assert (N12 : forall q, (q < n)%nat -> 0 <= Wa1 q /\ 0 <= Wb2 q) by (intros q Hq; destruct (GA1 i q Hi Hq) as (?&?&?), (GB2 q j Hq Hj) as (?&?&?); unfold Wa1, Wb2; lra).
      assert (N21 : forall q, (q < n)%nat -> 0 <= Wa2 q /\ 0 <= Wb1 q) by (intros q Hq; destruct (GA2 i q Hi Hq) as (?&?&?), (GB1 q j Hq Hj) as (?&?&?); unfold Wa2, Wb1; lra).
      assert (N22 : forall q, (q < n)%nat -> 0 <= Wa2 q /\ 0 <= Wb2 q) by (intros q Hq; destruct (GA2 i q Hi Hq) as (?&?&?), (GB2 q j Hq Hj) as (?&?&?); unfold Wa2, Wb2; lra).
      repeat (split; [first [now apply Pr_pos|now apply Er_pos]|]).
      apply Rplus_le_compat.
      - unfold Pr. rewrite <- !rsum_add. apply Req_le, rsum_ext. intros q Hq.
        destruct (Hs i q Hi Hq) as (_ & -> & ->), (Ks q j Hq Hj) as (_ & -> & ->). unfold Wa1, Wa2, Wb1, Wb2. ring.
      - unfold Er. rewrite <- !Rmult_plus_distr_l. apply Rmult_le_compat_l; [lra|].
        assert (T : rsum n (fun q => Wa1 q + Wb1 q) + rsum n (fun q => Wa1 q + Wb2 q) + rsum n (fun q => Wa2 q + Wb1 q) + rsum n (fun q => Wa2 q + Wb2 q) =
           2 * rsum n (fun q => wda i q + wfa i q + (wdb q j + wfb q j))).
        { rewrite <- !rsum_add, <- rsum_scal. apply rsum_ext. intros q Hq. destruct (Hs i q Hi Hq) as (_ & -> & ->), (Ks q j Hq Hj) as (_ & -> & ->).
          unfold Wa1, Wa2, Wb1, Wb2. ring. }
        apply (f_equal (Rmult (mkl p))) in T. lra. }
    assert (TOT : forall i j, (i < m)%nat -> (j < l)%nat -> forall k s, (k <= n + 5)%nat ->
       0 <= s <= rsum n (fun q => (wda i q + wfa i q) * (wdb q j + wfb q j)) +
        eta * (4 * INR n + 2 * mkl p * rsum n (fun q => wda i q + wfa i q + (wdb q j + wfb q j))) -> (1 + uF) ^ k * s <= om).
    { intros i j Hi Hj k s Hk Hsz. eapply Rle_trans; [|apply (HB i j Hi Hj)]. unfold FpFin_Proofs.weight. now apply (size_mono ar v fin uD uF eta X). }
    assert (S1 : leaf_fin s1 m l).
    { eapply (plus_fin ar v fin uD uF eta om X Y dbg c1 c2 m l _ _ _ _ _ _ _ _ _ s1 A1 A2 L1 L2); [|exact Es1].
      intros i j Hi Hj. apply (TOT i j Hi Hj); [lia|]. pose proof (BND i j Hi Hj) as BB. cbv zeta in BB. revert BB.
      pose proof (sum_in p n (wda1 i) (wfa1 i) (fun q => wdb1 q j) (fun q => wfb1 q j)) as I1.
      pose proof (sum_in p n (wda1 i) (wfa1 i) (fun q => wdb2 q j) (fun q => wfb2 q j)) as I2. cbv beta in I1, I2.
      unfold Pr, Er. rewrite <- I1, <- I2. intros (? & ? & ? & ? & ? & ? & ? & ? & ?). lra. }
    assert (S2 : leaf_fin s2 m l).
    { eapply (plus_fin ar v fin uD uF eta om X Y dbg s1 c3 m l _ _ _ _ _ _ _ _ _ s2 B1 A3' S1 L3); [|exact Es2].
      intros i j Hi Hj. apply (TOT i j Hi Hj); [lia|]. pose proof (BND i j Hi Hj) as BB. cbv zeta in BB. revert BB.
      pose proof (sum_in p n (wda1 i) (wfa1 i) (fun q => wdb1 q j) (fun q => wfb1 q j)) as I1.
      pose proof (sum_in p n (wda1 i) (wfa1 i) (fun q => wdb2 q j) (fun q => wfb2 q j)) as I2.
      pose proof (sum_in p n (wda2 i) (wfa2 i) (fun q => wdb1 q j) (fun q => wfb1 q j)) as I3. cbv beta in I1, I2, I3.
      unfold Pr, Er. rewrite <- I1, <- I2, <- I3. intros (? & ? & ? & ? & ? & ? & ? & ? & ?). lra. }
    eapply (plus_fin ar v fin uD uF eta om X Y dbg s2 c4 m l _ _ _ _ _ _ _ _ _ c B2 A4' S2 L4); [|exact E].
    intros i j Hi Hj. apply (TOT i j Hi Hj); [lia|]. pose proof (BND i j Hi Hj) as BB. cbv zeta in BB. revert BB.
    pose proof (sum_in p n (wda1 i) (wfa1 i) (fun q => wdb1 q j) (fun q => wfb1 q j)) as I1.
    pose proof (sum_in p n (wda1 i) (wfa1 i) (fun q => wdb2 q j) (fun q => wfb2 q j)) as I2.
    pose proof (sum_in p n (wda2 i) (wfa2 i) (fun q => wdb1 q j) (fun q => wfb1 q j)) as I3.
    pose proof (sum_in p n (wda2 i) (wfa2 i) (fun q => wdb2 q j) (fun q => wfb2 q j)) as I4. cbv beta in I1, I2, I3, I4.
    unfold Pr, Er. rewrite <- I1, <- I2, <- I3, <- I4. intros (? & ? & ? & ? & ? & ? & ? & ? & ?). lra.
Qed.
End P.
