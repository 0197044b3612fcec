(** C77: the error the benchmark reports for two actions that multiply the same
    matrices comes from rounding only. *)
From Coq Require Import Reals Lra.
From Flocq Require Import Core.Raux.
From Verif Require Import Base BaseLemmas Dense_Model Dense_Spec Dense_Proofs Sparse_Model Dyn_Model Dyn_Spec Norm_Model Norm_Spec Tools_Model
  Bench_Model Bench_Spec Bench_Props Fp_Spec Fp_Proofs FpBench_Props FpNorm_Spec FpNorm_Proofs FpNorm_Props.
#[local] Open Scope R_scope.

Theorem C77_reported_error_of_actions :
  forall (F D : Type) (ar : arith F D) (nx : nops F D) (lb : libs F D) v fin uD uF eta,
    rounding ar v fin uD uF eta -> ordering ar v fin -> norm_rounding ar nx v fin uD eta -> uD < 1 ->
    libs_rounding ar lb v fin uD uF eta ->
  forall dbg runs x y (A B : dense D) m n l f g,
    is_mat A m n f -> d_orient A = ColMajor -> is_mat B n l g -> d_orient B = ColMajor ->
    (1 <= runs)%nat -> legal lb x A B m n l -> legal lb y A B m n l ->
    (forall i k, (i < m)%nat -> (k < n)%nat -> fin (toD ar (toF ar (f i k)))) ->
    (forall k j, (k < n)%nat -> (j < l)%nat -> fin (toD ar (toF ar (g k j)))) ->
    let bound z i j := action_bound uD uF eta z n (fun k => v (f i k)) (fun k => v (g k j)) in
    exists C Rf h h' e t, execute ar lb dbg runs x A B = Ok C /\ execute ar lb dbg runs y A B = Ok Rf /\
      is_mat C m l h /\ is_mat Rf m l h' /\ bench_report ar nx dbg C Rf = Ok (e, t) /\
      ((forall i j, (i < m)%nat -> (j < l)%nat -> fin (subD ar (h i j) (h' i j))) ->
       fin e /\ (v e = 0 \/ exists i j, (i < m)%nat /\ (j < l)%nat /\ v e <= (1 + uD) * (bound x i j + bound y i j))).
Proof.
  intros F D ar nx lb v fin uD uF eta RO OD NR U1 XL dbg runs x y A B m n l f g MA OA MB OB Hr Lx Ly FA FB bound.
  destruct (C65_rounding ar lb v fin uD uF eta RO XL dbg runs x A B m n l f g MA OA MB OB Hr Lx (fun _ => FA) (fun _ => FB)) as (C & h & EC & MC & HC).
  destruct (C65_rounding ar lb v fin uD uF eta RO XL dbg runs y A B m n l f g MA OA MB OB Hr Ly (fun _ => FA) (fun _ => FB)) as (Rf & h' & ER & MR & HR).
  destruct (C65_action_result ar lb dbg runs x A B m n l f g MA OA MB OB Hr Lx) as (C' & EC' & _ & _ & OC & _).
  destruct (C65_action_result ar lb dbg runs y A B m n l f g MA OA MB OB Hr Ly) as (R' & ER' & _ & _ & OR & _).
  rewrite EC in EC'. injection EC' as <-. rewrite ER in ER'. injection ER' as <-.
  destruct (C77_reported_error ar nx v fin uD uF eta RO OD NR U1 dbg C Rf m l h h' MC MR OC OR) as (e & t & Er & HM & _).
  exists C, Rf, h, h', e, t. repeat (split; [assumption|]). intros Hs. destruct (HM Hs) as (Fe & _ & H2 & _). split; [exact Fe|].
  destruct H2 as [H2|(i & j & Hi & Hj & H2)]; [now left|right]. exists i, j. split; [exact Hi|]. split; [exact Hj|].
  eapply Rle_trans; [exact H2|]. pose proof (ro_u _ _ _ _ _ _ RO) as [[U0 _] _]. apply Rmult_le_compat_l; [lra|].
  destruct (fm_sub _ _ _ _ _ _ _ _ _ _ _ (ro_D _ _ _ _ _ _ RO) _ _ (Hs i j Hi Hj)) as (Fh & Fh' & _).
  pose proof (HC i j Hi Hj Fh) as B1. pose proof (HR i j Hi Hj Fh') as B2. fold (bound x i j) in B1. fold (bound y i j) in B2.
  replace (v (h i j) - v (h' i j)) with ((v (h i j) - rsum n (fun k => v (f i k) * v (g k j))) - (v (h' i j) - rsum n (fun k => v (f i k) * v (g k j)))) by ring.
  eapply Rle_trans; [apply Rabs_triang|]. rewrite Rabs_Ropp. lra.
Qed.
Print Assumptions C77_reported_error_of_actions.
