(** C76: comparisons with the norm of matrices with NaN or infinite elements. *)
From Coq Require Import ZArith Reals Lra.
From Verif Require Import Base BaseLemmas Dense_Model Dense_Spec Sparse_Model Sparse_Spec Dyn_Model Dyn_Spec Check_Model Check_Spec
  Norm_Model Norm_Spec Query_Model Query_Spec Query_Props Fp_Spec Fp_Proofs Fp_Ieee Fp_Props FpNorm_Spec FpNorm2_Props
  Exact27_Props Exact28_Props Exact31_Props Exact34_Props.
From Flocq Require Import Core BinarySingleNaN.
#[local] Open Scope R_scope.

(** The two-norm getNorm() computes for a one-part matrix. *)
Definition two_norm (l : leaf f32 f64) : f64 := match norm_leaf ieee ieee_n NTwo l with Ok v => v | _ => B754_nan end.

(** C76.  In every program that does not change a matrix after asking for its norm:
    a one-part matrix with a NaN element is neither larger nor smaller than any
    number; one without NaN but with an infinite element is smaller than nothing and
    larger than every number but NaN and plus infinity. *)
Theorem C76_special_elements :
  forall count_of size_of moved (empty : leaf f32 f64) (l : list (qop f64 (leaf f32 f64))) e o,
    disciplined asked_norm (fun _ => false) (List.map asks l) ->
    qrun ieee two_norm count_of size_of moved (start empty) l = Ok (e, o) ->
    forall a m r c g, List.In a o -> rep_leaf ieee m r c g -> l_compact m ->
      let some (P : f64 -> Prop) := exists i j, (i < r)%nat /\ (j < c)%nat /\ P (g i j) in
      match a with
      | ANormLarger b x m' => m' = m ->
          (some (fun y => is_nan y = true) -> b = false) /\
          (~ some (fun y => is_nan y = true) -> some is_inf -> (b = false <-> is_nan x = true \/ x = B754_infinity false))
      | ANormSmaller b x m' => m' = m ->
          (some (fun y => is_nan y = true) \/ some is_inf -> b = false)
      | _ => True
      end.
Proof.
  intros count_of size_of moved empty l e o Q E a m r c g HI Rm Cm some.
  destruct (C77_special_one_part NTwo m r c g Rm Cm) as (v & Ev & H1 & H2). change (is_nan v = true <-> some (fun x => is_nan x = true)) in H1.
  change (~ some (fun x => is_nan x = true) -> some is_inf -> v = B754_infinity false) in H2.
  assert (V : two_norm m = v) by (unfold two_norm; now rewrite Ev).
  pose proof (C76_ieee_norm _ two_norm count_of size_of moved empty l e o Q E a HI) as H.
  destruct a as [?|b x m'|b x m'|?|?|?]; auto; intros ->; rewrite V in H; unfold says_below, no_nan in H.
  - split.
    + intros S. apply H1 in S. destruct b; [|reflexivity]. destruct (proj1 H eq_refl) as (_ & N & _). congruence.
    + intros NS SI. rewrite (H2 NS SI) in H. split.
      * intros ->. destruct (is_nan x) eqn:Nx; [now left|right]. destruct (is_finite x) eqn:Fx.
        -- exfalso. assert (false = true); [|discriminate]. apply H. split; [reflexivity|]. split; [reflexivity|].
           pose proof (place_in x Fx). cbn [place]. lra.
        -- destruct x as [|[]| |]; try discriminate; [|reflexivity]. exfalso. assert (false = true); [|discriminate].
           apply H. split; [reflexivity|]. split; [reflexivity|]. cbn [place]. pose proof (bpow_gt_0 radix2 1024). lra.
      * intros HX. destruct b; [|reflexivity]. destruct (proj1 H eq_refl) as (N & _ & L).
        destruct HX as [HX|HX]; [congruence|]. rewrite HX in L. lra.
  - intros S. destruct b; [|reflexivity]. destruct (proj1 H eq_refl) as (N & Nx & L). exfalso.
    assert (NS : ~ some (fun y => is_nan y = true)) by (intros S'; apply H1 in S'; congruence).
    destruct S as [S|S]; [contradiction|]. rewrite (H2 NS S) in L. destruct (is_finite x) eqn:Fx.
    + pose proof (place_in x Fx). cbn [place] in L. lra.
    + destruct x as [|s| |]; try discriminate. cbn [place] in L. pose proof (bpow_gt_0 radix2 1024). destruct s; lra.
Qed.
Print Assumptions C76_special_elements.

(** A 1 x 1 matrix of NaN asked both ways, and one of minus infinity. *)
Definition lf_one (x : f64) : leaf f32 f64 := LDd (mkDense (own_shape ColMajor 1 1) 1 [Some x] true).
Example C76_special_nonvacuous :
  (forall x, rep_leaf ieee (lf_one x) 1 1 (fun _ _ => x) /\ l_compact (lf_one x)) /\
  forall x b, let l := [QBase (New 0%nat (lf_one x)); QNormLarger 0%nat (B754_zero false); QNormSmaller 0%nat (B754_zero false)] in
    b = is_nan x -> x = B754_nan \/ x = B754_infinity true ->
    disciplined (C := leaf f32 f64) asked_norm (fun _ => false) (List.map asks l) /\
    exists e, qrun ieee two_norm (fun _ _ => 0%nat) (fun _ => 0%nat) (fun m => m) (start (lf_one x)) l =
      Ok (e, [ANormLarger (negb b) (B754_zero false) (lf_one x); ANormSmaller false (B754_zero false) (lf_one x)]).
Proof.
  split.
  - intros x. split; [|exact Coq.Init.Logic.I]. split; [reflexivity|]. split; [repeat split|]. split; [|split]; try reflexivity.
    intros [|i] [|j] Hi Hj; try lia; reflexivity.
  - intros x b l -> Hx. subst l. split; [cbn; tauto|]. destruct Hx as [-> | ->]; eexists; reflexivity.
Qed.
Print Assumptions C76_special_nonvacuous.
