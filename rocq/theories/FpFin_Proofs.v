(** When no operation of a product overflows. *)
From Coq Require Import Reals Lra Psatz.
From Verif Require Import Base BaseLemmas Dense_Model Dense_Spec Dense_Proofs Dense2_Proofs Sparse_Model Sparse_Spec
  Mult_Model Mult_Spec Dyn_Model Dyn_Spec Dyn_Proofs Dyn2_Proofs
  Block_Proofs Conv_Spec Conv_Proofs Eval_Spec Eval_Proofs Fp_Spec Fp_Proofs FpConv_Proofs Sparse_Props Dyn_Props.
#[local] Open Scope R_scope.

(** Below [om] nothing overflows: finite operands and an exact result of at most
    [om] give a finite result.  [g] bounds the growth by one rounding. *)
Record no_overflow {A} (v : A -> R) (fin : A -> Prop) (add : A -> A -> A) (fma : A -> A -> A -> A)
    (dot : list (A * A) -> A) (u eta g om : R) : Prop := mkNO {
  no_add : forall a b, fin a -> fin b -> Rabs (v a + v b) <= om -> fin (add a b);
  no_fma : forall c x y, fin c -> fin x -> fin y ->
    (forall q, Rabs (q - v x * v y) <= u * Rabs (v x * v y) + eta -> Rabs q <= om /\ Rabs (v c + q) <= om) -> fin (fma c x y);
  no_dot : forall l, (forall x y, In (x, y) l -> fin x /\ fin y) ->
    g ^ (length l + 1) * (lsum (fun p => Rabs (v (fst p) * v (snd p))) l + INR (length l) * eta) <= om -> fin (dot l)
}.
Record range {F D} (ar : arith F D) (v : D -> R) (fin : D -> Prop) (uD uF eta om : R) : Prop := mkRange {
  ra_D : no_overflow v fin (addD ar) (fmaD ar) (dotD ar) uD eta (1 + uF) om;
  ra_F : no_overflow (fun x => v (toD ar x)) (fun x => fin (toD ar x)) (addF ar) (fmaF ar) (dotF ar) uF eta (1 + uF) om;
  ra_cv : forall y, fin y -> Rabs (v y) <= om -> fin (toD ar (toF ar y))
}.

Section P.
Context {F D : Type} (ar : arith F D) (v : D -> R) (fin : D -> Prop) (uD uF eta om : R).
Context (X : rounding ar v fin uD uF eta) (Y : range ar v fin uD uF eta om).
Let Hu : 0 <= uD <= uF /\ 0 <= eta := ro_u _ _ _ _ _ _ X.
#[local] Notation near := (near uD uF).

Lemma near_size k Sd Sf E r x : near k Sd Sf E r x -> Rabs x <= (1 + uF) ^ k * (Sd + Sf + E).
Proof.
  intros (H1 & H2 & H3 & H4 & H5). replace x with ((x - r) + r) by ring. eapply Rle_trans; [apply Rabs_triang|].
  unfold err in H5. assert (P : (1 + uD) ^ k <= (1 + uF) ^ k) by (apply pow_incr; lra).
  assert ((1 + uD) ^ k * Sd <= (1 + uF) ^ k * Sd) by (apply Rmult_le_compat_r; lra). lra.
Qed.

Lemma size_mono k k' s s' : (k <= k')%nat -> 0 <= s <= s' -> (1 + uF) ^ k * s <= (1 + uF) ^ k' * s'.
Proof.
  intros Hk Hs. pose proof (pow_mono uF k k' ltac:(lra) Hk). pose proof (pow_ge uF k ltac:(lra)). apply Rmult_le_compat; lra.
Qed.

Section Fmt.
Context {A : Type} (w : A -> R) (fi : A -> Prop) (zero : A) (add sub : A -> A -> A) (opp : A -> A)
  (fma : A -> A -> A -> A) (dot : list (A * A) -> A) (nz : A -> bool) (u : R).
Context (Z : format w fi zero add sub opp fma dot nz u eta) (isf : bool).
Hypothesis Hui : u = if isf then uF else uD.
Context (N : no_overflow w fi add fma dot u eta (1 + uF) om).

Lemma fold_fin n keep (x y : nat -> A) (X' Y' : nat -> R) :
  (forall k, (k < n)%nat -> keep k = false -> X' k * Y' k = 0) ->
  (forall k, (k < n)%nat -> keep k = true -> X' k = w (x k) /\ Y' k = w (y k) /\ fi (x k) /\ fi (y k)) ->
  (1 + uF) ^ (n + 1) * (rsum n (fun k => Rabs (X' k * Y' k)) + INR n * eta) <= om ->
  fi (fold_left (fun c k => fma c (x k) (y k)) (filter keep (seq 0 n)) zero).
Proof.
  induction n as [|n IH]; intros H0 H1 HB; [apply Z|].
  rewrite seq_S, filter_app, fold_left_app. cbn [Nat.add filter].
  assert (S0 : 0 <= rsum n (fun k => Rabs (X' k * Y' k))) by (apply rsum_pos; intros; apply Rabs_pos).
  pose proof (pos_INR n) as Pn. assert (Pe : 0 <= INR n * eta) by (apply Rmult_le_pos; lra).
  cbn [rsum] in HB. rewrite S_INR in HB. pose proof (Rabs_pos (X' n * Y' n)) as Pp.
  assert (FI : fi (fold_left (fun c k => fma c (x k) (y k)) (filter keep (seq 0 n)) zero)).
  { apply IH; [intros; apply H0; auto|intros; apply H1; auto|].
    eapply Rle_trans; [|exact HB]. apply size_mono; [lia|]. lra. }
  destruct (keep n) eqn:Ek; cbn [fold_left]; [|exact FI].
  pose proof (fmt_fold ar v fin uD uF eta X w fi zero add sub opp fma dot nz u Z isf Hui n keep x y X' Y'
    ltac:(intros; apply H0; auto) ltac:(intros k Hk E; destruct (H1 k ltac:(lia) E) as (? & ? & _); auto) FI) as NC.
  cbv zeta in NC. set (c := fold_left _ (filter keep (seq 0 n)) zero) in *.
  destruct (H1 n ltac:(lia) Ek) as (Ex & Ey & Fx & Fy). rewrite Ex, Ey in *.
  set (p := w (x n) * w (y n)) in *.
  apply (no_fma _ _ _ _ _ _ _ _ _ N); auto. intros q Hq. fold p in Hq.
  set (s := rsum n (fun k => Rabs (X' k * Y' k))) in *.
  assert (Nq : near (n + 1) (if isf then 0 else Rabs p) (if isf then Rabs p else 0) eta p q).
  { eapply near_weaken with (k := 1%nat); [exact X| |lia|apply Rle_refl..].
    unfold Fp_Proofs.near, err. destruct isf; rewrite Hui in Hq; cbn [pow]; repeat split; try lra; nra. }
  split.
  - eapply Rle_trans; [exact (near_size _ _ _ _ _ _ Nq)|]. eapply Rle_trans; [|exact HB]. apply size_mono; [lia|]. destruct isf; lra.
  - pose proof (near_sum uD uF _ _ _ _ _ _ _ _ _ _ _ NC Nq) as NS.
    eapply Rle_trans; [exact (near_size _ _ _ _ _ _ NS)|]. eapply Rle_trans; [|exact HB]. apply size_mono; [lia|]. destruct isf; lra.
Qed.

Lemma dot_fin n keep (x y : nat -> A) (X' Y' : nat -> R) :
  (forall k, (k < n)%nat -> keep k = false -> X' k * Y' k = 0) ->
  (forall k, (k < n)%nat -> keep k = true -> X' k = w (x k) /\ Y' k = w (y k) /\ fi (x k) /\ fi (y k)) ->
  (1 + uF) ^ (n + 1) * (rsum n (fun k => Rabs (X' k * Y' k)) + INR n * eta) <= om ->
  fi (dot (map (fun k => (x k, y k)) (filter keep (seq 0 n)))).
Proof.
  intros H0 H1 HB. apply (no_dot _ _ _ _ _ _ _ _ _ N).
  - intros a b Hi. apply in_map_iff in Hi as (k & E & Hk). apply filter_In in Hk as [Hk1 Hk2]. apply in_seq in Hk1.
    injection E as <- <-. destruct (H1 k ltac:(lia) Hk2) as (_ & _ & ? & ?). auto.
  - eapply Rle_trans; [|exact HB]. rewrite map_length, lsum_map. cbn [fst snd].
    pose proof (filter_len keep n) as Ln.
    rewrite <- (lsum_filter n keep (fun k => Rabs (X' k * Y' k))) by (intros k Hk1 Hk2; rewrite H0 by auto; apply Rabs_R0).
    set (l := filter keep (seq 0 n)) in *.
    replace (lsum (fun a => Rabs (w (x a) * w (y a))) l) with (lsum (fun k => Rabs (X' k * Y' k)) l).
    + assert (0 <= lsum (fun k => Rabs (X' k * Y' k)) l).
      { clear. induction l; cbn; [lra|]. pose proof (Rabs_pos (X' a * Y' a)). lra. }
      pose proof (pos_INR (length l)). assert (INR (length l) <= INR n) by now apply le_INR.
      apply size_mono; [lia|]. split; [nra|]. nra.
    + assert (EL : forall k, In k l -> X' k = w (x k) /\ Y' k = w (y k)).
      { intros k Hk. apply filter_In in Hk as [Hk1 Hk2]. apply in_seq in Hk1. destruct (H1 k ltac:(lia) Hk2) as (? & ? & _). auto. }
      clear - EL. induction l as [|a l IH]; cbn; [reflexivity|]. destruct (EL a (or_introl eq_refl)) as [-> ->]. rewrite IH; auto.
      intros; apply EL; now right.
Qed.
End Fmt.

(** ** One element of a product *)
Lemma dot_eval_fin p fl n x y r : dot_eval ar p fl n x y r ->
  (forall k, (k < n)%nat -> fin (x k) /\ fin (y k)) ->
  (p = PMKL -> forall k, (k < n)%nat -> Rabs (v (x k)) <= om /\ Rabs (v (y k)) <= om) ->
  (1 + uF) ^ (n + 2) * (rsum n (fun k => Rabs (v (x k) * v (y k))) +
    eta * (INR n + mkl p * rsum n (fun k => Rabs (v (x k)) + Rabs (v (y k))))) <= om -> fin r.
Proof.
  intros H HF HM. set (S := rsum n (fun k => Rabs (v (x k) * v (y k)))).
  set (T := rsum n (fun k => Rabs (v (x k)) + Rabs (v (y k)))). intros HB.
  assert (PT : 0 <= T).
  { apply rsum_pos. intros k _. pose proof (Rabs_pos (v (x k))). pose proof (Rabs_pos (v (y k))). lra. }
  assert (PS : 0 <= S) by (apply rsum_pos; intros; apply Rabs_pos).
  assert (Pm : 0 <= mkl p <= 1) by (destruct p; cbn; lra).
  pose proof (pos_INR n) as Pn.
  assert (P1 : 0 <= eta * (mkl p * T)) by (apply Rmult_le_pos; [lra|apply Rmult_le_pos; lra]).
  assert (P2 : 0 <= INR n * eta) by (apply Rmult_le_pos; lra).
  destruct (fm_zero _ _ _ _ _ _ _ _ _ _ _ (ro_D _ _ _ _ _ _ X)) as [F0 Z0].
  assert (KZ : forall k, x k = d0 ar \/ y k = d0 ar -> v (x k) * v (y k) = 0).
  { intros k [-> | ->]; rewrite Z0; lra. }
  assert (HB1 : (1 + uF) ^ (n + 1) * (S + INR n * eta) <= om).
  { eapply Rle_trans; [|exact HB]. apply size_mono; [lia|]. nra. }
  destruct H.
  - eapply (fold_fin v fin (d0 ar) _ _ _ _ _ _ uD (ro_D _ _ _ _ _ _ X) false eq_refl (ra_D _ _ _ _ _ _ _ Y) n keep x y (fun k => v (x k)) (fun k => v (y k)));
      [intros k Hk E; exact (KZ k (H k Hk E))|intros k Hk _; destruct (HF k Hk); auto|exact HB1].
  - eapply (dot_fin v fin _ _ _ uD (ra_D _ _ _ _ _ _ _ Y) n keep x y (fun k => v (x k)) (fun k => v (y k)));
      [intros k Hk E; exact (KZ k (H k Hk E))|intros k Hk _; destruct (HF k Hk); auto|exact HB1].
  - eapply (fold_fin (fun a => v (toD ar a)) (fun a => fin (toD ar a)) (f0 ar) _ _ _ _ _ _ uF (ro_F _ _ _ _ _ _ X) true eq_refl (ra_F _ _ _ _ _ _ _ Y)
      n keep x' y' (fun k => v (x k)) (fun k => v (y k))); [intros k Hk E; exact (KZ k (H0 k Hk E))| |exact HB1].
    intros k Hk E. destruct (H1 k Hk E) as [Ex Ey]. destruct (HF k Hk) as [G1 G2]. cbv beta. rewrite <- Ex, <- Ey. auto.
  - rewrite <- (filter_true (seq 0 n)).
    eapply (dot_fin (fun a => v (toD ar a)) (fun a => fin (toD ar a)) _ _ _ uF (ra_F _ _ _ _ _ _ _ Y)
      n (fun _ => true) x' y' (fun k => v (x k)) (fun k => v (y k))); [discriminate| |exact HB1].
    intros k Hk _. destruct (H0 k Hk) as [Ex Ey]. destruct (HF k Hk) as [G1 G2]. cbv beta. rewrite <- Ex, <- Ey. auto.
  - subst p. cbn [mkl] in *. rewrite <- (filter_true (seq 0 n)).
    assert (CV : forall k, (k < n)%nat -> fin (toD ar (toF ar (y k)))).
    { intros k Hk. apply (ra_cv _ _ _ _ _ _ _ Y); [now apply HF|now apply HM]. }
    eapply (dot_fin (fun a => v (toD ar a)) (fun a => fin (toD ar a)) _ _ _ uF (ra_F _ _ _ _ _ _ _ Y)
      n (fun _ => true) x' (fun k => toF ar (y k)) (fun k => v (x k)) (fun k => v (toD ar (toF ar (y k))))); [discriminate| |].
    + intros k Hk _. destruct (HF k Hk) as [G1 G2]. cbv beta. rewrite <- (H1 k Hk). auto.
    + assert (D2 : rsum n (fun k => Rabs (v (x k) * v (toD ar (toF ar (y k))))) <= (1 + uF) * S + eta * T).
      { unfold S, T. rewrite <- !rsum_scal, <- rsum_add. apply rsum_le. intros k Hk.
        destruct (ro_cv _ _ _ _ _ _ X (y k) (CV k Hk)) as [_ Hc]. rewrite !Rabs_mult.
        pose proof (Rabs_pos (v (x k))). pose proof (Rabs_pos (v (y k))).
        assert (Rabs (v (toD ar (toF ar (y k)))) <= (1 + uF) * Rabs (v (y k)) + eta).
        { replace (v (toD ar (toF ar (y k)))) with ((v (toD ar (toF ar (y k))) - v (y k)) + v (y k)) by ring. eapply Rle_trans; [apply Rabs_triang|]. lra. }
        assert (Rabs (v (x k)) * Rabs (v (toD ar (toF ar (y k)))) <= Rabs (v (x k)) * ((1 + uF) * Rabs (v (y k)) + eta)) by (apply Rmult_le_compat_l; lra).
        assert (0 <= eta * Rabs (v (y k))) by (apply Rmult_le_pos; lra). nra. }
      eapply Rle_trans; [|exact HB]. replace (n + 2)%nat with (Datatypes.S (n + 1)) by lia. cbn [pow].
      pose proof (pow_ge uF (n + 1) ltac:(lra)) as G. rewrite (Rmult_comm (1 + uF)), Rmult_assoc. apply Rmult_le_compat_l; [lra|].
      assert (0 <= eta * T) by (apply Rmult_le_pos; lra). nra.
  - subst p. cbn [mkl] in *. rewrite <- (filter_true (seq 0 n)).
    assert (CV : forall k, (k < n)%nat -> fin (toD ar (toF ar (x k)))).
    { intros k Hk. apply (ra_cv _ _ _ _ _ _ _ Y); [now apply HF|now apply HM]. }
    eapply (dot_fin (fun a => v (toD ar a)) (fun a => fin (toD ar a)) _ _ _ uF (ra_F _ _ _ _ _ _ _ Y)
      n (fun _ => true) (fun k => toF ar (x k)) y' (fun k => v (toD ar (toF ar (x k)))) (fun k => v (y k))); [discriminate| |].
    + intros k Hk _. destruct (HF k Hk) as [G1 G2]. cbv beta. rewrite <- (H1 k Hk). auto.
    + assert (D2 : rsum n (fun k => Rabs (v (toD ar (toF ar (x k))) * v (y k))) <= (1 + uF) * S + eta * T).
      { unfold S, T. rewrite <- !rsum_scal, <- rsum_add. apply rsum_le. intros k Hk.
        destruct (ro_cv _ _ _ _ _ _ X (x k) (CV k Hk)) as [_ Hc]. rewrite !Rabs_mult.
        pose proof (Rabs_pos (v (x k))). pose proof (Rabs_pos (v (y k))).
        assert (Rabs (v (toD ar (toF ar (x k)))) <= (1 + uF) * Rabs (v (x k)) + eta).
        { replace (v (toD ar (toF ar (x k)))) with ((v (toD ar (toF ar (x k))) - v (x k)) + v (x k)) by ring. eapply Rle_trans; [apply Rabs_triang|]. lra. }
        assert (Rabs (v (toD ar (toF ar (x k)))) * Rabs (v (y k)) <= ((1 + uF) * Rabs (v (x k)) + eta) * Rabs (v (y k))) by (apply Rmult_le_compat_r; lra).
        assert (0 <= eta * Rabs (v (x k))) by (apply Rmult_le_pos; lra). nra. }
      eapply Rle_trans; [|exact HB]. replace (n + 2)%nat with (Datatypes.S (n + 1)) by lia. cbn [pow].
      pose proof (pow_ge uF (n + 1) ltac:(lra)) as G. rewrite (Rmult_comm (1 + uF)), Rmult_assoc. apply Rmult_le_compat_l; [lra|].
      assert (0 <= eta * T) by (apply Rmult_le_pos; lra). nra.
  - exact F0.
  - exact F0.
Qed.

Lemma bin_eval_fin k fl x y r Sd Sf E Sd' Sf' E' s s' : bin_eval ar Plus fl x y r -> fin x -> fin y ->
  near k Sd Sf E s (v x) -> near k Sd' Sf' E' s' (v y) ->
  (1 + uF) ^ k * (Sd + Sd' + (Sf + Sf') + (E + E')) <= om -> fin r.
Proof.
  intros B Fx Fy Hx Hy HB.
  assert (SZ : Rabs (v x + v y) <= om).
  { eapply Rle_trans; [|exact HB]. apply (near_size k _ _ _ (s + s')). now apply near_sum. }
  inversion B; subst; clear B; cbn [binD binF unD unF] in *; auto.
  - now apply (no_add _ _ _ _ _ _ _ _ _ (ra_D _ _ _ _ _ _ _ Y)).
  - apply (no_add _ _ _ _ _ _ _ _ _ (ra_D _ _ _ _ _ _ _ Y)); auto. now rewrite Rplus_comm.
  - now apply (no_add _ _ _ _ _ _ _ _ _ (ra_F _ _ _ _ _ _ _ Y)).
  - apply (no_add _ _ _ _ _ _ _ _ _ (ra_F _ _ _ _ _ _ _ Y)); auto. now rewrite Rplus_comm.
Qed.

(** ** Objects all of whose elements are finite *)
Lemma rep_leaf_uniq l r c g g' : rep_leaf ar l r c g -> rep_leaf ar l r c g' ->
  forall i j, (i < r)%nat -> (j < c)%nat -> g i j = g' i j.
Proof.
  intros H H' i j Hi Hj. destruct l; cbn [rep_leaf] in *.
  - destruct H as (_ & _ & H), H' as (_ & _ & H'). now rewrite H, H'.
  - destruct H as (_ & f & M & H), H' as (_ & f' & M' & H'). rewrite H, H' by auto.
    destruct M as (_ & _ & _ & _ & M), M' as (_ & _ & _ & _ & M'). specialize (M i j Hi Hj). specialize (M' i j Hi Hj).
    replace (f' i j) with (f i j); [reflexivity|]. destruct (f i j) as [x|] eqn:E.
    + symmetry. apply M'. now apply M.
    + destruct (f' i j) as [x'|] eqn:E'; [|reflexivity]. apply M. now apply M'.
  - destruct H as (_ & f & M & H), H' as (_ & f' & M' & H'). rewrite H, H' by auto.
    destruct M as (_ & _ & _ & _ & M), M' as (_ & _ & _ & _ & M'). specialize (M i j Hi Hj). specialize (M' i j Hi Hj).
    replace (f' i j) with (f i j); [reflexivity|]. destruct (f i j) as [x|] eqn:E.
    + symmetry. apply M'. now apply M.
    + destruct (f' i j) as [x'|] eqn:E'; [|reflexivity]. apply M. now apply M'.
  - destruct H as (_ & f & (_ & _ & _ & M) & H), H' as (_ & f' & (_ & _ & _ & M') & H'). rewrite H, H' by auto.
    specialize (M i j Hi Hj). rewrite (M' i j Hi Hj) in M. injection M as ->. reflexivity.
  - destruct H as (_ & _ & _ & _ & M), H' as (_ & _ & _ & _ & M').
    specialize (M i j Hi Hj). rewrite (M' i j Hi Hj) in M. injection M as ->. reflexivity.
Qed.

Definition leaf_fin (l : leaf F D) (r c : nat) : Prop :=
  forall g, rep_leaf ar l r c g -> forall i j, (i < r)%nat -> (j < c)%nat -> fin (g i j).
Definition dyn_fin (d : dyn F D) (r c : nat) : Prop :=
  match d with
  | DL l => leaf_fin l r c
  | DM _ _ (Some a) (Some b) => leaf_fin a r c /\ leaf_fin b r c
  | _ => False
  end.
Lemma leaf_fin_intro l r c g : rep_leaf ar l r c g -> (forall i j, (i < r)%nat -> (j < c)%nat -> fin (g i j)) -> leaf_fin l r c.
Proof. intros R H g' R' i j Hi Hj. rewrite (rep_leaf_uniq l r c g' g R' R i j Hi Hj). auto. Qed.

(** The magnitude of an element whose operands have magnitude [A] and [B]. *)
Definition weight (p : policy) (k n : nat) (A B : nat -> R) : R :=
  (1 + uF) ^ k * (rsum n (fun q => A q * B q) + eta * (4 * INR n + 2 * mkl p * rsum n (fun q => A q + B q))).

Lemma weight_mono p k k' n A B A' B' : (k <= k')%nat ->
  (forall q, (q < n)%nat -> 0 <= A q <= A' q) -> (forall q, (q < n)%nat -> 0 <= B q <= B' q) ->
  weight p k n A B <= weight p k' n A' B'.
Proof.
  intros Hk HA HB. apply size_mono; [exact Hk|].
  assert (S0 : 0 <= rsum n (fun q => A q * B q)).
  { apply rsum_pos. intros q Hq. destruct (HA q Hq), (HB q Hq). apply Rmult_le_pos; lra. }
  assert (S1 : rsum n (fun q => A q * B q) <= rsum n (fun q => A' q * B' q)).
  { apply rsum_le. intros q Hq. destruct (HA q Hq), (HB q Hq). apply Rmult_le_compat; lra. }
  assert (S2 : 0 <= rsum n (fun q => A q + B q)).
  { apply rsum_pos. intros q Hq. destruct (HA q Hq), (HB q Hq). lra. }
  assert (S3 : rsum n (fun q => A q + B q) <= rsum n (fun q => A' q + B' q)).
  { apply rsum_le. intros q Hq. destruct (HA q Hq), (HB q Hq). lra. }
  pose proof (mkl_pos p) as Pm. pose proof (pos_INR n).
  assert (M0 : 0 <= mkl p * rsum n (fun q => A q + B q)) by (apply Rmult_le_pos; lra).
  assert (M1 : mkl p * rsum n (fun q => A q + B q) <= mkl p * rsum n (fun q => A' q + B' q)) by (apply Rmult_le_compat_l; lra).
  split.
  - apply Rplus_le_le_0_compat; [exact S0|]. apply Rmult_le_pos; lra.
  - apply Rplus_le_compat; [exact S1|]. apply Rmult_le_compat_l; lra.
Qed.

Lemma mul_leaf_fin p dbg a b m n l va wda wfa vb wdb wfb c :
  leaf_real ar v a m n va wda wfa -> leaf_real ar v b n l vb wdb wfb -> fits p m n l ->
  leaf_fin a m n -> leaf_fin b n l ->
  (p = PMKL -> forall i j q, (i < m)%nat -> (j < l)%nat -> (q < n)%nat -> wda i q + wfa i q <= om /\ wdb q j + wfb q j <= om) ->
  (forall i j, (i < m)%nat -> (j < l)%nat -> weight p (n + 2) n (fun q => wda i q + wfa i q) (fun q => wdb q j + wfb q j) <= om) ->
  mul_leaf ar p dbg a b = Ok c -> leaf_fin c m l.
Proof.
  intros (ga & Ra & Ha) (gb & Rb & Hb) Hfit Fa Fb HM HB E.
  destruct (mul_leaf_eval ar p true dbg a b m n l ga gb Ra Rb Hfit) as (c' & h & E' & T & Rc & Hc); auto.
  rewrite E in E'. injection E' as <-. apply (leaf_fin_intro c m l h Rc). intros i j Hi Hj.
  assert (WA : forall q, (q < n)%nat -> wda i q + wfa i q = Rabs (v (ga i q))).
  { intros q Hq. destruct (Ha i q Hi Hq) as (_ & -> & ->). destruct (is_f _); lra. }
  assert (WB : forall q, (q < n)%nat -> wdb q j + wfb q j = Rabs (v (gb q j))).
  { intros q Hq. destruct (Hb q j Hq Hj) as (_ & -> & ->). destruct (is_f (leaf_ty b)); ring. }
  apply (dot_eval_fin p true n _ _ _ (Hc i j Hi Hj)).
  - intros q Hq. split; [now apply (Fa ga Ra)|now apply (Fb gb Rb)].
  - intros Hp q Hq. rewrite <- WA, <- WB by auto. now apply HM.
  - eapply Rle_trans; [|apply (HB i j Hi Hj)]. unfold weight. apply size_mono; [lia|].
    assert (E1 : rsum n (fun q => (wda i q + wfa i q) * (wdb q j + wfb q j)) = rsum n (fun q => Rabs (v (ga i q) * v (gb q j)))).
    { apply rsum_ext. intros q Hq. now rewrite WA, WB, Rabs_mult. }
    assert (E2 : rsum n (fun q => wda i q + wfa i q + (wdb q j + wfb q j)) = rsum n (fun q => Rabs (v (ga i q)) + Rabs (v (gb q j)))).
    { apply rsum_ext. intros q Hq. now rewrite WA, WB. }
    rewrite E1, E2.
    assert (P1 : 0 <= rsum n (fun q => Rabs (v (ga i q) * v (gb q j)))) by (apply rsum_pos; intros; apply Rabs_pos).
    assert (P2 : 0 <= rsum n (fun q => Rabs (v (ga i q)) + Rabs (v (gb q j)))).
    { apply rsum_pos. intros q Hq. pose proof (Rabs_pos (v (ga i q))). pose proof (Rabs_pos (v (gb q j))). lra. }
    pose proof (mkl_pos p) as Pm. pose proof (pos_INR n).
    assert (M0 : 0 <= mkl p * rsum n (fun q => Rabs (v (ga i q)) + Rabs (v (gb q j)))) by (apply Rmult_le_pos; lra).
    split; [apply Rplus_le_le_0_compat; [exact P1|]; apply Rmult_le_pos; lra|].
    apply Rplus_le_compat_l. apply Rmult_le_compat_l; lra.
Qed.

Lemma plus_fin dbg a b m l k Sd Sf E val Sd' Sf' E' val' c :
  approx ar v fin uD uF a m l k Sd Sf E val -> approx ar v fin uD uF b m l k Sd' Sf' E' val' ->
  leaf_fin a m l -> leaf_fin b m l ->
  (forall i j, (i < m)%nat -> (j < l)%nat -> (1 + uF) ^ k * (Sd i j + Sd' i j + (Sf i j + Sf' i j) + (E i j + E' i j)) <= om) ->
  bin_leaf ar Plus dbg a b = Ok c -> leaf_fin c m l.
Proof.
  intros (ga & Ra & Ha) (gb & Rb & Hb) Fa Fb HB EC.
  destruct (bin_leaf_eval ar Plus true dbg a b m l ga gb Ra Rb eq_refl) as (c' & h & Ec & Tc & Rc & Hc); auto.
  rewrite EC in Ec. injection Ec as <-. apply (leaf_fin_intro c m l h Rc). intros i j Hi Hj.
  eapply (bin_eval_fin k true _ _ _ _ _ _ _ _ _ _ _ (Hc i j Hi Hj)).
  - now apply (Fa ga Ra).
  - now apply (Fb gb Rb).
  - apply (Ha i j Hi Hj). now apply (Fa ga Ra).
  - apply (Hb i j Hi Hj). now apply (Fb gb Rb).
  - now apply HB.
Qed.
End P.
