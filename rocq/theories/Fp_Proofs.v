(** Error analysis of the dispatched product. *)
From Coq Require Import Reals Lra Psatz.
From Verif Require Import Base BaseLemmas Dense_Model Dense_Spec Dense_Proofs Dense2_Proofs Sparse_Model Sparse_Spec
  Sparse_Proofs Sparse2_Proofs Mult_Model Mult_Spec Mult_Proofs Mult2_Proofs Dyn_Model Dyn_Spec Dyn_Proofs Dyn2_Proofs
  Block_Proofs Eval_Spec Eval_Proofs Fp_Spec.
#[local] Open Scope R_scope.

(** ** Sums *)
Lemma rsum_ext n f g : (forall i, (i < n)%nat -> f i = g i) -> rsum n f = rsum n g.
Proof. induction n; intros H; cbn; [reflexivity|]. rewrite IHn by (intros; apply H; lia). now rewrite H by lia. Qed.
Lemma rsum_add n f g : rsum n (fun i => f i + g i) = rsum n f + rsum n g.
Proof. induction n; cbn; [lra|]. rewrite IHn. lra. Qed.
Lemma rsum_scal n c f : rsum n (fun i => c * f i) = c * rsum n f.
Proof. induction n; cbn; [lra|]. rewrite IHn. lra. Qed.
Lemma rsum_le n f g : (forall i, (i < n)%nat -> f i <= g i) -> rsum n f <= rsum n g.
Proof. induction n; intros H; cbn; [lra|]. apply Rplus_le_compat; [apply IHn; intros; apply H; lia|apply H; lia]. Qed.
Lemma rsum_0 n f : (forall i, (i < n)%nat -> f i = 0) -> rsum n f = 0.
Proof. induction n; intros H; cbn; [reflexivity|]. rewrite IHn by (intros; apply H; lia). rewrite H by lia. lra. Qed.
Lemma rsum_pos n f : (forall i, (i < n)%nat -> 0 <= f i) -> 0 <= rsum n f.
Proof. intros H. rewrite <- (rsum_0 n (fun _ => 0)) by auto. now apply rsum_le. Qed.
Lemma rsum_abs n f : Rabs (rsum n f) <= rsum n (fun i => Rabs (f i)).
Proof. induction n; cbn; [rewrite Rabs_R0; lra|]. eapply Rle_trans; [apply Rabs_triang|]. lra. Qed.
Lemma rsum_app a b f : rsum (a + b) f = rsum a f + rsum b (fun k => f (a + k)%nat).
Proof. induction b; cbn; [rewrite Nat.add_0_r; lra|]. rewrite Nat.add_succ_r. cbn. rewrite IHb. lra. Qed.
Lemma lsum_app {A} (f : A -> R) l l' : lsum f (l ++ l') = lsum f l + lsum f l'.
Proof. induction l; cbn; [lra|]. rewrite IHl. lra. Qed.
Lemma lsum_map {A B} (f : B -> R) (g : A -> B) l : lsum f (map g l) = lsum (fun a => f (g a)) l.
Proof. induction l; cbn; congruence. Qed.
Lemma lsum_filter n keep f : (forall k, (k < n)%nat -> keep k = false -> f k = 0) ->
  lsum f (filter keep (seq 0 n)) = rsum n f.
Proof.
  induction n as [|n IH]; intros H; [reflexivity|]. rewrite seq_S, filter_app, lsum_app, IH by (intros; apply H; auto).
  cbn [filter Nat.add rsum]. destruct (keep n) eqn:E; cbn; [lra|]. rewrite H by auto. lra.
Qed.
Lemma filter_len keep n : (length (filter keep (seq 0 n)) <= n)%nat.
Proof. rewrite <- (seq_length n 0) at 2. generalize (seq 0 n). intros l. induction l; cbn; [lia|]. destruct (keep a); cbn; lia. Qed.

Section P.
Context {F D : Type} (ar : arith F D) (v : D -> R) (fin : D -> Prop) (uD uF eta : R).
Context (X : rounding ar v fin uD uF eta).

Let Hu : 0 <= uD <= uF /\ 0 <= eta := ro_u _ _ _ _ _ _ X.

Lemma pow_ge u k : 0 <= u -> 1 <= (1 + u) ^ k.
Proof. intros. apply pow_R1_Rle. lra. Qed.
Lemma pow_mono u k m : 0 <= u -> (k <= m)%nat -> (1 + u) ^ k <= (1 + u) ^ m.
Proof. intros. apply Rle_pow; [lra|auto]. Qed.

Definition near (k : nat) (Sd Sf E r x : R) : Prop :=
  0 <= Sd /\ 0 <= Sf /\ 0 <= E /\ Rabs r <= Sd + Sf /\ Rabs (x - r) <= err uD uF k Sd Sf E.

Lemma err_pos k Sd Sf E : 0 <= Sd -> 0 <= Sf -> 0 <= E -> 0 <= err uD uF k Sd Sf E.
Proof.
  intros. unfold err. pose proof (pow_ge uD k ltac:(lra)). pose proof (pow_ge uF k ltac:(lra)).
  assert (0 <= ((1 + uD) ^ k - 1) * Sd) by (apply Rmult_le_pos; lra).
  assert (0 <= ((1 + uF) ^ k - 1) * Sf) by (apply Rmult_le_pos; lra).
  assert (0 <= (1 + uF) ^ k * E) by (apply Rmult_le_pos; lra). lra.
Qed.

Lemma err_mono k k' Sd Sf E Sd' Sf' E' : (k <= k')%nat -> 0 <= Sd -> 0 <= Sf -> 0 <= E ->
  Sd <= Sd' -> Sf <= Sf' -> E <= E' -> err uD uF k Sd Sf E <= err uD uF k' Sd' Sf' E'.
Proof.
  intros Hk H1 H2 H3 L1 L2 L3. unfold err.
  pose proof (pow_ge uD k ltac:(lra)) as A1. pose proof (pow_ge uF k ltac:(lra)) as A2.
  pose proof (pow_mono uD k k' ltac:(lra) Hk) as B1. pose proof (pow_mono uF k k' ltac:(lra) Hk) as B2.
  assert (((1 + uD) ^ k - 1) * Sd <= ((1 + uD) ^ k' - 1) * Sd') by (apply Rmult_le_compat; lra).
  assert (((1 + uF) ^ k - 1) * Sf <= ((1 + uF) ^ k' - 1) * Sf') by (apply Rmult_le_compat; lra).
  assert ((1 + uF) ^ k * E <= (1 + uF) ^ k' * E') by (apply Rmult_le_compat; lra). lra.
Qed.

Lemma near_weaken k k' Sd Sf E Sd' Sf' E' r x : near k Sd Sf E r x ->
  (k <= k')%nat -> Sd <= Sd' -> Sf <= Sf' -> E <= E' -> near k' Sd' Sf' E' r x.
Proof.
  intros (H1 & H2 & H3 & H4 & H5) Hk L1 L2 L3. repeat split; try lra.
  eapply Rle_trans; [exact H5|]. now apply err_mono.
Qed.

Lemma err_add k Sd Sf E Sd' Sf' E' :
  err uD uF k Sd Sf E + err uD uF k Sd' Sf' E' = err uD uF k (Sd + Sd') (Sf + Sf') (E + E').
Proof. unfold err. ring. Qed.

(** One more rounding, in double, or in float if there is no double part. *)
Lemma err_S u k Sd Sf E s e : 0 <= Sd -> 0 <= Sf -> 0 <= E -> 0 <= s -> 0 <= u <= uF -> u <= uD \/ Sd = 0 ->
  s <= Sd + Sf -> e <= err uD uF k Sd Sf E -> (1 + u) * e + u * s <= err uD uF (S k) Sd Sf E.
Proof.
  intros P1 P2 P3 Hs Hu0 Hc Hle He.
  assert (Q : (1 + u) * e + u * s <= (1 + u) * err uD uF k Sd Sf E + u * (Sd + Sf)).
  { apply Rplus_le_compat; apply Rmult_le_compat_l; lra. }
  eapply Rle_trans; [exact Q|]. unfold err. cbn [pow].
  pose proof (pow_ge uD k ltac:(lra)) as A1. pose proof (pow_ge uF k ltac:(lra)) as A2.
  set (x := (1 + uD) ^ k) in *. set (y := (1 + uF) ^ k) in *.
  assert (B1 : u * (x * Sd) <= uD * (x * Sd)).
  { destruct Hc as [Hc| ->]; [|lra]. apply Rmult_le_compat_r; [|lra]. apply Rmult_le_pos; lra. }
  assert (B2 : u * (y * Sf) <= uF * (y * Sf)).
  { apply Rmult_le_compat_r; [|lra]. apply Rmult_le_pos; lra. }
  assert (B3 : u * (y * E) <= uF * (y * E)).
  { apply Rmult_le_compat_r; [|lra]. apply Rmult_le_pos; lra. }
  nra.
Qed.

Lemma near_round u k Sd Sf E r s x : near k Sd Sf E r s -> 0 <= u <= uF -> u <= uD \/ Sd = 0 ->
  Rabs (x - s) <= u * Rabs s -> near (S k) Sd Sf E r x.
Proof.
  intros (H1 & H2 & H3 & H4 & H5) Hu0 Hc Hx. repeat split; auto.
  eapply Rle_trans; [|apply (err_S u k Sd Sf E (Rabs r) (Rabs (s - r)) H1 H2 H3 (Rabs_pos _) Hu0 Hc H4 H5)].
  replace (x - r) with ((x - s) + (s - r)) by ring. eapply Rle_trans; [apply Rabs_triang|].
  assert (Rabs s <= Rabs (s - r) + Rabs r).
  { replace s with ((s - r) + r) at 1 by ring. apply Rabs_triang. }
  assert (u * Rabs s <= u * (Rabs (s - r) + Rabs r)) by (apply Rmult_le_compat_l; lra). lra.
Qed.

Lemma near_sum k Sd Sf E Sd' Sf' E' r r' x x' : near k Sd Sf E r x -> near k Sd' Sf' E' r' x' ->
  near k (Sd + Sd') (Sf + Sf') (E + E') (r + r') (x + x').
Proof.
  intros (H1 & H2 & H3 & H4 & H5) (G1 & G2 & G3 & G4 & G5). repeat split; try lra.
  - eapply Rle_trans; [apply Rabs_triang|]. lra.
  - rewrite <- err_add. replace (x + x' - (r + r')) with ((x - r) + (x' - r')) by ring.
    eapply Rle_trans; [apply Rabs_triang|]. lra.
Qed.

Lemma near_0 k : near k 0 0 0 0 0.
Proof. repeat split; try lra; [rewrite Rabs_R0; lra|]. rewrite Rminus_diag_eq by reflexivity. rewrite Rabs_R0. apply err_pos; lra. Qed.

(** ** Inner products *)
(** In one format with unit roundoff [u]: the magnitudes go to [Sd] or [Sf]. *)
Section Fmt.
Context {A : Type} (w : A -> R) (fi : A -> Prop) (zero : A) (add sub : A -> A -> A) (opp : A -> A)
  (fma : A -> A -> A -> A) (dot : list (A * A) -> A) (nz : A -> bool) (u : R).
Context (Y : format w fi zero add sub opp fma dot nz u eta) (isf : bool).
Hypothesis Hui : u = if isf then uF else uD.
Let nearX k S E r x := near k (if isf then 0 else S) (if isf then S else 0) E r x.

Lemma fmt_fold n keep (x y : nat -> A) (X' Y' : nat -> R) :
  (forall k, (k < n)%nat -> keep k = false -> X' k * Y' k = 0) ->
  (forall k, (k < n)%nat -> keep k = true -> X' k = w (x k) /\ Y' k = w (y k)) ->
  let c := fold_left (fun c k => fma c (x k) (y k)) (filter keep (seq 0 n)) zero in
  fi c -> nearX (n + 1) (rsum n (fun k => Rabs (X' k * Y' k))) (INR n * eta) (rsum n (fun k => X' k * Y' k)) (w c).
Proof.
  induction n as [|n IH]; intros H0 H1 c Hf.
  - cbn in c. subst c. rewrite (proj2 (fm_zero _ _ _ _ _ _ _ _ _ _ _ Y)). cbn [rsum INR].
    rewrite Rmult_0_l. unfold nearX. destruct isf; apply near_0.
  - subst c. rewrite seq_S, filter_app, fold_left_app in *. cbn [Nat.add filter fold_left] in *.
    specialize (IH ltac:(intros; apply H0; auto) ltac:(intros; apply H1; auto)). cbv zeta in IH.
    set (c := fold_left _ (filter keep (seq 0 n)) zero) in *.
    cbn [rsum]. rewrite S_INR. destruct (keep n) eqn:Ek; cbn [fold_left] in *.
    + destruct (fm_fma _ _ _ _ _ _ _ _ _ _ _ Y c (x n) (y n) Hf) as (Fc & _ & _ & q & Hq & Hs).
      destruct (H1 n ltac:(lia) Ek) as [Ex Ey]. rewrite Ex, Ey.
      specialize (IH Fc). change (S n + 1)%nat with (S (n + 1)).
      set (p := w (x n) * w (y n)) in *.
      assert (Nq : nearX 1 (Rabs p) eta p q).
      { unfold nearX, near, err. pose proof (Rabs_pos p). destruct isf; rewrite Hui in Hq; cbn [pow]; repeat split; try lra; nra. }
      assert (Nq' : nearX (n + 1) (Rabs p) eta p q).
      { unfold nearX in *. eapply near_weaken; [exact Nq|lia|lra..]. }
      unfold nearX in *. destruct isf.
      * apply (near_round u _ _ _ _ _ (w c + q)).
        -- replace 0 with (0 + 0) by ring. rewrite Rmult_plus_distr_r, Rmult_1_l. now apply near_sum.
        -- lra.
        -- right. reflexivity.
        -- exact Hs.
      * apply (near_round u _ _ _ _ _ (w c + q)).
        -- replace 0 with (0 + 0) by ring. rewrite Rmult_plus_distr_r, Rmult_1_l. now apply near_sum.
        -- lra.
        -- left. lra.
        -- exact Hs.
    + rewrite (H0 n) by (auto; lia). rewrite Rabs_R0, !Rplus_0_r. specialize (IH Hf). unfold nearX in *.
      eapply near_weaken; [exact IH|lia|lra|lra|]. pose proof (pos_INR n). nra.
Qed.

Lemma fmt_dot n keep (x y : nat -> A) (X' Y' : nat -> R) :
  (forall k, (k < n)%nat -> keep k = false -> X' k * Y' k = 0) ->
  (forall k, (k < n)%nat -> keep k = true -> X' k = w (x k) /\ Y' k = w (y k)) ->
  let c := dot (map (fun k => (x k, y k)) (filter keep (seq 0 n))) in
  fi c -> nearX (n + 1) (rsum n (fun k => Rabs (X' k * Y' k))) (INR n * eta) (rsum n (fun k => X' k * Y' k)) (w c).
Proof.
  intros H0 H1 c Hf. destruct (fm_dot _ _ _ _ _ _ _ _ _ _ _ Y _ Hf) as [_ Hd].
  rewrite !lsum_map in Hd. cbn [fst snd] in Hd. rewrite map_length in Hd.
  set (l := filter keep (seq 0 n)) in *.
  assert (EL : forall k, In k l -> X' k = w (x k) /\ Y' k = w (y k)).
  { intros k Hk. apply filter_In in Hk as [Hk1 Hk2]. apply in_seq in Hk1. apply H1; auto. lia. }
  assert (E1 : lsum (fun k => w (x k) * w (y k)) l = rsum n (fun k => X' k * Y' k)).
  { rewrite <- (lsum_filter n keep) by auto. fold l. clear - EL. induction l as [|a l IH]; cbn; [reflexivity|].
    destruct (EL a (or_introl eq_refl)) as [-> ->]. rewrite IH; auto. intros; apply EL; now right. }
  assert (E2 : lsum (fun k => Rabs (w (x k) * w (y k))) l = rsum n (fun k => Rabs (X' k * Y' k))).
  { rewrite <- (lsum_filter n keep) by (intros k Hk1 Hk2; rewrite H0 by auto; apply Rabs_R0).
    fold l. clear - EL. induction l as [|a l IH]; cbn; [reflexivity|].
    destruct (EL a (or_introl eq_refl)) as [-> ->]. rewrite IH; auto. intros; apply EL; now right. }
  rewrite E1, E2 in Hd. pose proof (filter_len keep n) as Ln. fold l in Ln.
  set (sa := rsum n (fun k => Rabs (X' k * Y' k))) in *. set (s := rsum n (fun k => X' k * Y' k)) in *.
  assert (Psa : 0 <= sa) by (apply rsum_pos; intros; apply Rabs_pos).
  assert (Ps : Rabs s <= sa) by apply rsum_abs.
  assert (Pn : INR (length l) * eta <= INR n * eta) by (apply Rmult_le_compat_r; [lra|now apply le_INR]).
  assert (Pl : 0 <= INR (length l) * eta) by (apply Rmult_le_pos; [apply pos_INR|lra]).
  set (L := (length l + 1)%nat) in *.
  unfold nearX, near. rewrite Hui in Hd. destruct isf; (split; [lra|split; [lra|split; [lra|split; [lra|]]]]).
  - eapply Rle_trans; [|apply (err_mono L (n + 1) 0 sa (INR (length l) * eta) 0 sa (INR n * eta)); try lra; unfold L; lia].
    unfold err. eapply Rle_trans; [exact Hd|]. lra.
  - eapply Rle_trans; [|apply (err_mono L (n + 1) sa 0 (INR (length l) * eta) sa 0 (INR n * eta)); try lra; unfold L; lia].
    unfold err. eapply Rle_trans; [exact Hd|]. assert ((1 + uD) ^ L <= (1 + uF) ^ L) by (apply pow_incr; lra). nra.
Qed.
End Fmt.

(** Policy MKL: one factor is first rounded to float. *)
Lemma mixed_near n (l : list (F * F)) (P Q W : nat -> R) T :
  fin (toD ar (dotF ar l)) -> length l = n ->
  rsum n Q = lsum (fun q => v (toD ar (fst q)) * v (toD ar (snd q))) l ->
  rsum n (fun k => Rabs (Q k)) = lsum (fun q => Rabs (v (toD ar (fst q)) * v (toD ar (snd q)))) l ->
  (forall k, (k < n)%nat -> 0 <= W k /\ Rabs (Q k - P k) <= uF * Rabs (P k) + eta * W k) ->
  rsum n W <= T ->
  near (n + 2) 0 (rsum n (fun k => Rabs (P k))) (eta * (INR n + 1 * T)) (rsum n P) (v (toD ar (dotF ar l))).
Proof.
  intros Hf Hl E1 E2 HQ HT.
  destruct (fm_dot _ _ _ _ _ _ _ _ _ _ _ (ro_F _ _ _ _ _ _ X) _ Hf) as [_ Hd]. rewrite <- E1, <- E2, Hl in Hd.
  set (S := rsum n (fun k => Rabs (P k))). set (Sq := rsum n (fun k => Rabs (Q k))) in *.
  assert (PS : 0 <= S) by (apply rsum_pos; intros; apply Rabs_pos).
  assert (PW : 0 <= rsum n W) by (apply rsum_pos; intros; now apply HQ).
  assert (D1 : Rabs (rsum n Q - rsum n P) <= uF * S + eta * T).
  { replace (rsum n Q - rsum n P) with (rsum n (fun k => Q k - P k)).
    - eapply Rle_trans; [apply rsum_abs|]. eapply Rle_trans; [apply rsum_le; intros; now apply HQ|].
      rewrite rsum_add, !rsum_scal. unfold S. assert (eta * rsum n W <= eta * T) by (apply Rmult_le_compat_l; lra). lra.
    - clear. induction n; cbn; [lra|]. rewrite IHn. lra. }
  assert (D2 : Sq <= (1 + uF) * S + eta * T).
  { eapply Rle_trans with (rsum n (fun k => (1 + uF) * Rabs (P k) + eta * W k)).
    - apply rsum_le. intros k Hk. destruct (HQ k Hk) as [_ HH].
      replace (Q k) with ((Q k - P k) + P k) by ring. eapply Rle_trans; [apply Rabs_triang|]. lra.
    - rewrite rsum_add, !rsum_scal. unfold S. assert (eta * rsum n W <= eta * T) by (apply Rmult_le_compat_l; lra). lra. }
  assert (Pn : 0 <= INR n) by apply pos_INR.
  pose proof (pow_ge uF (n + 1) ltac:(lra)) as A.
  assert (PQ : 0 <= Sq) by (apply rsum_pos; intros; apply Rabs_pos).
  repeat split; try lra.
  - apply Rmult_le_pos; lra.
  - rewrite Rplus_0_l. apply rsum_abs.
  - unfold err. replace (n + 2)%nat with (Datatypes.S (n + 1)) by lia. cbn [pow].
    set (z := (1 + uF) ^ (n + 1)) in *. clearbody z.
    set (r := v (toD ar (dotF ar l))) in *.
    replace (r - rsum n P) with ((r - rsum n Q) + (rsum n Q - rsum n P)) by ring.
    eapply Rle_trans; [apply Rabs_triang|].
    assert (D3 : (z - 1) * Sq <= (z - 1) * ((1 + uF) * S + eta * T)) by (apply Rmult_le_compat_l; lra).
    assert (PT : 0 <= eta * T) by (apply Rmult_le_pos; lra).
    assert (PE : 0 <= INR n * eta) by (apply Rmult_le_pos; lra).
    assert (D4 : 0 <= uF * (z * (eta * (INR n + 1 * T)))).
    { apply Rmult_le_pos; [lra|]. apply Rmult_le_pos; [lra|]. nra. }
    nra.
Qed.

(** What [dot_eval] gives: everything in double, or everything in float. *)
Lemma dot_eval_near p fl n x y r : dot_eval ar p fl n x y r -> fin r ->
  let S := rsum n (fun k => Rabs (v (x k) * v (y k))) in
  let E := eta * (INR n + mkl p * rsum n (fun k => Rabs (v (x k)) + Rabs (v (y k)))) in
  exists b, (b = true -> fl = true) /\
    near (n + 2) (if b then 0 else S) (if b then S else 0) E (rsum n (fun k => v (x k) * v (y k))) (v r).
Proof.
  intros H. cbv zeta.
  set (S := rsum n (fun k => Rabs (v (x k) * v (y k)))).
  set (T := rsum n (fun k => Rabs (v (x k)) + Rabs (v (y k)))).
  assert (PT : 0 <= T).
  { apply rsum_pos. intros k _. pose proof (Rabs_pos (v (x k))). pose proof (Rabs_pos (v (y k))). lra. }
  assert (Pm : 0 <= mkl p <= 1) by (destruct p; cbn; lra).
  assert (EE : INR n * eta <= eta * (INR n + mkl p * T)).
  { assert (0 <= eta * (mkl p * T)) by (apply Rmult_le_pos; [lra|apply Rmult_le_pos; lra]). lra. }
  assert (Z0 : v (d0 ar) = 0) by apply (fm_zero _ _ _ _ _ _ _ _ _ _ _ (ro_D _ _ _ _ _ _ X)).
  assert (KZ : forall k, x k = d0 ar \/ y k = d0 ar -> v (x k) * v (y k) = 0).
  { intros k [-> | ->]; rewrite Z0; lra. }
  induction H; intros Hf.
  - exists false. split; [discriminate|].
    pose proof (fmt_fold v fin (d0 ar) _ _ _ _ _ _ uD (ro_D _ _ _ _ _ _ X) false eq_refl n keep x y
       (fun k => v (x k)) (fun k => v (y k)) (fun k Hk E => KZ k (H k Hk E)) ltac:(auto) Hf) as N.
    cbn [negb] in N. cbv beta iota in *. eapply near_weaken; [exact N|lia|(try apply Rle_refl)..|exact EE].
  - exists false. split; [discriminate|].
    pose proof (fmt_dot v fin (d0 ar) _ _ _ _ _ _ uD (ro_D _ _ _ _ _ _ X) false eq_refl n keep x y
       (fun k => v (x k)) (fun k => v (y k)) (fun k Hk E => KZ k (H k Hk E)) ltac:(auto) Hf) as N.
    cbv beta iota in *. eapply near_weaken; [exact N|lia|(try apply Rle_refl)..|exact EE].
  - exists true. split; [auto|].
    pose proof (fmt_fold (fun a => v (toD ar a)) (fun a => fin (toD ar a)) (f0 ar) _ _ _ _ _ _ uF (ro_F _ _ _ _ _ _ X) true eq_refl
       n keep x' y' (fun k => v (x k)) (fun k => v (y k)) (fun k Hk E => KZ k (H0 k Hk E))) as N.
    specialize (N ltac:(intros k Hk Ek; destruct (H1 k Hk Ek) as [-> ->]; auto) Hf).
    cbv beta iota in *. eapply near_weaken; [exact N|lia|(try apply Rle_refl)..|exact EE].
  - exists true. split; [auto|].
    pose proof (fmt_dot (fun a => v (toD ar a)) (fun a => fin (toD ar a)) (f0 ar) _ _ _ _ _ _ uF (ro_F _ _ _ _ _ _ X) true eq_refl
       n (fun _ => true) x' y' (fun k => v (x k)) (fun k => v (y k)) ltac:(discriminate)) as N.
    rewrite filter_true in N.
    specialize (N ltac:(intros k Hk _; destruct (H0 k Hk) as [-> ->]; auto) Hf).
    cbv beta iota in *. eapply near_weaken; [exact N|lia|(try apply Rle_refl)..|exact EE].
  - exists true. split; [auto|]. subst p. cbn [mkl] in *.
    destruct (fm_dot _ _ _ _ _ _ _ _ _ _ _ (ro_F _ _ _ _ _ _ X) _ Hf) as [Hfac _].
    eapply (mixed_near n _ (fun k => v (x k) * v (y k)) (fun k => v (x k) * v (toD ar (toF ar (y k)))) (fun k => Rabs (v (x k)))).
    + exact Hf.
    + now rewrite map_length, seq_length.
    + rewrite lsum_map. cbn [fst snd]. rewrite <- (filter_true (seq 0 n)), lsum_filter by discriminate.
      apply rsum_ext. intros k Hk. now rewrite H1.
    + rewrite lsum_map. cbn [fst snd]. rewrite <- (filter_true (seq 0 n)), lsum_filter by discriminate.
      apply rsum_ext. intros k Hk. now rewrite H1.
    + intros k Hk. split; [apply Rabs_pos|].
      destruct (Hfac (x' k) (toF ar (y k))) as [_ [Fy|[_ Vx]]].
      { apply in_map_iff. exists k. split; auto. apply in_seq. lia. }
      * destruct (ro_cv _ _ _ _ _ _ X (y k) Fy) as [_ Hc].
        rewrite <- Rmult_minus_distr_l, Rabs_mult. rewrite Rabs_mult.
        pose proof (Rabs_pos (v (x k))). nra.
      * rewrite H1 by auto. rewrite Vx, !Rmult_0_l, Rminus_0_r, Rabs_R0. lra.
    + apply rsum_le. intros k _. pose proof (Rabs_pos (v (y k))). lra.
  - exists true. split; [auto|]. subst p. cbn [mkl] in *.
    destruct (fm_dot _ _ _ _ _ _ _ _ _ _ _ (ro_F _ _ _ _ _ _ X) _ Hf) as [Hfac _].
    eapply (mixed_near n _ (fun k => v (x k) * v (y k)) (fun k => v (toD ar (toF ar (x k))) * v (y k)) (fun k => Rabs (v (y k)))).
    + exact Hf.
    + now rewrite map_length, seq_length.
    + rewrite lsum_map. cbn [fst snd]. rewrite <- (filter_true (seq 0 n)), lsum_filter by discriminate.
      apply rsum_ext. intros k Hk. now rewrite H1.
    + rewrite lsum_map. cbn [fst snd]. rewrite <- (filter_true (seq 0 n)), lsum_filter by discriminate.
      apply rsum_ext. intros k Hk. now rewrite H1.
    + intros k Hk. split; [apply Rabs_pos|].
      destruct (Hfac (toF ar (x k)) (y' k)) as [[Fy|[_ Vx]] _].
      { apply in_map_iff. exists k. split; auto. apply in_seq. lia. }
      * destruct (ro_cv _ _ _ _ _ _ X (x k) Fy) as [_ Hc].
        rewrite <- Rmult_minus_distr_r, Rabs_mult. rewrite Rabs_mult.
        pose proof (Rabs_pos (v (y k))). nra.
      * rewrite H1 by auto. rewrite Vx, !Rmult_0_r, Rminus_0_r, Rabs_R0. lra.
    + apply rsum_le. intros k _. pose proof (Rabs_pos (v (x k))). lra.
  - destruct (fm_nz _ _ _ _ _ _ _ _ _ _ _ (ro_D _ _ _ _ _ _ X) r H0) as [Fr Vr].
    destruct (IHdot_eval Fr) as (b & Hb & N). exists b. split; [exact Hb|]. rewrite Vr in N. now rewrite Z0.
  - destruct (fm_nz _ _ _ _ _ _ _ _ _ _ _ (ro_F _ _ _ _ _ _ X) r H1) as [Fr Vr].
    destruct (IHdot_eval Fr) as (b & Hb & N). exists b. split; [exact Hb|]. rewrite Vr in N. now rewrite Z0.
Qed.

Lemma near_d2f k Sd Sf E r x : near k Sd Sf E r x -> near k 0 (Sd + Sf) E r x.
Proof.
  intros (H1 & H2 & H3 & H4 & H5). repeat split; try lra. eapply Rle_trans; [exact H5|]. unfold err.
  assert ((1 + uD) ^ k <= (1 + uF) ^ k) by (apply pow_incr; lra). nra.
Qed.

Lemma in_sum p a b c d : in_double p a b c d + in_float p a b c d = (a + b) * (c + d).
Proof. destruct p; cbn; ring. Qed.

Definition is_d (t : lty) : bool := match t with TS ED | TD ED => true | _ => false end.

(** The one-part object approximates the real matrix [val]. *)
Definition approx (c : leaf F D) (m l k : nat) (Sd Sf E val : nat -> nat -> R) : Prop :=
  exists h, rep_leaf ar c m l h /\ forall i j, (i < m)%nat -> (j < l)%nat ->
    (is_d (leaf_ty c) = false -> Sd i j = 0) /\
    (fin (h i j) -> near k (Sd i j) (Sf i j) (E i j) (val i j) (v (h i j))).

Lemma approx_weaken c m l k k' Sd Sf E val Sd' Sf' E' val' : approx c m l k Sd Sf E val -> (k <= k')%nat ->
  (forall i j, (i < m)%nat -> (j < l)%nat -> Sd i j = Sd' i j /\ Sf i j = Sf' i j /\ E i j <= E' i j /\ val i j = val' i j) ->
  approx c m l k' Sd' Sf' E' val'.
Proof.
  intros (h & R & H) Hk HH. exists h. split; [exact R|]. intros i j Hi Hj.
  destruct (H i j Hi Hj) as [H1 H2]. destruct (HH i j Hi Hj) as (E1 & E2 & E3 & E4).
  rewrite <- E1, <- E2, <- E4. split; [exact H1|]. intros Hf. eapply near_weaken; [now apply H2|exact Hk|lra..].
Qed.

Lemma approx_mul p dbg a b m n l va wda wfa vb wdb wfb :
  leaf_real ar v a m n va wda wfa -> leaf_real ar v b n l vb wdb wfb -> fits p m n l ->
  exists c, mul_leaf ar p dbg a b = Ok c /\ leaf_ty c = mul_lty (leaf_ty a) (leaf_ty b) /\
    approx c m l (n + 2)
      (fun i j => rsum n (fun q => in_double p (wda i q) (wfa i q) (wdb q j) (wfb q j)))
      (fun i j => rsum n (fun q => in_float p (wda i q) (wfa i q) (wdb q j) (wfb q j)))
      (fun i j => eta * (INR n + mkl p * rsum n (fun q => wda i q + wfa i q + (wdb q j + wfb q j))))
      (fun i j => rsum n (fun q => va i q * vb q j)).
Proof.
  intros (ga & Ra & Ha) (gb & Rb & Hb) Hfit.
  set (fa := is_f (leaf_ty a)) in *. set (fb := is_f (leaf_ty b)) in *.
  set (mk := match p with PMKL => true | _ => false end).
  set (fl := (fa && fb) || (mk && (fa || fb))).
  destruct (mul_leaf_eval ar p fl dbg a b m n l ga gb Ra Rb Hfit) as (c & h & E & T & Rc & Hc).
  { fold fa fb. unfold fl, mk. intros -> [-> | ->]; [reflexivity|]. destruct fb; reflexivity. }
  { fold fa fb. unfold fl, mk. intros -> [-> | ->]; [reflexivity|]. destruct fa; reflexivity. }
  exists c. split; [exact E|]. split; [exact T|]. exists h. split; [exact Rc|]. intros i j Hi Hj.
  assert (EP : forall q, (q < n)%nat ->
      in_double p (wda i q) (wfa i q) (wdb q j) (wfb q j) = (if fl then 0 else Rabs (v (ga i q) * v (gb q j))) /\
      in_float p (wda i q) (wfa i q) (wdb q j) (wfb q j) = (if fl then Rabs (v (ga i q) * v (gb q j)) else 0) /\
      wda i q + wfa i q + (wdb q j + wfb q j) = Rabs (v (ga i q)) + Rabs (v (gb q j)) /\
      va i q * vb q j = v (ga i q) * v (gb q j)).
  { intros q Hq. destruct (Ha i q Hi Hq) as (-> & -> & ->). destruct (Hb q j Hq Hj) as (-> & -> & ->).
    rewrite Rabs_mult. unfold fl, mk, in_double, in_float. destruct fa, fb, p; cbn [andb orb]; repeat split; ring. }
  assert (E1 : rsum n (fun q => in_double p (wda i q) (wfa i q) (wdb q j) (wfb q j)) =
      if fl then 0 else rsum n (fun q => Rabs (v (ga i q) * v (gb q j)))).
  { rewrite (rsum_ext n _ (fun q => if fl then 0 else Rabs (v (ga i q) * v (gb q j)))) by (intros; now apply EP).
    destruct fl; [now apply rsum_0|reflexivity]. }
  assert (E2 : rsum n (fun q => in_float p (wda i q) (wfa i q) (wdb q j) (wfb q j)) =
      if fl then rsum n (fun q => Rabs (v (ga i q) * v (gb q j))) else 0).
  { rewrite (rsum_ext n _ (fun q => if fl then Rabs (v (ga i q) * v (gb q j)) else 0)) by (intros; now apply EP).
    destruct fl; [reflexivity|now apply rsum_0]. }
  assert (E3 : rsum n (fun q => wda i q + wfa i q + (wdb q j + wfb q j)) = rsum n (fun q => Rabs (v (ga i q)) + Rabs (v (gb q j))))
    by (apply rsum_ext; intros; now apply EP).
  assert (E4 : rsum n (fun q => va i q * vb q j) = rsum n (fun q => v (ga i q) * v (gb q j)))
    by (apply rsum_ext; intros; now apply EP).
  rewrite E1, E2, E3, E4. clear E1 E2 E3 E4 EP. split.
  - assert (Z0 : v (d0 ar) = 0) by apply (fm_zero _ _ _ _ _ _ _ _ _ _ _ (ro_D _ _ _ _ _ _ X)).
    rewrite T. intros Hd.
    assert (K : fl = true \/ (forall q, (q < n)%nat -> v (ga i q) * v (gb q j) = 0)).
    { destruct a as [za|sa|sa|da|da], b as [zb|sb|sb|db|db]; cbn [leaf_ty mul_lty ety_join is_d] in Hd; try discriminate.
      all: try (right; intros q Hq; destruct Ra as (_ & _ & Za); rewrite Za by auto; rewrite Z0; lra).
      all: try (right; intros q Hq; destruct Rb as (_ & _ & Za); rewrite Za by auto; rewrite Z0; lra).
      all: left; reflexivity. }
    destruct K as [-> |K]; [reflexivity|]. destruct fl; [reflexivity|]. apply rsum_0. intros q Hq. rewrite K by auto. apply Rabs_R0.
  - intros Hf. destruct (dot_eval_near p fl n _ _ _ (Hc i j Hi Hj) Hf) as (bb & Hbb & N). cbv zeta beta in N.
    destruct fl, bb; try exact N.
    + pose proof (near_d2f _ _ _ _ _ _ N) as N2. rewrite Rplus_0_r in N2. exact N2.
    + specialize (Hbb eq_refl). discriminate.
Qed.

Lemma bin_eval_near k fl x y r Sd Sf E Sd' Sf' E' s s' : bin_eval ar Plus fl x y r -> fin r ->
  (fl = true -> Sd + Sd' = 0) ->
  (fin x -> near k Sd Sf E s (v x)) -> (fin y -> near k Sd' Sf' E' s' (v y)) ->
  near (S k) (Sd + Sd') (Sf + Sf') (E + E') (s + s') (v r).
Proof.
  intros B Hf HS Hx Hy.
  destruct (fm_zero _ _ _ _ _ _ _ _ _ _ _ (ro_D _ _ _ _ _ _ X)) as [F0 Z0].
  inversion B; subst; clear B.
  - cbn [binD] in *. destruct (fm_add _ _ _ _ _ _ _ _ _ _ _ (ro_D _ _ _ _ _ _ X) x y Hf) as (Fx & Fy & Hr).
    eapply near_round; [apply near_sum; [exact (Hx Fx)|exact (Hy Fy)]| |left; apply Rle_refl|exact Hr]. lra.
  - destruct (fm_add _ _ _ _ _ _ _ _ _ _ _ (ro_D _ _ _ _ _ _ X) y x Hf) as (Fx & Fy & Hr).
    rewrite (Rplus_comm (v y)) in Hr.
    eapply near_round; [apply near_sum; [exact (Hx Fy)|exact (Hy Fx)]| |left; apply Rle_refl|exact Hr]. lra.
  - cbn [binF] in *. destruct (fm_add _ _ _ _ _ _ _ _ _ _ _ (ro_F _ _ _ _ _ _ X) x' y' Hf) as (Fx & Fy & Hr).
    eapply near_round; [apply near_sum; [exact (Hx Fx)|exact (Hy Fy)]| |right; apply (HS eq_refl)|exact Hr]. lra.
  - destruct (fm_add _ _ _ _ _ _ _ _ _ _ _ (ro_F _ _ _ _ _ _ X) y' x' Hf) as (Fx & Fy & Hr). cbv beta in Hr.
    rewrite (Rplus_comm (v (toD ar y'))) in Hr.
    eapply near_round; [apply near_sum; [exact (Hx Fy)|exact (Hy Fx)]| |right; apply (HS eq_refl)|exact Hr]. lra.
  - specialize (Hx Hf). specialize (Hy F0). rewrite Z0 in Hy. pose proof (near_sum _ _ _ _ _ _ _ _ _ _ _ Hx Hy) as N.
    rewrite Rplus_0_r in N. eapply near_weaken; [exact N|lia|lra..].
  - cbn [unD] in *. specialize (Hx F0). specialize (Hy Hf). rewrite Z0 in Hx. pose proof (near_sum _ _ _ _ _ _ _ _ _ _ _ Hx Hy) as N.
    rewrite Rplus_0_l in N. eapply near_weaken; [exact N|lia|lra..].
  - cbn [unF] in *. specialize (Hx F0). specialize (Hy Hf). rewrite Z0 in Hx. pose proof (near_sum _ _ _ _ _ _ _ _ _ _ _ Hx Hy) as N.
    rewrite Rplus_0_l in N. eapply near_weaken; [exact N|lia|lra..].
Qed.

Lemma approx_plus dbg a b m l k Sd Sf E val Sd' Sf' E' val' :
  approx a m l k Sd Sf E val -> approx b m l k Sd' Sf' E' val' ->
  exists c, bin_leaf ar Plus dbg a b = Ok c /\ leaf_ty c = add_lty (leaf_ty a) (leaf_ty b) /\
    approx c m l (S k) (fun i j => Sd i j + Sd' i j) (fun i j => Sf i j + Sf' i j) (fun i j => E i j + E' i j)
      (fun i j => val i j + val' i j).
Proof.
  intros (ga & Ra & Ha) (gb & Rb & Hb).
  set (fl := is_f (leaf_ty a) && is_f (leaf_ty b)).
  destruct (bin_leaf_eval ar Plus fl dbg a b m l ga gb Ra Rb eq_refl) as (c & h & Ec & Tc & Rc & Hc).
  { unfold fl. intros -> ->. reflexivity. }
  exists c. split; [exact Ec|]. split; [exact Tc|]. exists h. split; [exact Rc|]. intros i j Hi Hj.
  destruct (Ha i j Hi Hj) as [A1 A2]. destruct (Hb i j Hi Hj) as [B1 B2]. split.
  - rewrite Tc. intros Hd. rewrite A1, B1; [lra| |];
      destruct (leaf_ty a) as [|[]|[]], (leaf_ty b) as [|[]|[]]; cbn in *; auto; discriminate.
  - intros Hf. eapply bin_eval_near; eauto. unfold fl. intros Hfl. apply andb_true_iff in Hfl as [Fa Fb].
    rewrite A1, B1; [lra| |]; destruct (leaf_ty a) as [|[]|[]], (leaf_ty b) as [|[]|[]]; cbn in *; auto; discriminate.
Qed.

#[local] Notation EuF := (EuF eta).

Lemma leaf_real_pos a m n va wda wfa : leaf_real ar v a m n va wda wfa ->
  forall i j, (i < m)%nat -> (j < n)%nat -> 0 <= wda i j /\ 0 <= wfa i j.
Proof.
  intros (g & _ & H) i j Hi Hj. destruct (H i j Hi Hj) as (_ & -> & ->). destruct (is_f _); split; try lra; apply Rabs_pos.
Qed.

Lemma mkl_pos p : 0 <= mkl p. Proof. destruct p; cbn; lra. Qed.

Lemma rsum_const n c : rsum n (fun _ => c) = INR n * c.
Proof. induction n; [cbn; lra|]. rewrite S_INR. cbn [rsum]. rewrite IHn. lra. Qed.

Lemma approx_mul_dyn p dbg a b m n l va wda wfa vb wdb wfb :
  dyn_real ar v a m n va wda wfa -> dyn_real ar v b n l vb wdb wfb -> fits p m n l ->
  exists c, mul_dyn ar p dbg a b = Ok c /\
    approx c m l (n + 5) (SdF p n wda wfa wdb wfb) (SfF p n wda wfa wdb wfb) (EuF p n wda wfa wdb wfb)
      (fun i j => rsum n (fun q => va i q * vb q j)).
Proof.
  intros Ha Hb Hf. pose proof (mkl_pos p) as Pm. pose proof (pos_INR n) as Pn.
  (* the bound for [eta] terms: coefficients between 0 and the target's *)
  assert (EB : forall (T1 T2 c1 : R), 0 <= c1 <= 4 -> T1 <= 2 * T2 -> eta * (c1 * INR n + mkl p * T1) <= eta * (4 * INR n + 2 * mkl p * T2)).
  { intros T1 T2 c1 Hc HT. apply Rmult_le_compat_l; [lra|]. nra. }
  destruct a as [a|t1 t2 [a1|] [a2|]], b as [b|u1 u2 [b1|] [b2|]]; cbn [dyn_real] in Ha, Hb; try contradiction.
  - pose proof (leaf_real_pos _ _ _ _ _ _ Ha) as Pa. pose proof (leaf_real_pos _ _ _ _ _ _ Hb) as Pb.
    destruct (approx_mul p dbg a b m n l _ _ _ _ _ _ Ha Hb Hf) as (c & E & _ & A). exists c. split; [exact E|].
    eapply approx_weaken; [exact A|lia|]. intros i j Hi Hj. split; [reflexivity|]. split; [reflexivity|]. split; [|reflexivity].
    unfold EuF. cbv beta. rewrite <- (Rmult_1_l (INR n)) at 1. apply EB; [lra|].
    assert (0 <= rsum n (fun q => wda i q + wfa i q + (wdb q j + wfb q j))); [|lra].
    apply rsum_pos. intros q Hq. destruct (Pa i q Hi Hq), (Pb q j Hq Hj). lra.
  - destruct Hb as (_ & _ & vb1 & wdb1 & wfb1 & vb2 & wdb2 & wfb2 & H1 & H2 & Hs). cbn [mul_dyn deref bind].
    pose proof (leaf_real_pos _ _ _ _ _ _ Ha) as Pa. pose proof (leaf_real_pos _ _ _ _ _ _ H1) as P1. pose proof (leaf_real_pos _ _ _ _ _ _ H2) as P2.
    destruct (approx_mul p dbg a b1 m n l _ _ _ _ _ _ Ha H1 Hf) as (c1 & E1 & _ & A1).
    destruct (approx_mul p dbg a b2 m n l _ _ _ _ _ _ Ha H2 Hf) as (c2 & E2 & _ & A2). rewrite E1, E2. cbn [bind].
    destruct (approx_plus dbg c1 c2 m l _ _ _ _ _ _ _ _ _ A1 A2) as (c & Ec & _ & A). exists c. split; [exact Ec|].
    eapply approx_weaken; [exact A|lia|]. intros i j Hi Hj. unfold SdF, SfF, EuF. cbv beta.
    split; [|split; [|split]].
    + rewrite <- rsum_add. apply rsum_ext. intros q Hq. destruct (Hs q j Hq Hj) as (_ & -> & ->). destruct p; cbn; ring.
    + rewrite <- rsum_add. apply rsum_ext. intros q Hq. destruct (Hs q j Hq Hj) as (_ & -> & ->). destruct p; cbn; ring.
    + rewrite <- Rmult_plus_distr_l.
      match goal with |- eta * (?x + mkl p * ?s1 + (?y + mkl p * ?s2)) <= _ =>
        replace (x + mkl p * s1 + (y + mkl p * s2)) with (2 * INR n + mkl p * (s1 + s2)) by ring end.
      apply EB; [lra|]. rewrite <- rsum_add, <- rsum_scal. apply rsum_le. intros q Hq.
      destruct (Hs q j Hq Hj) as (_ & -> & ->). destruct (Pa i q Hi Hq), (P1 q j Hq Hj), (P2 q j Hq Hj). lra.
    + rewrite <- rsum_add. apply rsum_ext. intros q Hq. destruct (Hs q j Hq Hj) as (-> & _ & _). ring.
  - destruct Ha as (_ & _ & va1 & wda1 & wfa1 & va2 & wda2 & wfa2 & H1 & H2 & Hs). cbn [mul_dyn deref bind].
    pose proof (leaf_real_pos _ _ _ _ _ _ Hb) as Pb. pose proof (leaf_real_pos _ _ _ _ _ _ H1) as P1. pose proof (leaf_real_pos _ _ _ _ _ _ H2) as P2.
    destruct (approx_mul p dbg a1 b m n l _ _ _ _ _ _ H1 Hb Hf) as (c1 & E1 & _ & A1).
    destruct (approx_mul p dbg a2 b m n l _ _ _ _ _ _ H2 Hb Hf) as (c2 & E2 & _ & A2). rewrite E1, E2. cbn [bind].
    destruct (approx_plus dbg c1 c2 m l _ _ _ _ _ _ _ _ _ A1 A2) as (c & Ec & _ & A). exists c. split; [exact Ec|].
    eapply approx_weaken; [exact A|lia|]. intros i j Hi Hj. unfold SdF, SfF, EuF. cbv beta.
    split; [|split; [|split]].
    + rewrite <- rsum_add. apply rsum_ext. intros q Hq. destruct (Hs i q Hi Hq) as (_ & -> & ->). destruct p; cbn; ring.
    + rewrite <- rsum_add. apply rsum_ext. intros q Hq. destruct (Hs i q Hi Hq) as (_ & -> & ->). destruct p; cbn; ring.
    + rewrite <- Rmult_plus_distr_l.
      match goal with |- eta * (?x + mkl p * ?s1 + (?y + mkl p * ?s2)) <= _ =>
        replace (x + mkl p * s1 + (y + mkl p * s2)) with (2 * INR n + mkl p * (s1 + s2)) by ring end.
      apply EB; [lra|]. rewrite <- rsum_add, <- rsum_scal. apply rsum_le. intros q Hq.
      destruct (Hs i q Hi Hq) as (_ & -> & ->). destruct (Pb q j Hq Hj), (P1 i q Hi Hq), (P2 i q Hi Hq). lra.
    + rewrite <- rsum_add. apply rsum_ext. intros q Hq. destruct (Hs i q Hi Hq) as (-> & _ & _). ring.
  - destruct Ha as (_ & _ & va1 & wda1 & wfa1 & va2 & wda2 & wfa2 & H1 & H2 & Hs).
    destruct Hb as (_ & _ & vb1 & wdb1 & wfb1 & vb2 & wdb2 & wfb2 & K1 & K2 & Ks). cbn [mul_dyn deref bind].
    pose proof (leaf_real_pos _ _ _ _ _ _ H1) as P1. pose proof (leaf_real_pos _ _ _ _ _ _ H2) as P2.
    pose proof (leaf_real_pos _ _ _ _ _ _ K1) as Q1. pose proof (leaf_real_pos _ _ _ _ _ _ K2) as Q2.
    destruct (approx_mul p dbg a1 b1 m n l _ _ _ _ _ _ H1 K1 Hf) as (c1 & E1 & _ & A1).
    destruct (approx_mul p dbg a1 b2 m n l _ _ _ _ _ _ H1 K2 Hf) as (c2 & E2 & _ & A2).
    destruct (approx_mul p dbg a2 b1 m n l _ _ _ _ _ _ H2 K1 Hf) as (c3 & E3 & _ & A3).
    destruct (approx_mul p dbg a2 b2 m n l _ _ _ _ _ _ H2 K2 Hf) as (c4 & E4 & _ & A4). rewrite E1, E2, E3, E4. cbn [bind].
    destruct (approx_plus dbg c1 c2 m l _ _ _ _ _ _ _ _ _ A1 A2) as (s1 & Es1 & _ & B1). rewrite Es1. cbn [bind].
    assert (A3' : approx c3 m l (S (n + 2)) _ _ _ _) by (eapply approx_weaken; [exact A3|lia|intros; repeat split; try apply Rle_refl]).
    destruct (approx_plus dbg s1 c3 m l _ _ _ _ _ _ _ _ _ B1 A3') as (s2 & Es2 & _ & B2). rewrite Es2. cbn [bind].
    assert (A4' : approx c4 m l (S (S (n + 2))) _ _ _ _) by (eapply approx_weaken; [exact A4|lia|intros; repeat split; try apply Rle_refl]).
    destruct (approx_plus dbg s2 c4 m l _ _ _ _ _ _ _ _ _ B2 A4') as (s3 & Es3 & _ & B3).
    exists s3. split; [exact Es3|].
    eapply approx_weaken; [exact B3|lia|]. intros i j Hi Hj. unfold SdF, SfF, EuF. cbv beta.
    split; [|split; [|split]].
    + rewrite <- !rsum_add. apply rsum_ext. intros q Hq. destruct (Hs i q Hi Hq) as (_ & -> & ->), (Ks q j Hq Hj) as (_ & -> & ->). destruct p; cbn; ring.
    + rewrite <- !rsum_add. apply rsum_ext. intros q Hq. destruct (Hs i q Hi Hq) as (_ & -> & ->), (Ks q j Hq Hj) as (_ & -> & ->). destruct p; cbn; ring.
    + match goal with |- eta * (?x + mkl p * ?s1) + eta * (_ + mkl p * ?s2) + eta * (_ + mkl p * ?s3) + eta * (_ + mkl p * ?s4) <= _ =>
        replace (eta * (x + mkl p * s1) + eta * (x + mkl p * s2) + eta * (x + mkl p * s3) + eta * (x + mkl p * s4))
          with (eta * (4 * INR n + mkl p * (s1 + s2 + s3 + s4))) by ring end.
      apply EB; [lra|]. rewrite <- !rsum_add, <- rsum_scal. apply rsum_le. intros q Hq.
      destruct (Hs i q Hi Hq) as (_ & -> & ->), (Ks q j Hq Hj) as (_ & -> & ->). lra.
    + rewrite <- !rsum_add. apply rsum_ext. intros q Hq. destruct (Hs i q Hi Hq) as (-> & _ & _), (Ks q j Hq Hj) as (-> & _ & _). ring.
Qed.

(** ** Gluing blocks *)
Lemma fin_choice {T} (t0 : T) n (P : nat -> T -> Prop) :
  (forall i, (i < n)%nat -> exists x, P i x) -> exists f, forall i, (i < n)%nat -> P i (f i).
Proof.
  induction n as [|n IH]; intros H; [exists (fun _ => t0); intros; lia|].
  destruct IH as [f Hf]; [intros; apply H; lia|]. destruct (H n) as [x Hx]; [lia|].
  exists (fun i => if (i =? n)%nat then x else f i). intros i Hi. destruct (Nat.eqb_spec i n) as [-> |]; [auto|]. apply Hf. lia.
Qed.
Lemma fin_choice2 {T} (t0 : T) n m (P : nat -> nat -> T -> Prop) :
  (forall i j, (i < n)%nat -> (j < m)%nat -> exists x, P i j x) ->
  exists f, forall i j, (i < n)%nat -> (j < m)%nat -> P i j (f i j).
Proof.
  intros H. destruct (fin_choice (fun _ => t0) n (fun i f => forall j, (j < m)%nat -> P i j (f j))) as [f Hf].
  - intros i Hi. apply fin_choice; auto.
  - exists f. intros; now apply Hf.
Qed.
Lemma offs_uniq l i k k' : (offs l k <= i < offs l (S k))%nat -> (offs l k' <= i < offs l (S k'))%nat -> k = k'.
Proof.
  intros H H'. destruct (lt_eq_lt_dec k k') as [[L|L]|L]; auto.
  - pose proof (offs_le l (S k) k' L). lia.
  - pose proof (offs_le l (S k') k L). lia.
Qed.
Lemma glue {T} (t0 : T) rl cl (hb : nat -> nat -> nat -> nat -> T) : exists h : nat -> nat -> T,
  forall I J i j, (I < length rl)%nat -> (J < length cl)%nat -> (i < nth I rl 0)%nat -> (j < nth J cl 0)%nat ->
    h (offs rl I + i)%nat (offs cl J + j)%nat = hb I J i j.
Proof.
  destruct (fin_choice 0%nat (list_sum rl) (fun i k => k < length rl /\ offs rl k <= i < offs rl (S k))%nat (offs_find rl)) as [ri Hr].
  destruct (fin_choice 0%nat (list_sum cl) (fun i k => k < length cl /\ offs cl k <= i < offs cl (S k))%nat (offs_find cl)) as [ci Hc].
  exists (fun i j => hb (ri i) (ci j) (i - offs rl (ri i))%nat (j - offs cl (ci j))%nat).
  intros I J i j HI HJ Hi Hj.
  pose proof (offs_S rl I HI) as SR. pose proof (offs_S cl J HJ) as SC.
  pose proof (offs_le_all rl (S I)) as LR. pose proof (offs_le_all cl (S J)) as LC.
  destruct (Hr (offs rl I + i)%nat) as [_ Hr1]; [lia|]. destruct (Hc (offs cl J + j)%nat) as [_ Hc1]; [lia|].
  rewrite (offs_uniq rl _ _ I Hr1) by lia. rewrite (offs_uniq cl _ _ J Hc1) by lia. f_equal; lia.
Qed.

(** ** Blocked product *)
Lemma nth_le_max l k : (k < length l)%nat -> (nth k l 0 <= list_max l)%nat.
Proof.
  intros H. assert (G : Forall (fun x => x <= list_max l)%nat l) by (apply list_max_le; lia).
  rewrite Forall_forall in G. apply G. now apply nth_In.
Qed.

Lemma mul_blocked_near ready p dbg a b rl nl cl va wda wfa vb wdb wfb :
  (forall t, In t type_list -> ready t = true) ->
  (forall I K J, I < length rl -> K < length nl -> J < length cl -> fits p (nth I rl 0) (nth K nl 0) (nth J cl 0))%nat ->
  nl <> [] ->
  blocked_real ar v a rl nl va wda wfa -> blocked_real ar v b nl cl vb wdb wfb ->
  exists c f h, mul_blocked ar ready p dbg a b = Ok c /\
    b_ubr c = list_sum rl /\ b_ubc c = list_sum cl /\ d_orient (b_mat c) = ColMajor /\
    is_mat (b_mat c) (length rl) (length cl) f /\
    forall I J, (I < length rl)%nat -> (J < length cl)%nat -> exists x, f I J = Some (DL x) /\
      rep_leaf ar x (nth I rl 0)%nat (nth J cl 0)%nat (fun i j => h (offs rl I + i)%nat (offs cl J + j)%nat) /\
      forall i j, (i < nth I rl 0)%nat -> (j < nth J cl 0)%nat ->
        let i' := (offs rl I + i)%nat in let j' := (offs cl J + j)%nat in
        fin (h i' j') -> near (list_max nl + length nl + 4) (SdF p (list_sum nl) wda wfa wdb wfb i' j')
          (SfF p (list_sum nl) wda wfa wdb wfb i' j') (EuF p (list_sum nl) wda wfa wdb wfb i' j')
          (rsum (list_sum nl) (fun q => va i' q * vb q j')) (v (h i' j')).
Proof.
  intros Hready Hfit Hnl (Ua1 & Ua2 & Oa & fa & Ma & Ba) (Ub1 & Ub2 & Ob & fb & Mb & Bb).
  pose proof Ma as [Wa Va]. pose proof Mb as [Wb Vb]. pose proof Va as (Ra & Ca & _). pose proof Vb as (Rb & Cb & _).
  unfold mul_blocked. cbn zeta. rewrite Ra, Cb, Ua1, Ub2.
  set (c0 := blk_resize (blk_new 0 0 0 0) (length rl) (length cl) (list_sum rl) (list_sum cl)).
  set (sh := d_sh (b_mat c0)).
  assert (Wc : wf_mem (b_mat c0)).
  { unfold c0, blk_resize, blk_new, wf_mem, d_rows, d_cols; cbn. repeat split.
    destruct (length rl * length cl)%nat eqn:E; cbn; [reflexivity|]. now rewrite repeat_length. }
  assert (Hsh : sh_ok sh (length (d_buf (b_mat c0)))) by (now apply wf_sh_ok).
  assert (Rc : sh_rows sh = length rl) by reflexivity. assert (Cc : sh_cols sh = length cl) by reflexivity.
  match goal with |- context [forM (length rl) (fun i C => forM (length cl) (@?B i) C) (b_mat c0)] => set (body := B) end.
  set (N := list_max nl).
  (* the accumulated block after the inner blocks below [k] *)
  set (AC := fun (I J k : nat) (x : leaf F D) => approx x (nth I rl 0%nat) (nth J cl 0%nat) (N + k + 4)
      (fun i j => SdF p (offs nl k) wda wfa wdb wfb (offs rl I + i) (offs cl J + j))
      (fun i j => SfF p (offs nl k) wda wfa wdb wfb (offs rl I + i) (offs cl J + j))
      (fun i j => EuF p (offs nl k) wda wfa wdb wfb (offs rl I + i) (offs cl J + j))
      (fun i j => rsum (offs nl k) (fun q => va (offs rl I + i)%nat q * vb q (offs cl J + j)%nat))).
  set (Q := fun I J (z : option (dyn F D)) => exists x, z = Some (DL x) /\ AC I J (length nl) x).
  destruct (fill_rcQ sh (length (d_buf (b_mat c0))) Q body None Hsh) with (d := b_mat c0) as (bb & f & E & L & Hf); auto.
  { intros i j d Hi Hj Esh Hlen. rewrite Rc in Hi. rewrite Cc in Hj. unfold body.
    assert (Epc : (cur_begin (d_sh d) DRow i + j * cur_stride (d_sh d) DCol = addr sh i j)%nat) by (rewrite Esh; apply lock_rc).
    cbn zeta. rewrite Epc.
    assert (Epb : forall k, (cur_begin (d_sh (b_mat b)) DCol j + k * cur_stride (d_sh (b_mat b)) DRow = addr (d_sh (b_mat b)) k j)%nat)
      by (intros; apply lock_cr).
    rewrite cur_rc; [|unfold d_rows in Ra; lia|apply (wf_sh_ok (b_mat a) Wa)]. cbn [bind].
    rewrite enum_map_seq. unfold d_cols in Ca. rewrite Ca.
    destruct (length nl) as [|K] eqn:EK; [destruct nl; [congruence|discriminate]|].
    cbn [seq map].
    assert (RA : forall k, (k < S K)%nat -> rd (d_buf (b_mat a)) (addr (d_sh (b_mat a)) i k) = Ok (fa i k)).
    { intros k Hk. apply rd_ok. apply (view_cell (b_mat a) _ _ fa i k Va); lia. }
    assert (RB : forall k, (k < S K)%nat -> rd (d_buf (b_mat b)) (addr (d_sh (b_mat b)) k j) = Ok (fb k j)).
    { intros k Hk. apply rd_ok. apply (view_cell (b_mat b) _ _ fb k j Vb); lia. }
    assert (Hpc : (addr sh i j < length (d_buf d))%nat) by (rewrite Hlen; apply Hsh; lia).
    (* one block product *)
    assert (MUL : forall k, (k < S K)%nat -> exists c, mul_ptr ar ready p dbg (fa i k) (fb k j) = Ok (Some (DL c)) /\
       approx c (nth i rl 0%nat) (nth j cl 0%nat) (N + 5)
         (fun u w => rsum (nth k nl 0%nat) (fun q => in_double p (wda (offs rl i + u) (offs nl k + q)) (wfa (offs rl i + u) (offs nl k + q))
             (wdb (offs nl k + q) (offs cl j + w)) (wfb (offs nl k + q) (offs cl j + w))))%nat
         (fun u w => rsum (nth k nl 0%nat) (fun q => in_float p (wda (offs rl i + u) (offs nl k + q)) (wfa (offs rl i + u) (offs nl k + q))
             (wdb (offs nl k + q) (offs cl j + w)) (wfb (offs nl k + q) (offs cl j + w))))%nat
         (fun u w => eta * (4 * INR (nth k nl 0%nat) + 2 * mkl p * rsum (nth k nl 0%nat) (fun q =>
             wda (offs rl i + u)%nat (offs nl k + q)%nat + wfa (offs rl i + u)%nat (offs nl k + q)%nat +
             (wdb (offs nl k + q)%nat (offs cl j + w)%nat + wfb (offs nl k + q)%nat (offs cl j + w)%nat))))
         (fun u w => rsum (nth k nl 0%nat) (fun q => va (offs rl i + u)%nat (offs nl k + q)%nat * vb (offs nl k + q)%nat (offs cl j + w)%nat))).
    { intros k Hk. destruct (Ba i k) as (x & Ex & Tx & Rx); [lia|lia|]. destruct (Bb k j) as (y & Ey & Ty & Ry); [lia|lia|].
      rewrite Ex, Ey. unfold mul_ptr. rewrite exec_dyn_2dim_ok, !Hready by auto.
      destruct (approx_mul_dyn p dbg x y _ _ _ _ _ _ _ _ _ Rx Ry) as (c & Ec & Ac); [apply Hfit; lia|].
      exists c. rewrite Ec. cbn [bind]. split; [reflexivity|].
      eapply approx_weaken; [exact Ac| |intros; repeat split; apply Rle_refl].
      pose proof (nth_le_max nl k ltac:(lia)). fold N in H. lia. }
    rewrite RA by lia. cbn [bind]. rewrite Epb, RB by lia. cbn [bind].
    destruct (MUL 0%nat ltac:(lia)) as (c1 & Ec1 & Rc1). rewrite Ec1. cbn [bind]. rewrite wr_ok by auto. cbn [bind].
    destruct (foldM_inv (fun '(k, pa) C =>
            do w <- rd (d_buf C) (addr sh i j);
            do x <- rd (d_buf (b_mat a)) pa;
            do y <- rd (d_buf (b_mat b)) (cur_begin (d_sh (b_mat b)) DCol j + k * cur_stride (d_sh (b_mat b)) DRow);
            do z <- mul_ptr ar ready p dbg x y;
            do s <- add_ptr ar ready dbg w z;
            do m <- wr (d_buf C) (addr sh i j) s;
            Ok (with_buf C m))
      (fun k C => exists e, C = with_buf d (upd (d_buf d) (addr sh i j) (Some (Some (DL e)))) /\ AC i j (S k) e)
      (map (fun k => (k, addr (d_sh (b_mat a)) i k)) (seq 1 K))
      (with_buf d (upd (d_buf d) (addr sh i j) (Some (Some (DL c1)))))) as (C & EC & e & -> & Re).
    - exists c1. split; [reflexivity|]. unfold AC. rewrite (offs_S nl 0) by lia. cbn [Nat.add] in *.
      eapply approx_weaken; [exact Rc1|lia|]. intros; repeat split. apply Rle_refl.
    - intros k [k' pa] C Hk (e & -> & Re). rewrite nth_error_map, nth_error_seq in Hk.
      destruct (Nat.ltb_spec k K) as [Hk1|]; [|discriminate]. cbn in Hk. injection Hk as <- <-.
      assert (Erd : rd (d_buf (with_buf d (upd (d_buf d) (addr sh i j) (Some (Some (DL e)))))) (addr sh i j) = Ok (Some (DL e))).
      { apply rd_ok. cbn. now apply nth_error_upd_eq. }
      rewrite Erd. cbn [bind]. rewrite RA by lia. cbn [bind]. rewrite Epb, RB by lia. cbn [bind].
      destruct (MUL (S k) ltac:(lia)) as (c2 & Ec2 & Rc2). rewrite Ec2. cbn [bind].
      unfold add_ptr. rewrite exec_dyn_2dim_ok, !Hready by apply lty_in. cbn [add_dyn].
      assert (Rc2' : approx c2 (nth i rl 0%nat) (nth j cl 0%nat) (N + S k + 4) _ _ _ _)
        by (eapply approx_weaken; [exact Rc2|lia|intros; repeat split; apply Rle_refl]).
      destruct (approx_plus dbg e c2 _ _ _ _ _ _ _ _ _ _ _ Re Rc2') as (e2 & Ee2 & _ & Re2).
      rewrite Ee2. cbn [bind]. cbn [with_buf d_buf]. rewrite wr_ok by (now rewrite upd_length). cbn [bind].
      rewrite upd_upd. eexists. split; [reflexivity|]. exists e2. split; [reflexivity|].
      unfold AC. eapply approx_weaken; [exact Re2|lia|]. intros u w Hu1 Hw1. cbv beta.
      unfold SdF, SfF, EuF. rewrite (offs_S nl (S k)) by lia. rewrite !rsum_app, plus_INR.
      repeat split. apply Req_le. ring.
    - exists (Some (DL e)). split; [exact EC|]. exists e. split; [reflexivity|].
      rewrite map_length, seq_length in Re. unfold AC in *; rewrite <- ?EK in *; exact Re. }
  change (forM (length rl) (fun i => forM (length cl) (body i)) (b_mat c0) = Ok (with_buf (b_mat c0) bb)) in E.
  match goal with |- context [forM (length rl) ?g (b_mat c0)] =>
    replace (forM (length rl) g (b_mat c0)) with (Ok (with_buf (b_mat c0) bb)) by (symmetry; exact E) end. cbn [bind].
  (* one matrix from the blocks *)
  destruct (fin_choice2 (fun _ _ => d0 ar) (length rl) (length cl) (fun I J hb => exists x, f I J = Some (DL x) /\
     rep_leaf ar x (nth I rl 0%nat) (nth J cl 0%nat) hb /\
     forall i j, (i < nth I rl 0)%nat -> (j < nth J cl 0)%nat -> fin (hb i j) ->
       near (N + length nl + 4) (SdF p (list_sum nl) wda wfa wdb wfb (offs rl I + i) (offs cl J + j))
          (SfF p (list_sum nl) wda wfa wdb wfb (offs rl I + i) (offs cl J + j)) (EuF p (list_sum nl) wda wfa wdb wfb (offs rl I + i) (offs cl J + j))
          (rsum (list_sum nl) (fun q => va (offs rl I + i)%nat q * vb q (offs cl J + j)%nat)) (v (hb i j)))) as [hb Hb].
  { intros I J HI HJ. destruct (Hf I J HI HJ) as [_ (x & Ex & h & Rh & Hh)]. exists h, x. split; [exact Ex|]. split; [exact Rh|].
    intros i j Hi Hj. destruct (Hh i j Hi Hj) as [_ HH]. cbv beta in HH. rewrite offs_all in HH. exact HH. }
  destruct (glue (d0 ar) rl cl hb) as [h Hh].
  eexists _, f, h. split; [reflexivity|]. split; [reflexivity|]. split; [reflexivity|]. split; [reflexivity|].
  cbn [b_mat b_ubr b_ubc]. split.
  - split; [now apply with_buf_wf|]. apply view_from_cells; [reflexivity|reflexivity|].
    intros i j Hi Hj. cbn [with_buf d_buf d_sh]. now apply Hf.
  - intros I J HI HJ. destruct (Hb I J HI HJ) as (x & Ex & Rx & Hx). exists x. split; [exact Ex|]. split.
    + eapply rep_leaf_ext; [exact Rx|]. intros i j Hi Hj. cbv beta. now rewrite Hh.
    + intros i j Hi Hj. cbv zeta. rewrite Hh by auto. now apply Hx.
Qed.

End P.
