(** Rounding errors of the loops of Norm.h. *)
From Coq Require Import Reals Lra.
From Flocq Require Core.Raux.
From Verif Require Import Base BaseLemmas Dense_Model Dense_Spec Dense_Proofs Dense2_Proofs Sparse_Model Sparse_Spec Sparse_Proofs Sparse2_Proofs Mult_Spec
  Dyn_Model Dyn_Spec Norm_Model Norm_Spec Norm_Proofs Fp_Spec Fp_Proofs FpNorm_Spec.
#[local] Open Scope R_scope.

Section L.
Context {F D : Type} (ar : arith F D) (nx : nops F D) (v : D -> R) (fin : D -> Prop) (uD uF eta : R).
Context (RO : rounding ar v fin uD uF eta) (OD : ordering ar v fin) (NR : norm_rounding ar nx v fin uD eta) (U1 : uD < 1).

Let u0 : 0 <= uD. Proof. apply (ro_u _ _ _ _ _ _ RO). Qed.
Let e0 : 0 <= eta. Proof. apply (ro_u _ _ _ _ _ _ RO). Qed.
Let AD := fm_add _ _ _ _ _ _ _ _ _ _ _ (ro_D _ _ _ _ _ _ RO).
Let ZD := fm_zero _ _ _ _ _ _ _ _ _ _ _ (ro_D _ _ _ _ _ _ RO).

(** One step of a sum of non-negative terms. *)
Lemma step_bounds et a b s t e lo hi : 0 <= et -> 0 <= t -> 0 <= s -> 0 <= lo -> 0 <= hi ->
  fin (addD ar a b) ->
  lo * s - e <= v a <= hi * s + e -> 0 <= v a ->
  (1 - uD) * t - et <= v b <= (1 + uD) * t + et -> 0 <= v b ->
  lo <= 1 -> 1 <= hi -> 0 <= e ->
  0 <= v (addD ar a b) /\
  (1 - uD) * Rmin lo (1 - uD) * (s + t) - (1 + uD) * (e + et) <= v (addD ar a b)
    <= (1 + uD) * Rmax hi (1 + uD) * (s + t) + (1 + uD) * (e + et).
Proof.
  intros Het Ht Hs Hlo Hhi HF [A1 A2] A0 [B1 B2] B0 L1 H1 He.
  destruct (AD a b HF) as (_ & _ & E). rewrite (Rabs_pos_eq (v a + v b)) in E by lra.
  apply Flocq.Core.Raux.Rabs_le_inv in E. set (S := v a + v b) in *.
  assert (HL : (1 - uD) * S <= v (addD ar a b) <= (1 + uD) * S) by lra.
  split; [assert (0 <= (1 - uD) * S) by (apply Rmult_le_pos; unfold S; lra); lra|].
  pose proof (Rmin_l lo (1 - uD)) as M1. pose proof (Rmin_r lo (1 - uD)) as M2.
  pose proof (Rmax_l hi (1 + uD)) as M3. pose proof (Rmax_r hi (1 + uD)) as M4.
  set (mn := Rmin lo (1 - uD)) in *. set (mx := Rmax hi (1 + uD)) in *.
  assert (P1 : mn * (s + t) - (e + et) <= S) by (unfold S; nra).
  assert (P2 : S <= mx * (s + t) + (e + et)) by (unfold S; nra).
  split.
  - apply Rle_trans with ((1 - uD) * S); [|apply HL].
    apply Rle_trans with ((1 - uD) * (mn * (s + t) - (e + et))); [|apply Rmult_le_compat_l; lra]. nra.
  - apply Rle_trans with ((1 + uD) * S); [apply HL|]. nra.
Qed.

Lemma pow_hi k : 1 <= (1 + uD) ^ k.
Proof. apply pow_R1_Rle. lra. Qed.
Lemma pow_lo k : 0 < (1 - uD) ^ k <= 1.
Proof.
  split; [apply pow_lt; lra|]. induction k as [|k IH]; cbn [pow]; [lra|].
  assert (0 < (1 - uD) ^ k) by (apply pow_lt; lra). nra.
Qed.

(** A sum of terms [g x], each within relative error [uD] and absolute error
    [eta] of [h x >= 0]. *)
Lemma sum_bounds {T} et (g : T -> D) (h : T -> R) l : 0 <= et ->
  (forall x, In x l -> fin (g x) -> 0 <= h x /\ 0 <= v (g x) /\ (1 - uD) * h x - et <= v (g x) <= (1 + uD) * h x + et) ->
  fin (fold_left (fun s x => addD ar s (g x)) l (d0 ar)) ->
  (forall x, In x l -> fin (g x)) /\ 0 <= v (fold_left (fun s x => addD ar s (g x)) l (d0 ar)) /\
  (1 - uD) ^ (length l + 1) * lsum h l - (1 + uD) ^ length l * (INR (length l) * et)
    <= v (fold_left (fun s x => addD ar s (g x)) l (d0 ar))
    <= (1 + uD) ^ (length l + 1) * lsum h l + (1 + uD) ^ length l * (INR (length l) * et).
Proof.
  intros Het. induction l as [|x l IH] using rev_ind; intros H HF.
  - cbn. rewrite (proj2 ZD). split; [intros ? []|]. lra.
  - rewrite fold_left_app in *. cbn [fold_left] in *. set (a := fold_left _ l _) in *.
    destruct (AD _ _ HF) as (Fa & Fb & _).
    destruct (IH (fun y Hy => H y (in_or_app _ _ _ (or_introl Hy))) Fa) as (I1 & I2 & I3). clear IH.
    destruct (H x (in_or_app l [x] x (or_intror (or_introl eq_refl))) Fb) as (Hh & Hg & Hx).
    assert (HS : 0 <= lsum h l).
    { assert (P : forall y, In y l -> 0 <= h y) by (intros y Hy; exact (proj1 (H y (in_or_app _ _ _ (or_introl Hy)) (I1 y Hy)))).
      clear - P. induction l as [|y l IH]; cbn; [lra|].
      pose proof (P y (or_introl eq_refl)). specialize (IH (fun z Hz => P z (or_intror Hz))). lra. }
    split; [intros y [Hy|[<-|[]]]%in_app_or; auto|].
    rewrite app_length, plus_INR. cbn [length INR]. rewrite lsum_app. cbn [lsum].
    set (n := length l) in *. replace (n + 1 + 1)%nat with (S (n + 1)) by lia.
    pose proof (pow_hi n) as P1. pose proof (pow_lo n) as P2. pose proof (pos_INR n) as Pn.
    pose proof (step_bounds et a (g x) (lsum h l) (h x) ((1 + uD) ^ n * (INR n * et)) ((1 - uD) ^ (n + 1)) ((1 + uD) ^ (n + 1))
      Het Hh HS ltac:(pose proof (pow_lo (n + 1)); lra) ltac:(pose proof (pow_hi (n + 1)); lra) HF ltac:(lra) I2 Hx Hg
      ltac:(apply pow_lo) ltac:(apply pow_hi) ltac:(apply Rmult_le_pos; [lra|apply Rmult_le_pos; lra])) as [R0 R1].
    rewrite Rmin_left in R1 by (rewrite Nat.add_1_r; cbn [pow]; apply Rle_trans with ((1 - uD) * 1); [apply Rmult_le_compat_l; lra|lra]).
    rewrite Rmax_left in R1 by (rewrite Nat.add_1_r; cbn [pow]; apply Rle_trans with ((1 + uD) * 1); [lra|apply Rmult_le_compat_l; lra]).
    split; [exact R0|]. rewrite Rplus_0_r. cbn [pow].
    assert (E : (1 + uD) * ((1 + uD) ^ n * (INR n * et) + et) <= (1 + uD) ^ (n + 1) * ((INR n + 1) * et)).
    { rewrite Nat.add_1_r. cbn [pow]. rewrite Rmult_assoc. apply Rmult_le_compat_l; [lra|]. rewrite Rmult_plus_distr_r, Rmult_plus_distr_l. nra. }
    lra.
Qed.

(** The largest absolute value, without error. *)
Lemma max_exact l : (forall x, In x l -> fin x) ->
  let m := fold_left (n_accD ar nx NMax) l (d0 ar) in
  fin m /\ (forall x, In x l -> Rabs (v x) <= v m) /\ (v m = 0 \/ exists x, In x l /\ v m = Rabs (v x)).
Proof.
  intros H. cbv zeta. induction l as [|x l IH] using rev_ind.
  - cbn. split; [apply ZD|]. split; [intros ? []|]. left. apply ZD.
  - rewrite fold_left_app. cbn [fold_left]. set (m := fold_left _ l _) in *.
    destruct IH as (Fm & M1 & M2); [intros; apply H, in_or_app; auto|].
    assert (Fx : fin x) by (apply H, in_or_app; right; now left).
    destruct (od_abs ar v fin OD x Fx) as [Fa Ea]. cbn [n_accD]. unfold maxD.
    destruct (ltD ar m (absD ar x)) eqn:E.
    + apply (od_lt ar v fin OD) in E; auto. rewrite Ea in *. split; [exact Fa|]. split.
      * intros y [Hy|[<-|[]]]%in_app_or; [|lra]. specialize (M1 y Hy). lra.
      * right. exists x. split; [apply in_or_app; right; now left|reflexivity].
    + assert (E' : v (absD ar x) <= v m).
      { apply Rnot_lt_le. intros H1. apply (od_lt ar v fin OD) in H1; auto. congruence. }
      rewrite Ea in E'. split; [exact Fm|]. split.
      * intros y [Hy|[<-|[]]]%in_app_or; auto.
      * destruct M2 as [M2|(y & Hy & M2)]; [now left|right; exists y; split; [apply in_or_app; auto|exact M2]].
Qed.
End L.

(** ** The real numbers as exact arithmetic, for sums over arrays *)
#[local] Instance R_Scalar : Scalar R := {|
  s0 := 0; s1 := 1; sadd := Rplus; ssub := Rminus; smul := Rmult; sopp := Ropp;
  s_nz := fun x => if Req_EM_T x 0 then false else true |}.
Definition rar : arith R R := {|
  f0 := 0; d0 := 0; fnz := s_nz; dnz := s_nz; toD := fun x => x; toF := fun x => x;
  addF := Rplus; subF := Rminus; oppF := Ropp; addD := Rplus; subD := Rminus; oppD := Ropp;
  fmaF := fun c x y => c + x * y; fmaD := fun c x y => c + x * y;
  dotF := fun l => fold_left (fun acc p => acc + fst p * snd p) l 0;
  dotD := fun l => fold_left (fun acc p => acc + fst p * snd p) l 0;
  absD := Rabs; ltD := fun _ _ => false; leD := fun _ _ => false; quotD := fun _ _ => 0 |}.
Lemma rar_exact : exact rar.
Proof.
  constructor; try reflexivity. constructor; cbn; intros; try ring.
  destruct (Req_EM_T a 0); split; intros; congruence.
Qed.
Lemma sum_n_rsum n f : sum_n n f = rsum n f.
Proof. induction n as [|n IH]; cbn; [reflexivity|]. now rewrite IH. Qed.
Lemma sum2_rsum2 r c h : sum2 r c h = rsum2 r c h.
Proof. unfold sum2, rsum2. rewrite sum_n_rsum. apply rsum_ext. intros. apply sum_n_rsum. Qed.
Lemma lsum_Rlsum {A} (f : A -> R) l : Norm_Proofs.lsum (map f l) = lsum f l.
Proof. induction l as [|a l IH]; cbn; [reflexivity|]. now rewrite <- IH. Qed.

(** ** Which elements a norm sees *)
Section E.
Context {F D : Type} (ar : arith F D) (nx : nops F D) (v : D -> R).

(** [el] lists the elements of the array, except possibly some zeros. *)
Record lists (r c : nat) (g : nat -> nat -> D) (el : list D) : Prop := mkLists {
  li_sum : forall h : D -> R, h (d0 ar) = 0 -> lsum h el = rsum2 r c (fun i j => h (g i j));
  li_len : (length el <= r * c)%nat;
  li_in : forall x, In x el -> exists i j, (i < r)%nat /\ (j < c)%nat /\ x = g i j;
  li_all : forall i j, (i < r)%nat -> (j < c)%nat -> In (g i j) el \/ g i j = d0 ar
}.

Lemma rsum_1 n : rsum n (fun _ => 1) = INR n.
Proof. induction n as [|n IH]; [reflexivity|]. rewrite S_INR. cbn [rsum]. now rewrite IH. Qed.
Lemma lsum_1 {A} (l : list A) : lsum (fun _ => 1) l = INR (length l).
Proof. induction l as [|a l IH]; [reflexivity|]. cbn [length lsum]. rewrite S_INR, IH. ring. Qed.

Lemma len_pairs a b : length (pairs a b) = (a * b)%nat.
Proof.
  unfold pairs. rewrite <- (seq_length a 0) at 2. generalize (seq 0 a) as l.
  induction l as [|x l IH]; [reflexivity|]. cbn [flat_map length]. rewrite app_length, map_length, seq_length, IH. reflexivity.
Qed.
Lemma lists_dense o r c g : lists r c g (in_storage_order o r c g).
Proof.
  split.
  - intros h _. rewrite storage_order_map, lsum_map, <- lsum_Rlsum, <- sum2_rsum2.
    symmetry. apply (sum2_order rar rar_exact o).
  - rewrite storage_order_map, map_length. unfold order. destruct o; rewrite ?map_length, len_pairs; lia.
  - intros x. rewrite storage_order_map, in_map_iff. intros ([i j] & <- & H). apply in_order in H as [? ?]. eauto.
  - intros i j Hi Hj. left. rewrite storage_order_map, in_map_iff. exists (i, j). split; [reflexivity|]. now apply in_order.
Qed.
Lemma lists_ext r c g g' el : (forall i j, (i < r)%nat -> (j < c)%nat -> g i j = g' i j) -> lists r c g el -> lists r c g' el.
Proof.
  intros E [H1 H2 H3 H4]. split.
  - intros h H0. rewrite H1 by auto. unfold rsum2. apply rsum_ext. intros i Hi. apply rsum_ext. intros j Hj. now rewrite E.
  - exact H2.
  - intros x Hx. destruct (H3 x Hx) as (i & j & Hi & Hj & ->). exists i, j. rewrite E by auto. auto.
  - intros i j Hi Hj. rewrite <- E by auto. auto.
Qed.
Lemma lists_sparse {T} (cv : T -> D) (s : sparse T) L f r c : s_rows s = r -> s_cols s = c ->
  length L = s_minor s -> lines_ok (s_major s) L -> denotes s L f ->
  lists r c (fun i j => dflt (d0 ar) (option_map cv (f i j))) (map cv (map snd (concat L))).
Proof.
  intros Hr Hc HL HO HD.
  assert (S : forall h : option T -> R, h None = 0 -> lsum (fun e => h (Some (snd e))) (concat L) = rsum2 r c (fun i j => h (f i j))).
  { intros h H0. pose proof (lines_sum rar rar_exact s L f h H0 HL HO HD) as H. rewrite Hr, Hc in H.
    rewrite <- sum2_rsum2, <- lsum_Rlsum. exact H. }
  split.
  - intros h H0. rewrite !lsum_map. exact (S (fun o => h (dflt (d0 ar) (option_map cv o))) H0).
  - rewrite !map_length. apply INR_le. rewrite <- lsum_1, mult_INR.
    pose proof (S (fun o => match o with Some _ => 1 | None => 0 end) eq_refl) as E. cbn beta iota in E. rewrite E.
    apply Rle_trans with (rsum2 r c (fun _ _ => 1)).
    + unfold rsum2. apply rsum_le. intros i _. apply rsum_le. intros j _. destruct (f i j); lra.
    + unfold rsum2. rewrite (rsum_ext r _ (fun _ => INR c * 1)) by (intros; rewrite rsum_1; ring). rewrite rsum_scal, rsum_1. lra.
  - intros x Hx. rewrite map_map in Hx. apply in_map_iff in Hx as ([k' w] & <- & H).
    apply in_concat in H as (line & Hl & Hin). apply In_nth_error in Hl as (n & En).
    assert (n < s_minor s)%nat by (rewrite <- HL; apply nth_error_Some; congruence).
    pose proof (proj1 (Forall_forall _ _) HO line (nth_error_In _ _ En)) as [HS HB].
    assert (k' < s_major s)%nat. { rewrite Forall_forall in HB. apply HB. apply in_map_iff. exists (k', w). auto. }
    apply (lk_In_iff k' line w (SSorted_NoDup _ HS)) in Hin.
    unfold s_minor, s_major, denotes, line_of, key_of in *. destruct (s_o s).
    + exists n, k'. split; [lia|]. split; [lia|]. rewrite HD by lia. rewrite (nth_error_nth L n [] En), Hin. reflexivity.
    + exists k', n. split; [lia|]. split; [lia|]. rewrite HD by lia. rewrite (nth_error_nth L n [] En), Hin. reflexivity.
  - intros i j Hi Hj. destruct (f i j) as [w|] eqn:Ef; [left|now right]. cbn [option_map dflt].
    subst r c. pose proof (HD i j Hi Hj) as E. rewrite Ef in E. symmetry in E. apply lk_In in E.
    rewrite map_map. apply in_map_iff. exists (key_of s i j, w). split; [reflexivity|].
    apply in_concat. exists (nth (line_of s i j) L []). split; [|exact E]. apply nth_In. rewrite HL. now apply line_of_lt.
Qed.
Lemma lists_nil r c g : (forall i j, (i < r)%nat -> (j < c)%nat -> g i j = d0 ar) -> lists r c g [].
Proof.
  intros H. split.
  - intros h H0. cbn. symmetry. unfold rsum2. apply rsum_0. intros i Hi. apply rsum_0. intros j Hj. now rewrite H.
  - cbn. lia.
  - intros x [].
  - auto.
Qed.

Context (fin : D -> Prop) (u eta : R) (NR : norm_rounding ar nx v fin u eta).
Lemma accF_accD' k acc x : n_accF ar nx k acc x = n_accD ar nx k acc (toD ar x).
Proof. destruct k; cbn; now rewrite ?(nr_absF _ _ _ _ _ _ NR), ?(nr_sqF _ _ _ _ _ _ NR). Qed.

Lemma norm_leaf_lists k l r c g : rep_leaf ar l r c g -> l_compact l ->
  (exists el, lists r c g el /\ norm_leaf ar nx k l = Ok (n_fin nx k (fold_left (n_accD ar nx k) el (d0 ar)))) \/
  ((forall i j, (i < r)%nat -> (j < c)%nat -> g i j = d0 ar) /\ norm_leaf ar nx k l = Ok (d0 ar)).
Proof.
  intros H C. destruct l as [z|s|s|d|d]; cbn [rep_leaf norm_leaf l_compact] in *.
  - right. destruct H as (_ & _ & H). auto.
  - left. destruct H as (_ & f & M & H). apply sp_mat_lines in M as (Hr & Hc & _ & L & HR & HL & HO & HD).
    exists (map (toD ar) (map snd (concat L))). split.
    + eapply lists_ext; [|exact (lists_sparse (toD ar) s L f r c Hr Hc HL HO HD)]. intros. symmetry. auto.
    + rewrite (norm_sparse_val ar nx _ k s L HR HL C), (fold_left_ext _ _ _ _ (accF_accD' k)), <- fold_left_map'. reflexivity.
  - left. destruct H as (_ & f & M & H). apply sp_mat_lines in M as (Hr & Hc & _ & L & HR & HL & HO & HD).
    exists (map snd (concat L)). split.
    + pose proof (lists_sparse (fun x => x) s L f r c Hr Hc HL HO HD) as G. rewrite map_id in G.
      eapply lists_ext; [|exact G]. intros i j Hi Hj. rewrite H by auto. now destruct (f i j).
    + apply (norm_sparse_val ar nx _ k s L HR HL C).
  - left. destruct H as (_ & f & [W V] & H). exists (in_storage_order (d_orient d) r c (fun i j => toD ar (f i j))). split.
    + eapply lists_ext; [|apply lists_dense]. intros. symmetry. auto.
    + rewrite (norm_dense_val ar nx _ k d r c f V (or_introl W)), (fold_left_ext _ _ _ _ (accF_accD' k)), <- fold_left_map'.
      now rewrite !storage_order_map, map_map.
  - left. destruct H as (_ & [W V]). exists (in_storage_order (d_orient d) r c g). split; [apply lists_dense|].
    apply (norm_dense_val ar nx _ k d r c g V (or_introl W)).
Qed.
End E.
