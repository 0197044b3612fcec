(** What the converter loses, in real numbers, and the whole pipeline. *)
From Coq Require Import Reals Lra Psatz.
From Verif Require Import Base BaseLemmas Dense_Model Dense_Spec Dense_Proofs Dense2_Proofs Sparse_Model Sparse_Spec
  Mult_Model Mult_Spec Dyn_Model Dyn_Spec Dyn_Proofs Dyn2_Proofs
  Block_Proofs Conv_Spec Conv_Proofs Eval_Spec Eval_Proofs Fp_Spec Fp_Proofs Sparse_Props Dyn_Props.
#[local] Open Scope R_scope.

Lemma first_of_uniq p l t t' : first_of p l t -> first_of p l t' -> t = t'.
Proof.
  intros (pre & post & E & H & Hp) (pre' & post' & E' & H' & Hp'). rewrite E in E'. clear E l.
  revert pre' E' Hp'. induction pre as [|u pre IH]; intros [|u' pre'] E' Hp'; cbn in E'; injection E' as E1 E2; subst.
  - reflexivity.
  - rewrite (Hp' u') in H by (now left). discriminate.
  - rewrite (Hp t') in H' by (now left). discriminate.
  - exact (IH (fun u Hu => Hp u (or_intror Hu)) pre' E2 (fun u Hu => Hp' u (or_intror Hu))).
Qed.

Lemma leaf_real_ext {F D} (ar : arith F D) v l r c val wd wf val' wd' wf' : leaf_real ar v l r c val wd wf ->
  (forall i j, (i < r)%nat -> (j < c)%nat -> val i j = val' i j /\ wd i j = wd' i j /\ wf i j = wf' i j) ->
  leaf_real ar v l r c val' wd' wf'.
Proof.
  intros (g & R & H) E. exists g. split; [exact R|]. intros i j Hi Hj. destruct (E i j Hi Hj) as (<- & <- & <-). now apply H.
Qed.
Lemma dyn_real_ext {F D} (ar : arith F D) v d r c val wd wf val' wd' wf' : dyn_real ar v d r c val wd wf ->
  (forall i j, (i < r)%nat -> (j < c)%nat -> val i j = val' i j /\ wd i j = wd' i j /\ wf i j = wf' i j) ->
  dyn_real ar v d r c val' wd' wf'.
Proof.
  intros H E. destruct d as [l|t1 t2 [a|] [b|]]; cbn [dyn_real] in *; try contradiction.
  - eapply leaf_real_ext; eauto.
  - destruct H as (T1 & T2 & v1 & d1 & f1 & v2 & d2 & f2 & R1 & R2 & H). split; auto. split; auto.
    exists v1, d1, f1, v2, d2, f2. split; auto. split; auto. intros i j Hi Hj. destruct (E i j Hi Hj) as (<- & <- & <-). now apply H.
Qed.

Section P.
Context {F D : Type} (ar : arith F D) (v : D -> R) (fin : D -> Prop) (uD uF eta : R).
Context (X : rounding ar v fin uD uF eta) (O : ordering ar v fin).
Let Hu : 0 <= uD <= uF /\ 0 <= eta := ro_u _ _ _ _ _ _ X.
Context (th : threshold D).
Hypothesis (FD : fin (sigD th)) (FF : fin (sigF th)).
Hypothesis small_fin : forall x, fin x -> Rabs (v x) <= v (sigF th) -> fin (toD ar (toF ar x)).

#[local] Notation lost := (lost uF eta (v (sigD th)) (v (sigF th))).
#[local] Notation mag_f := (mag_f uF eta (v (sigF th))).

Lemma lt_false t x : fin t -> fin x -> ltD ar t (absD ar x) = false -> Rabs (v x) <= v t.
Proof.
  intros Ht Hx H. destruct (od_abs _ _ _ O x Hx) as [Fa Va]. destruct (Rle_or_lt (Rabs (v x)) (v t)) as [|L]; auto.
  rewrite <- Va in L. apply (od_lt _ _ _ O t _ Ht Fa) in L. congruence.
Qed.
Lemma lt_true t x : fin t -> fin x -> ltD ar t (absD ar x) = true -> v t < Rabs (v x).
Proof.
  intros Ht Hx H. destruct (od_abs _ _ _ O x Hx) as [Fa Va]. rewrite <- Va. now apply (od_lt _ _ _ O t _ Ht Fa).
Qed.
Lemma le_iff t x : fin t -> fin x -> leD ar (absD ar x) t = true <-> Rabs (v x) <= v t.
Proof.
  intros Ht Hx. destruct (od_abs _ _ _ O x Hx) as [Fa Va]. rewrite <- Va. now apply (od_le _ _ _ O).
Qed.

Lemma above_none t r c f : (forall i j, (i < r)%nat -> (j < c)%nat -> fin (f i j)) -> fin t -> (Z.of_nat (r * c) < 2 ^ 63)%Z ->
  leD ar (fraction_above ar t r c f) (d0 ar) = true ->
  forall i j, (i < r)%nat -> (j < c)%nat -> ltD ar t (absD ar (f i j)) = false.
Proof.
  intros Hf Ht Hs H i j Hi Hj. unfold fraction_above in H.
  apply (od_frac _ _ _ O) in H; [|apply count2_le|exact Hs]. now apply (count2_zero r c _ H i j).
Qed.

(** The value and the magnitudes of one element. *)
Definition good (t : mty) (x : D) (val wd wf : R) : Prop :=
  Rabs (val - v x) <= lost t (Rabs (v x)) /\ 0 <= wd <= mag_d t (Rabs (v x)) /\ 0 <= wf <= mag_f t (Rabs (v x)).

Lemma round_ok x : fin x -> Rabs (v x) <= v (sigF th) ->
  Rabs (v (toD ar (toF ar x)) - v x) <= uF * Rmin (Rabs (v x)) (v (sigF th)) + eta /\
  Rabs (v (toD ar (toF ar x))) <= (1 + uF) * Rmin (Rabs (v x)) (v (sigF th)) + eta.
Proof.
  intros Fx Hle. destruct (ro_cv _ _ _ _ _ _ X x (small_fin x Fx Hle)) as [_ H]. rewrite Rmin_left by auto.
  split; [exact H|]. replace (v (toD ar (toF ar x))) with ((v (toD ar (toF ar x)) - v x) + v x) by ring.
  eapply Rle_trans; [apply Rabs_triang|]. lra.
Qed.

Lemma good_drop t x : fin x -> 0 <= mag_f t (Rabs (v x)) -> 0 <= mag_d t (Rabs (v x)) -> Rabs (v x) <= lost t (Rabs (v x)) ->
  good t x 0 0 0.
Proof.
  intros Fx H1 H2 H3. repeat split; try lra. unfold Rminus. rewrite Rplus_0_l, Rabs_Ropp. exact H3.
Qed.

Lemma convert_real exc dbg m r c f ty :
  view m r c f -> sh_ok (d_sh m) (length (d_buf m)) -> iterable m -> d_orient m = ColMajor -> full_ok m -> sh_sub (d_sh m) = true ->
  (Z.of_nat (r * c) < 2 ^ 63)%Z -> valid_thr ar th -> zero_limits ar th ->
  (forall i j, (i < r)%nat -> (j < c)%nat -> fin (f i j)) ->
  first_of (respects ar th r c f) type_list ty ->
  exists d val wd wf, convert ar exc dbg th m = Ok d /\ dyn_ty d = ty /\ dyn_real ar v d r c val wd wf /\
    forall i j, (i < r)%nat -> (j < c)%nat -> good ty (f i j) (val i j) (wd i j) (wf i j).
Proof.
  intros V SH IT OM FU SUB SZ HT (Z1 & Z2 & Z3 & Z4) Ffin Ht.
  assert (ZA : zero_limits_agree th) by (red; congruence).
  destruct (fm_zero _ _ _ _ _ _ _ _ _ _ _ (ro_D _ _ _ _ _ _ X)) as [F0 V0].
  destruct (fm_zero _ _ _ _ _ _ _ _ _ _ _ (ro_F _ _ _ _ _ _ X)) as [F0f V0f].
  assert (PS : 0 <= v (sigD th) /\ 0 <= v (sigF th) /\ v (sigD th) <= v (sigF th)).
  { destruct HT as (T1 & T2 & T3 & _). repeat split.
    - destruct (Rle_or_lt 0 (v (sigD th))) as [|L]; auto. rewrite <- V0 in L. apply (od_lt _ _ _ O) in L; auto. congruence.
    - destruct (Rle_or_lt 0 (v (sigF th))) as [|L]; auto. rewrite <- V0 in L. apply (od_lt _ _ _ O) in L; auto. congruence.
    - destruct (Rle_or_lt (v (sigF th)) (v (sigD th))) as [L|]; [|lra]. apply (od_le _ _ _ O) in L; auto. congruence. }
  unfold convert. rewrite (convert_first_spec ar m r c f V IT FU exc dbg th type_list ty HT ZA Ht).
  destruct Ht as (pre & post & EL & HR & _). assert (HI : In ty type_list) by (rewrite EL; apply in_elt). clear EL.
  unfold respects in HR. apply andb_prop in HR. destruct HR as [HD HF].
  pose proof (above_none (sigD th) r c f Ffin FD SZ) as ND. pose proof (above_none (sigF th) r c f Ffin FF SZ) as NF.
  pose proof HT as (T1 & T2 & T3 & T4).
  pose proof (leaf_chk_spec ar m r c f V SH IT OM FU) as LC.
  (* one stored part: value and magnitudes *)
  assert (DL1 : forall t chk l, leaf_chk ar t chk m = Ok l -> leaf_ty l = t ->
     rep_leaf ar l r c (fun i j => part_as ar m t (chk (f i j)) (f i j)) ->
     leaf_real ar v l r c (fun i j => v (part_as ar m t (chk (f i j)) (f i j)))
       (fun i j => if is_f t then 0 else Rabs (v (part_as ar m t (chk (f i j)) (f i j))))
       (fun i j => if is_f t then Rabs (v (part_as ar m t (chk (f i j)) (f i j))) else 0)).
  { intros t chk l _ Tl Rl. eexists. split; [exact Rl|]. intros i j _ _. rewrite Tl. auto. }
  assert (MM : forall x, 0 <= Rmin (Rabs (v x)) (v (sigF th)) /\ 0 <= Rmin (Rabs (v x)) (v (sigD th))).
  { intros x. pose proof (Rabs_pos (v x)). split; apply Rmin_glb; lra. }
  assert (PF : forall t x, 0 <= mag_f t (Rabs (v x))).
  { intros t x. unfold Fp_Spec.mag_f. destruct (has_f t); [|lra]. destruct (MM x). assert (0 <= uF * Rmin (Rabs (v x)) (v (sigF th))) by (apply Rmult_le_pos; lra). lra. }
  assert (PD : forall t x, 0 <= mag_d t (Rabs (v x))).
  { intros t x. unfold mag_d. destruct (has_d t); [apply Rabs_pos|lra]. }
  assert (PR : forall x, 0 <= uF * Rmin (Rabs (v x)) (v (sigF th))) by (intros x; apply Rmult_le_pos; [lra|apply MM]).
  (* the three fates of an element *)
  assert (KEEP : forall t x, has_d t = true -> good t x (v x) (Rabs (v x)) 0).
  { intros t x Hd. unfold good. rewrite Rminus_diag_eq, Rabs_R0 by reflexivity.
    pose proof (PF t x). pose proof (Rabs_pos (v x)). unfold mag_d. rewrite Hd. repeat split; try lra.
    destruct (MM x). pose proof (PR x). unfold Fp_Spec.lost. destruct t as [[|[]|[]]|? ?]; try lra;
      (eapply Rle_trans; [|apply Rmax_r]; lra). }
  assert (FLOAT : forall t x, fin x -> has_f t = true -> ltD ar (sigF th) (absD ar x) = false ->
     good t x (v (toD ar (toF ar x))) 0 (Rabs (v (toD ar (toF ar x))))).
  { intros t x Fx Hf Hlt. destruct (round_ok x Fx (lt_false _ _ FF Fx Hlt)) as [R1 R2].
    pose proof (PD t x). pose proof (Rabs_pos (v (toD ar (toF ar x)))). unfold good. repeat split; try lra.
    - unfold Fp_Spec.lost. destruct t as [[|[]|[]]|? ?]; try discriminate; try exact R1; (eapply Rle_trans; [|apply Rmax_r]; exact R1).
    - unfold Fp_Spec.mag_f. rewrite Hf. exact R2. }
  assert (DROP : forall t x, fin x -> ltD ar (sigD th) (absD ar x) = false ->
     match t with TL TZ | TL (TS EF) | TM _ _ => True | _ => False end -> good t x 0 0 0).
  { intros t x Fx Hlt Ht. apply good_drop; auto. pose proof (lt_false _ _ FD Fx Hlt).
    unfold Fp_Spec.lost. destruct t as [[|[]|[]]|? ?]; try contradiction; rewrite ?(Rmin_left _ (v (sigD th))) by auto; try lra; apply Rmax_l. }
  cbn in HI. repeat (destruct HI as [<-|HI]); try contradiction; cbn [convert_to]; unfold gt_new, range_new; rewrite ?T1, ?T2, ?T3, ?T4; cbn [bind].
  - destruct (LC TZ (fun _ => true)) as (l & E & Tl & Rl). rewrite E. eexists _, _, _, _. split; [reflexivity|]. cbn.
    split; [now rewrite Tl|]. split; [apply (DL1 TZ (fun _ => true) l E Tl Rl)|]. intros i j Hi Hj. cbn. rewrite V0, Rabs_R0.
    apply DROP; auto. rewrite Z1 in HD. now apply ND.
  - destruct (LC (TS EF) (medium ar th)) as (l & E & Tl & Rl). unfold medium in E. rewrite E. eexists _, _, _, _. split; [reflexivity|]. cbn.
    split; [now rewrite Tl|]. split; [apply (DL1 (TS EF) (medium ar th) l E Tl Rl)|]. intros i j Hi Hj. cbn.
    rewrite Z3 in HF. pose proof (NF HF i j Hi Hj) as NL. unfold medium.
    destruct (ltD ar (sigD th) (absD ar (f i j))) eqn:LD.
    + rewrite (proj2 (le_iff _ _ FF (Ffin i j Hi Hj)) (lt_false _ _ FF (Ffin i j Hi Hj) NL)). cbn [andb]. now apply FLOAT; auto.
    + cbn [andb]. rewrite V0, Rabs_R0. now apply DROP; auto.
  - destruct (LC (TD EF) (fun x => ltD ar (d0 ar) (absD ar x))) as (l & E & Tl & Rl). rewrite E. eexists _, _, _, _. split; [reflexivity|]. cbn.
    split; [now rewrite Tl|]. split; [apply (DL1 (TD EF) (fun x => ltD ar (d0 ar) (absD ar x)) l E Tl Rl)|]. intros i j Hi Hj. cbn. rewrite SUB.
    rewrite Z4 in HF. pose proof (NF HF i j Hi Hj) as NL.
    destruct (ltD ar (d0 ar) (absD ar (f i j))) eqn:LD; [now apply FLOAT; auto|].
    rewrite V0f, Rabs_R0. apply good_drop; auto. pose proof (lt_false _ _ F0 (Ffin i j Hi Hj) LD) as L. rewrite V0 in L. cbn.
    pose proof (PR (f i j)). lra.
  - destruct (LC (TS ED) (large ar th)) as (l & E & Tl & Rl). unfold large in E. rewrite E. eexists _, _, _, _. split; [reflexivity|]. cbn.
    split; [now rewrite Tl|]. split; [apply (DL1 (TS ED) (large ar th) l E Tl Rl)|]. intros i j Hi Hj. cbn. unfold large.
    destruct (ltD ar (sigF th) (absD ar (f i j))) eqn:LD; [now apply KEEP|].
    rewrite V0, Rabs_R0. apply good_drop; auto. pose proof (lt_false _ _ FF (Ffin i j Hi Hj) LD) as L. cbn.
    rewrite Rmin_left; lra.
  - destruct (LC (TS ED) (large ar th)) as (l & E & Tl & Rl). unfold large in E. rewrite E. cbn [bind].
    destruct (LC (TS EF) (medium ar th)) as (l' & E' & Tl' & Rl'). unfold medium in E'. rewrite E'. cbn [bind].
    unfold mm_new. destruct (rep_leaf_dims ar _ _ _ _ Rl) as [-> ->]. destruct (rep_leaf_dims ar _ _ _ _ Rl') as [-> ->].
    rewrite !Nat.eqb_refl. cbn [bind].
    pose proof (DL1 _ _ l E Tl Rl) as L1. pose proof (DL1 _ _ l' E' Tl' Rl') as L2.
    eexists _, (fun i j => _ + _), (fun i j => _ + _), (fun i j => _ + _). split; [reflexivity|]. split; [reflexivity|].
    split; [cbn; split; [exact Tl|split; [exact Tl'|]]; do 6 eexists; split; [exact L1|split; [exact L2|]]; intros; repeat split|].
    intros i j Hi Hj. cbn. unfold large, medium.
    destruct (ltD ar (sigF th) (absD ar (f i j))) eqn:LF.
    + replace (leD ar (absD ar (f i j)) (sigF th)) with false.
      * rewrite andb_false_r, V0, Rabs_R0, !Rplus_0_r. now apply KEEP.
      * symmetry. apply Bool.not_true_iff_false. rewrite (le_iff _ _ FF (Ffin i j Hi Hj)). pose proof (lt_true _ _ FF (Ffin i j Hi Hj) LF). lra.
    + rewrite (proj2 (le_iff _ _ FF (Ffin i j Hi Hj)) (lt_false _ _ FF (Ffin i j Hi Hj) LF)), andb_true_r, V0, Rabs_R0, !Rplus_0_l.
      destruct (ltD ar (sigD th) (absD ar (f i j))) eqn:LD; [now apply FLOAT; auto|]. rewrite V0, Rabs_R0. now apply DROP; auto.
  - destruct (LC (TS ED) (large ar th)) as (l & E & Tl & Rl). unfold large in E. rewrite E. cbn [bind].
    destruct (LC (TD EF) (medium ar th)) as (l' & E' & Tl' & Rl'). unfold medium in E'. rewrite E'. cbn [bind].
    unfold mm_new. destruct (rep_leaf_dims ar _ _ _ _ Rl) as [-> ->]. destruct (rep_leaf_dims ar _ _ _ _ Rl') as [-> ->].
    rewrite !Nat.eqb_refl. cbn [bind].
    pose proof (DL1 _ _ l E Tl Rl) as L1. pose proof (DL1 _ _ l' E' Tl' Rl') as L2.
    eexists _, (fun i j => _ + _), (fun i j => _ + _), (fun i j => _ + _). split; [reflexivity|]. split; [reflexivity|].
    split; [cbn; split; [exact Tl|split; [exact Tl'|]]; do 6 eexists; split; [exact L1|split; [exact L2|]]; intros; repeat split|].
    intros i j Hi Hj. cbn. rewrite SUB. unfold large, medium.
    destruct (ltD ar (sigF th) (absD ar (f i j))) eqn:LF.
    + replace (leD ar (absD ar (f i j)) (sigF th)) with false.
      * rewrite andb_false_r, V0f, Rabs_R0, !Rplus_0_r. now apply KEEP.
      * symmetry. apply Bool.not_true_iff_false. rewrite (le_iff _ _ FF (Ffin i j Hi Hj)). pose proof (lt_true _ _ FF (Ffin i j Hi Hj) LF). lra.
    + rewrite (proj2 (le_iff _ _ FF (Ffin i j Hi Hj)) (lt_false _ _ FF (Ffin i j Hi Hj) LF)), andb_true_r, V0, Rabs_R0, !Rplus_0_l.
      destruct (ltD ar (sigD th) (absD ar (f i j))) eqn:LD; [now apply FLOAT; auto|]. rewrite V0f, Rabs_R0. now apply DROP; auto.
  - destruct (LC (TD ED) (fun x => ltD ar (d0 ar) (absD ar x))) as (l & E & Tl & Rl). rewrite E. eexists _, _, _, _. split; [reflexivity|]. cbn.
    split; [now rewrite Tl|]. split; [apply (DL1 (TD ED) (fun x => ltD ar (d0 ar) (absD ar x)) l E Tl Rl)|]. intros i j Hi Hj. cbn. rewrite SUB.
    destruct (ltD ar (d0 ar) (absD ar (f i j))) eqn:LD; [now apply KEEP|].
    rewrite V0, Rabs_R0. apply good_drop; auto. pose proof (lt_false _ _ F0 (Ffin i j Hi Hj) LD) as L. rewrite V0 in L. cbn. lra.
Qed.

(** ** Cutting *)
Lemma cut_real exc dbg (m : dense D) r c f rl cl (ty : nat -> nat -> mty) :
  is_mat m r c f -> d_orient m = ColMajor -> (Z.of_nat (length (d_buf m)) < 2 ^ 63)%Z ->
  partition rl r -> partition cl c -> valid_thr ar th -> zero_limits ar th ->
  (forall i j, (i < r)%nat -> (j < c)%nat -> fin (f i j)) ->
  (forall I J i j, (I < length rl)%nat -> (J < length cl)%nat -> (i < nth I rl 0)%nat -> (j < nth J cl 0)%nat ->
     first_of (respects ar th (nth I rl 0%nat) (nth J cl 0%nat) (fun i j => f (offs rl I + i)%nat (offs cl J + j)%nat)) type_list
       (ty (offs rl I + i)%nat (offs cl J + j)%nat)) ->
  exists b val wd wf, cut ar exc dbg th m rl cl = Ok b /\ blocked_real ar v b rl cl val wd wf /\
    forall i j, (i < r)%nat -> (j < c)%nat -> good (ty i j) (f i j) (val i j) (wd i j) (wf i j).
Proof.
  intros M OM HL P1 P2 HT ZL Ffin HTy. pose proof M as [W V]. pose proof V as (ER & EC & _).
  set (Q := fun I J (x : dyn F D) => In (dyn_ty x) type_list /\ exists val wd wf, dyn_real ar v x (nth I rl 0%nat) (nth J cl 0%nat) val wd wf /\
     forall i j, (i < nth I rl 0)%nat -> (j < nth J cl 0)%nat ->
       good (ty (offs rl I + i)%nat (offs cl J + j)%nat) (f (offs rl I + i)%nat (offs cl J + j)%nat) (val i j) (wd i j) (wf i j)).
  destruct (cut_spec ar exc dbg th m rl cl Q) as (b & fb & E & U1 & U2 & Ob & Mb & _ & HB).
  { intros I J HI HJ. destruct (offs_block rl r I P1 HI) as [H1 H2]. destruct (offs_block cl c J P2 HJ) as [H3 H4].
    assert (IN : inside m (nth I rl 0%nat) (nth J cl 0%nat) (offs rl I) (offs cl J)) by (repeat split; auto; try apply W; lia).
    destruct (col_source_ok _ (src_win _ _ _ _ _ IN H1 H3 HL)) as (SH & IT & OO).
    pose proof (HTy I J 0%nat 0%nat HI HJ ltac:(lia) ltac:(lia)) as T0.
    destruct (convert_real exc dbg _ _ _ _ (ty (offs rl I + 0)%nat (offs cl J + 0)%nat) (window_view m r c f _ _ _ _ M IN) SH IT OO eq_refl eq_refl) as (d & val & wd & wf & Ed & Td & Rd & Gd); auto.
    - assert (length (d_buf m) = r * c)%nat by (destruct W as (_ & _ & W); rewrite W, <- ER, <- EC; reflexivity).
      assert (nth I rl 0 * nth J cl 0 <= r * c)%nat by (apply Nat.mul_le_mono; lia). lia.
    - intros i j Hi Hj. apply Ffin; lia.
    - exists d. split; [exact Ed|]. split.
      + rewrite Td. destruct T0 as (pre & post & EL & _). rewrite EL. apply in_elt.
      + exists val, wd, wf. split; [exact Rd|]. intros i j Hi Hj.
        rewrite (first_of_uniq _ _ _ _ (HTy I J i j HI HJ Hi Hj) T0). now apply Gd. }
  destruct (fin_choice2 ((fun _ _ => 0), (fun _ _ => 0), (fun _ _ => 0)) (length rl) (length cl)
    (fun I J (z : (nat -> nat -> R) * (nat -> nat -> R) * (nat -> nat -> R)) => let '(val, wd, wf) := z in
       exists x, fb I J = Some x /\ In (dyn_ty x) type_list /\ dyn_real ar v x (nth I rl 0%nat) (nth J cl 0%nat) val wd wf /\
       forall i j, (i < nth I rl 0)%nat -> (j < nth J cl 0)%nat ->
         good (ty (offs rl I + i)%nat (offs cl J + j)%nat) (f (offs rl I + i)%nat (offs cl J + j)%nat) (val i j) (wd i j) (wf i j)))
    as [hb Hb].
  { intros I J HI HJ. destruct (HB I J HI HJ) as (x & Ex & Tx & val & wd & wf & Rx & Gx). exists (val, wd, wf). eauto. }
  destruct (glue (0, 0, 0) rl cl (fun I J i j => let '(val, wd, wf) := hb I J in (val i j, wd i j, wf i j))) as [h Hh].
  exists b, (fun i j => fst (fst (h i j))), (fun i j => snd (fst (h i j))), (fun i j => snd (h i j)).
  split; [exact E|]. split.
  - split; [rewrite U1, ER; symmetry; apply P1|]. split; [rewrite U2, EC; symmetry; apply P2|]. split; [exact Ob|].
    exists fb. split; [exact Mb|]. intros I J HI HJ. specialize (Hb I J HI HJ).
    assert (Hh' := fun i j => Hh I J i j HI HJ). destruct (hb I J) as [[val wd] wf].
    destruct Hb as (x & Ex & Tx & Rx & _). exists x. split; [exact Ex|]. split; [exact Tx|].
    eapply dyn_real_ext; [exact Rx|]. intros i j Hi Hj. cbv beta. rewrite Hh' by auto. auto.
  - intros i j Hi Hj. rewrite <- (proj1 P1) in Hi. rewrite <- (proj1 P2) in Hj.
    destruct (offs_find rl i Hi) as (I & HI & Li). destruct (offs_find cl j Hj) as (J & HJ & Lj).
    rewrite offs_S in Li, Lj by auto. specialize (Hb I J HI HJ).
    specialize (Hh I J (i - offs rl I)%nat (j - offs cl J)%nat HI HJ ltac:(lia) ltac:(lia)).
    destruct (hb I J) as [[val wd] wf]. destruct Hb as (x & _ & _ & _ & G).
    specialize (G (i - offs rl I)%nat (j - offs cl J)%nat ltac:(lia) ltac:(lia)).
    replace (offs rl I + (i - offs rl I))%nat with i in * by lia. replace (offs cl J + (j - offs cl J))%nat with j in * by lia.
    rewrite Hh. exact G.
Qed.

Lemma in_mono p a b c d a' b' c' d' : 0 <= a <= a' -> 0 <= b <= b' -> 0 <= c <= c' -> 0 <= d <= d' ->
  in_double p a b c d <= in_double p a' b' c' d' /\ in_float p a b c d <= in_float p a' b' c' d' /\
  0 <= in_double p a b c d /\ 0 <= in_float p a b c d.
Proof.
  intros Ha Hb Hc Hd.
  assert (K : forall x y x' y', 0 <= x <= x' -> 0 <= y <= y' -> 0 <= x * y <= x' * y').
  { intros. split; [apply Rmult_le_pos; lra|apply Rmult_le_compat; lra]. }
  pose proof (K a c a' c' Ha Hc). pose proof (K a d a' d' Ha Hd). pose proof (K b c b' c' Hb Hc). pose proof (K b d b' d' Hb Hd).
  unfold in_double, in_float. destruct p; lra.
Qed.

Lemma pipeline_real ready p exc dbg (A B : dense D) m n l fa fb rl nl cl (ta tb : nat -> nat -> mty) :
  (forall t, In t type_list -> ready t = true) ->
  (forall I K J, I < length rl -> K < length nl -> J < length cl -> fits p (nth I rl 0) (nth K nl 0) (nth J cl 0))%nat ->
  is_mat A m n fa -> d_orient A = ColMajor -> (Z.of_nat (length (d_buf A)) < 2 ^ 63)%Z ->
  is_mat B n l fb -> d_orient B = ColMajor -> (Z.of_nat (length (d_buf B)) < 2 ^ 63)%Z ->
  partition rl m -> partition nl n -> partition cl l -> (1 <= n)%nat -> valid_thr ar th -> zero_limits ar th ->
  (forall i j, (i < m)%nat -> (j < n)%nat -> fin (fa i j)) -> (forall i j, (i < n)%nat -> (j < l)%nat -> fin (fb i j)) ->
  (forall I J i j, (I < length rl)%nat -> (J < length nl)%nat -> (i < nth I rl 0)%nat -> (j < nth J nl 0)%nat ->
     first_of (respects ar th (nth I rl 0%nat) (nth J nl 0%nat) (fun i j => fa (offs rl I + i)%nat (offs nl J + j)%nat)) type_list
       (ta (offs rl I + i)%nat (offs nl J + j)%nat)) ->
  (forall I J i j, (I < length nl)%nat -> (J < length cl)%nat -> (i < nth I nl 0)%nat -> (j < nth J cl 0)%nat ->
     first_of (respects ar th (nth I nl 0%nat) (nth J cl 0%nat) (fun i j => fb (offs nl I + i)%nat (offs cl J + j)%nat)) type_list
       (tb (offs nl I + i)%nat (offs cl J + j)%nat)) ->
  let a i q := Rabs (v (fa i q)) in let b q j := Rabs (v (fb q j)) in
  let la i q := lost (ta i q) (a i q) in let lb q j := lost (tb q j) (b q j) in
  let da i q := mag_d (ta i q) (a i q) in let db q j := mag_d (tb q j) (b q j) in
  let ga i q := mag_f (ta i q) (a i q) in let gb q j := mag_f (tb q j) (b q j) in
  exists a' b' c d h, cut ar exc dbg th A rl nl = Ok a' /\ cut ar exc dbg th B nl cl = Ok b' /\
    mul_blocked ar ready p dbg a' b' = Ok c /\ dense_of_blocked ar exc dbg c = Ok d /\ is_mat d m l h /\
    forall i j, (i < m)%nat -> (j < l)%nat -> fin (h i j) ->
      Rabs (v (h i j) - rsum n (fun q => v (fa i q) * v (fb q j))) <=
        rsum n (fun q => la i q * b q j + a i q * lb q j + la i q * lb q j) +
        err uD uF (list_max nl + length nl + 4) (SdF p n da ga db gb i j) (SfF p n da ga db gb i j) (EuF eta p n da ga db gb i j).
Proof.
  intros Hready Hfit MA OA LA MB OB LB P1 P2 P3 Hn HT ZL FA FB HTA HTB. cbv zeta.
  destruct (cut_real exc dbg A m n fa rl nl ta MA OA LA P1 P2 HT ZL FA HTA) as (a' & va & wda & wfa & Ea & Ra & Ga).
  destruct (cut_real exc dbg B n l fb nl cl tb MB OB LB P2 P3 HT ZL FB HTB) as (b' & vb & wdb & wfb & Eb & Rb & Gb).
  assert (Hnl : nl <> []) by (intros ->; destruct P2 as [P2 _]; cbn in P2; lia).
  destruct (mul_blocked_near ar v fin uD uF eta X ready p dbg a' b' rl nl cl va wda wfa vb wdb wfb Hready Hfit Hnl Ra Rb)
    as (c & fc & h & Ec & U1 & U2 & Oc & Mc & Hc).
  destruct (dense_of_blocked_gen ar exc dbg c rl cl h U1 U2 Oc) as (d & Ed & Md & _).
  { exists fc. split; [exact Mc|]. intros I J HI HJ. destruct (Hc I J HI HJ) as (x & Ex & Rx & _).
    exists (DL x). split; [exact Ex|]. split; [apply lty_in|]. split; [exact Rx|exact Coq.Init.Logic.I]. }
  exists a', b', c, d, h. split; [exact Ea|]. split; [exact Eb|]. split; [exact Ec|]. split; [exact Ed|].
  rewrite (proj1 P1), (proj1 P3) in Md. split; [exact Md|]. intros i j Hi Hj Hf.
  pose proof Hi as Hi'. pose proof Hj as Hj'. rewrite <- (proj1 P1) in Hi'. rewrite <- (proj1 P3) in Hj'.
  destruct (offs_find rl i Hi') as (I & HI & Li). destruct (offs_find cl j Hj') as (J & HJ & Lj).
  rewrite offs_S in Li, Lj by auto. destruct (Hc I J HI HJ) as (_ & _ & _ & N).
  specialize (N (i - offs rl I)%nat (j - offs cl J)%nat ltac:(lia) ltac:(lia)). cbv zeta in N.
  replace (offs rl I + (i - offs rl I))%nat with i in * by lia. replace (offs cl J + (j - offs cl J))%nat with j in * by lia.
  specialize (N Hf). rewrite (proj1 P2) in N. destruct N as (_ & _ & _ & _ & N).
  set (e := err _ _ _ _ _ _) in N.
  match goal with |- _ <= ?L + ?e' => assert (HE : e <= e'); [|assert (HL : Rabs (rsum n (fun q => va i q * vb q j) - rsum n (fun q => v (fa i q) * v (fb q j))) <= L)] end.
  - unfold e. apply (err_mono ar v fin uD uF eta X); try lia.
    + apply rsum_pos. intros q Hq. destruct (Ga i q Hi Hq) as (_ & G1 & G2), (Gb q j Hq Hj) as (_ & G3 & G4).
      apply (in_mono p _ _ _ _ _ _ _ _ G1 G2 G3 G4).
    + apply rsum_pos. intros q Hq. destruct (Ga i q Hi Hq) as (_ & G1 & G2), (Gb q j Hq Hj) as (_ & G3 & G4).
      apply (in_mono p _ _ _ _ _ _ _ _ G1 G2 G3 G4).
    + unfold EuF. apply Rmult_le_pos; [lra|]. pose proof (pos_INR n).
      assert (0 <= rsum n (fun q => wda i q + wfa i q + (wdb q j + wfb q j))).
      { apply rsum_pos. intros q Hq. destruct (Ga i q Hi Hq) as (_ & G1 & G2), (Gb q j Hq Hj) as (_ & G3 & G4). lra. }
      assert (0 <= mkl p * rsum n (fun q => wda i q + wfa i q + (wdb q j + wfb q j))) by (apply Rmult_le_pos; [apply mkl_pos|auto]). lra.
    + apply rsum_le. intros q Hq. destruct (Ga i q Hi Hq) as (_ & G1 & G2), (Gb q j Hq Hj) as (_ & G3 & G4).
      apply (in_mono p _ _ _ _ _ _ _ _ G1 G2 G3 G4).
    + apply rsum_le. intros q Hq. destruct (Ga i q Hi Hq) as (_ & G1 & G2), (Gb q j Hq Hj) as (_ & G3 & G4).
      apply (in_mono p _ _ _ _ _ _ _ _ G1 G2 G3 G4).
    + unfold EuF. apply Rmult_le_compat_l; [lra|]. apply Rplus_le_compat_l. apply Rmult_le_compat_l; [pose proof (mkl_pos p); lra|].
      apply rsum_le. intros q Hq. destruct (Ga i q Hi Hq) as (_ & G1 & G2), (Gb q j Hq Hj) as (_ & G3 & G4). lra.
  - match goal with |- Rabs ?z <= _ => replace z with (rsum n (fun q => va i q * vb q j + -1 * (v (fa i q) * v (fb q j)))) by (rewrite rsum_add, rsum_scal; ring) end.
    eapply Rle_trans; [apply rsum_abs|]. apply rsum_le. intros q Hq.
    destruct (Ga i q Hi Hq) as (G1 & _), (Gb q j Hq Hj) as (G2 & _).
    set (x := v (fa i q)) in *. set (y := v (fb q j)) in *. set (x' := va i q) in *. set (y' := vb q j) in *.
    set (lx := lost (ta i q) (Rabs x)) in *. set (ly := lost (tb q j) (Rabs y)) in *.
    replace (x' * y' + -1 * (x * y)) with ((x' - x) * y + x * (y' - y) + (x' - x) * (y' - y)) by ring.
    eapply Rle_trans; [apply Rabs_triang|]. apply Rplus_le_compat; [eapply Rle_trans; [apply Rabs_triang|]; apply Rplus_le_compat|];
      rewrite Rabs_mult; apply Rmult_le_compat; auto; try apply Rabs_pos; apply Rle_refl.
  - replace (v (h i j) - rsum n (fun q => v (fa i q) * v (fb q j))) with
      ((v (h i j) - rsum n (fun q => va i q * vb q j)) + (rsum n (fun q => va i q * vb q j) - rsum n (fun q => v (fa i q) * v (fb q j)))) by ring.
    eapply Rle_trans; [apply Rabs_triang|]. lra.
Qed.
End P.
