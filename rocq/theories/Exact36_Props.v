(** NaN and infinite elements: the two-norm of blocked matrices (C77). *)
From Coq Require Import ZArith Reals Lra.
From Verif Require Import Base BaseLemmas Dense_Model Dense_Spec Dense_Proofs Dense2_Proofs Sparse_Model Sparse_Spec Block_Proofs
  Dyn_Model Dyn_Spec Norm_Model Norm_Spec Norm_Proofs Fp_Spec Fp_Proofs Fp_Ieee Fp_Props FpNorm_Spec FpNorm_Proofs FpNorm2_Props
  Exact27_Props Exact31_Props Exact34_Props.
From Flocq Require Import Core BinarySingleNaN.
#[local] Open Scope R_scope.

(** C77.  The two-norm of a blocked matrix with one-part blocks that stands for the
    array [g]: NaN exactly if an element is, and infinite if none is NaN and one is
    infinite, whatever the blocks. *)
Theorem C77_special_blocks :
  forall dbg (b : blocked f32 f64) rl cl g, rep_blocked ieee b rl cl g ->
    (forall I J d, (I < length rl)%nat -> (J < length cl)%nat -> dget true (b_mat b) I J = Ok (Some d) ->
       exists l, d = DL l /\ l_compact l) ->
    exists m, norm_blocked ieee ieee_n true NTwo dbg b = Ok m /\
    let some (P : f64 -> Prop) := exists i j, (i < list_sum rl)%nat /\ (j < list_sum cl)%nat /\ P (g i j) in
    (is_nan m = true <-> some (fun x => is_nan x = true)) /\
    (~ some (fun x => is_nan x = true) -> some is_inf -> m = B754_infinity false).
Proof.
  intros dbg b rl cl g (U1 & U2 & O & f & [W V] & B) HN. unfold norm_blocked.
  rewrite iter_addrs_ok by (left; exact W). cbn [bind]. rewrite foldM_map.
  pose proof V as (Hr & Hc & HG). rewrite Hr, Hc. set (o := d_orient (b_mat b)).
  set (N := fun I J => match norm_ptr ieee ieee_n true NTwo dbg (f I J) with Ok v => v | _ => B754_nan end).
  assert (HB : forall I J, (I < length rl)%nat -> (J < length cl)%nat ->
    let some (P : f64 -> Prop) := exists i j, (i < nth I rl 0)%nat /\ (j < nth J cl 0)%nat /\ P (g (offs rl I + i) (offs cl J + j))%nat in
    norm_ptr ieee ieee_n true NTwo dbg (f I J) = Ok (N I J) /\
    (is_nan (N I J) = true <-> some (fun x => is_nan x = true)) /\
    (~ some (fun x => is_nan x = true) -> some is_inf -> N I J = B754_infinity false)).
  { intros I J HI HJ. destruct (B I J HI HJ) as (d & Ed & Td & Rd).
    destruct (HN I J d HI HJ) as (l & -> & Cl); [rewrite HG by auto; now f_equal|].
    destruct (C77_special_one_part NTwo l _ _ _ Rd Cl) as (m & Em & H1 & H2). unfold N. rewrite Ed.
    rewrite norm_ptr_spec by exact Td. cbn [norm_dyn]. rewrite Em. auto. }
  assert (G : forall l s, (forall i j, List.In (i, j) l -> (i < length rl)%nat /\ (j < length cl)%nat) ->
    foldM (fun p s => do x <- rdz (d_buf (b_mat b)) (Z.of_nat (addr (d_sh (b_mat b)) (fst p) (snd p)));
                      do n <- norm_ptr ieee ieee_n true NTwo dbg x; Ok (addD ieee s (sqD ieee_n n))) l s
    = Ok (List.fold_left (n_accD ieee ieee_n NTwo) (List.map (fun p => N (fst p) (snd p)) l) s)).
  { induction l as [|[i j] t IH]; intros s Hin; [reflexivity|].
    destruct (Hin i j (or_introl eq_refl)) as (Hi' & Hj'). cbn [foldM fst snd List.map List.fold_left].
    rewrite rdz_nat. pose proof (view_cell _ _ _ f i j V Hi' Hj') as E. apply rd_ok in E. rewrite E. cbn [bind].
    rewrite (proj1 (HB i j Hi' Hj')). cbn [bind]. rewrite IH by (intros; apply Hin; now right). reflexivity. }
  rewrite G by (intros i j Hin; now apply in_order in Hin). cbn [bind]. eexists. split; [reflexivity|].
  pose proof (special_list NTwo (length rl) (length cl) N (List.map (fun p => N (fst p) (snd p)) (order o (length rl) (length cl)))) as S.
  cbv zeta iota in S. destruct S as [S1 S2].
  - intros x H. apply List.in_map_iff in H as ([i j] & <- & H). apply in_order in H as [Hi Hj]. eauto.
  - intros i j Hi Hj. left. apply List.in_map_iff. exists (i, j). split; [reflexivity|]. now apply in_order.
  - assert (EX : forall P : f64 -> Prop,
      (exists I J, (I < length rl)%nat /\ (J < length cl)%nat /\
         exists i j, (i < nth I rl 0)%nat /\ (j < nth J cl 0)%nat /\ P (g (offs rl I + i) (offs cl J + j))%nat) <->
      exists i j, (i < list_sum rl)%nat /\ (j < list_sum cl)%nat /\ P (g i j)).
    { intros P. split.
      - intros (I & J & HI & HJ & i & j & Hi & Hj & H). exists (offs rl I + i)%nat, (offs cl J + j)%nat.
        pose proof (offs_S rl I HI). pose proof (offs_S cl J HJ). pose proof (offs_le_all rl (S I)). pose proof (offs_le_all cl (S J)).
        split; [lia|]. split; [lia|]. exact H.
      - intros (i & j & Hi & Hj & H). destruct (offs_find rl i Hi) as (I & HI & I1). destruct (offs_find cl j Hj) as (J & HJ & J1).
        rewrite offs_S in I1, J1 by assumption. exists I, J. split; [exact HI|]. split; [exact HJ|].
        exists (i - offs rl I)%nat, (j - offs cl J)%nat. split; [lia|]. split; [lia|].
        replace (offs rl I + (i - offs rl I))%nat with i by lia. now replace (offs cl J + (j - offs cl J))%nat with j by lia. }
    assert (E1 : (exists I J, (I < length rl)%nat /\ (J < length cl)%nat /\ is_nan (N I J) = true) <->
                 exists i j, (i < list_sum rl)%nat /\ (j < list_sum cl)%nat /\ is_nan (g i j) = true).
    { rewrite <- (EX (fun x => is_nan x = true)). split; intros (I & J & HI & HJ & H); exists I, J; (split; [exact HI|]; split; [exact HJ|]);
        now apply (HB I J HI HJ). }
    cbv zeta. split; [now rewrite <- E1|]. intros HNN HI. rewrite <- E1 in HNN. apply (S2 HNN).
    apply (EX is_inf) in HI as (I & J & H1 & H2 & H3). exists I, J. split; [exact H1|]. split; [exact H2|].
    exists false. apply (HB I J H1 H2); [|exact H3]. intros H. apply HNN. exists I, J. split; [exact H1|]. split; [exact H2|].
    now apply (HB I J H1 H2).
Qed.
Print Assumptions C77_special_blocks.

(** A blocked matrix of two 1 x 1 blocks. *)
Definition one_one (x : f64) : dense f64 := mkDense (own_shape ColMajor 1 1) 1 [Some x] true.
Definition two_one (x y : f64) : blocked f32 f64 := mkBlocked (mkDense (own_shape ColMajor 1 2) 2
  [Some (Some (DL (LDd (one_one x)))); Some (Some (DL (LDd (one_one y))))] true) 1 2.
Example C77_special_blocks_nonvacuous :
  (forall x y, rep_blocked ieee (two_one x y) [1%nat] [1%nat; 1%nat] (fun _ j => match j with O => x | _ => y end)) /\
  (forall x y I J d, (I < 1)%nat -> (J < 2)%nat -> dget true (b_mat (two_one x y)) I J = Ok (Some d) ->
     exists l, d = DL l /\ l_compact l) /\
  norm_blocked ieee ieee_n true NTwo true (two_one (B754_infinity true) (B754_zero true)) = Ok (B754_infinity false) /\
  norm_blocked ieee ieee_n true NTwo true (two_one (B754_infinity true) B754_nan) = Ok B754_nan.
Proof.
  split; [|split; [|split; reflexivity]].
  - intros x y. split; [reflexivity|]. split; [reflexivity|]. split; [reflexivity|].
    exists (fun _ J => match J with O => Some (DL (LDd (one_one x))) | _ => Some (DL (LDd (one_one y))) end). split.
    + split; [repeat split; reflexivity|]. split; [reflexivity|]. split; [reflexivity|].
      intros [|i] [|[|j]] Hi Hj; try (cbn in *; lia); reflexivity.
    + intros [|I'] [|[|J]] HI HJ; try (cbn in *; lia); eexists; (split; [reflexivity|]); (split; [cbn; tauto|]); (split; [reflexivity|]);
        (split; [repeat split; reflexivity|]); (split; [reflexivity|]); (split; [reflexivity|]);
        intros [|i] [|j] Hi Hj; try (cbn in *; lia); reflexivity.
  - intros x y [|I'] [|[|J]] d HI HJ E; try lia; injection E as <-; eexists; (split; [reflexivity|]); exact Coq.Init.Logic.I.
Qed.
Print Assumptions C77_special_blocks_nonvacuous.
