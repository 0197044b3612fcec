(** Lemmas gluing the sparse and dense specifications for the property file. *)
From Verif Require Import Base BaseLemmas Dense_Model Dense_Spec Dense_Proofs Dense2_Proofs Sparse_Model Sparse_Spec
  Sparse_Proofs Sparse2_Proofs Sparse3_Proofs Sparse4_Proofs SparseT_Proofs.

Lemma sp_mat_ext {T} (s : sparse T) r c f g :
  sp_mat s r c f -> (forall i j, i < r -> j < c -> f i j = g i j) -> sp_mat s r c g.
Proof.
  intros (W & R & C & F & H) E. split; [exact W|]. split; [exact R|]. split; [exact C|]. split; [exact F|].
  intros i j Hi Hj v. rewrite <- (E i j Hi Hj). now apply H.
Qed.

(** A change of a window's cells, seen from the parent. *)
Lemma window_lift {T} (p : dense T) r c f nr nc br bc m g :
  is_mat p r c f -> inside p nr nc br bc -> length m = length (d_buf p) ->
  (forall i j, i < nr -> j < nc -> nth_error m (addr (d_sh (d_window p nr nc br bc)) i j) = Some (Some (g i j))) ->
  (forall a, (forall i j, i < nr -> j < nc -> a <> addr (d_sh (d_window p nr nc br bc)) i j) ->
     nth_error m a = nth_error (d_buf p) a) ->
  is_mat (with_buf p m) r c
      (fun i j => if (br <=? i) && (i <? br + nr) && (bc <=? j) && (j <? bc + nc)
                  then g (i - br) (j - bc) else f i j).
Proof.
  intros [Hw Hv] Hin L Hi Ho. pose proof Hin as (_ & _ & H1 & H2). pose proof Hv as (Hr & Hc & _).
  split; [now apply with_buf_wf|]. apply view_from_cells; auto. intros i j Hi' Hj'. cbn [with_buf d_buf d_sh].
  assert (Ha : forall i' j', addr (d_sh (d_window p nr nc br bc)) i' j' = addr (d_sh p) (br + i') (bc + j'))
    by (intros; now apply window_addr).
  destruct ((br <=? i) && (i <? br + nr) && (bc <=? j) && (j <? bc + nc)) eqn:E.
  - rewrite !andb_true_iff, !Nat.leb_le, !Nat.ltb_lt in E.
    rewrite <- Hi by lia. f_equal. rewrite Ha. f_equal; lia.
  - rewrite Ho; [now apply (view_cell p r c f)|].
    intros i2 j2 Hi2 Hj2 EE. rewrite Ha in EE.
    destruct (addr_inj (d_sh p) _ i j (br + i2) (bc + j2) (wf_sh_ok p Hw)) as (E1 & E2);
      try (unfold d_rows, d_cols in *; lia). subst i j.
    rewrite !andb_false_iff, !Nat.leb_gt, !Nat.ltb_ge in E. lia.
Qed.

Lemma mat_lift {T} (a : dense T) r c f m g :
  is_mat a r c f -> length m = length (d_buf a) ->
  (forall i j, i < r -> j < c -> nth_error m (addr (d_sh a) i j) = Some (Some (g i j))) ->
  is_mat (with_buf a m) r c g.
Proof.
  intros [W V] L H. pose proof V as (R & C & _). split; [now apply with_buf_wf|]. now apply view_from_cells.
Qed.

(** Same orientation: conversion maps the stored values. *)
Lemma s_conv_same {T U} (cv : T -> U) (s : sparse T) r c f : sp_mat s r c f ->
  exists t, s_conv cv (s_o s) s = Ok t /\ s_o t = s_o s /\ sp_mat t r c (fun i j => option_map cv (f i j)).
Proof.
  intros HM. pose proof HM as ((W1 & W2 & W3 & W4 & W5 & W6) & R & C & F & H).
  unfold s_conv. assert (E : orient_eqb (s_o s) (s_o s) = true) by (now destruct (s_o s)). rewrite E. cbn [bind].
  eexists; split; [reflexivity|]. split; [reflexivity|].
  set (t := mkSparse _ _ _ _ _ _ _).
  assert (Hrd : forall p v, rd (s_val t) p = Ok v <-> exists x, rd (s_val s) p = Ok x /\ v = cv x).
  { intros p v. unfold t; simpl. rewrite rd_ok, nth_error_map. split.
    - destruct (nth_error (s_val s) p) as [[x|]|] eqn:Ep; simpl; try discriminate. intros [= <-].
      exists x. split; auto. now apply rd_ok.
    - intros (x & Ex & ->). apply rd_ok in Ex. now rewrite Ex. }
  split; [|split; [exact R|split; [exact C|split]]].
  - split; [exact W1|]. split; [unfold t; simpl; now rewrite map_length|]. split; [exact W3|]. split; [|split].
    + intros l Hl. destruct (W4 l Hl) as (b & e & E1 & E2 & E3). exists b, e. unfold t; simpl.
      rewrite map_length. auto.
    + intros l p Hp. destruct (W5 l p Hp) as (k & v & E1 & E2 & E3). exists k, (cv v).
      split; [exact E1|]. split; [|exact E3]. apply Hrd. eauto.
    + exact W6.
  - unfold t; simpl. now rewrite R, C.
  - intros i j Hi Hj v. split.
    + destruct (f i j) as [x|] eqn:Ef; [|discriminate]. intros [= <-]. apply H in Ef as (p & P1 & P2 & P3); auto.
      exists p. split; [exact P1|]. split; [exact P2|]. apply Hrd. eauto.
    + intros (p & P1 & P2 & P3). apply Hrd in P3 as (x & P3 & ->).
      assert (Ef : f i j = Some x) by (apply H; auto; now exists p). now rewrite Ef.
Qed.

(** ColMajor -> RowMajor conversion. *)
Lemma s_conv_to_row {T U} (cv : T -> U) (s : sparse T) r c f :
  sp_mat s r c f -> s_o s = ColMajor -> 1 <= r ->
  exists t, s_conv cv RowMajor s = Ok t /\ s_o t = RowMajor /\ sp_mat t r c (fun i j => option_map cv (f i j)).
Proof.
  intros HM HO Hr. destruct (s_transpose_spec s r c f HM HO Hr) as (t0 & E0 & O0 & M0 & _).
  pose proof HM as (_ & R & C & _).
  destruct (s_conv_same cv t0 c r (fun i j => f j i) M0) as (t1 & E1 & O1 & M1).
  unfold s_conv in *. rewrite HO. cbn [orient_eqb]. rewrite E0. cbn [bind].
  assert (E : orient_eqb (s_o t0) (s_o t0) = true) by (now destruct (s_o t0)). rewrite E in E1. cbn [bind] in E1.
  injection E1 as <-. eexists; split; [reflexivity|]. split; [reflexivity|].
  destruct M1 as ((W1 & W2 & W3 & W4 & W5 & W6) & R1 & C1 & F1 & H1).
  cbn [s_rows s_cols s_full s_o s_val s_key s_off] in *.
  unfold sp_mat, sp_wf, s_minor, s_major, in_line, stored, line_of, key_of in *.
  cbn [s_rows s_cols s_full s_o s_val s_key s_off] in *. rewrite O0, R1, C1 in *. rewrite R, C.
  split; [|split; [reflexivity|split; [reflexivity|split; [reflexivity|]]]].
  - split; [exact W1|]. split; [exact W2|]. split; [exact W3|]. split; [exact W4|]. split; [exact W5|exact W6].
  - intros i j Hi Hj v. apply (H1 j i); auto.
Qed.

