(** C74, continued: what [A op= M] does when [A] itself is a part of [M]. *)
From Verif Require Import Base BaseLemmas Dense_Model Dense_Spec Dense_Proofs Dense2_Proofs Sparse_Model Sparse_Spec
  Sparse_Proofs Sparse2_Proofs Sparse3_Proofs Sparse4_Proofs SparseP_Proofs Mult_Model Mult_Spec Dyn_Model Dyn_Spec Dyn_Proofs
  PObj_Model PObj_Spec PObj_Proofs PObj2_Proofs PObj3_Proofs PObj4_Proofs PObj5_Proofs
  Dense_Props Sparse_Props Mult_Props Dyn_Props PObj_Props Exact6_Props.

Section Own.
Context {F D : Type} (ar : arith F D).

Lemma asg_heap_add dbg (h : heap F D) a b x vy : wf_heap h -> nth_error h a = Some (HL x) -> dense_leaf x = true ->
  load h (Some b) = Ok (Some vy) -> (a = b -> windowless (Some (DL x)) = true) ->
  let '(h1, q) := asg_heap ar Plus dbg h a b in
  rrel (fun (_ : unit) d => exists x', d = DL x' /\ leaf_ty x' = leaf_ty x /\ h1 = upd h a (HL x')) q (asg_dyn ar Plus dbg (DL x) vy) /\
  (q = Throw -> h1 = h).
Proof.
  intros W Ea Hx Lb Hw.
  unfold asg_heap. rewrite Ea. apply load_inv in Lb as [(y & Eb & E)|(t1 & t2 & p1 & p2 & m1 & m2 & Eb & E1 & E2 & E)].
  - injection E as ->. rewrite Eb, (asg_obj_eq ar Plus dbg h a b x y) by auto. cbn [asg_dyn].
    pose proof (fun z => asg_leaf_ty ar Plus dbg x y z) as T.
    destruct (asg_leaf ar Plus dbg x y) as [z| | | |]; cbn; (split; [auto|intros; auto; discriminate]). eauto.
  - injection E as ->. rewrite Eb. cbn [asg_dyn].
    destruct m1 as [y1|]; [apply part_inv in E1 as (b1 & -> & E1)|apply part_none in E1 as ->; cbn; split; [auto|discriminate]].
    destruct m2 as [y2|]; [apply part_inv in E2 as (b2 & -> & E2)|apply part_none in E2 as ->; cbn; split; [auto|discriminate]].
    cbn [deref bind]. rewrite E1, E2.
    destruct (bin_leaf ar Plus dbg y1 y2) as [s| | | |]; cbn [bind]; try (cbn; split; [auto|now auto]).
    unfold asg_tmp. rewrite Ea.
    pose proof (fun z => asg_leaf_ty ar Plus dbg x s z) as T.
    destruct (asg_leaf ar Plus dbg x s) as [z| | | |]; cbn; (split; [auto|intros; auto; discriminate]). eauto.
Qed.

Context (ready : mty -> bool) (p : policy) (exc dbg : bool).

(** [a += b] gives what the specification by values gives also if [a] is a part of
    [b]: the parts are added into a temporary first. *)
Theorem C74_add_value m a b x y vx vy : reachable ar ready p exc dbg m ->
  nth_error (p_var m) a = Some x -> nth_error (p_var m) b = Some y -> load (p_heap m) x = Ok vx -> load (p_heap m) y = Ok vy ->
  (x = y -> windowless vx = true) ->
  match asg_ptr ar ready Plus dbg vx vy with
  | Ok z => exists m', pstep ar ready p exc dbg m (PAsg Plus a b) = Ok (m', PNone) /\ load (p_heap m') x = Ok z
  | Throw => pstep ar ready p exc dbg m (PAsg Plus a b) = Ok (m, PThrew)
  | AssertFail => pstep ar ready p exc dbg m (PAsg Plus a b) = AssertFail
  | UB u => pstep ar ready p exc dbg m (PAsg Plus a b) = UB u
  | Diverge => pstep ar ready p exc dbg m (PAsg Plus a b) = Diverge
  end.
Proof.
  intros R Ea Eb Lx Ly Hw. apply reach_inv in R as [s S].
  unfold asg_ptr. rewrite (exec_split ready (fun a b => do c <- asg_dyn ar Plus dbg a b; Ok (Some c))).
  cbn [pstep]. unfold var_of. rewrite Ea, Eb. cbn [bind]. unfold asg_dispatch. rewrite Lx, Ly. cbn [bind].
  destruct (exec_dyn_2dim ready (fun _ _ => Ok tt) vx vy) as [[]| | | |] eqn:Ex; cbn [bind catch]; auto; [|destruct m; reflexivity].
  destruct vx as [vx|]; [|cbn in Ex; discriminate]. destruct vy as [vy|]; [|cbn in Ex; discriminate].
  destruct x as [c|]; [|cbn in Lx; discriminate]. destruct y as [e|]; [|cbn in Ly; discriminate].
  destruct (in_place (Some vx)) eqn:Hi.
  - destruct vx as [l|]; [|discriminate].
    assert (Ec : nth_error (p_heap m) c = Some (HL l)) by (apply load_inv in Lx as [(l' & Ec & El)|(t1 & t2 & p1 & p2 & m1 & m2 & _ & _ & _ & El)]; congruence).
    pose proof (asg_heap_add dbg (p_heap m) c e l vy (sim_wf _ _ S) Ec) as AD.
    destruct (asg_heap ar Plus dbg (p_heap m) c e) as [h1 q].
    assert (K1 : dense_leaf l = true) by (destruct l; auto; discriminate).
    assert (K2 : c = e -> windowless (Some (DL l)) = true) by (intros ->; auto).
    specialize (AD K1 Ly K2). destruct AD as [AR AT].
    destruct (asg_dyn ar Plus dbg (DL l) vy) as [d| | | |], q as [[]| | | |]; cbn in AR |- *; try contradiction; try congruence.
    + destruct AR as (x' & -> & T & ->). eexists. split; [reflexivity|]. cbn. rewrite nth_error_upd_eq; auto. apply nth_error_Some. congruence.
    + rewrite AT by auto. destruct m; reflexivity.
  - assert (T1 := exec_listed ready _ _ _ _ Ex). assert (T2 := exec_listed2 ready _ _ _ _ Ex).
    destruct (asg_heap_const ar Plus dbg (p_heap m) c e vx vy (sim_wf _ _ S) Lx Ly Hi T1 T2) as (q & -> & AR).
    destruct (asg_dyn ar Plus dbg vx vy) as [d| | | |], q as [[]| | | |]; cbn [rrel bind catch] in *; try contradiction; try congruence.
    + subst d. eexists. split; [reflexivity|]. exact Lx.
    + destruct m; reflexivity.
Qed.

(** [a -= M] for M = S + A with [a] being A: the result is y - y where y is the
    element of A after S has been subtracted (S in double, rounded to float), in
    every element, whatever S and A hold. *)
Theorem C74_minus_own_part_exact m a b c e s (d : dense F) (sb : sparse D) r k f g :
  ready (TL (TD EF)) = true ->
  nth_error (p_var m) a = Some (Some c) -> nth_error (p_heap m) c = Some (HL (LDf d)) ->
  nth_error (p_var m) b = Some (Some e) -> nth_error (p_heap m) e = Some (HM (TS ED) (TD EF) (Some s) (Some c)) ->
  nth_error (p_heap m) s = Some (HL (LSd sb)) ->
  is_mat d r k f -> sp_mat sb r k g -> s_o sb = ColMajor ->
  exists m' d', pstep ar ready p exc dbg m (PAsg Minus a b) = Ok (m', PNone) /\
    p_heap m' = upd (p_heap m) c (HL (LDf d')) /\ p_var m' = p_var m /\ p_blk m' = p_blk m /\
    is_mat d' r k (fun i j =>
      let y := float_asg ar Minus (f i j) (option_map inr (g i j)) in subF ar y y).
Proof.
  intros Hr Ea Ec Eb Ee Es M Ms Os. pose proof M as [W V]. pose proof V as (Rr & Rc & _).
  destruct (ds_assign_spec (binF_d ar Minus) dbg d sb r k f g V (wf_sh_ok d W) Ms Os) as (m1 & E1 & L1 & H1 & _).
  assert (M1 : is_mat (with_buf d m1) r k (fun i j => float_asg ar Minus (f i j) (option_map inr (g i j)))).
  { eapply mat_lift; [exact M|exact L1|]. intros i j Hi Hj. rewrite H1 by auto. destruct (g i j); reflexivity. }
  destruct (C19_dense_compound_self F (binF ar Minus) (with_buf d m1) r k _ M1) as (m2 & E2 & M2).
  assert (Hsc : s <> c) by (intros ->; congruence).
  assert (Lc : c < length (p_heap m)) by (apply nth_error_Some; congruence).
  cbn [pstep]. unfold var_of. rewrite Ea, Eb. cbn [bind]. unfold asg_dispatch.
  unfold load at 1. rewrite Ec. cbn [bind]. unfold load at 1. rewrite Ee. cbn [part]. rewrite Es. cbn [bind]. rewrite Ec. cbn [bind].
  assert (Ed : exec_dyn_2dim ready (fun _ _ => Ok tt) (Some (DL (LDf d))) (Some (DM (TS ED) (TD EF) (Some (LSd sb)) (Some (LDf d)))) = Ok tt).
  { unfold exec_dyn_2dim. cbn -[mty_eqb]. rewrite Hr. reflexivity. }
  rewrite Ed. unfold asg_heap. rewrite Ec, Ee. unfold asg_obj. rewrite Ec, Es, (proj2 (Nat.eqb_neq c s)) by auto.
  cbn [asg_leaf]. rewrite E1. cbn [rmap bind set_leaf next].
  rewrite nth_error_upd_eq by auto. rewrite Nat.eqb_refl. cbn [asg_self]. rewrite E2. cbn [bind set_leaf catch].
  do 2 eexists. split; [reflexivity|]. cbn [p_heap p_var p_blk]. split; [|split; [reflexivity|split; [reflexivity|]]].
  - apply nth_error_ext. intros i. destruct (Nat.eq_dec i c) as [->|Hn].
    + rewrite !nth_error_upd_eq; auto. now rewrite upd_length.
    + now rewrite !nth_error_upd_ne by auto.
  - eapply is_mat_ext; [exact M2|]. intros i j _ _. reflexivity.
Qed.
End Own.
Print Assumptions C74_add_value.
Print Assumptions C74_minus_own_part_exact.

(** The hypotheses are met: M = S + A of two 2x3 matrices, [A -= M] and [A += M]. *)
Example C74_own_part_nonvacuous : exists m outs,
  prun zar all_ready PNative true true pst0 [PLeaf (LSd demoS); PLeaf (LDf demoC); PPair (TS ED) (TD EF) 0 1] = Ok (m, outs) /\
  nth_error (p_var m) 1 = Some (Some 1) /\ nth_error (p_heap m) 1 = Some (HL (LDf demoC)) /\
  nth_error (p_var m) 2 = Some (Some 2) /\ nth_error (p_heap m) 2 = Some (HM (TS ED) (TD EF) (Some 0) (Some 1)) /\
  nth_error (p_heap m) 0 = Some (HL (LSd demoS)) /\ is_mat demoC 2 3 demoC_f /\ sp_mat demoS 2 3 demoS_f /\ s_o demoS = ColMajor /\
  (exists z, asg_ptr zar all_ready Plus true (Some (DL (LDf demoC))) (Some (DM (TS ED) (TD EF) (Some (LSd demoS)) (Some (LDf demoC)))) = Ok (Some (DL (LDf z)))).
Proof.
  do 2 eexists. split; [vm_compute; reflexivity|]. do 5 (split; [reflexivity|]).
  split; [apply demoC_mat|]. split; [apply demoS_mat|]. split; [reflexivity|]. eexists. vm_compute. reflexivity.
Qed.
