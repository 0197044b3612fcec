(** C31, C23, C30: what the operators and member functions of run-time typed
    matrices return, for the cases not covered in Dyn_Props.v. *)
From Verif Require Import Base BaseLemmas Dense_Model Dense_Spec Dense_Proofs Dense2_Proofs Sparse_Model Sparse_Spec
  Sparse_Proofs Sparse2_Proofs Sparse3_Proofs Sparse4_Proofs SparseP_Proofs Mult_Model Mult_Spec Mult_Proofs Dyn_Model Dyn_Spec Dyn_Proofs Dyn2_Proofs Block_Proofs Dense_Props Sparse_Props
  Mult_Props Dyn_Props Exact5_Props.

(** ** C31: operator - and the compound operators through the table *)
Theorem C31_differences_listed :
  forall (F D : Type) (ar : arith F D) (SD : Scalar D), exact ar -> forall ready dbg (a b : dyn F D) r c ga gb,
    (forall t, In t type_list -> ready t = true) -> In (dyn_ty a) type_list -> In (dyn_ty b) type_list ->
    rep ar a r c ga -> rep ar b r c gb -> sub_ok (dyn_ty a) (dyn_ty b) = true ->
    exists e, sub_ptr ar ready dbg (Some a) (Some b) = Ok (Some e) /\
      dyn_ty e = TL (add_mty (dyn_ty a) (dyn_ty b)) /\ In (dyn_ty e) type_list /\
      rep ar e r c (fun i j => ssub (ga i j) (gb i j)).
Proof.
  intros F D ar SD X ready dbg a b r c ga gb Hr Ta Tb Ha Hb Hok.
  unfold sub_ptr. rewrite exec_dyn_2dim_ok, Hr by auto.
  destruct (sub_dyn_spec ar X dbg a b r c ga gb Ha Hb Hok) as (e & E & T & R). rewrite E. cbn [bind].
  exists (DL e). split; [reflexivity|]. cbn [dyn_ty]. rewrite T. split; [reflexivity|]. split; [apply lty_in|exact R].
Qed.
Print Assumptions C31_differences_listed.

Theorem C31_compounds_listed :
  forall (F D : Type) (ar : arith F D) (SD : Scalar D), exact ar -> forall ready dbg (d : dense D) (b : dyn F D) r c g gb,
    (forall t, In t type_list -> ready t = true) -> In (dyn_ty b) type_list ->
    d_orient d = ColMajor -> is_mat d r c g -> rep ar b r c gb ->
    (exists e, asg_ptr ar ready Plus dbg (Some (DL (LDd d))) (Some b) = Ok (Some (DL (LDd e))) /\
       is_mat e r c (fun i j => sadd (g i j) (gb i j))) /\
    (exists e, asg_ptr ar ready Minus dbg (Some (DL (LDd d))) (Some b) = Ok (Some (DL (LDd e))) /\
       is_mat e r c (fun i j => ssub (g i j) (gb i j))).
Proof.
  intros F D ar SD X ready dbg d b r c g gb Hr Tb O M Hb.
  assert (Ta : In (dyn_ty (DL (LDd d) : dyn F D)) type_list) by (cbn; tauto).
  destruct (C23_dense_compound F D ar SD X dbg d b r c g gb O M Hb) as ((e1 & E1 & M1) & (e2 & E2 & M2)).
  unfold asg_ptr. rewrite !exec_dyn_2dim_ok, !Hr by auto. rewrite E1, E2. cbn [bind]. eauto 10.
Qed.
Print Assumptions C31_compounds_listed.

(** ** C31: member functions *)
(** getSize() of a part agrees with its dimensions (sparse parts: always). *)
Definition size_ok {F D} (l : leaf F D) : Prop :=
  match l with
  | LZ z => z_full z = z_rows z * z_cols z
  | LDf d => full_ok d | LDd d => full_ok d
  | LSf _ | LSd _ => True
  end.
(** The part whose members are asked: the matrix itself, or the first part. *)
Definition front {F D} (d : dyn F D) : option (leaf F D) := match d with DL l => Some l | DM _ _ m1 _ => m1 end.

Theorem C31_member_values :
  forall (F D : Type) (ar : arith F D) exc dbg (a : dyn F D) r c g,
    In (dyn_ty a) type_list -> rep ar a r c g ->
    dyn_rows exc dbg (Some a) = Ok r /\ dyn_cols exc dbg (Some a) = Ok c /\
    (forall l, front a = Some l -> size_ok l -> dyn_size exc dbg (Some a) = Ok (r * c)).
Proof.
  intros F D ar exc dbg a r c g Ta Ha.
  assert (HL : forall l g, rep_leaf ar l r c g -> l_rows l = r /\ l_cols l = c /\ (size_ok l -> l_size l = r * c)).
  { intros l gl Hl. destruct (rep_leaf_dims ar l r c gl Hl) as [Hr Hc]. split; [exact Hr|]. split; [exact Hc|].
    destruct l; cbn in *; unfold full_ok, d_getSize; rewrite <- ?Hr, <- ?Hc; auto.
    - destruct Hl as (_ & f & (_ & Er & Ec & H & _) & _). rewrite H. congruence.
    - destruct Hl as (_ & f & (_ & Er & Ec & H & _) & _). rewrite H. congruence. }
  unfold dyn_rows, dyn_cols, dyn_size. rewrite !exec_member_ok by auto.
  destruct a as [l|t1 t2 [a1|] [a2|]]; cbn [rep] in Ha; try contradiction.
  - destruct (HL l g Ha) as (Hr & Hc & Hs). cbn. split; [now f_equal|]. split; [now f_equal|].
    intros l' [= <-] H. f_equal. auto.
  - destruct Ha as (_ & _ & g1 & g2 & H1 & _). destruct (HL a1 g1 H1) as (Hr & Hc & Hs). cbn.
    split; [now f_equal|]. split; [now f_equal|]. intros l' [= <-] H. f_equal. auto.
Qed.
Print Assumptions C31_member_values.

Example C31_member_values_nonvacuous : In (dyn_ty (two demoS demoC)) type_list /\
  rep zar (two demoS demoC) 2 3 demo_sum /\ front (two demoS demoC) = Some (LSd demoS) /\ size_ok (LSd demoS : leaf Z Z) /\
  dyn_size true true (Some (two demoS demoC)) = Ok 6 /\
  sub_ok (TL (TD ED)) (dyn_ty (two demoS demoC)) = true.
Proof.
  split; [cbn; tauto|]. split; [exact two_rep|]. split; [reflexivity|]. split; [exact I|].
  split; [vm_compute; reflexivity|reflexivity].
Qed.

(** ** C23: Dense<float> op= anything *)
(** The new element: computed in float for a float operand; in double and then
    converted to float for a double operand; elements that are not stored leave
    the old one alone. *)
Definition float_asg {F D} (ar : arith F D) (o : pm) (x : F) (y : option (F + D)) : F :=
  match y with
  | None => x
  | Some (inl y) => match o with Plus => addF ar x y | Minus => subF ar x y end
  | Some (inr y) => toF ar (match o with Plus => addD ar (toD ar x) y | Minus => subD ar (toD ar x) y end)
  end.
(** The elements of a one-part matrix in their own precision. *)
Definition elements {F D} (l : leaf F D) (r c : nat) (h : nat -> nat -> option (F + D)) : Prop :=
  match l with
  | LZ z => z_rows z = r /\ z_cols z = c /\ forall i j, i < r -> j < c -> h i j = None
  | LSf s => s_o s = ColMajor /\ exists f, sp_mat s r c f /\ forall i j, i < r -> j < c -> h i j = option_map inl (f i j)
  | LSd s => s_o s = ColMajor /\ exists f, sp_mat s r c f /\ forall i j, i < r -> j < c -> h i j = option_map inr (f i j)
  | LDf d => d_orient d = ColMajor /\ exists f, is_mat d r c f /\ forall i j, i < r -> j < c -> h i j = Some (inl (f i j))
  | LDd d => d_orient d = ColMajor /\ exists f, is_mat d r c f /\ forall i j, i < r -> j < c -> h i j = Some (inr (f i j))
  end.

Theorem C23_float_compound :
  forall (F D : Type) (ar : arith F D) o dbg (d : dense F) (b : leaf F D) r c g h,
    d_orient d = ColMajor -> is_mat d r c g -> elements b r c h ->
    exists e, asg_dyn ar o dbg (DL (LDf d)) (DL b) = Ok (DL (LDf e)) /\ d_orient e = ColMajor /\
      is_mat e r c (fun i j => float_asg ar o (g i j) (h i j)).
Proof.
  intros F D ar o dbg d b r c g h O M Hb. pose proof M as [W V]. pose proof V as (R & C & _). cbn [asg_dyn].
  destruct b as [zb|sb|sb|db|db]; cbn [elements asg_leaf] in *.
  - destruct Hb as (Rb & Cb & H). exists d. unfold mz_assign_op, cassert, rmap. cbn [l_rows l_cols].
    rewrite R, C, Rb, Cb, !Nat.eqb_refl, !andb_false_r. cbn [bind]. split; [reflexivity|]. split; [exact O|].
    eapply is_mat_ext; [exact M|]. intros i j Hi Hj. now rewrite H by auto.
  - destruct Hb as (Ob & f & Mb & H).
    destruct (ds_assign_spec (binF ar o) dbg d sb r c g f V (wf_sh_ok d W) Mb Ob) as (m & E & L & Hc & _).
    exists (with_buf d m). unfold rmap. rewrite E. split; [reflexivity|]. split; [exact O|]. eapply mat_lift; [exact M|exact L|].
    intros i j Hi Hj. rewrite Hc, H by auto. destruct (f i j), o; reflexivity.
  - destruct Hb as (Ob & f & Mb & H).
    destruct (ds_assign_spec (binF_d ar o) dbg d sb r c g f V (wf_sh_ok d W) Mb Ob) as (m & E & L & Hc & _).
    exists (with_buf d m). unfold rmap. rewrite E. split; [reflexivity|]. split; [exact O|]. eapply mat_lift; [exact M|exact L|].
    intros i j Hi Hj. rewrite Hc, H by auto. destruct (f i j), o; reflexivity.
  - destruct Hb as (Ob & f & Mb & H).
    destruct (d_assign_spec (binF ar o) d db r c g f V (wf_sh_ok d W) (or_introl W) (proj2 Mb) (or_introl (proj1 Mb))) as (m & E & L & Hc & _); [congruence|].
    exists (with_buf d m). unfold rmap. rewrite E. split; [reflexivity|]. split; [exact O|]. eapply mat_lift; [exact M|exact L|].
    intros i j Hi Hj. rewrite Hc, H by auto. destruct o; reflexivity.
  - destruct Hb as (Ob & f & Mb & H).
    destruct (d_assign_spec (binF_d ar o) d db r c g f V (wf_sh_ok d W) (or_introl W) (proj2 Mb) (or_introl (proj1 Mb))) as (m & E & L & Hc & _); [congruence|].
    exists (with_buf d m). unfold rmap. rewrite E. split; [reflexivity|]. split; [exact O|]. eapply mat_lift; [exact M|exact L|].
    intros i j Hi Hj. rewrite Hc, H by auto. destruct o; reflexivity.
Qed.
Print Assumptions C23_float_compound.

(** 1 - 7 computed in double is -6; converted to "float" (see [zar]) it is -10. *)
Example C23_float_compound_nonvacuous : is_mat demoC 2 3 demoC_f /\ d_orient demoC = ColMajor /\
  elements (LDd demoC : leaf Z Z) 2 3 (fun i j => Some (inr (demoC_f i j))) /\
  elements (LSd demoS : leaf Z Z) 2 3 (fun i j => option_map inr (demoS_f i j)) /\
  float_asg zar Minus 1%Z (Some (inr 7%Z)) = (-10)%Z.
Proof.
  split; [exact demoC_mat|]. split; [reflexivity|]. split; [|split].
  - split; [reflexivity|]. exists demoC_f. split; [exact demoC_mat|]. reflexivity.
  - split; [reflexivity|]. exists demoS_f. split; [exact demoS_mat|]. reflexivity.
  - reflexivity.
Qed.

(** ** C63: resizing a blocked matrix keeps the sequence of blocks if their number
    does not change and otherwise leaves null pointers only; the unblocked
    dimensions are the given ones. *)
Theorem C63_resize_exact :
  forall (F D : Type) (b : blocked F D) r c ur uc,
    let b' := blk_resize b r c ur uc in
    d_rows (b_mat b') = r /\ d_cols (b_mat b') = c /\ b_ubr b' = ur /\ b_ubc b' = uc /\
    (length (d_buf (b_mat b)) = r * c -> d_buf (b_mat b') = d_buf (b_mat b)) /\
    (length (d_buf (b_mat b)) <> r * c -> length (d_buf (b_mat b')) = r * c /\
       forall k, k < r * c -> nth_error (d_buf (b_mat b')) k = Some (Some None)).
Proof.
  intros F D b r c ur uc. unfold blk_resize. cbn.
  repeat (split; [reflexivity|]). split; intros H.
  - now rewrite H, Nat.eqb_refl.
  - destruct (Nat.eqb_spec (length (d_buf (b_mat b))) (r * c)); [contradiction|]. unfold palloc.
    split; [apply repeat_length|]. intros k Hk. now apply nth_error_repeat.
Qed.
Print Assumptions C63_resize_exact.
