(** Exact characterisations, fifth part: differences and compound assignments of
    run-time typed and two-part matrices, for every combination of types. *)
From Verif Require Import Base BaseLemmas Dense_Model Dense_Spec Dense_Proofs Dense2_Proofs Sparse_Model Sparse_Spec
  Sparse_Proofs Mult_Model Mult_Spec Mult_Proofs Dyn_Model Dyn_Spec Dyn_Proofs Dyn2_Proofs Dense_Props Sparse_Props
  Mult_Props Dyn_Props.

(** What [A - B] holds for one-part operands: the difference, or, when A is a
    zero matrix or A is sparse and B dense, the difference with the operands exchanged. *)
Definition minus_val {D} `{Scalar D} (ta tb : lty) (x y : D) : D :=
  if minus_ok ta tb then ssub x y else ssub y x.

Lemma minus_leaf_spec {F D} (ar : arith F D) (SD : Scalar D) (X : exact ar) dbg a b r c ga gb :
  rep_leaf ar a r c ga -> rep_leaf ar b r c gb ->
  exists e, bin_leaf ar Minus dbg a b = Ok e /\ leaf_ty e = add_lty (leaf_ty a) (leaf_ty b) /\
    rep_leaf ar e r c (fun i j => minus_val (leaf_ty a) (leaf_ty b) (ga i j) (gb i j)).
Proof.
  intros Ha Hb. destruct (minus_ok (leaf_ty a) (leaf_ty b)) eqn:Ok.
  - destruct (bin_leaf_spec ar X Minus dbg a b r c ga gb Ha Hb Ok) as (e & E & T & R).
    exists e. split; [exact E|]. split; [exact T|]. eapply rep_leaf_ext; [exact R|].
    intros i j _ _. unfold minus_val. rewrite Ok. reflexivity.
  - assert (Ok' : minus_ok (leaf_ty b) (leaf_ty a) = true) by (destruct a, b; cbn in *; congruence).
    destruct (bin_leaf_spec ar X Minus dbg b a r c gb ga Hb Ha Ok') as (e & E & T & R).
    exists e. split; [|split].
    + rewrite <- E. destruct a, b; cbn in Ok; try discriminate; reflexivity.
    + rewrite T. destruct a as [| | | |], b as [| | | |]; cbn in *; try discriminate; reflexivity.
    + eapply rep_leaf_ext; [exact R|]. intros i j _ _. unfold minus_val. rewrite Ok. reflexivity.
Qed.

(** The value of [A - B] for all operands: one part or two, any types.  The type
    of a partial result decides whether the next subtraction is exchanged; the second
    part of a two-part B is added when A has two parts as well. *)
Theorem C23_difference_exact :
  forall (F D : Type) (ar : arith F D) (SD : Scalar D), exact ar -> forall dbg r c,
    (forall a b ga gb, rep_leaf ar a r c ga -> rep_leaf ar b r c gb ->
       exists e, sub_dyn ar dbg (DL a) (DL b) = Ok e /\
         rep_leaf ar e r c (fun i j => minus_val (leaf_ty a) (leaf_ty b) (ga i j) (gb i j))) /\
    (forall a t1 t2 b1 b2 ga g1 g2, rep_leaf ar a r c ga -> rep_leaf ar b1 r c g1 -> rep_leaf ar b2 r c g2 ->
       exists e, sub_dyn ar dbg (DL a) (DM t1 t2 (Some b1) (Some b2)) = Ok e /\
         rep_leaf ar e r c (fun i j =>
           minus_val (add_lty (leaf_ty a) (leaf_ty b1)) (leaf_ty b2)
             (minus_val (leaf_ty a) (leaf_ty b1) (ga i j) (g1 i j)) (g2 i j))) /\
    (forall t1 t2 a1 a2 b g1 g2 gb, rep_leaf ar a1 r c g1 -> rep_leaf ar a2 r c g2 -> rep_leaf ar b r c gb ->
       exists e, sub_dyn ar dbg (DM t1 t2 (Some a1) (Some a2)) (DL b) = Ok e /\
         rep_leaf ar e r c (fun i j =>
           minus_val (add_lty (leaf_ty a1) (leaf_ty a2)) (leaf_ty b) (sadd (g1 i j) (g2 i j)) (gb i j))) /\
    (forall t1 t2 a1 a2 u1 u2 b1 b2 g1 g2 h1 h2,
       rep_leaf ar a1 r c g1 -> rep_leaf ar a2 r c g2 -> rep_leaf ar b1 r c h1 -> rep_leaf ar b2 r c h2 ->
       exists e, sub_dyn ar dbg (DM t1 t2 (Some a1) (Some a2)) (DM u1 u2 (Some b1) (Some b2)) = Ok e /\
         rep_leaf ar e r c (fun i j =>
           sadd (minus_val (add_lty (leaf_ty a1) (leaf_ty a2)) (leaf_ty b1) (sadd (g1 i j) (g2 i j)) (h1 i j)) (h2 i j))).
Proof.
  intros F D ar SD X dbg r c. split; [|split; [|split]].
  - intros a b ga gb Ha Hb. cbn [sub_dyn].
    destruct (minus_leaf_spec ar SD X dbg a b r c ga gb Ha Hb) as (e & E & _ & R). eauto.
  - intros a t1 t2 b1 b2 ga g1 g2 Ha H1 H2. cbn [sub_dyn deref bind].
    destruct (minus_leaf_spec ar SD X dbg a b1 r c ga g1 Ha H1) as (s & E & T & R). rewrite E; cbn [bind].
    destruct (minus_leaf_spec ar SD X dbg s b2 r c _ g2 R H2) as (e & E2 & _ & R2). rewrite T in R2. eauto.
  - intros t1 t2 a1 a2 b g1 g2 gb H1 H2 Hb. cbn [sub_dyn deref bind].
    destruct (bin_leaf_spec ar X Plus dbg a1 a2 r c g1 g2 H1 H2 eq_refl) as (s & E & T & R). rewrite E; cbn [bind].
    destruct (minus_leaf_spec ar SD X dbg s b r c _ gb R Hb) as (e & E2 & _ & R2). rewrite T in R2. eauto.
  - intros t1 t2 a1 a2 u1 u2 b1 b2 g1 g2 h1 h2 H1 H2 H3 H4. cbn [sub_dyn deref bind].
    destruct (bin_leaf_spec ar X Plus dbg a1 a2 r c g1 g2 H1 H2 eq_refl) as (s & E & T & R). rewrite E; cbn [bind].
    destruct (minus_leaf_spec ar SD X dbg s b1 r c _ h1 R H3) as (e & E2 & T2 & R2). rewrite E2; cbn [bind].
    destruct (bin_leaf_spec ar X Plus dbg e b2 r c _ h2 R2 H4 eq_refl) as (f & E3 & _ & R3).
    rewrite T in R2, R3. eauto.
Qed.
Print Assumptions C23_difference_exact.

(** Subtracting a two-part matrix from itself gives twice its second part, if the
    first part is sparse and the second one dense or sparse (the listed types). *)
Theorem C23_self_difference_exact :
  forall (F D : Type) (ar : arith F D) (SD : Scalar D), exact ar -> forall dbg r c t1 t2 a1 a2 g1 g2,
    rep_leaf ar a1 r c g1 -> rep_leaf ar a2 r c g2 -> In (TM (leaf_ty a1) (leaf_ty a2)) type_list ->
    exists e, sub_dyn ar dbg (DM t1 t2 (Some a1) (Some a2)) (DM t1 t2 (Some a1) (Some a2)) = Ok e /\
      rep_leaf ar e r c (fun i j => sadd (g2 i j) (g2 i j)).
Proof.
  intros F D ar SD X dbg r c t1 t2 a1 a2 g1 g2 H1 H2 Hin.
  destruct (C23_difference_exact F D ar SD X dbg r c) as (_ & _ & _ & H).
  destruct (H t1 t2 a1 a2 t1 t2 a1 a2 g1 g2 g1 g2 H1 H2 H1 H2) as (e & E & R).
  exists e. split; [exact E|]. eapply rep_leaf_ext; [exact R|]. intros i j _ _. cbv beta. f_equal.
  assert (Ok : minus_ok (add_lty (leaf_ty a1) (leaf_ty a2)) (leaf_ty a1) = true).
  { cbn in Hin. intuition congruence || (destruct a1, a2; cbn in *; intuition congruence). }
  unfold minus_val. rewrite Ok. destruct X as [RL _ _ _ _ _ _ _ _ _ _ _ _ _ _].
  rewrite r_sub, (r_addC (g1 i j)), <- r_addA, r_oppr. rewrite r_addC. apply r_add0l.
Qed.
Print Assumptions C23_self_difference_exact.

(** Compound assignment to the two-part types of the type list: the first part is
    sparse, so += and -= throw unless the operand (its first part, if it has
    two) is a zero matrix. *)
Theorem C23_listed_two_part_compound :
  forall (F D : Type) (ar : arith F D) o dbg t1 t2 a1 a2,
    In (TM (leaf_ty a1) (leaf_ty a2)) type_list ->
    (forall b, leaf_ty b <> TZ -> asg_dyn ar o dbg (DM t1 t2 (Some a1) (Some a2)) (DL b) = Throw) /\
    (forall u1 u2 b1 b2, leaf_ty b1 <> TZ ->
       asg_dyn ar o dbg (DM t1 t2 (Some a1) (Some a2)) (DM u1 u2 (Some b1) (Some b2)) = Throw).
Proof.
  intros F D ar o dbg t1 t2 a1 a2 Hin.
  assert (H : forall b, leaf_ty b <> TZ -> asg_leaf ar o dbg a1 b = Throw).
  { intros b Hb. assert (Ha : leaf_ty a1 = TS ED) by (cbn in Hin; intuition congruence).
    destruct a1, b; cbn in *; congruence. }
  split.
  - intros b Hb. cbn [asg_dyn deref bind]. now rewrite (H b Hb).
  - intros u1 u2 b1 b2 Hb. cbn [asg_dyn deref bind]. now rewrite (H b1 Hb).
Qed.
Print Assumptions C23_listed_two_part_compound.

(** For two dense double parts the operand is applied to each part: the sum of
    the parts changes by twice the operand. *)
Theorem C23_two_part_compound_exact :
  forall (F D : Type) (ar : arith F D) (SD : Scalar D), exact ar -> forall o dbg t1 t2 d1 d2 b r c g1 g2 gb,
    rep_leaf ar (LDd d1) r c g1 -> rep_leaf ar (LDd d2) r c g2 -> rep_leaf ar b r c gb ->
    let ap x y := match o with Plus => sadd x y | Minus => ssub x y end in
    exists e1 e2, asg_dyn ar o dbg (DM t1 t2 (Some (LDd d1)) (Some (LDd d2))) (DL b)
        = Ok (DM t1 t2 (Some (LDd e1)) (Some (LDd e2))) /\
      rep_leaf ar (LDd e1) r c (fun i j => ap (g1 i j) (gb i j)) /\
      rep_leaf ar (LDd e2) r c (fun i j => ap (g2 i j) (gb i j)).
Proof.
  intros F D ar SD X o dbg t1 t2 d1 d2 b r c g1 g2 gb [O1 M1] [O2 M2] Hb ap.
  destruct (asg_dyn_LDd_spec ar X o dbg d1 (DL b) r c g1 gb O1 M1 Hb) as (e1 & E1 & P1 & N1).
  destruct (asg_dyn_LDd_spec ar X o dbg d2 (DL b) r c g2 gb O2 M2 Hb) as (e2 & E2 & P2 & N2).
  exists e1, e2. cbn [asg_dyn deref bind] in *. unfold rmap in E1, E2.
  apply bind_ok in E1 as (x & E1 & F1). apply bind_ok in E2 as (y & E2 & F2).
  injection F1 as ->. injection F2 as ->. rewrite E1; cbn [bind]. rewrite E2; cbn [bind].
  split; [reflexivity|]. split; (split; [assumption|]); [destruct o; exact N1|destruct o; exact N2].
Qed.
Print Assumptions C23_two_part_compound_exact.

Example C23_exact_nonvacuous : exact zar /\
  rep_leaf zar (LSd demoS) 2 3 (fun i j => dflt 0%Z (demoS_f i j)) /\ rep_leaf zar (LDf demoC) 2 3 demoC_f /\
  rep_leaf zar (LDd demoC) 2 3 demoC_f /\
  In (TM (leaf_ty (LSd demoS : leaf Z Z)) (leaf_ty (LDf demoC : leaf Z Z))) type_list /\
  minus_ok (leaf_ty (LSd demoS : leaf Z Z)) (leaf_ty (LDf demoC : leaf Z Z)) = false.
Proof.
  split; [exact zar_exact|]. split; [|split; [|split; [|split]]].
  - split; [reflexivity|]. exists demoS_f. split; [exact demoS_mat|]. reflexivity.
  - split; [reflexivity|]. exists demoC_f. split; [exact demoC_mat|]. reflexivity.
  - split; [reflexivity|exact demoC_mat].
  - cbn. tauto.
  - reflexivity.
Qed.
