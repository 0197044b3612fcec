(** C23, C30-C34, C53: two-part matrices, run-time dispatch, blocked matrices and
    the converter.  Vocabulary: Dyn_Spec.v ([exact], [rep], [rep_blocked], [fits])
    and Conv_Spec.v. *)
From Verif Require Import Base BaseLemmas Dense_Model Dense_Spec Dense_Proofs Dense2_Proofs Sparse_Model Sparse_Spec
  Sparse_Proofs Sparse2_Proofs Sparse3_Proofs Sparse4_Proofs SparseT_Proofs SparseP_Proofs
  Mult_Model Mult_Spec Mult_Proofs Mult2_Proofs Mult3_Proofs Dyn_Model Dyn_Spec Dyn_Proofs Dyn2_Proofs Block_Proofs
  Conv_Spec Conv_Proofs Dense_Props Sparse_Props Mult_Props.

(** A concrete arithmetic: "double" is Z, "float" keeps numbers up to 4 and
    rounds larger ones down to a multiple of 10; fractions are counted in
    thousandths, rounded up. *)
Definition zar : arith Z Z := {|
  f0 := 0%Z; d0 := 0%Z; fnz := fun x => negb (Z.eqb x 0); dnz := fun x => negb (Z.eqb x 0);
  toD := fun x => x; toF := fun x => if (Z.abs x <=? 4)%Z then x else (10 * (x / 10))%Z;
  addF := Z.add; subF := Z.sub; oppF := Z.opp; addD := Z.add; subD := Z.sub; oppD := Z.opp;
  fmaF := fun c x y => (c + x * y)%Z; fmaD := fun c x y => (c + x * y)%Z;
  dotF := demo_dot; dotD := demo_dot;
  absD := Z.abs; ltD := Z.ltb; leD := Z.leb;
  quotD := fun n m => ((Z.of_nat n * 1000 + Z.of_nat m - 1) / Z.of_nat m)%Z
|}.
Lemma zar_exact : exact zar.
Proof. constructor; try reflexivity. exact Z_RingLaws. Qed.

(** ** C23 *)
Theorem C23_two_part_product :
  forall (F D : Type) (ar : arith F D) (SD : Scalar D), exact ar -> forall p dbg (a b : dyn F D) m n l ga gb,
    rep ar a m n ga -> rep ar b n l gb -> fits p m n l -> float_exact ar p ->
    exists c, mul_dyn ar p dbg a b = Ok c /\ rep_leaf ar c m l (mat_prod n ga gb).
Proof.
  intros F D ar SD X p dbg a b m n l ga gb Ha Hb Hf He.
  destruct (mul_dyn_spec ar X p dbg a b m n l ga gb Ha Hb Hf He) as (c & E & _ & R). eauto.
Qed.
Print Assumptions C23_two_part_product.

Theorem C23_two_part_sum :
  forall (F D : Type) (ar : arith F D) (SD : Scalar D), exact ar -> forall dbg (a b : dyn F D) r c ga gb,
    rep ar a r c ga -> rep ar b r c gb ->
    exists e, add_dyn ar dbg a b = Ok e /\ rep_leaf ar e r c (fun i j => sadd (ga i j) (gb i j)).
Proof.
  intros F D ar SD X dbg a b r c ga gb Ha Hb.
  destruct (add_dyn_spec ar X dbg a b r c ga gb Ha Hb) as (e & E & _ & R). eauto.
Qed.
Print Assumptions C23_two_part_sum.

Theorem C23_two_part_difference :
  forall (F D : Type) (ar : arith F D) (SD : Scalar D), exact ar -> forall dbg (a b : dyn F D) r c ga gb,
    rep ar a r c ga -> rep ar b r c gb -> sub_ok (dyn_ty a) (dyn_ty b) = true ->
    exists e, sub_dyn ar dbg a b = Ok e /\ rep_leaf ar e r c (fun i j => ssub (ga i j) (gb i j)).
Proof.
  intros F D ar SD X dbg a b r c ga gb Ha Hb Hok.
  destruct (sub_dyn_spec ar X dbg a b r c ga gb Ha Hb Hok) as (e & E & _ & R). eauto.
Qed.
Print Assumptions C23_two_part_difference.

(** Dense double matrix += / -= anything. *)
Theorem C23_dense_compound :
  forall (F D : Type) (ar : arith F D) (SD : Scalar D), exact ar -> forall dbg (d : dense D) (b : dyn F D) r c g gb,
    d_orient d = ColMajor -> is_mat d r c g -> rep ar b r c gb ->
    (exists e, asg_dyn ar Plus dbg (DL (LDd d)) b = Ok (DL (LDd e)) /\ is_mat e r c (fun i j => sadd (g i j) (gb i j))) /\
    (exists e, asg_dyn ar Minus dbg (DL (LDd d)) b = Ok (DL (LDd e)) /\ is_mat e r c (fun i j => ssub (g i j) (gb i j))).
Proof.
  intros F D ar SD X dbg d b r c g gb O M Hb. split.
  - destruct (asg_dyn_LDd_spec ar X Plus dbg d b r c g gb O M Hb) as (e & E & _ & R). eauto.
  - destruct (asg_dyn_LDd_spec ar X Minus dbg d b r c g gb O M Hb) as (e & E & _ & R). eauto.
Qed.
Print Assumptions C23_dense_compound.

(** A sparse or zero matrix is never changed silently: += and -= with anything but
    a zero matrix throw, and with a zero matrix of the same dimensions change nothing. *)
Theorem C23_sparse_or_zero_compound :
  forall (F D : Type) (ar : arith F D) o dbg (a b : leaf F D),
    (match a with LDf _ | LDd _ => False | _ => True end) ->
    ((match b with LZ _ => False | _ => True end) -> asg_dyn ar o dbg (DL a) (DL b) = Throw) /\
    (forall z, b = LZ z -> l_rows a = z_rows z -> l_cols a = z_cols z -> asg_dyn ar o dbg (DL a) (DL b) = Ok (DL a)) /\
    (forall z, b = LZ z -> ~ (l_rows a = z_rows z /\ l_cols a = z_cols z) -> asg_dyn ar o true (DL a) (DL b) = AssertFail).
Proof.
  intros F D ar o dbg a b Ha. split; [|split].
  - destruct a, b; intros []; reflexivity || contradiction.
  - intros z -> Hr Hc. destruct a; try contradiction; cbn in *; unfold mz_assign_op, cassert; cbn;
      rewrite Hr, Hc, !Nat.eqb_refl; simpl; rewrite !andb_false_r; reflexivity.
  - intros z -> Hn. destruct a; try contradiction; cbn in *; unfold mz_assign_op, cassert; cbn;
      match goal with |- context [?x =? ?y] => destruct (Nat.eqb_spec x y) end; simpl; auto;
      match goal with |- context [?x =? ?y] => destruct (Nat.eqb_spec x y) end; simpl; auto; tauto.
Qed.
Print Assumptions C23_sparse_or_zero_compound.

(** The conversion of a two-part matrix to a dense one needs only x + 0 = x. *)
Theorem C23_to_dense :
  forall (F D : Type) (ar : arith F D), (forall x, addD ar x (d0 ar) = x) -> forall dbg (d : dyn F D) r c g,
    rep ar d r c g -> exists e, dense_of_dyn ar dbg d = Ok e /\ is_mat e r c g /\ d_orient e = ColMajor.
Proof.
  intros F D ar H0 dbg d r c g H. destruct (dense_of_dyn_spec ar dbg d r c g H (law0_all ar d H0)) as (e & E & M & O & _). eauto.
Qed.
Print Assumptions C23_to_dense.

(** Parts of different dimensions are refused. *)
Theorem C23_dimension_check :
  forall (F D : Type) t1 t2 (a b : leaf F D), ~ (l_rows a = l_rows b /\ l_cols a = l_cols b) ->
    forall dbg, mm_new true dbg t1 t2 (Some a) (Some b) = Throw /\ mm_new false true t1 t2 (Some a) (Some b) = AssertFail.
Proof.
  intros F D t1 t2 a b H dbg. unfold mm_new, core_failure, cassert.
  destruct (Nat.eqb_spec (l_rows a) (l_rows b)), (Nat.eqb_spec (l_cols a) (l_cols b)); cbn; auto; tauto.
Qed.

Definition two (s : sparse Z) (d : dense Z) : dyn Z Z := DM (TS ED) (TD EF) (Some (LSd s)) (Some (LDf d)).
Definition demo_sum (i j : nat) : Z := (dflt 0 (demoS_f i j) + demoC_f i j)%Z.
Lemma two_rep : rep zar (two demoS demoC) 2 3 demo_sum.
Proof.
  split; [reflexivity|]. split; [reflexivity|]. exists (fun i j => dflt 0%Z (demoS_f i j)), demoC_f. split; [|split].
  - split; [reflexivity|]. exists demoS_f. split; [exact demoS_mat|]. reflexivity.
  - split; [reflexivity|]. exists demoC_f. split; [exact demoC_mat|]. reflexivity.
  - reflexivity.
Qed.
Example C23_nonvacuous : exact zar /\ rep zar (two demoS demoC) 2 3 demo_sum /\ rep zar (DL (LDd demoB)) 3 2 demoB_f /\
  fits PNative 2 3 2 /\ float_exact zar PNative /\ sub_ok (dyn_ty (two demoS demoC)) (dyn_ty (DL (LDd demoC) : dyn Z Z)) = true /\
  exists c, mul_dyn zar PNative true (two demoS demoC) (DL (LDd demoB)) = Ok (LDd c) /\ dget true c 0 0 = Ok 12%Z.
Proof.
  split; [exact zar_exact|]. split; [exact two_rep|]. split; [split; [reflexivity|exact demoB_mat]|].
  split; [exact I|]. split; [exact I|]. split; [reflexivity|]. eexists; split; vm_compute; reflexivity.
Qed.

(** (A1+A2) - (B1+B2) computes A1+A2-B1+B2: M - M is not 0. *)
Theorem C23_two_part_minus_two_part_refuted :
  rep zar (two demoS demoC) 2 3 demo_sum /\
  exists e, sub_dyn zar true (two demoS demoC) (two demoS demoC) = Ok (LDd e) /\ dget true e 1 0 = Ok 8%Z.
Proof. split; [exact two_rep|]. eexists. split; vm_compute; reflexivity. Qed.

(** MM += M adds M to both parts: the represented sum grows by 2 M (the element
    (0, 0) of the two-part matrix is 2, of M it is 1, of the result it is 4). *)
Definition twoD : dyn Z Z := DM (TD ED) (TD EF) (Some (LDd demoC)) (Some (LDf demoC)).
Theorem C23_two_part_compound_refuted :
  rep zar twoD 2 3 (fun i j => (demoC_f i j + demoC_f i j)%Z) /\ rep zar (DL (LDd demoC)) 2 3 demoC_f /\
  exists e d, asg_dyn zar Plus true twoD (DL (LDd demoC)) = Ok e /\ dense_of_dyn zar true e = Ok d /\
    dget true d 0 0 = Ok 4%Z.
Proof.
  split; [|split].
  - split; [reflexivity|]. split; [reflexivity|]. exists demoC_f, demoC_f. split; [|split].
    + split; [reflexivity|exact demoC_mat].
    + split; [reflexivity|]. exists demoC_f. split; [exact demoC_mat|]. reflexivity.
    + reflexivity.
  - split; [reflexivity|exact demoC_mat].
  - eexists; eexists. split; [vm_compute; reflexivity|]. split; vm_compute; reflexivity.
Qed.

(** A default-constructed two-part matrix has no parts; every operation on it
    dereferences a null pointer. *)
Theorem C23_empty_two_part_refuted :
  forall (F D : Type) (ar : arith F D) t1 t2 p dbg (b : dyn F D),
    mm_new true true t1 t2 (@None (leaf F D)) None = Ok (DM t1 t2 None None) /\
    mul_dyn ar p dbg (DM t1 t2 None None) b = UB NullDeref /\ add_dyn ar dbg (DM t1 t2 None None) b = UB NullDeref /\
    dy_rows (DM t1 t2 None None : dyn F D) = UB NullDeref.
Proof. intros. repeat split; destruct b; reflexivity. Qed.

(** ** C31 *)
(** For every pair of listed types the table holds the functor of exactly these
    types, provided the static tables were initialised ([ready]); the result
    type is the one the C++ type system computes and is listed again. *)
Theorem C31_dispatch :
  forall (F D R : Type) (op : dyn F D -> dyn F D -> res R) ready (a b : dyn F D),
    In (dyn_ty a) type_list -> In (dyn_ty b) type_list -> ready (dyn_ty a) = true ->
    exec_dyn_2dim ready op (Some a) (Some b) = op a b /\
    (forall exc dbg (f : dyn F D -> res R), exec_member exc dbg f (Some a) = f a).
Proof.
  intros F D R op ready a b Ha Hb Hr. split; [|intros; now apply exec_member_ok].
  rewrite exec_dyn_2dim_ok by auto. now rewrite Hr.
Qed.
Print Assumptions C31_dispatch.

Theorem C31_results_listed :
  forall (F D : Type) (ar : arith F D) (SD : Scalar D), exact ar -> forall ready p dbg (a b : dyn F D) m n l ga gb,
    (forall t, In t type_list -> ready t = true) ->
    In (dyn_ty a) type_list -> In (dyn_ty b) type_list -> rep ar a m n ga -> fits p m n l -> float_exact ar p ->
    (rep ar b n l gb -> exists e, mul_ptr ar ready p dbg (Some a) (Some b) = Ok (Some e) /\
       dyn_ty e = TL (mul_mty (dyn_ty a) (dyn_ty b)) /\ In (dyn_ty e) type_list /\ rep ar e m l (mat_prod n ga gb)) /\
    (rep ar b m n gb -> exists e, add_ptr ar ready dbg (Some a) (Some b) = Ok (Some e) /\
       dyn_ty e = TL (add_mty (dyn_ty a) (dyn_ty b)) /\ In (dyn_ty e) type_list /\ rep ar e m n (fun i j => sadd (ga i j) (gb i j))).
Proof.
  intros F D ar SD X ready p dbg a b m n l ga gb Hr Ta Tb Ha Hf He. split; intros Hb.
  - unfold mul_ptr. rewrite exec_dyn_2dim_ok, Hr by auto.
    destruct (mul_dyn_spec ar X p dbg a b m n l ga gb Ha Hb Hf He) as (c & E & T & R). rewrite E. cbn [bind].
    exists (DL c). split; [reflexivity|]. cbn [dyn_ty]. rewrite T. split; [reflexivity|]. split; [apply lty_in|exact R].
  - unfold add_ptr. rewrite exec_dyn_2dim_ok, Hr by auto.
    destruct (add_dyn_spec ar X dbg a b m n ga gb Ha Hb) as (c & E & T & R). rewrite E. cbn [bind].
    exists (DL c). split; [reflexivity|]. cbn [dyn_ty]. rewrite T. split; [reflexivity|]. split; [apply lty_in|exact R].
Qed.
Print Assumptions C31_results_listed.

Example C31_nonvacuous : In (dyn_ty (two demoS demoC)) type_list /\ In (dyn_ty (DL (LDd demoB) : dyn Z Z)) type_list /\
  exists c, mul_ptr zar (fun _ => true) PNative true (Some (two demoS demoC)) (Some (DL (LDd demoB))) = Ok (Some (DL (LDd c))).
Proof. split; [cbn; tauto|]. split; [cbn; tauto|]. eexists; vm_compute; reflexivity. Qed.

(** A type that is not in the list gets the index 7: the table is read out of
    bounds; a null pointer is dereferenced. *)
Theorem C31_unlisted_type_refuted :
  forall (F D R : Type) (op : dyn F D -> dyn F D -> res R) ready (a b : dyn F D), ~ In (dyn_ty a) type_list ->
    exec_dyn_2dim ready op (Some a) (Some b) = UB OOBRead /\
    (forall f : dyn F D -> res R, exec_member true true f (Some a) = Throw /\ exec_member false true f (Some a) = AssertFail /\
       exec_member false false f (Some a) = UB DeadObject) /\
    exec_dyn_2dim ready op None (Some b) = UB NullDeref.
Proof.
  intros F D R op ready a b H. split; [|split; [|reflexivity]].
  - unfold exec_dyn_2dim, type_index. cbn [deref bind]. rewrite get_index_out by auto. reflexivity.
  - intros f. unfold exec_member. cbn [deref bind]. unfold type_index. rewrite get_index_out by auto.
    repeat split; try reflexivity. cbn.
    destruct (mty_eqb (dyn_ty a) (TL (TD ED))) eqn:E; [|reflexivity].
    exfalso. apply H. apply mty_eqb_eq in E. rewrite E. cbn. tauto.
Qed.
Print Assumptions C31_unlisted_type_refuted.
Example C31_unlisted_exists : ~ In (dyn_ty twoD) type_list.
Proof. cbn. intuition discriminate. Qed.

(** Operations executed by another static initialiser before the tables are
    built call an empty std::function. *)
Theorem C31_static_order_refuted :
  forall (F D R : Type) (op : dyn F D -> dyn F D -> res R) (a b : dyn F D),
    In (dyn_ty a) type_list -> In (dyn_ty b) type_list -> exec_dyn_2dim (fun _ => false) op (Some a) (Some b) = Throw.
Proof. intros F D R op a b Ha Hb. now rewrite exec_dyn_2dim_ok. Qed.

(** ** C30.  Blocks of any listed kind, any matching partition with at least one
    inner block, any policy whose BLAS arguments fit. *)
Theorem C30_blocked_product :
  forall (F D : Type) (ar : arith F D) (SD : Scalar D), exact ar ->
  forall ready p exc dbg (a b : blocked F D) rl nl cl ga gb,
    (forall t, In t type_list -> ready t = true) -> float_exact ar p ->
    (forall I K J, I < length rl -> K < length nl -> J < length cl -> fits p (nth I rl 0) (nth K nl 0) (nth J cl 0)) ->
    nl <> [] -> rep_blocked ar a rl nl ga -> rep_blocked ar b nl cl gb ->
    exists c d, mul_blocked ar ready p dbg a b = Ok c /\ rep_blocked ar c rl cl (mat_prod (list_sum nl) ga gb) /\
      dense_of_blocked ar exc dbg c = Ok d /\ is_mat d (list_sum rl) (list_sum cl) (mat_prod (list_sum nl) ga gb).
Proof.
  intros F D ar SD X ready p exc dbg a b rl nl cl ga gb Hr He Hf Hnl Ha Hb.
  destruct (mul_blocked_spec ar X ready p dbg a b rl nl cl ga gb Hr He Hf Hnl Ha Hb) as (c & E & R).
  destruct (dense_of_blocked_spec ar exc dbg c rl cl _ R (add0D ar X)) as (d & Ed & M & _).
  exists c, d. auto.
Qed.
Print Assumptions C30_blocked_product.

(** With no inner block every block of the product stays a null pointer. *)
Theorem C30_no_inner_block_refuted :
  exists c, mul_blocked zar (fun _ => true) PNative true (blk_new 1 0 2 0) (blk_new 0 1 0 3) = Ok c /\
    b_ubr c = 2 /\ b_ubc c = 3 /\ dense_of_blocked zar true true c = UB NullDeref.
Proof. eexists. split; [vm_compute; reflexivity|]. repeat split; vm_compute; reflexivity. Qed.

(** ** C33 and C34 *)
(** The source: a column-major matrix whose getSize() is right, or a non-empty
    window inside one. *)
Theorem C33_first_type :
  forall (F D : Type) (ar : arith F D) exc dbg th (m : dense D) r c f,
    col_source m -> view m r c f -> full_ok m -> valid_thr ar th -> zero_limits_agree th ->
    (forall t, first_of (respects ar th r c f) type_list t ->
       exists d, convert ar exc dbg th m = Ok d /\ dyn_ty d = t) /\
    ((forall t, In t type_list -> respects ar th r c f t = false) ->
       convert ar true dbg th m = Throw /\ convert ar false true th m = AssertFail /\
       exists d, convert ar false false th m = Ok d /\ dyn_ty d = TL (TD ED)) /\
    ((exists t, first_of (respects ar th r c f) type_list t) \/ (forall t, In t type_list -> respects ar th r c f t = false)).
Proof.
  intros F D ar exc dbg th m r c f HS HV HF HT ZA. destruct (col_source_ok m HS) as (SH & IT & OM). split; [|split].
  - intros t Ht. unfold convert. rewrite (convert_first_spec ar m r c f HV IT HF exc dbg th type_list t HT ZA Ht).
    destruct (convert_to_spec ar m r c f HV SH IT OM HF exc dbg th t HT) as (d & E & T & _). eauto.
  - intros H. unfold convert. rewrite !(convert_none_spec ar m r c f HV IT HF _ _ th type_list HT ZA H) by discriminate.
    split; [reflexivity|]. split; [reflexivity|]. cbn [core_failure cassert andb bind].
    destruct (convert_to_spec ar m r c f HV SH IT OM HF false false th (TL (TD ED)) HT) as (d & E & T & _). eauto.
  - apply first_of_dec.
Qed.
Print Assumptions C33_first_type.

(** If the limits of Matrix<Dense,double> are never exceeded (1 by default) every
    non-empty matrix gets a type. *)
Theorem C33_always_typed :
  forall (F D : Type) (ar : arith F D) th r c f, 1 <= r -> 1 <= c ->
    (forall n, n <= r * c -> leD ar (quotD ar n (r * c)) (occ_set th (TL (TD ED)) ED) = true /\
                             leD ar (quotD ar n (r * c)) (occ_set th (TL (TD ED)) EF) = true) ->
    exists t, first_of (respects ar th r c f) type_list t.
Proof.
  intros F D ar th r c f Hr Hc H. destruct (first_of_dec (respects ar th r c f) type_list) as [E|E]; [exact E|].
  exfalso. specialize (E (TL (TD ED)) ltac:(cbn; tauto)). unfold respects, fraction_above in E.
  rewrite (proj1 (H _ (count2_le _ _ _))), (proj2 (H _ (count2_le _ _ _))) in E. discriminate.
Qed.
Print Assumptions C33_always_typed.

(** Settings like the defaults, in thousandths; significance thresholds 0 and 2. *)
Definition zthr : threshold Z := mkThreshold 2%Z 0%Z (fun t e =>
  match t, e with
  | TL TZ, _ => 0
  | TL (TS EF), EF => 0 | TL (TS EF), ED => 200
  | TL (TD EF), EF => 0 | TL (TD EF), ED => 1000
  | TL (TS ED), _ => 200
  | TM (TS ED) (TS EF), EF => 200 | TM (TS ED) (TS EF), ED => 400
  | TM (TS ED) (TD EF), EF => 200 | TM (TS ED) (TD EF), ED => 1000
  | _, _ => 1000
  end)%Z.
Lemma zthr_valid : valid_thr zar zthr. Proof. repeat split. Qed.
Lemma zthr_comparable : comparable zar zthr.
Proof.
  constructor; cbn; intros; try rewrite ?Z.ltb_lt, ?Z.leb_le, ?Z.ltb_ge, ?Z.leb_gt in *; try lia.
  destruct n as [|n]; [reflexivity|]. exfalso.
  assert (0 < (Z.of_nat (S n) * 1000 + Z.of_nat m - 1) / Z.of_nat m)%Z; [|lia].
  apply Z.div_str_pos. lia.
Qed.
Lemma zthr_dd n m : 1 <= m -> n <= m -> leD zar (quotD zar n m) (occ_set zthr (TL (TD ED)) ED) = true /\
  leD zar (quotD zar n m) (occ_set zthr (TL (TD ED)) EF) = true.
Proof.
  intros Hm Hn. assert (H : leD zar (quotD zar n m) 1000%Z = true); [|split; exact H].
  cbn. apply Z.leb_le. assert ((Z.of_nat n * 1000 + Z.of_nat m - 1) / Z.of_nat m < 1001)%Z; [|lia].
  apply Z.div_lt_upper_bound; lia.
Qed.

(** 4 of the 6 elements of demoC are above 2, so only Matrix<Dense,double>
    respects its limits; its first row without the last element, [1 2], has none. *)
Example C33_nonvacuous :
  col_source demoC /\ view demoC 2 3 demoC_f /\ full_ok demoC /\ valid_thr zar zthr /\ zero_limits_agree zthr /\
  first_of (respects zar zthr 2 3 demoC_f) type_list (TL (TD ED)) /\
  first_of (respects zar zthr 1 2 demoC_f) type_list (TL (TD EF)).
Proof.
  split; [apply src_mat; [exact (proj1 demoC_mat)|reflexivity]|]. split; [exact (proj2 demoC_mat)|].
  split; [reflexivity|]. split; [exact zthr_valid|]. split; [reflexivity|]. split.
  - exists (removelast type_list), []. split; [reflexivity|]. split; [reflexivity|].
    intros u Hu. cbn in Hu. repeat (destruct Hu as [<-|Hu]; [reflexivity|]). contradiction.
  - exists [TL TZ; TL (TS EF)], (skipn 3 type_list). split; [reflexivity|]. split; [reflexivity|].
    intros u Hu. cbn in Hu. repeat (destruct Hu as [<-|Hu]; [reflexivity|]). contradiction.
Qed.

(** The single precision limit of Matrix<Zero> is never consulted. *)
Theorem C33_zero_limit_refuted :
  let th := mkThreshold 2%Z 0%Z (fun t e => match t, e with TL TZ, EF => 0 | _, _ => 1000 end)%Z in
  is_mat demoC 2 3 demoC_f /\ full_ok demoC /\ valid_thr zar th /\
  respects zar th 2 3 demoC_f (TL TZ) = false /\ convert zar true true th demoC = Ok (DL (LZ (z_new 2 3))).
Proof. cbn zeta. split; [exact demoC_mat|]. repeat split. Qed.

(** Thresholds that are equal or in the wrong order: the block is rejected exactly
    if the chosen type needs the range between them; the other types are not
    affected. *)
Theorem C33_reversed_thresholds :
  forall (F D : Type) (ar : arith F D) exc dbg th (m : dense D) r c f t,
    col_source m -> view m r c f -> full_ok m -> nonneg_thr ar th -> ltD ar (d0 ar) (d0 ar) = false ->
    leD ar (sigF th) (sigD th) = true -> zero_limits_agree th ->
    first_of (respects ar th r c f) type_list t ->
    if needs_range t then convert ar exc dbg th m = Throw
    else exists d, convert ar exc dbg th m = Ok d /\ dyn_ty d = t /\
      rep ar d r c (fun i j => stored_as ar th (sh_sub (d_sh m)) t (f i j)).
Proof.
  intros F D ar exc dbg th m r c f t HS HV HF HN H0 HR ZA Ht. destruct (col_source_ok m HS) as (SH & IT & OM).
  pose proof (convert_to_reversed ar m r c f HV SH IT OM HF exc dbg th t HN H0 HR) as H.
  unfold convert. rewrite (convert_first_spec' ar m r c f HV IT HF exc dbg th type_list t HN ZA Ht). exact H.
Qed.
Print Assumptions C33_reversed_thresholds.

(** A negative double precision threshold is always rejected, a negative single
    precision one as soon as some type passes the first of its two limits. *)
Theorem C33_negative_threshold :
  forall (F D : Type) (ar : arith F D) exc dbg th (m : dense D) r c f,
    col_source m -> view m r c f -> full_ok m ->
    (ltD ar (sigD th) (d0 ar) = true -> convert ar exc dbg th m = Throw) /\
    (ltD ar (sigD th) (d0 ar) = false -> ltD ar (sigF th) (d0 ar) = true ->
     forall t, In t type_list -> leD ar (fraction_above ar (sigD th) r c f) (occ_set th t ED) = true ->
     convert ar exc dbg th m = Throw).
Proof.
  intros F D ar exc dbg th m r c f HS HV HF. destruct (col_source_ok m HS) as (SH & IT & OM). split.
  - intros H. unfold convert. apply convert_negative_double; auto; discriminate.
  - intros H1 H2 t HI HL. apply (convert_negative_single ar m r c f HV IT HF exc dbg th type_list t H1 H2 HI).
    destruct t as [[]|]; exact HL.
Qed.
Print Assumptions C33_negative_threshold.
Theorem C33_bad_thresholds_nonvacuous :
  let th a b := mkThreshold a b (fun t e => match t, e with TL TZ, _ => 0 | _, _ => 1000 end)%Z in
  is_mat demoC 2 3 demoC_f /\ full_ok demoC /\ col_source demoC /\
  nonneg_thr zar (th 1 2)%Z /\ first_of (respects zar (th 1 2)%Z 2 3 demoC_f) type_list (TL (TS EF)) /\
  convert zar true true (th 1 2)%Z demoC = Throw /\ convert zar true true (th 2 (-1))%Z demoC = Throw /\
  convert zar true true (th (-2) 1)%Z demoC = Throw /\ rmap dyn_ty (convert zar true true (th 2 1)%Z demoC) = Ok (TL (TS EF)).
Proof.
  cbn zeta. split; [exact demoC_mat|]. split; [reflexivity|]. split; [apply src_mat; [apply demoC_mat|reflexivity]|].
  split; [split; reflexivity|]. split; [|repeat split; vm_compute; reflexivity].
  exists [TL TZ]; eexists. split; [reflexivity|]. split; [vm_compute; reflexivity|].
  intros u [<-|[]]. vm_compute. reflexivity.
Qed.

(** A block without elements has the occupation 0/0: if that is not <= anything
    (NaN), no type accepts it, not even with the limits 1. *)
Theorem C33_empty_block_refuted :
  forall (F D : Type) (ar : arith F D) th dbg (m : dense D) r f,
    (forall x, leD ar (quotD ar 0 0) x = false) ->
    wf_mem m -> d_orient m = ColMajor -> view m r 0 f -> full_ok m -> valid_thr ar th -> zero_limits_agree th ->
    convert ar true dbg th m = Throw.
Proof.
  intros F D ar th dbg m r f HN W O V FU HT ZA.
  apply (C33_first_type F D ar true dbg th m r 0 f); auto; [now apply src_mat|].
  intros t _. unfold respects, fraction_above. rewrite Nat.mul_0_r.
  replace (count2 r 0 (fun i j => ltD ar (sigD th) (absD ar (f i j)))) with 0; [now rewrite HN|].
  pose proof (count2_le r 0 (fun i j => ltD ar (sigD th) (absD ar (f i j)))) as H. lia.
Qed.
Print Assumptions C33_empty_block_refuted.

(** C34.  Every element of the converted matrix is the one [stored_as] gives for
    the chosen type. *)
Theorem C34_conversion_elementwise :
  forall (F D : Type) (ar : arith F D) exc dbg th (m : dense D) r c f t,
    col_source m -> view m r c f -> full_ok m -> valid_thr ar th -> zero_limits_agree th ->
    first_of (respects ar th r c f) type_list t ->
    exists d, convert ar exc dbg th m = Ok d /\ dyn_ty d = t /\
      rep ar d r c (fun i j => stored_as ar th (sh_sub (d_sh m)) t (f i j)).
Proof.
  intros F D ar exc dbg th m r c f t HS HV HF HT ZA Ht. destruct (col_source_ok m HS) as (SH & IT & OM).
  unfold convert. rewrite (convert_first_spec ar m r c f HV IT HF exc dbg th type_list t HT ZA Ht).
  apply (convert_to_spec ar m r c f HV SH IT OM HF exc dbg th t HT).
Qed.
Print Assumptions C34_conversion_elementwise.

Lemma no_count {F D} (ar : arith F D) th t r c f : comparable ar th ->
  (Z.of_nat (r * c) < 2 ^ 63)%Z ->
  leD ar (fraction_above ar t r c f) (d0 ar) = true -> forall i j, i < r -> j < c -> ltD ar t (absD ar (f i j)) = false.
Proof.
  intros CP HL H i j Hi Hj. unfold fraction_above in H.
  apply (cp_frac ar th CP) in H; [|apply count2_le|exact HL]. now apply (count2_zero r c _ H i j).
Qed.

(** Windows, and plain matrices unless the type is MultipleMatrix<Sparse double,
    Dense float>: the loss is as promised, except that Matrix<Sparse,double>
    drops every element not above the float threshold. *)
Theorem C34_loss :
  forall (F D : Type) (ar : arith F D) exc dbg th (m : dense D) r c f t,
    col_source m -> view m r c f -> full_ok m -> (Z.of_nat (r * c) < 2 ^ 63)%Z ->
    valid_thr ar th -> comparable ar th -> zero_limits ar th ->
    first_of (respects ar th r c f) type_list t -> sh_sub (d_sh m) = true \/ t <> TM (TS ED) (TD EF) ->
    exists d g, convert ar exc dbg th m = Ok d /\ dyn_ty d = t /\ rep ar d r c g /\
      forall i j, i < r -> j < c ->
        (t <> TL (TS ED) -> loss_ok ar th (f i j) (g i j)) /\
        (t = TL (TS ED) -> g i j = f i j \/ ltD ar (sigF th) (absD ar (f i j)) = false /\ g i j = d0 ar).
Proof.
  intros F D ar exc dbg th m r c f t HS HV HF HL HT CP (Z1 & Z2 & Z3 & Z4) Ht Hsub.
  assert (ZA : zero_limits_agree th) by (red; congruence).
  destruct (C34_conversion_elementwise F D ar exc dbg th m r c f t HS HV HF HT ZA Ht) as (d & E & T & R).
  eexists d, _. split; [exact E|]. split; [exact T|]. split; [exact R|]. intros i j Hi Hj.
  destruct Ht as (pre & post & EL & HR & _). assert (HI : In t type_list) by (rewrite EL; apply in_elt). clear EL R T E.
  unfold respects in HR. apply andb_prop in HR. destruct HR as [HD HF'].
  set (x := f i j). pose proof (no_count ar th (sigD th) r c f CP HL) as ND. pose proof (no_count ar th (sigF th) r c f CP HL) as NF.
  unfold loss_ok, stored_as, large, medium.
  cbn in HI. repeat (destruct HI as [<-|HI]); try contradiction; (split; [intros NE|intros EE; try discriminate EE]).
  - right; left. split; [|reflexivity]. rewrite Z1 in HD. now apply ND.
  - rewrite Z3 in HF'. pose proof (NF HF' i j Hi Hj) as NL. fold x in NL.
    destruct (ltD ar (sigD th) (absD ar x)) eqn:LD.
    + rewrite (cp_le ar th CP x LD NL). right; right. split; auto.
    + cbn. right; left. auto.
  - rewrite Z4 in HF'. pose proof (NF HF' i j Hi Hj) as NL. fold x in NL.
    destruct (sh_sub (d_sh m)).
    + destruct (ltD ar (d0 ar) (absD ar x)) eqn:L0; [right; right; auto|].
      right; left. split; [now apply (cp_0 ar th CP)|apply (cp_f0 ar th CP)].
    + right; right. auto.
  - congruence.
  - destruct (ltD ar (sigF th) (absD ar x)) eqn:L; auto.
  - destruct (ltD ar (sigF th) (absD ar x)) eqn:L.
    + rewrite (cp_lt ar th CP x L), andb_false_r, (cp_add0r ar th CP x L). now left.
    + destruct (ltD ar (sigD th) (absD ar x)) eqn:LD.
      * rewrite (cp_le ar th CP x LD L). cbn [andb]. rewrite (cp_add0l ar th CP x LD L). auto.
      * cbn [andb]. rewrite (cp_add00 ar th CP). auto.
  - destruct Hsub as [->|Hsub]; [|congruence].
    destruct (ltD ar (sigF th) (absD ar x)) eqn:L.
    + rewrite (cp_lt ar th CP x L), andb_false_r, (cp_f0 ar th CP), (cp_add0r ar th CP x L). now left.
    + destruct (ltD ar (sigD th) (absD ar x)) eqn:LD.
      * rewrite (cp_le ar th CP x LD L). cbn [andb]. rewrite (cp_add0l ar th CP x LD L). auto.
      * cbn [andb]. rewrite (cp_f0 ar th CP), (cp_add00 ar th CP). auto.
  - destruct (sh_sub (d_sh m)); [|now left].
    destruct (ltD ar (d0 ar) (absD ar x)) eqn:L0; [now left|].
    right; left. split; [now apply (cp_0 ar th CP)|reflexivity].
Qed.
Print Assumptions C34_loss.

Example C34_nonvacuous : comparable zar zthr /\ zero_limits zar zthr /\ valid_thr zar zthr /\
  col_source (d_window demoC 2 2 0 1) /\ exists d, convert zar true true zthr (d_window demoC 2 2 0 1) = Ok (DL (LDd d)).
Proof.
  split; [exact zthr_comparable|]. split; [repeat split|]. split; [exact zthr_valid|]. split.
  - apply src_win; [repeat split; cbn; lia|lia|lia|reflexivity].
  - eexists; vm_compute; reflexivity.
Qed.

(** A 1 x 6 matrix with one element above the float threshold 2 and one element
    2 above the double threshold 0: it becomes Matrix<Sparse,double>, and
    the 2 is lost although it is above the double threshold. *)
Definition demoL : dense Z := mkDense (own_shape ColMajor 1 6) 6 (map Some [0; 12; 0; 0; 2; 0]%Z) true.
Definition demoL_f (i j : nat) : Z := nth j [0; 12; 0; 0; 2; 0]%Z 0%Z.
Lemma demoL_mat : is_mat demoL 1 6 demoL_f.
Proof.
  split; [repeat split; reflexivity|]. split; [reflexivity|]. split; [reflexivity|].
  intros [|i] [|[|[|[|[|[|j]]]]]] Hi Hj; try lia; reflexivity.
Qed.
Definition zthr2 : threshold Z := mkThreshold 2%Z 0%Z (fun t e =>
  match t with TL (TS ED) => 400 | _ => occ_set zthr t e end)%Z.
Theorem C34_sparse_double_drops_refuted :
  is_mat demoL 1 6 demoL_f /\ full_ok demoL /\ valid_thr zar zthr2 /\ comparable zar zthr2 /\ zero_limits zar zthr2 /\
  exists s d, convert zar true true zthr2 demoL = Ok (DL (LSd s)) /\ dense_of_dyn zar true (DL (LSd s)) = Ok d /\
    dget true d 0 4 = Ok 0%Z /\ dget true d 0 1 = Ok 12%Z /\ ~ loss_ok zar zthr2 (demoL_f 0 4) 0%Z.
Proof.
  split; [exact demoL_mat|]. split; [reflexivity|]. split; [repeat split|]. split.
  { destruct zthr_comparable. constructor; auto. }
  split; [repeat split|]. eexists; eexists. split; [vm_compute; reflexivity|]. split; [vm_compute; reflexivity|].
  split; [reflexivity|]. split; [reflexivity|]. unfold loss_ok; cbn. intros [H|[[H _]|[_ H]]]; discriminate H.
Qed.

(** Plain (not window) sources ignore the value checker of the dense part: in
    MultipleMatrix<Sparse double, Dense float> the large element 12 is stored
    twice, as 12 and as the float 10. *)
Theorem C34_plain_source_double_counts_refuted :
  let th := mkThreshold 2%Z 0%Z (fun t e => match t with TM (TS ED) (TD EF) => 1000 | _ => 0 end)%Z in
  is_mat demoL 1 6 demoL_f /\ full_ok demoL /\ valid_thr zar th /\
  exists x d, convert zar true true th demoL = Ok x /\ dyn_ty x = TM (TS ED) (TD EF) /\
    dense_of_dyn zar true x = Ok d /\ dget true d 0 1 = Ok 22%Z.
Proof. cbn zeta. split; [exact demoL_mat|]. split; [reflexivity|]. split; [repeat split|]. eexists; eexists.
  split; [vm_compute; reflexivity|]. split; [reflexivity|]. split; vm_compute; reflexivity. Qed.

(** ** C32 *)
(** Blocks of at least one row and column whose sizes add up to the dimensions. *)
Definition partition (l : list nat) (n : nat) : Prop := list_sum l = n /\ Forall (fun s => 1 <= s) l.

Lemma offs_block l n k : partition l n -> k < length l -> 1 <= nth k l 0 /\ offs l k + nth k l 0 <= n.
Proof.
  intros [<- H] Hk. split.
  - rewrite Forall_forall in H. apply H. now apply nth_In.
  - rewrite <- offs_S by auto. apply offs_le_all.
Qed.

(** Each block becomes the type [T I J] chosen for it, each element what
    [stored_as] says for the type of its block. *)
Theorem C32_cut_elementwise :
  forall (F D : Type) (ar : arith F D) exc dbg th (m : dense D) r c f rl cl (T : nat -> nat -> mty) g,
    is_mat m r c f -> d_orient m = ColMajor -> (Z.of_nat (length (d_buf m)) < 2 ^ 63)%Z ->
    partition rl r -> partition cl c -> valid_thr ar th -> zero_limits_agree th ->
    (forall I J, I < length rl -> J < length cl ->
       first_of (respects ar th (nth I rl 0) (nth J cl 0) (fun i j => f (offs rl I + i) (offs cl J + j))) type_list (T I J)) ->
    (forall I J i j, I < length rl -> J < length cl -> i < nth I rl 0 -> j < nth J cl 0 ->
       g (offs rl I + i) (offs cl J + j) = stored_as ar th true (T I J) (f (offs rl I + i) (offs cl J + j))) ->
    exists b, cut ar exc dbg th m rl cl = Ok b /\ rep_blocked ar b rl cl g /\
      ((forall x, addD ar x (d0 ar) = x) -> exists d, dense_of_blocked ar exc dbg b = Ok d /\ is_mat d r c g).
Proof.
  intros F D ar exc dbg th m r c f rl cl T g M O HL P1 P2 HT ZA HTy Hg.
  pose proof M as [W V]. pose proof V as (R & C & _).
  destruct (cut_spec ar exc dbg th m rl cl (fun I J x => dyn_ty x = T I J /\
     rep ar x (nth I rl 0) (nth J cl 0) (fun i j => g (offs rl I + i) (offs cl J + j)))) as (b & fb & E & U1 & U2 & Ob & Mb & _ & HB).
  { intros I J HI HJ. destruct (offs_block rl r I P1 HI) as [H1 H2]. destruct (offs_block cl c J P2 HJ) as [H3 H4].
    assert (IN : inside m (nth I rl 0) (nth J cl 0) (offs rl I) (offs cl J)) by (repeat split; auto; try apply W; lia).
    destruct (C34_conversion_elementwise F D ar exc dbg th _ _ _ _ (T I J) (src_win _ _ _ _ _ IN H1 H3 HL)
      (window_view m r c f _ _ _ _ M IN) eq_refl HT ZA (HTy I J HI HJ)) as (d & Ed & Td & Rd).
    exists d. split; [exact Ed|]. split; [exact Td|]. eapply rep_ext; [exact Rd|].
    intros i j Hi Hj. cbn [d_window d_sh sh_sub]. symmetry. now apply Hg. }
  exists b. split; [exact E|].
  assert (RB : rep_blocked ar b rl cl g).
  { split; [rewrite U1, R; symmetry; apply P1|]. split; [rewrite U2, C; symmetry; apply P2|]. split; [exact Ob|].
    exists fb. split; [exact Mb|]. intros I J HI HJ. destruct (HB I J HI HJ) as (x & Ex & Tx & Rx).
    exists x. split; [exact Ex|]. split; [|exact Rx]. rewrite Tx.
    destruct (HTy I J HI HJ) as (pre & post & EL & _). rewrite EL. apply in_elt. }
  split; [exact RB|]. intros H0.
  destruct (dense_of_blocked_spec ar exc dbg b rl cl g RB H0) as (d & Ed & Md & _).
  exists d. split; [exact Ed|]. now rewrite (proj1 P1), (proj1 P2) in Md.
Qed.
Print Assumptions C32_cut_elementwise.

(** If each block conversion is exact, cutting and reassembling is the identity. *)
Theorem C32_cut_and_reassemble :
  forall (F D : Type) (ar : arith F D) exc dbg th (m : dense D) r c f rl cl (T : nat -> nat -> mty),
    is_mat m r c f -> d_orient m = ColMajor -> (Z.of_nat (length (d_buf m)) < 2 ^ 63)%Z ->
    partition rl r -> partition cl c -> valid_thr ar th -> zero_limits_agree th -> (forall x, addD ar x (d0 ar) = x) ->
    (forall I J, I < length rl -> J < length cl ->
       first_of (respects ar th (nth I rl 0) (nth J cl 0) (fun i j => f (offs rl I + i) (offs cl J + j))) type_list (T I J)) ->
    (forall I J i j, I < length rl -> J < length cl -> i < nth I rl 0 -> j < nth J cl 0 ->
       stored_as ar th true (T I J) (f (offs rl I + i) (offs cl J + j)) = f (offs rl I + i) (offs cl J + j)) ->
    exists b d, cut ar exc dbg th m rl cl = Ok b /\ dense_of_blocked ar exc dbg b = Ok d /\ is_mat d r c f.
Proof.
  intros F D ar exc dbg th m r c f rl cl T M O HL P1 P2 HT ZA H0 HTy Hex.
  destruct (C32_cut_elementwise F D ar exc dbg th m r c f rl cl T f M O HL P1 P2 HT ZA HTy) as (b & E & _ & H).
  { intros. symmetry. now apply Hex. }
  destruct (H H0) as (d & Ed & Md). eauto.
Qed.
Print Assumptions C32_cut_and_reassemble.

(** ** C53 *)
Theorem C53_pipeline :
  forall (F D : Type) (ar : arith F D) (SD : Scalar D), exact ar ->
  forall ready p exc dbg th (A B : dense D) m n l fa fb rl nl cl (TA TB : nat -> nat -> mty),
    (forall t, In t type_list -> ready t = true) -> float_exact ar p ->
    (forall I K J, I < length rl -> K < length nl -> J < length cl -> fits p (nth I rl 0) (nth K nl 0) (nth J cl 0)) ->
    is_mat A m n fa -> d_orient A = ColMajor -> (Z.of_nat (length (d_buf A)) < 2 ^ 63)%Z ->
    is_mat B n l fb -> d_orient B = ColMajor -> (Z.of_nat (length (d_buf B)) < 2 ^ 63)%Z ->
    partition rl m -> partition nl n -> partition cl l -> 1 <= n -> valid_thr ar th -> zero_limits_agree th ->
    (forall I K, I < length rl -> K < length nl ->
       first_of (respects ar th (nth I rl 0) (nth K nl 0) (fun i j => fa (offs rl I + i) (offs nl K + j))) type_list (TA I K) /\
       forall i j, i < nth I rl 0 -> j < nth K nl 0 ->
         stored_as ar th true (TA I K) (fa (offs rl I + i) (offs nl K + j)) = fa (offs rl I + i) (offs nl K + j)) ->
    (forall K J, K < length nl -> J < length cl ->
       first_of (respects ar th (nth K nl 0) (nth J cl 0) (fun i j => fb (offs nl K + i) (offs cl J + j))) type_list (TB K J) /\
       forall i j, i < nth K nl 0 -> j < nth J cl 0 ->
         stored_as ar th true (TB K J) (fb (offs nl K + i) (offs cl J + j)) = fb (offs nl K + i) (offs cl J + j)) ->
    exists a b c d, cut ar exc dbg th A rl nl = Ok a /\ cut ar exc dbg th B nl cl = Ok b /\
      mul_blocked ar ready p dbg a b = Ok c /\ dense_of_blocked ar exc dbg c = Ok d /\
      is_mat d m l (mat_prod n fa fb).
Proof.
  intros F D ar SD X ready p exc dbg th A B m n l fa fb rl nl cl TA TB Hr He Hf MA OA LA MB OB LB P1 P2 P3 Hn HT ZA HA HB.
  destruct (C32_cut_elementwise F D ar exc dbg th A m n fa rl nl TA fa MA OA LA P1 P2 HT ZA) as (a & Ea & Ra & _).
  { intros. now apply HA. } { intros. symmetry. now apply HA. }
  destruct (C32_cut_elementwise F D ar exc dbg th B n l fb nl cl TB fb MB OB LB P2 P3 HT ZA) as (b & Eb & Rb & _).
  { intros. now apply HB. } { intros. symmetry. now apply HB. }
  destruct (C30_blocked_product F D ar SD X ready p exc dbg a b rl nl cl fa fb Hr He Hf) as (c & d & Ec & _ & Ed & Md); auto.
  { intros ->. destruct P2 as [P2 _]. cbn in P2. lia. }
  exists a, b, c, d. repeat (split; [assumption|]). rewrite (proj1 P1), (proj1 P2), (proj1 P3) in Md. exact Md.
Qed.
Print Assumptions C53_pipeline.

(** demoC cut into rows 1+1 and columns 2+1, demoB into rows 2+1 and one column
    block: float and double blocks, all conversions exact. *)
Definition demoTA (I K : nat) : mty := if (I + K =? 0) then TL (TD EF) else TL (TD ED).
Definition demoTB (K J : nat) : mty := if (K =? 0) then TL (TD ED) else TL (TD EF).
Example C53_nonvacuous :
  exact zar /\ partition [1; 1] 2 /\ partition [2; 1] 3 /\ partition [2] 2 /\ is_mat demoC 2 3 demoC_f /\ is_mat demoB 3 2 demoB_f /\
  (forall I K, I < 2 -> K < 2 ->
     first_of (respects zar zthr (nth I [1; 1] 0) (nth K [2; 1] 0) (fun i j => demoC_f (offs [1; 1] I + i) (offs [2; 1] K + j)))
       type_list (demoTA I K) /\
     forall i j, i < nth I [1; 1] 0 -> j < nth K [2; 1] 0 ->
       stored_as zar zthr true (demoTA I K) (demoC_f (offs [1; 1] I + i) (offs [2; 1] K + j)) =
         demoC_f (offs [1; 1] I + i) (offs [2; 1] K + j)) /\
  (forall K J, K < 2 -> J < 1 ->
     first_of (respects zar zthr (nth K [2; 1] 0) (nth J [2] 0) (fun i j => demoB_f (offs [2; 1] K + i) (offs [2] J + j)))
       type_list (demoTB K J) /\
     forall i j, i < nth K [2; 1] 0 -> j < nth J [2] 0 ->
       stored_as zar zthr true (demoTB K J) (demoB_f (offs [2; 1] K + i) (offs [2] J + j)) =
         demoB_f (offs [2; 1] K + i) (offs [2] J + j)) /\
  exists a b c d, cut zar true true zthr demoC [1; 1] [2; 1] = Ok a /\ cut zar true true zthr demoB [2; 1] [2] = Ok b /\
    mul_blocked zar (fun _ => true) PNative true a b = Ok c /\ dense_of_blocked zar true true c = Ok d /\
    dget true d 1 1 = Ok 17%Z.
Proof.
  split; [exact zar_exact|]. split; [split; [reflexivity|repeat constructor]|]. split; [split; [reflexivity|repeat constructor]|].
  split; [split; [reflexivity|repeat constructor]|]. split; [exact demoC_mat|]. split; [exact demoB_mat|].
  assert (EF' : forall p, forallb (fun t => Bool.eqb (p t) (mty_eqb t (TL (TD EF)) || mty_eqb t (TM (TS ED) (TD EF)) || mty_eqb t (TL (TD ED)))) type_list = true ->
     first_of p type_list (TL (TD EF))).
  { intros p Hp. cbn in Hp. exists [TL TZ; TL (TS EF)], (skipn 3 type_list).
    destruct (p (TL TZ)) eqn:E1; [discriminate|]. destruct (p (TL (TS EF))) eqn:E2; [discriminate|].
    destruct (p (TL (TD EF))) eqn:E3; [|discriminate].
    repeat split; auto. intros u Hu. cbn in Hu. destruct Hu as [<-|[<-|[]]]; auto. }
  assert (ED' : forall p, forallb (fun t => Bool.eqb (p t) (mty_eqb t (TL (TD ED)))) type_list = true ->
     first_of p type_list (TL (TD ED))).
  { intros p Hp. exists (removelast type_list), []. split; [reflexivity|]. rewrite forallb_forall in Hp.
    assert (H : forall t, In t type_list -> p t = mty_eqb t (TL (TD ED))).
    { intros t Ht. apply Hp in Ht. now apply Bool.eqb_prop in Ht. }
    split; [rewrite H by (cbn; tauto); reflexivity|].
    intros u Hu. rewrite H by (cbn in *; tauto). cbn in Hu. repeat (destruct Hu as [<-|Hu]; [reflexivity|]). contradiction. }
  split; [|split].
  - intros [|[|I]] [|[|K]] HI HK; try lia; cbn [demoTA Nat.add Nat.eqb]; (split; [(apply EF'; vm_compute; reflexivity) || (apply ED'; vm_compute; reflexivity)|]);
      intros [|i] [|[|j]] Hi Hj; cbn in Hi, Hj; try lia; vm_compute; reflexivity.
  - intros [|[|K]] [|J] HK HJ; try lia; cbn [demoTB Nat.eqb]; (split; [(apply EF'; vm_compute; reflexivity) || (apply ED'; vm_compute; reflexivity)|]);
      intros [|[|i]] [|[|j]] Hi Hj; cbn in Hi, Hj; try lia; vm_compute; reflexivity.
  - eexists; eexists; eexists; eexists. split; [vm_compute; reflexivity|]. split; [vm_compute; reflexivity|].
    split; [vm_compute; reflexivity|]. split; vm_compute; reflexivity.
Qed.
