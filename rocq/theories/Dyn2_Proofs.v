(** Proofs: conversions to dense, two-part operands, run-time dispatch. *)
From Verif Require Import Base BaseLemmas Dense_Model Dense_Spec Dense_Proofs Dense2_Proofs Sparse_Model Sparse_Spec
  Sparse_Proofs Sparse2_Proofs Sparse3_Proofs Sparse4_Proofs SparseT_Proofs SparseP_Proofs
  Mult_Model Mult_Spec Mult_Proofs Mult2_Proofs Mult3_Proofs Dyn_Model Dyn_Spec Dyn_Proofs.

(** ** No law about the arithmetic *)
Section NoLaw.
Context {F D : Type} (ar : arith F D).

Lemma dense_of_leaf_spec l r c g : rep_leaf ar l r c g ->
  exists d, dense_of_leaf ar l = Ok d /\ is_mat d r c g /\ d_orient d = ColMajor /\ d_own d = true.
Proof.
  destruct l as [z|s|s|d|d]; cbn [rep_leaf dense_of_leaf].
  - intros (Hr & Hc & H). eexists. split; [reflexivity|]. rewrite Hr, Hc. split; [|split; reflexivity].
    split; [split; [reflexivity|split; [reflexivity|]]; cbn; apply repeat_length|].
    apply view_from_cells; [reflexivity|reflexivity|]. intros i j Hi Hj. cbn.
    rewrite H by auto. apply nth_error_repeat. unfold addr, getLdRows; cbn.
    enough (i + j * r < r * c) by lia. nia.
  - intros (O & f & M & H). destruct (d_of_sparse_spec (toD ar) (d0 ar) ColMajor s r c f M) as (d & E & Md & Od & _ & Ow).
    exists d. split; [exact E|]. split; [|auto]. eapply is_mat_ext; [exact Md|]. intros; symmetry; auto.
  - intros (O & f & M & H). destruct (d_of_sparse_spec (fun x => x) (d0 ar) ColMajor s r c f M) as (d & E & Md & Od & _ & Ow).
    exists d. split; [exact E|]. split; [|auto]. eapply is_mat_ext; [exact Md|]. intros i j Hi Hj. rewrite H by auto. now destruct (f i j).
  - intros (O & f & M & H). destruct (conv_same_spec (toD ar) d r c f M) as (M' & O' & _ & Ow).
    eexists. split; [reflexivity|]. split; [|split; [congruence|exact Ow]]. eapply is_mat_ext; [exact M'|]. intros; symmetry; auto.
  - intros (O & M). destruct (conv_same_spec (fun x => x) d r c g M) as (M' & O' & _ & Ow).
    eexists. split; [reflexivity|]. split; [exact M'|split; [congruence|exact Ow]].
Qed.

(** Dense double op= anything. *)
Lemma asg_LDd_spec o dbg d b r c g gb : d_orient d = ColMajor -> is_mat d r c g -> rep_leaf ar b r c gb ->
  (forall x, binD ar o x (d0 ar) = x) ->
  exists m, asg_leaf ar o dbg (LDd d) b = Ok (LDd (with_buf d m)) /\
    is_mat (with_buf d m) r c (fun i j => binD ar o (g i j) (gb i j)).
Proof.
  intros O M Hb H0. pose proof M as [W V]. pose proof V as (R & C & _).
  destruct b as [zb|sb|sb|db|db]; cbn [rep_leaf asg_leaf] in *.
  - destruct Hb as (Rb & Cb & H). exists (d_buf d). unfold mz_assign_op, cassert. cbn [l_rows l_cols].
    rewrite R, C, Rb, Cb, !Nat.eqb_refl, !andb_false_r. cbn [bind].
    assert (E : with_buf d (d_buf d) = d) by (now destruct d). rewrite E. split; [reflexivity|].
    eapply is_mat_ext; [exact M|]. intros i j Hi Hj. rewrite H by auto. symmetry; apply H0.
  - destruct Hb as (Ob & f & Mb & H).
    destruct (ds_assign_spec (bin_df ar o) dbg d sb r c g f V (wf_sh_ok d W) Mb Ob) as (m & E & L & Hc & _).
    exists m. rewrite E. split; [reflexivity|]. eapply mat_lift; [exact M|exact L|].
    intros i j Hi Hj. rewrite Hc, H by auto. destruct (f i j); cbn; [reflexivity|]. now rewrite H0.
  - destruct Hb as (Ob & f & Mb & H).
    destruct (ds_assign_spec (binD ar o) dbg d sb r c g f V (wf_sh_ok d W) Mb Ob) as (m & E & L & Hc & _).
    exists m. rewrite E. split; [reflexivity|]. eapply mat_lift; [exact M|exact L|].
    intros i j Hi Hj. rewrite Hc, H by auto. destruct (f i j); cbn; [reflexivity|]. now rewrite H0.
  - destruct Hb as (Ob & f & Mb & H).
    destruct (d_assign_spec (bin_df ar o) d db r c g f V (wf_sh_ok d W) (or_introl W) (proj2 Mb) (or_introl (proj1 Mb))) as (m & E & L & Hc & _); [congruence|].
    exists m. rewrite E. split; [reflexivity|]. eapply mat_lift; [exact M|exact L|].
    intros i j Hi Hj. rewrite Hc, H by auto. reflexivity.
  - destruct Hb as (Ob & Mb).
    destruct (d_assign_spec (binD ar o) d db r c g gb V (wf_sh_ok d W) (or_introl W) (proj2 Mb) (or_introl (proj1 Mb))) as (m & E & L & Hc & _); [congruence|].
    exists m. rewrite E. split; [reflexivity|]. eapply mat_lift; [exact M|exact L|]. auto.
Qed.

(** Only a two-part object needs [x + 0 = x]. *)
Definition law0 (d : dyn F D) : Prop := match d with DL _ => True | DM _ _ _ _ => forall x, addD ar x (d0 ar) = x end.
Lemma law0_all d : (forall x, addD ar x (d0 ar) = x) -> law0 d.
Proof. destruct d; cbn; auto. Qed.

Lemma dense_of_dyn_spec dbg d r c g : rep ar d r c g -> law0 d ->
  exists e, dense_of_dyn ar dbg d = Ok e /\ is_mat e r c g /\ d_orient e = ColMajor /\ d_own e = true.
Proof.
  intros H H0. destruct d as [l|t1 t2 [a|] [b|]]; cbn [rep dense_of_dyn] in *; try contradiction.
  - now apply dense_of_leaf_spec.
  - destruct H as (_ & _ & g1 & g2 & Ha & Hb & E). cbn [deref bind].
    destruct (dense_of_leaf_spec a r c g1 Ha) as (x & Ex & Mx & Ox & Wx). rewrite Ex. cbn [bind].
    destruct (asg_LDd_spec Plus dbg x b r c g1 g2 Ox Mx Hb H0) as (m & Em & Mm). rewrite Em. cbn [bind].
    eexists. split; [reflexivity|]. split; [|split; [exact Ox|exact Wx]].
    eapply is_mat_ext; [exact Mm|]. intros; symmetry; now apply E.
Qed.

(** ** Types *)
Lemma ety_eqb_eq a b : ety_eqb a b = true <-> a = b.
Proof. destruct a, b; cbn; split; congruence. Qed.
Lemma lty_eqb_eq a b : lty_eqb a b = true <-> a = b.
Proof.
  destruct a as [|a|a], b as [|b|b]; cbn; try (split; congruence).
  all: rewrite ety_eqb_eq; split; congruence.
Qed.
Lemma mty_eqb_eq a b : mty_eqb a b = true <-> a = b.
Proof.
  destruct a as [a|a1 a2], b as [b|b1 b2]; cbn; try (split; congruence).
  - rewrite lty_eqb_eq. split; congruence.
  - rewrite andb_true_iff, !lty_eqb_eq. split; [intros [-> ->]|intros [= -> ->]]; auto.
Qed.
Lemma mty_eqb_refl a : mty_eqb a a = true. Proof. now apply mty_eqb_eq. Qed.

Lemma get_index_in t l : In t l -> nth_error l (get_index t l) = Some t.
Proof.
  induction l as [|x l IH]; [contradiction|]. intros H. cbn [get_index].
  destruct (mty_eqb t x) eqn:E; [apply mty_eqb_eq in E; now subst|].
  destruct H as [->|H]; [rewrite mty_eqb_refl in E; discriminate|]. now apply IH.
Qed.
Lemma get_index_out t l : ~ In t l -> get_index t l = length l.
Proof.
  induction l as [|x l IH]; [reflexivity|]. intros H. cbn [get_index length].
  destruct (mty_eqb t x) eqn:E; [apply mty_eqb_eq in E; subst; cbn in H; tauto|]. f_equal. apply IH. cbn in H; tauto.
Qed.
Lemma get_index_lt t l : In t l <-> get_index t l < length l.
Proof.
  split.
  - intros H. apply get_index_in in H. apply nth_error_Some. congruence.
  - intros H. destruct (in_dec (fun a b => match bool_dec (mty_eqb a b) true with
      | left e => left (proj1 (mty_eqb_eq a b) e)
      | right n => right (fun e => n (proj2 (mty_eqb_eq a b) e)) end) t l) as [|N]; auto.
    rewrite (get_index_out t l N) in H. lia.
Qed.
Lemma get_index_inj t u l : In t l -> get_index t l = get_index u l -> t = u.
Proof.
  intros H E. assert (Hu : In u l) by (apply get_index_lt; rewrite <- E; now apply get_index_lt).
  apply get_index_in in H, Hu. congruence.
Qed.

Definition all_ready : mty -> bool := fun _ => true.

(** Table dispatch. *)
Lemma exec_dyn_2dim_ok {R} ready (op : dyn F D -> dyn F D -> res R) a b :
  In (dyn_ty a) type_list -> In (dyn_ty b) type_list ->
  exec_dyn_2dim ready op (Some a) (Some b) = if ready (dyn_ty a) then op a b else Throw.
Proof.
  intros Ha Hb. unfold exec_dyn_2dim, dyn_table, type_index. cbn [deref bind].
  rewrite nth_error_map, (get_index_in _ _ Ha). cbn [option_map].
  rewrite nth_error_map, (get_index_in _ _ Hb). cbn [option_map].
  destruct (ready (dyn_ty a)); [|reflexivity]. unfold functor. now rewrite !mty_eqb_refl.
Qed.

Lemma exec_if_first {T R} exc dbg (p : T -> bool) (e : T -> res R) l t :
  (forall x, In x l -> p x = true -> x = t) -> In t l -> p t = true -> exec_if exc dbg p e l = e t.
Proof.
  induction l as [|x l IH]; [contradiction|]. intros H Hin Hp. destruct l as [|y l].
  - destruct Hin as [->|[]]. cbn. now rewrite Hp.
  - cbn [exec_if]. destruct (p x) eqn:E.
    + now rewrite (H x (or_introl eq_refl) E).
    + apply IH; auto. { intros z Hz. apply H. now right. }
      destruct Hin as [->|?]; [congruence|auto].
Qed.

Lemma exec_member_ok {R} exc dbg (f : dyn F D -> res R) a : In (dyn_ty a) type_list ->
  exec_member exc dbg f (Some a) = f a.
Proof.
  intros Ha. unfold exec_member. cbn [deref bind].
  rewrite (exec_if_first exc dbg _ _ type_list (dyn_ty a)).
  - now rewrite mty_eqb_refl.
  - intros x Hx E. apply Nat.eqb_eq in E. eapply get_index_inj; eauto.
  - exact Ha.
  - apply Nat.eqb_eq. reflexivity.
Qed.

Lemma rep_dims d r c g : rep ar d r c g -> dy_rows d = Ok r /\ dy_cols d = Ok c.
Proof.
  destruct d as [l|t1 t2 [a|] [b|]]; cbn [rep dy_rows dy_cols deref bind]; try contradiction.
  - intros H. destruct (rep_leaf_dims ar l r c g H) as [-> ->]. auto.
  - intros (_ & _ & g1 & g2 & H & _). destruct (rep_leaf_dims ar a r c g1 H) as [-> ->]. auto.
Qed.

Lemma dense_of_ptr_gen exc dbg d r c g : rep ar d r c g -> In (dyn_ty d) type_list -> law0 d ->
  exists e, dense_of_ptr ar exc dbg (Some d) = Ok e /\ is_mat e r c g /\ d_orient e = ColMajor /\ d_own e = true.
Proof.
  intros H Hin H0. unfold dense_of_ptr. rewrite exec_member_ok by auto.
  destruct (dense_of_dyn_spec dbg d r c g H H0) as (e & E & M & O & W). rewrite E. cbn [bind].
  eexists. split; [reflexivity|]. destruct e as [[oo rr cc sb lr lc ba] fu bb ow]. cbn in *.
  destruct M as [(W1 & W2 & W3) V]. cbn in W1, W2. subst sb ba oo ow.
  unfold d_swap. cbn. split; [|split; reflexivity].
  split; [|exact V]. repeat split. exact W3.
Qed.
Lemma dense_of_ptr_spec exc dbg d r c g : rep ar d r c g -> In (dyn_ty d) type_list ->
  (forall x, addD ar x (d0 ar) = x) ->
  exists e, dense_of_ptr ar exc dbg (Some d) = Ok e /\ is_mat e r c g /\ d_orient e = ColMajor /\ d_own e = true.
Proof. intros H Hin H0. apply dense_of_ptr_gen; auto. now apply law0_all. Qed.

Lemma mul_lty_in a b : In (TL a) type_list -> In (TL b) type_list -> In (TL (mul_lty a b)) type_list.
Proof.
  intros _ _. destruct a as [|[]|[]], b as [|[]|[]]; cbn; tauto.
Qed.
Lemma lty_in t : In (TL t) type_list.
Proof. destruct t as [|[]|[]]; cbn; tauto. Qed.

End NoLaw.

(** ** Exact arithmetic *)
Section P.
Context {F D : Type} (ar : arith F D) {SD : Scalar D} (X : exact ar).

Let RL : RingLaws D := ex_ring ar X.
#[local] Existing Instance RL.

Lemma add0D : forall x, addD ar x (d0 ar) = x.
Proof. intros x. rewrite (ex_addD ar X), (ex_d0 ar X). apply add0r. Qed.

Lemma sum_n_add n (h k : nat -> D) : sum_n n (fun i => sadd (h i) (k i)) = sadd (sum_n n h) (sum_n n k).
Proof.
  induction n as [|n IH]; cbn [sum_n]; [symmetry; apply r_add0l|]. rewrite IH.
  rewrite <- (r_addA (sum_n n h) (sum_n n k) (sadd (h n) (k n))).
  rewrite (r_addA (sum_n n k) (h n) (k n)), (r_addC (sum_n n k) (h n)).
  rewrite <- (r_addA (h n) (sum_n n k) (k n)). apply r_addA.
Qed.
Lemma sum_n_ext n (h k : nat -> D) : (forall i, i < n -> h i = k i) -> sum_n n h = sum_n n k.
Proof. induction n; intros H; cbn; [reflexivity|]. rewrite IHn by (intros; apply H; lia). now rewrite H by lia. Qed.

Lemma mat_prod_add_r n (f g h : nat -> nat -> D) i j :
  mat_prod n f (fun i j => sadd (g i j) (h i j)) i j = sadd (mat_prod n f g i j) (mat_prod n f h i j).
Proof. unfold mat_prod. rewrite <- sum_n_add. apply sum_n_ext. intros. apply r_mulDr. Qed.
Lemma mat_prod_add_l n (f g h : nat -> nat -> D) i j :
  mat_prod n (fun i j => sadd (f i j) (g i j)) h i j = sadd (mat_prod n f h i j) (mat_prod n g h i j).
Proof. unfold mat_prod. rewrite <- sum_n_add. apply sum_n_ext. intros. apply r_mulDl. Qed.

Lemma plus_spec dbg a b r c ga gb : rep_leaf ar a r c ga -> rep_leaf ar b r c gb ->
  exists e, bin_leaf ar Plus dbg a b = Ok e /\ leaf_ty e = add_lty (leaf_ty a) (leaf_ty b) /\
    rep_leaf ar e r c (fun i j => sadd (ga i j) (gb i j)).
Proof. intros Ha Hb. exact (bin_leaf_spec ar X Plus dbg a b r c ga gb Ha Hb eq_refl). Qed.

Lemma rep_DM t1 t2 m1 m2 r c g : rep ar (DM t1 t2 m1 m2) r c g ->
  exists a b g1 g2, m1 = Some a /\ m2 = Some b /\ leaf_ty a = t1 /\ leaf_ty b = t2 /\
    rep_leaf ar a r c g1 /\ rep_leaf ar b r c g2 /\
    forall i j, i < r -> j < c -> g i j = sadd (g1 i j) (g2 i j).
Proof.
  destruct m1 as [a|], m2 as [b|]; cbn [rep]; try contradiction.
  intros (E1 & E2 & g1 & g2 & Ha & Hb & E). exists a, b, g1, g2. repeat split; auto.
  intros. rewrite E by auto. apply (ex_addD ar X).
Qed.

Lemma mul_dyn_spec p dbg a b m n l ga gb :
  rep ar a m n ga -> rep ar b n l gb -> fits p m n l -> float_exact ar p ->
  exists c, mul_dyn ar p dbg a b = Ok c /\ leaf_ty c = mul_mty (dyn_ty a) (dyn_ty b) /\
    rep_leaf ar c m l (mat_prod n ga gb).
Proof.
  intros Ha Hb Hf He. destruct a as [a|t1 t2 a1 a2], b as [b|u1 u2 b1 b2].
  - exact (mul_leaf_spec ar X p dbg a b m n l ga gb Ha Hb Hf He).
  - apply rep_DM in Hb as (x & y & g1 & g2 & -> & -> & T1 & T2 & H1 & H2 & E). cbn [mul_dyn deref bind rep] in *.
    destruct (mul_leaf_spec ar X p dbg a x m n l ga g1 Ha H1 Hf He) as (c1 & E1 & Y1 & R1).
    destruct (mul_leaf_spec ar X p dbg a y m n l ga g2 Ha H2 Hf He) as (c2 & E2 & Y2 & R2).
    rewrite E1, E2. cbn [bind].
    destruct (plus_spec dbg c1 c2 m l _ _ R1 R2) as (c & Ec & Yc & Rc).
    exists c. split; [exact Ec|]. split; [cbn; congruence|]. eapply rep_leaf_ext; [exact Rc|].
    intros i j Hi Hj. cbv beta. rewrite <- mat_prod_add_r. apply mat_prod_ext; intros; auto. symmetry; auto.
  - apply rep_DM in Ha as (x & y & g1 & g2 & -> & -> & T1 & T2 & H1 & H2 & E). cbn [mul_dyn deref bind rep] in *.
    destruct (mul_leaf_spec ar X p dbg x b m n l g1 gb H1 Hb Hf He) as (c1 & E1 & Y1 & R1).
    destruct (mul_leaf_spec ar X p dbg y b m n l g2 gb H2 Hb Hf He) as (c2 & E2 & Y2 & R2).
    rewrite E1, E2. cbn [bind].
    destruct (plus_spec dbg c1 c2 m l _ _ R1 R2) as (c & Ec & Yc & Rc).
    exists c. split; [exact Ec|]. split; [cbn; congruence|]. eapply rep_leaf_ext; [exact Rc|].
    intros i j Hi Hj. cbv beta. rewrite <- mat_prod_add_l. apply mat_prod_ext; intros; auto. symmetry; auto.
  - apply rep_DM in Ha as (x & y & g1 & g2 & -> & -> & T1 & T2 & H1 & H2 & E).
    apply rep_DM in Hb as (v & w & h1 & h2 & -> & -> & U1 & U2 & K1 & K2 & E'). cbn [mul_dyn deref bind rep] in *.
    destruct (mul_leaf_spec ar X p dbg x v m n l g1 h1 H1 K1 Hf He) as (c1 & E1 & Y1 & R1).
    destruct (mul_leaf_spec ar X p dbg x w m n l g1 h2 H1 K2 Hf He) as (c2 & E2 & Y2 & R2).
    destruct (mul_leaf_spec ar X p dbg y v m n l g2 h1 H2 K1 Hf He) as (c3 & E3 & Y3 & R3).
    destruct (mul_leaf_spec ar X p dbg y w m n l g2 h2 H2 K2 Hf He) as (c4 & E4 & Y4 & R4).
    rewrite E1, E2, E3, E4. cbn [bind].
    destruct (plus_spec dbg c1 c2 m l _ _ R1 R2) as (s1 & Es1 & Ys1 & Rs1). rewrite Es1. cbn [bind].
    destruct (plus_spec dbg s1 c3 m l _ _ Rs1 R3) as (s2 & Es2 & Ys2 & Rs2). rewrite Es2. cbn [bind].
    destruct (plus_spec dbg s2 c4 m l _ _ Rs2 R4) as (s3 & Es3 & Ys3 & Rs3).
    exists s3. split; [exact Es3|]. split; [cbn; congruence|]. eapply rep_leaf_ext; [exact Rs3|].
    intros i j Hi Hj. cbv beta.
    transitivity (mat_prod n (fun i j => sadd (g1 i j) (g2 i j)) (fun i j => sadd (h1 i j) (h2 i j)) i j).
    + rewrite mat_prod_add_l, !mat_prod_add_r. now rewrite <- !r_addA.
    + apply mat_prod_ext; intros; symmetry; auto.
Qed.

Lemma add_dyn_spec dbg a b r c ga gb :
  rep ar a r c ga -> rep ar b r c gb ->
  exists e, add_dyn ar dbg a b = Ok e /\ leaf_ty e = add_mty (dyn_ty a) (dyn_ty b) /\
    rep_leaf ar e r c (fun i j => sadd (ga i j) (gb i j)).
Proof.
  intros Ha Hb. destruct a as [a|t1 t2 a1 a2], b as [b|u1 u2 b1 b2].
  - exact (plus_spec dbg a b r c ga gb Ha Hb).
  - apply rep_DM in Hb as (x & y & g1 & g2 & -> & -> & T1 & T2 & H1 & H2 & E). cbn [add_dyn deref bind rep] in *.
    destruct (plus_spec dbg a x r c _ _ Ha H1) as (s1 & Es1 & Ys1 & Rs1). rewrite Es1. cbn [bind].
    destruct (plus_spec dbg s1 y r c _ _ Rs1 H2) as (s2 & Es2 & Ys2 & Rs2).
    exists s2. split; [exact Es2|]. split; [cbn; congruence|]. eapply rep_leaf_ext; [exact Rs2|].
    intros i j Hi Hj. cbv beta. rewrite E by auto. symmetry; apply r_addA.
  - apply rep_DM in Ha as (x & y & g1 & g2 & -> & -> & T1 & T2 & H1 & H2 & E). cbn [add_dyn deref bind rep] in *.
    destruct (plus_spec dbg x y r c _ _ H1 H2) as (s1 & Es1 & Ys1 & Rs1). rewrite Es1. cbn [bind].
    destruct (plus_spec dbg s1 b r c _ _ Rs1 Hb) as (s2 & Es2 & Ys2 & Rs2).
    exists s2. split; [exact Es2|]. split; [cbn; congruence|]. eapply rep_leaf_ext; [exact Rs2|].
    intros i j Hi Hj. cbv beta. now rewrite E by auto.
  - apply rep_DM in Ha as (x & y & g1 & g2 & -> & -> & T1 & T2 & H1 & H2 & E).
    apply rep_DM in Hb as (v & w & h1 & h2 & -> & -> & U1 & U2 & K1 & K2 & E'). cbn [add_dyn deref bind rep] in *.
    destruct (plus_spec dbg x y r c _ _ H1 H2) as (s1 & Es1 & Ys1 & Rs1). rewrite Es1. cbn [bind].
    destruct (plus_spec dbg s1 v r c _ _ Rs1 K1) as (s2 & Es2 & Ys2 & Rs2). rewrite Es2. cbn [bind].
    destruct (plus_spec dbg s2 w r c _ _ Rs2 K2) as (s3 & Es3 & Ys3 & Rs3).
    exists s3. split; [exact Es3|]. split; [cbn; congruence|]. eapply rep_leaf_ext; [exact Rs3|].
    intros i j Hi Hj. cbv beta. rewrite E, E' by auto. symmetry; apply r_addA.
Qed.

Lemma sub_assoc (x y z : D) : ssub (ssub x y) z = ssub x (sadd y z).
Proof.
  rewrite !r_sub. rewrite <- r_addA. f_equal.
  (* - y - z = - (y + z) *)
  assert (U : forall a b : D, sadd a b = s0 -> b = sopp a).
  { intros a b H. rewrite <- (r_add0l b), <- (r_oppr a), (r_addC a), <- r_addA, H. apply add0r. }
  apply U. rewrite r_addA, <- (r_addA y z (sopp y)), (r_addC z), (r_addA y), r_oppr, r_add0l. apply r_oppr.
Qed.

Lemma sub_dyn_spec dbg a b r c ga gb :
  rep ar a r c ga -> rep ar b r c gb -> sub_ok (dyn_ty a) (dyn_ty b) = true ->
  exists e, sub_dyn ar dbg a b = Ok e /\ leaf_ty e = add_mty (dyn_ty a) (dyn_ty b) /\
    rep_leaf ar e r c (fun i j => ssub (ga i j) (gb i j)).
Proof.
  intros Ha Hb Hok. destruct a as [a|t1 t2 a1 a2], b as [b|u1 u2 b1 b2].
  - exact (bin_leaf_spec ar X Minus dbg a b r c ga gb Ha Hb Hok).
  - apply rep_DM in Hb as (x & y & g1 & g2 & -> & -> & T1 & T2 & H1 & H2 & E). cbn [sub_dyn deref bind rep dyn_ty sub_ok] in *.
    apply andb_true_iff in Hok as [O1 O2]. rewrite <- T1 in O1, O2. rewrite <- T2 in O2.
    destruct (bin_leaf_spec ar X Minus dbg a x r c _ _ Ha H1 O1) as (s1 & Es1 & Ys1 & Rs1). rewrite Es1. cbn [bind].
    destruct (bin_leaf_spec ar X Minus dbg s1 y r c _ _ Rs1 H2) as (s2 & Es2 & Ys2 & Rs2).
    { cbn [op_ok]. now rewrite Ys1. }
    exists s2. split; [exact Es2|]. split; [cbn; congruence|]. eapply rep_leaf_ext; [exact Rs2|].
    intros i j Hi Hj. cbv beta. cbn [bop]. rewrite E by auto. apply sub_assoc.
  - apply rep_DM in Ha as (x & y & g1 & g2 & -> & -> & T1 & T2 & H1 & H2 & E). cbn [sub_dyn deref bind rep dyn_ty sub_ok] in *.
    rewrite <- T1, <- T2 in Hok.
    destruct (plus_spec dbg x y r c _ _ H1 H2) as (s1 & Es1 & Ys1 & Rs1). rewrite Es1. cbn [bind].
    destruct (bin_leaf_spec ar X Minus dbg s1 b r c _ _ Rs1 Hb) as (s2 & Es2 & Ys2 & Rs2).
    { cbn [op_ok]. now rewrite Ys1. }
    exists s2. split; [exact Es2|]. split; [cbn; congruence|]. eapply rep_leaf_ext; [exact Rs2|].
    intros i j Hi Hj. cbv beta. cbn [bop]. now rewrite E by auto.
  - discriminate.
Qed.

(** Dense double D += / -= anything. *)
Lemma asg_dyn_LDd_spec o dbg d b r c g gb : d_orient d = ColMajor -> is_mat d r c g -> rep ar b r c gb ->
  exists e, asg_dyn ar o dbg (DL (LDd d)) b = Ok (DL (LDd e)) /\ d_orient e = ColMajor /\
    is_mat e r c (fun i j => bop o (g i j) (gb i j)).
Proof.
  intros O M Hb.
  assert (H0 : forall o x, binD ar o x (d0 ar) = x).
  { intros o' x. rewrite (binD_ok ar X), (ex_d0 ar X). apply (bop_0r ar X). }
  destruct b as [b|u1 u2 b1 b2].
  - cbn [asg_dyn rep] in *. destruct (asg_LDd_spec ar o dbg d b r c g gb O M Hb (H0 o)) as (m & E & Mm).
    rewrite E. eexists. split; [reflexivity|]. split; [exact O|]. eapply is_mat_ext; [exact Mm|]. intros; apply (binD_ok ar X).
  - apply rep_DM in Hb as (x & y & g1 & g2 & -> & -> & T1 & T2 & H1 & H2 & E). cbn [asg_dyn deref bind rep] in *. destruct o.
    + destruct (plus_spec dbg x y r c _ _ H1 H2) as (s1 & Es1 & Ys1 & Rs1). rewrite Es1. cbn [bind].
      destruct (asg_LDd_spec ar Plus dbg d s1 r c g _ O M Rs1 (H0 Plus)) as (m & Em & Mm).
      rewrite Em. eexists. split; [reflexivity|]. split; [exact O|]. eapply is_mat_ext; [exact Mm|].
      intros i j Hi Hj. cbv beta. rewrite (binD_ok ar X). cbn [bop]. now rewrite E.
    + destruct (asg_LDd_spec ar Minus dbg d x r c g _ O M H1 (H0 Minus)) as (m & Em & Mm). rewrite Em. cbn [bind].
      destruct (asg_LDd_spec ar Minus dbg _ y r c _ _ (O : d_orient (with_buf d m) = ColMajor) Mm H2 (H0 Minus)) as (m2 & Em2 & Mm2).
      rewrite Em2. eexists. split; [reflexivity|]. split; [exact O|]. eapply is_mat_ext; [exact Mm2|].
      intros i j Hi Hj. cbv beta. rewrite !(binD_ok ar X). cbn [bop]. rewrite E by auto. apply sub_assoc.
Qed.

End P.
