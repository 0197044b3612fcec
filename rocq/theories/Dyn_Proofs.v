(** Proofs about one-part and two-part matrices. *)
From Verif Require Import Base BaseLemmas Dense_Model Dense_Spec Dense_Proofs Dense2_Proofs Sparse_Model Sparse_Spec
  Sparse_Proofs Sparse2_Proofs Sparse3_Proofs Sparse4_Proofs SparseT_Proofs SparseP_Proofs
  Mult_Model Mult_Spec Mult_Proofs Mult2_Proofs Mult3_Proofs Dyn_Model Dyn_Spec.

Section P.
Context {F D : Type} (ar : arith F D) {SD : Scalar D} (X : exact ar).

Let RL : RingLaws D := ex_ring ar X.
#[local] Existing Instance RL.

Lemma prod_ss_exact {A B C} (ta : A -> D) (tb : B -> D) (tc : C -> D) fma zero n fa fb i j :
  tc zero = s0 -> (forall c x y, tc (fma c x y) = sadd (tc c) (smul (ta x) (tb y))) ->
  tc (prod_ss_at fma zero n fa fb i j) =
  mat_prod n (fun i j => dflt s0 (option_map ta (fa i j))) (fun i j => dflt s0 (option_map tb (fb i j))) i j.
Proof.
  intros H0 H. unfold prod_ss_at, mat_prod. induction n as [|n IH]; [exact H0|].
  rewrite seq_S, fold_left_app. cbn [fold_left sum_n Nat.add].
  destruct (fa i n) as [x|], (fb n j) as [y|]; cbn [option_map dflt].
  - rewrite H, IH. reflexivity.
  - rewrite IH, r_mul0r, add0r. reflexivity.
  - rewrite IH, r_mul0l, add0r. reflexivity.
  - rewrite IH, r_mul0l, add0r. reflexivity.
Qed.

Lemma mat_prod_ext n (f f' g g' : nat -> nat -> D) i j :
  (forall k, k < n -> f i k = f' i k) -> (forall k, k < n -> g k j = g' k j) ->
  mat_prod n f g i j = mat_prod n f' g' i j.
Proof.
  unfold mat_prod. induction n as [|n IH]; intros Hf Hg; [reflexivity|].
  cbn [sum_n]. rewrite IH by (intros; auto with arith). rewrite Hf, Hg by lia. reflexivity.
Qed.

Lemma sum_n_zero n (h : nat -> D) : (forall k, k < n -> h k = s0) -> sum_n n h = s0.
Proof.
  induction n as [|n IH]; intros H; [reflexivity|]. cbn [sum_n].
  rewrite IH by (intros; apply H; lia). rewrite H by lia. apply r_add0l.
Qed.

Lemma dot_exact {A} (ta : A -> D) (dot : list (A * A) -> A) :
  (forall l, ta (dot l) = fold_left (fun acc p => sadd acc (smul (ta (fst p)) (ta (snd p)))) l s0) ->
  forall n (fa fb : nat -> nat -> A) i j,
    ta (dot (map (fun k => (fa i k, fb k j)) (seq 0 n))) =
    mat_prod n (fun i j => ta (fa i j)) (fun i j => ta (fb i j)) i j.
Proof.
  intros H n fa fb i j. rewrite H, fold_left_map. cbn [fst snd].
  unfold mat_prod. induction n as [|n IH]; [reflexivity|].
  rewrite seq_S, fold_left_app. cbn [fold_left sum_n Nat.add]. now rewrite IH.
Qed.

Lemma dot_flat_exact {A} (ta : A -> D) (dot : list (A * A) -> A) :
  (forall l, ta (dot l) = fold_left (fun acc p => sadd acc (smul (ta (fst p)) (ta (snd p)))) l s0) ->
  forall n (fa : nat -> nat -> option A) (fb : nat -> nat -> A) i j,
    ta (dot (flat_map (fun k => match fa i k with Some x => [(x, fb k j)] | None => [] end) (seq 0 n))) =
    mat_prod n (fun i j => dflt s0 (option_map ta (fa i j))) (fun i j => ta (fb i j)) i j.
Proof.
  intros H n fa fb i j. rewrite H, fold_left_flat_map.
  unfold mat_prod. induction n as [|n IH]; [reflexivity|].
  rewrite seq_S, fold_left_app. cbn [fold_left sum_n Nat.add]. rewrite IH.
  destruct (fa i n) as [x|]; cbn [fold_left option_map dflt fst snd]; [reflexivity|].
  now rewrite r_mul0l, add0r.
Qed.

Lemma rep_leaf_ext l r c g g' : rep_leaf ar l r c g -> (forall i j, i < r -> j < c -> g i j = g' i j) ->
  rep_leaf ar l r c g'.
Proof.
  intros H E. destruct l; cbn [rep_leaf] in *.
  - destruct H as (Hr & Hc & H). repeat split; auto. intros. rewrite <- E; auto.
  - destruct H as (O & f & M & H). split; auto. exists f. split; auto. intros. rewrite <- E; auto.
  - destruct H as (O & f & M & H). split; auto. exists f. split; auto. intros. rewrite <- E; auto.
  - destruct H as (O & f & M & H). split; auto. exists f. split; auto. intros. rewrite <- E; auto.
  - destruct H as (O & M). split; auto. eapply is_mat_ext; eauto.
Qed.

Lemma rep_leaf_dims l r c g : rep_leaf ar l r c g -> l_rows l = r /\ l_cols l = c.
Proof.
  destruct l; cbn [rep_leaf l_rows l_cols].
  - tauto.
  - intros (_ & f & (_ & ? & ? & _) & _); auto.
  - intros (_ & f & (_ & ? & ? & _) & _); auto.
  - intros (_ & f & (_ & ? & ? & _) & _); auto.
  - intros (_ & _ & ? & ? & _); auto.
Qed.

(** Result shapes. *)
Lemma rep_LDd_intro d m l h g : d_orient d = ColMajor -> is_mat d m l h ->
  (forall i j, i < m -> j < l -> h i j = g i j) -> rep_leaf ar (LDd d) m l g.
Proof. intros O M E. split; auto. eapply is_mat_ext; eauto. Qed.
Lemma rep_LDf_intro d m l h g : d_orient d = ColMajor -> is_mat d m l h ->
  (forall i j, i < m -> j < l -> toD ar (h i j) = g i j) -> rep_leaf ar (LDf d) m l g.
Proof. intros O M E. split; auto. exists h. split; auto. intros; symmetry; auto. Qed.
Lemma rep_LSd_intro s m l h g : s_o s = ColMajor -> sp_mat s m l h ->
  (forall i j, i < m -> j < l -> dflt s0 (h i j) = g i j) -> rep_leaf ar (LSd s) m l g.
Proof. intros O M E. split; auto. exists h. split; auto. intros; rewrite (ex_d0 ar X); symmetry; auto. Qed.
Lemma rep_LSf_intro s m l h g : s_o s = ColMajor -> sp_mat s m l h ->
  (forall i j, i < m -> j < l -> dflt s0 (option_map (toD ar) (h i j)) = g i j) -> rep_leaf ar (LSf s) m l g.
Proof. intros O M E. split; auto. exists h. split; auto. intros; rewrite (ex_d0 ar X); symmetry; auto. Qed.

Lemma fmaD_ok c x y : fmaD ar c x y = sadd c (smul x y). Proof. apply (ex_fmaD ar X). Qed.

Lemma dflt_id (o : option D) : dflt s0 (option_map (fun x => x) o) = dflt s0 o.
Proof. now destruct o. Qed.

Lemma nzF_dflt (v : F) : dflt s0 (option_map (toD ar) (if fnz ar v then Some v else None)) = toD ar v.
Proof.
  rewrite (ex_fnz ar X). destruct (s_nz (toD ar v)) eqn:E; cbn; [reflexivity|]. symmetry. now apply r_nz.
Qed.
Lemma nzD_dflt (v : D) : dflt s0 (if dnz ar v then Some v else None) = v.
Proof.
  rewrite (ex_dnz ar X). destruct (s_nz v) eqn:E; cbn; [reflexivity|]. symmetry. now apply r_nz.
Qed.

Ltac ext_mp := apply mat_prod_ext; intros ? ?; cbv beta; symmetry;
  try reflexivity;
  match goal with H : forall i j, _ -> _ -> _ i j = _ |- _ => rewrite H by lia end;
  rewrite ?(ex_d0 ar X), ?dflt_id; try reflexivity.

Lemma mul_leaf_spec p dbg a b m n l ga gb :
  rep_leaf ar a m n ga -> rep_leaf ar b n l gb -> fits p m n l -> float_exact ar p ->
  exists c, mul_leaf ar p dbg a b = Ok c /\ leaf_ty c = mul_lty (leaf_ty a) (leaf_ty b) /\
    rep_leaf ar c m l (mat_prod n ga gb).
Proof.
  intros Ha Hb Hfit Hfe.
  destruct (rep_leaf_dims _ _ _ _ Ha) as [Ra Ca]. destruct (rep_leaf_dims _ _ _ _ Hb) as [Rb Cb].
  (* a zero operand *)
  assert (HZ : (exists z, a = LZ z) \/ (exists z, b = LZ z) ->
     exists c, rmap LZ (mul_zero dbg (l_rows a) (l_cols a) (l_rows b) (l_cols b) (z_new 0 0)) = Ok c /\
       leaf_ty c = @leaf_ty F D (LZ (z_new 0 0)) /\ rep_leaf ar c m l (mat_prod n ga gb)).
  { intros Hz. rewrite Ra, Ca, Rb, Cb. unfold mul_zero, cassert. rewrite Nat.eqb_refl, andb_false_r. cbn [bind rmap].
    eexists. split; [reflexivity|]. split; [reflexivity|]. cbn [rep_leaf]. repeat split; auto.
    intros i j Hi Hj. rewrite (ex_d0 ar X). apply sum_n_zero. intros k Hk. cbv beta.
    destruct Hz as [[z ->]|[z ->]].
    - destruct Ha as (_ & _ & H). rewrite H, (ex_d0 ar X) by auto. apply r_mul0l.
    - destruct Hb as (_ & _ & H). rewrite H, (ex_d0 ar X) by auto. apply r_mul0r. }
  assert (FD : forall c x y, fma_fd ar c x y = sadd c (smul (toD ar x) y)) by (intros; apply (ex_fmaD ar X)).
  assert (DF : forall c x y, fma_df ar c x y = sadd c (smul x (toD ar y))) by (intros; apply (ex_fmaD ar X)).
  assert (DD : forall c x y, fmaD ar c x y = sadd c (smul x y)) by apply (ex_fmaD ar X).
  assert (FF : forall c x y, toD ar (fmaF ar c x y) = sadd (toD ar c) (smul (toD ar x) (toD ar y))) by apply (ex_fmaF ar X).
  pose proof (ex_f0 ar X) as Zf. pose proof (ex_d0 ar X) as Zd.
  destruct a as [za|sa|sa|da|da], b as [zb|sb|sb|db|db]; try (apply HZ; eauto; fail).
  - destruct Ha as (Oa & fa & Ma & Ga), Hb as (Ob & fb & Mb & Gb).
    destruct (mul_ss_spec (fmaF ar) (f0 ar) (fnz ar) dbg sa sb (s_default ColMajor) m n l fa fb Ma Oa Mb Ob eq_refl) as (s & E & O & M).
    exists (LSf s). cbn [mul_leaf]. rewrite E. split; [reflexivity|]. split; [reflexivity|].
    eapply rep_LSf_intro; [exact O|exact M|]. intros i j Hi Hj. cbv beta zeta. rewrite nzF_dflt.
    rewrite (prod_ss_exact (toD ar) (toD ar) (toD ar)) by auto. ext_mp.
  - destruct Ha as (Oa & fa & Ma & Ga), Hb as (Ob & fb & Mb & Gb).
    destruct (mul_ss_spec (fma_fd ar) (d0 ar) (dnz ar) dbg sa sb (s_default ColMajor) m n l fa fb Ma Oa Mb Ob eq_refl) as (s & E & O & M).
    exists (LSd s). cbn [mul_leaf]. rewrite E. split; [reflexivity|]. split; [reflexivity|].
    eapply rep_LSd_intro; [exact O|exact M|]. intros i j Hi Hj. cbv beta zeta. rewrite nzD_dflt.
    rewrite (prod_ss_exact (toD ar) (fun x => x) (fun x => x)) by auto. ext_mp.
  - destruct Ha as (Oa & fa & Ma & Ga), Hb as (Ob & fb & Mb & Gb).
    destruct (mul_sd_spec (fmaF ar) (f0 ar) dbg sa db (d_default ColMajor) m n l fa fb Ma Oa Mb Ob (default_fresh _) eq_refl) as (s & E & M & _ & O & _).
    exists (LDf s). cbn [mul_leaf]. rewrite E. split; [reflexivity|]. split; [reflexivity|].
    eapply rep_LDf_intro; [exact O|exact M|]. intros i j Hi Hj. cbv beta zeta.
    etransitivity; [exact (prod_ss_exact (toD ar) (toD ar) (toD ar) (fmaF ar) (f0 ar) n fa (fun k j => Some (fb k j)) i j Zf FF)|]. ext_mp.
  - destruct Ha as (Oa & fa & Ma & Ga), Hb as (Ob & Mb).
    destruct (mul_sd_spec (fma_fd ar) (d0 ar) dbg sa db (d_default ColMajor) m n l fa gb Ma Oa Mb Ob (default_fresh _) eq_refl) as (s & E & M & _ & O & _).
    exists (LDd s). cbn [mul_leaf]. rewrite E. split; [reflexivity|]. split; [reflexivity|].
    eapply rep_LDd_intro; [exact O|exact M|]. intros i j Hi Hj. cbv beta zeta.
    etransitivity; [exact (prod_ss_exact (toD ar) (fun x => x) (fun x => x) (fma_fd ar) (d0 ar) n fa (fun k j => Some (gb k j)) i j Zd FD)|]. ext_mp.
  - destruct Ha as (Oa & fa & Ma & Ga), Hb as (Ob & fb & Mb & Gb).
    destruct (mul_ss_spec (fma_df ar) (d0 ar) (dnz ar) dbg sa sb (s_default ColMajor) m n l fa fb Ma Oa Mb Ob eq_refl) as (s & E & O & M).
    exists (LSd s). cbn [mul_leaf]. rewrite E. split; [reflexivity|]. split; [reflexivity|].
    eapply rep_LSd_intro; [exact O|exact M|]. intros i j Hi Hj. cbv beta zeta. rewrite nzD_dflt.
    rewrite (prod_ss_exact (fun x => x) (toD ar) (fun x => x)) by auto. ext_mp.
  - destruct Ha as (Oa & fa & Ma & Ga), Hb as (Ob & fb & Mb & Gb).
    destruct (mul_ss_spec (fmaD ar) (d0 ar) (dnz ar) dbg sa sb (s_default ColMajor) m n l fa fb Ma Oa Mb Ob eq_refl) as (s & E & O & M).
    exists (LSd s). cbn [mul_leaf]. rewrite E. split; [reflexivity|]. split; [reflexivity|].
    eapply rep_LSd_intro; [exact O|exact M|]. intros i j Hi Hj. cbv beta zeta. rewrite nzD_dflt.
    rewrite (prod_ss_exact (fun x => x) (fun x => x) (fun x => x)) by auto. ext_mp.
  - destruct Ha as (Oa & fa & Ma & Ga), Hb as (Ob & fb & Mb & Gb).
    destruct (mul_sd_spec (fma_df ar) (d0 ar) dbg sa db (d_default ColMajor) m n l fa fb Ma Oa Mb Ob (default_fresh _) eq_refl) as (s & E & M & _ & O & _).
    exists (LDd s). cbn [mul_leaf]. rewrite E. split; [reflexivity|]. split; [reflexivity|].
    eapply rep_LDd_intro; [exact O|exact M|]. intros i j Hi Hj. cbv beta zeta.
    etransitivity; [exact (prod_ss_exact (fun x => x) (toD ar) (fun x => x) (fma_df ar) (d0 ar) n fa (fun k j => Some (fb k j)) i j Zd DF)|]. ext_mp.
  - destruct Ha as (Oa & fa & Ma & Ga), Hb as (Ob & Mb). cbn [mul_leaf]. unfold mul_SdDd.
    assert (E0 : exists d h, (match p with PMKL => mul_csrmm (dotD ar) dbg sa db (d_default ColMajor)
                 | _ => mul_sd (fmaD ar) (d0 ar) dbg sa db (d_default ColMajor) end) = Ok d /\ is_mat d m l h /\
               d_orient d = ColMajor /\ forall i j, i < m -> j < l -> h i j = mat_prod n ga gb i j).
    { destruct p.
      1, 2: destruct (mul_sd_spec (fmaD ar) (d0 ar) dbg sa db (d_default ColMajor) m n l fa gb Ma Oa Mb Ob (default_fresh _) eq_refl) as (s & E & M & _ & O & _);
        exists s; eexists; (split; [exact E|]); (split; [exact M|]); (split; [exact O|]); intros i j Hi Hj;
        (etransitivity; [exact (prod_ss_exact (fun x => x) (fun x => x) (fun x => x) (fmaD ar) (d0 ar) n fa (fun k j => Some (gb k j)) i j Zd DD)|]); ext_mp.
      destruct Hfit as (B1 & B2 & B3 & B4 & B5 & B6).
      destruct (mul_csrmm_spec (dotD ar) dbg sa db (d_default ColMajor) m n l fa gb Ma Oa Mb Ob (default_fresh _) eq_refl B1 B3 B4 B5 B6) as (s & E & M & _ & O & _).
      exists s; eexists; (split; [exact E|]); (split; [exact M|]); (split; [exact O|]); intros i j Hi Hj.
      etransitivity; [exact (dot_flat_exact (fun x => x) (dotD ar) (ex_dotD ar X) n fa gb i j)|]. ext_mp. }
    destruct E0 as (d & h & E & M & O & Hh). rewrite E. exists (LDd d). split; [reflexivity|]. split; [reflexivity|].
    eapply rep_LDd_intro; eauto.
  - destruct Ha as (Oa & fa & Ma & Ga), Hb as (Ob & fb & Mb & Gb).
    destruct (mul_ds_spec (fmaF ar) (f0 ar) dbg da sb (d_default ColMajor) m n l fa fb (proj2 Ma) (legal_own da (proj1 Ma)) Mb Ob (default_fresh _)) as (s & E & M & _ & O & _).
    exists (LDf s). cbn [mul_leaf]. rewrite E. split; [reflexivity|]. split; [reflexivity|].
    eapply rep_LDf_intro; [exact O|exact M|]. intros i j Hi Hj. cbv beta zeta.
    etransitivity; [exact (prod_ss_exact (toD ar) (toD ar) (toD ar) (fmaF ar) (f0 ar) n (fun i k => Some (fa i k)) fb i j Zf FF)|]. ext_mp.
  - destruct Ha as (Oa & fa & Ma & Ga), Hb as (Ob & fb & Mb & Gb).
    destruct (mul_ds_spec (fma_fd ar) (d0 ar) dbg da sb (d_default ColMajor) m n l fa fb (proj2 Ma) (legal_own da (proj1 Ma)) Mb Ob (default_fresh _)) as (s & E & M & _ & O & _).
    exists (LDd s). cbn [mul_leaf]. rewrite E. split; [reflexivity|]. split; [reflexivity|].
    eapply rep_LDd_intro; [exact O|exact M|]. intros i j Hi Hj. cbv beta zeta.
    etransitivity; [exact (prod_ss_exact (toD ar) (fun x => x) (fun x => x) (fma_fd ar) (d0 ar) n (fun i k => Some (fa i k)) fb i j Zd FD)|]. ext_mp.
  - destruct Ha as (Oa & fa & Ma & Ga), Hb as (Ob & fb & Mb & Gb). cbn [mul_leaf]. unfold mul_DfDf.
    assert (E0 : exists d h, (match p with PNative => mul_dd (fmaF ar) (f0 ar) dbg da db (d_default ColMajor)
                 | _ => mul_blas (dotF ar) dbg da db (d_default ColMajor) end) = Ok d /\ is_mat d m l h /\
               d_orient d = ColMajor /\ forall i j, i < m -> j < l -> toD ar (h i j) = mat_prod n ga gb i j).
    { destruct p.
      1: destruct (mul_dd_spec (fmaF ar) (f0 ar) dbg da db (d_default ColMajor) m n l fa fb (proj2 Ma) (or_introl (proj1 Ma)) Oa (proj2 Mb) (or_introl (proj1 Mb)) Ob (default_fresh _) eq_refl) as (s & E & M & _ & O & _);
        exists s; eexists; (split; [exact E|]); (split; [exact M|]); (split; [exact O|]); intros i j Hi Hj;
        (etransitivity; [exact (prod_ss_exact (toD ar) (toD ar) (toD ar) (fmaF ar) (f0 ar) n (fun i k => Some (fa i k)) (fun k j => Some (fb k j)) i j Zf FF)|]); ext_mp.
      all: destruct Hfit as (B1 & B2 & B3 & B4 & B5 & B6);
      destruct (mul_blas_spec (dotF ar) dbg da db (d_default ColMajor) m n l fa fb Ma Oa Mb Ob (default_fresh _) eq_refl B2 B3 ltac:(lia) B5) as (s & E & M & _ & O & _);
      exists s; eexists; (split; [exact E|]); (split; [exact M|]); (split; [exact O|]); intros i j Hi Hj;
      (etransitivity; [exact (dot_exact (toD ar) (dotF ar) (ex_dotF ar X) n fa fb i j)|]); ext_mp. }
    destruct E0 as (d & h & E & M & O & Hh). rewrite E. exists (LDf d). split; [reflexivity|]. split; [reflexivity|].
    eapply rep_LDf_intro; eauto.
  - destruct Ha as (Oa & fa & Ma & Ga), Hb as (Ob & Mb). cbn [mul_leaf]. unfold mul_DfDd.
    assert (E0 : exists d h, (match p with PMKL => mul_mixed_fd (toF ar) (toD ar) (dotF ar) dbg da db
                 | _ => mul_dd (fma_fd ar) (d0 ar) dbg da db (d_default ColMajor) end) = Ok d /\ is_mat d m l h /\
               d_orient d = ColMajor /\ forall i j, i < m -> j < l -> h i j = mat_prod n ga gb i j).
    { destruct p.
      1, 2: destruct (mul_dd_spec (fma_fd ar) (d0 ar) dbg da db (d_default ColMajor) m n l fa gb (proj2 Ma) (or_introl (proj1 Ma)) Oa (proj2 Mb) (or_introl (proj1 Mb)) Ob (default_fresh _) eq_refl) as (s & E & M & _ & O & _);
        exists s; eexists; (split; [exact E|]); (split; [exact M|]); (split; [exact O|]); intros i j Hi Hj;
        (etransitivity; [exact (prod_ss_exact (toD ar) (fun x => x) (fun x => x) (fma_fd ar) (d0 ar) n (fun i k => Some (fa i k)) (fun k j => Some (gb k j)) i j Zd FD)|]); ext_mp.
      destruct Hfit as (B1 & B2 & B3 & B4 & B5 & B6).
      destruct (mul_mixed_fd_spec (toF ar) (toD ar) (dotF ar) dbg da db m n l fa gb Ma Oa Mb Ob B2 B3 ltac:(lia) B5) as (s & E & M & _ & O & _).
      exists s; eexists; (split; [exact E|]); (split; [exact M|]); (split; [exact O|]); intros i j Hi Hj.
      etransitivity; [exact (dot_exact (toD ar) (dotF ar) (ex_dotF ar X) n fa (fun k j => toF ar (gb k j)) i j)|].
      apply mat_prod_ext; intros; [symmetry; rewrite Ga by lia; reflexivity|apply Hfe]. }
    destruct E0 as (d & h & E & M & O & Hh). rewrite E. exists (LDd d). split; [reflexivity|]. split; [reflexivity|].
    eapply rep_LDd_intro; eauto.
  - destruct Ha as (Oa & Ma), Hb as (Ob & fb & Mb & Gb).
    destruct (mul_ds_spec (fma_df ar) (d0 ar) dbg da sb (d_default ColMajor) m n l ga fb (proj2 Ma) (legal_own da (proj1 Ma)) Mb Ob (default_fresh _)) as (s & E & M & _ & O & _).
    exists (LDd s). cbn [mul_leaf]. rewrite E. split; [reflexivity|]. split; [reflexivity|].
    eapply rep_LDd_intro; [exact O|exact M|]. intros i j Hi Hj. cbv beta zeta.
    etransitivity; [exact (prod_ss_exact (fun x => x) (toD ar) (fun x => x) (fma_df ar) (d0 ar) n (fun i k => Some (ga i k)) fb i j Zd DF)|]. ext_mp.
  - destruct Ha as (Oa & Ma), Hb as (Ob & fb & Mb & Gb).
    destruct (mul_ds_spec (fmaD ar) (d0 ar) dbg da sb (d_default ColMajor) m n l ga fb (proj2 Ma) (legal_own da (proj1 Ma)) Mb Ob (default_fresh _)) as (s & E & M & _ & O & _).
    exists (LDd s). cbn [mul_leaf]. rewrite E. split; [reflexivity|]. split; [reflexivity|].
    eapply rep_LDd_intro; [exact O|exact M|]. intros i j Hi Hj. cbv beta zeta.
    etransitivity; [exact (prod_ss_exact (fun x => x) (fun x => x) (fun x => x) (fmaD ar) (d0 ar) n (fun i k => Some (ga i k)) fb i j Zd DD)|]. ext_mp.
  - destruct Ha as (Oa & Ma), Hb as (Ob & fb & Mb & Gb). cbn [mul_leaf]. unfold mul_DdDf.
    assert (E0 : exists d h, (match p with PMKL => mul_mixed_df (toF ar) (toD ar) (dotF ar) dbg da db
                 | _ => mul_dd (fma_df ar) (d0 ar) dbg da db (d_default ColMajor) end) = Ok d /\ is_mat d m l h /\
               d_orient d = ColMajor /\ forall i j, i < m -> j < l -> h i j = mat_prod n ga gb i j).
    { destruct p.
      1, 2: destruct (mul_dd_spec (fma_df ar) (d0 ar) dbg da db (d_default ColMajor) m n l ga fb (proj2 Ma) (or_introl (proj1 Ma)) Oa (proj2 Mb) (or_introl (proj1 Mb)) Ob (default_fresh _) eq_refl) as (s & E & M & _ & O & _);
        exists s; eexists; (split; [exact E|]); (split; [exact M|]); (split; [exact O|]); intros i j Hi Hj;
        (etransitivity; [exact (prod_ss_exact (fun x => x) (toD ar) (fun x => x) (fma_df ar) (d0 ar) n (fun i k => Some (ga i k)) (fun k j => Some (fb k j)) i j Zd DF)|]); ext_mp.
      destruct Hfit as (B1 & B2 & B3 & B4 & B5 & B6).
      destruct (mul_mixed_df_spec (toF ar) (toD ar) (dotF ar) dbg da db m n l ga fb Ma Oa Mb Ob B2 B3 ltac:(lia) B5) as (s & E & M & _ & O & _).
      exists s; eexists; (split; [exact E|]); (split; [exact M|]); (split; [exact O|]); intros i j Hi Hj.
      etransitivity; [exact (dot_exact (toD ar) (dotF ar) (ex_dotF ar X) n (fun i k => toF ar (ga i k)) fb i j)|].
      apply mat_prod_ext; intros; [apply Hfe|symmetry; rewrite Gb by lia; reflexivity]. }
    destruct E0 as (d & h & E & M & O & Hh). rewrite E. exists (LDd d). split; [reflexivity|]. split; [reflexivity|].
    eapply rep_LDd_intro; eauto.
  - destruct Ha as (Oa & Ma), Hb as (Ob & Mb). cbn [mul_leaf]. unfold mul_DdDd.
    assert (E0 : exists d h, (match p with PNative => mul_dd (fmaD ar) (d0 ar) dbg da db (d_default ColMajor)
                 | _ => mul_blas (dotD ar) dbg da db (d_default ColMajor) end) = Ok d /\ is_mat d m l h /\
               d_orient d = ColMajor /\ forall i j, i < m -> j < l -> h i j = mat_prod n ga gb i j).
    { destruct p.
      1: destruct (mul_dd_spec (fmaD ar) (d0 ar) dbg da db (d_default ColMajor) m n l ga gb (proj2 Ma) (or_introl (proj1 Ma)) Oa (proj2 Mb) (or_introl (proj1 Mb)) Ob (default_fresh _) eq_refl) as (s & E & M & _ & O & _);
        exists s; eexists; (split; [exact E|]); (split; [exact M|]); (split; [exact O|]); intros i j Hi Hj;
        (etransitivity; [exact (prod_ss_exact (fun x => x) (fun x => x) (fun x => x) (fmaD ar) (d0 ar) n (fun i k => Some (ga i k)) (fun k j => Some (gb k j)) i j Zd DD)|]); ext_mp.
      all: destruct Hfit as (B1 & B2 & B3 & B4 & B5 & B6);
      destruct (mul_blas_spec (dotD ar) dbg da db (d_default ColMajor) m n l ga gb Ma Oa Mb Ob (default_fresh _) eq_refl B2 B3 ltac:(lia) B5) as (s & E & M & _ & O & _);
      exists s; eexists; (split; [exact E|]); (split; [exact M|]); (split; [exact O|]); intros i j Hi Hj;
      (etransitivity; [exact (dot_exact (fun x => x) (dotD ar) (ex_dotD ar X) n ga gb i j)|]); ext_mp. }
    destruct E0 as (d & h & E & M & O & Hh). rewrite E. exists (LDd d). split; [reflexivity|]. split; [reflexivity|].
    eapply rep_LDd_intro; eauto.
Qed.


(** ** Sums and differences *)
Definition bop (o : pm) (x y : D) : D := match o with Plus => sadd x y | Minus => ssub x y end.

Definition op_ok (o : pm) (a b : lty) : bool := match o with Plus => true | Minus => minus_ok a b end.

Lemma opp0 : sopp (s0 : D) = s0.
Proof. rewrite <- (r_add0l (sopp s0)). apply r_oppr. Qed.
Lemma bop_0r o (x : D) : bop o x s0 = x.
Proof. destruct o; cbn [bop]; rewrite ?r_sub, ?opp0; apply add0r. Qed.
Lemma bop_0l o (y : D) : bop o s0 y = match o with Plus => y | Minus => sopp y end.
Proof. destruct o; cbn [bop]; rewrite ?r_sub; apply r_add0l. Qed.

Lemma comb_exact {A B C} (ta : A -> D) (tb : B -> D) (tc : C -> D) o ca ub op x y :
  (forall x, tc (ca x) = ta x) -> (forall y, tc (ub y) = match o with Plus => tb y | Minus => sopp (tb y) end) ->
  (forall x y, tc (op x y) = bop o (ta x) (tb y)) ->
  dflt s0 (option_map tc (comb ca ub op x y)) = bop o (dflt s0 (option_map ta x)) (dflt s0 (option_map tb y)).
Proof.
  intros H1 H2 H3. destruct x as [x|], y as [y|]; cbn [comb option_map dflt]; auto.
  - now rewrite H1, bop_0r.
  - now rewrite H2, bop_0l.
  - now rewrite bop_0r.
Qed.

Lemma ds_exact {A B C} (ta : A -> D) (tb : B -> D) (tc : C -> D) o (cv : A -> C) (aop : C -> B -> C) x y :
  (forall x, tc (cv x) = ta x) -> (forall c y, tc (aop c y) = bop o (tc c) (tb y)) ->
  tc (match y with Some y => aop (cv x) y | None => cv x end) = bop o (ta x) (dflt s0 (option_map tb y)).
Proof.
  intros H1 H2. destruct y as [y|]; cbn [option_map dflt].
  - now rewrite H2, H1.
  - now rewrite H1, bop_0r.
Qed.

Lemma sd_exact {A B C} (ta : A -> D) (tb : B -> D) (tc : C -> D) (cv : A -> C) (aop : C -> B -> C) x y :
  (forall x, tc (cv x) = ta x) -> (forall c y, tc (aop c y) = sadd (tc c) (tb y)) ->
  tc (match y with Some y => aop (cv x) y | None => cv x end) = sadd (dflt s0 (option_map tb y)) (ta x).
Proof. intros H1 H2. rewrite (ds_exact ta tb tc Plus cv aop x y H1 H2). cbn [bop]. apply r_addC. Qed.

Lemma binD_ok o x y : binD ar o x y = bop o x y.
Proof. destruct o; [apply (ex_addD ar X)|apply (ex_subD ar X)]. Qed.
Lemma binF_ok o x y : toD ar (binF ar o x y) = bop o (toD ar x) (toD ar y).
Proof. destruct o; [apply (ex_addF ar X)|apply (ex_subF ar X)]. Qed.
Lemma bin_fd_ok o x y : bin_fd ar o x y = bop o (toD ar x) y.
Proof. apply binD_ok. Qed.
Lemma bin_df_ok o x y : bin_df ar o x y = bop o x (toD ar y).
Proof. apply binD_ok. Qed.
Lemma unD_ok o y : unD ar o y = match o with Plus => y | Minus => sopp y end.
Proof. destruct o; [reflexivity|apply (ex_oppD ar X)]. Qed.
Lemma unF_ok o y : toD ar (unF ar o y) = match o with Plus => toD ar y | Minus => sopp (toD ar y) end.
Proof. destruct o; [reflexivity|apply (ex_oppF ar X)]. Qed.

Ltac elem := intros i j Hi Hj; cbv beta zeta;
  repeat match goal with H : forall i j, _ -> _ -> _ i j = _ |- _ => rewrite (H i j Hi Hj); clear H end;
  rewrite ?(ex_d0 ar X).

Lemma bin_leaf_spec o dbg a b r c ga gb :
  rep_leaf ar a r c ga -> rep_leaf ar b r c gb -> op_ok o (leaf_ty a) (leaf_ty b) = true ->
  exists e, bin_leaf ar o dbg a b = Ok e /\ leaf_ty e = add_lty (leaf_ty a) (leaf_ty b) /\
    rep_leaf ar e r c (fun i j => bop o (ga i j) (gb i j)).
Proof.
  intros Ha Hb Hg.
  assert (HbZ : forall z, b = LZ z -> rep_leaf ar a r c (fun i j => bop o (ga i j) (gb i j))).
  { intros z ->. eapply rep_leaf_ext; [exact Ha|]. intros i j Hi Hj. destruct Hb as (_ & _ & H).
    rewrite H, (ex_d0 ar X), bop_0r by auto. reflexivity. }
  assert (HaZ : forall z, o = Plus -> a = LZ z -> rep_leaf ar b r c (fun i j => bop o (ga i j) (gb i j))).
  { intros z -> ->. eapply rep_leaf_ext; [exact Hb|]. intros i j Hi Hj. destruct Ha as (_ & _ & H).
    rewrite H, (ex_d0 ar X), bop_0l by auto. reflexivity. }
  pose proof binD_ok as BD. pose proof binF_ok as BF. pose proof bin_fd_ok as BFD. pose proof bin_df_ok as BDF.
  pose proof unD_ok as UD. pose proof unF_ok as UF.
  destruct a as [za|sa|sa|da|da], b as [zb|sb|sb|db|db].
  - exists (LZ za). split; [reflexivity|]. split; [reflexivity|]. eapply HbZ; reflexivity.
  - destruct o; [|discriminate]. exists (LSf sb). split; [reflexivity|]. split; [reflexivity|]. eapply HaZ; reflexivity.
  - destruct o; [|discriminate]. exists (LSd sb). split; [reflexivity|]. split; [reflexivity|]. eapply HaZ; reflexivity.
  - destruct o; [|discriminate]. exists (LDf db). split; [reflexivity|]. split; [reflexivity|]. eapply HaZ; reflexivity.
  - destruct o; [|discriminate]. exists (LDd db). split; [reflexivity|]. split; [reflexivity|]. eapply HaZ; reflexivity.
  - exists (LSf sa). split; [reflexivity|]. split; [reflexivity|]. eapply HbZ; reflexivity.
  - destruct Ha as (Oa & fa & Ma & Ga), Hb as (Ob & fb & Mb & Gb).
    destruct (s_binop_spec (fun v => v) (unF ar o) (binF ar o) dbg sa sb r c fa fb Ma Mb Oa Ob) as (s & E & O & M).
    exists (LSf s). cbn [bin_leaf]. rewrite E. split; [reflexivity|]. split; [reflexivity|].
    eapply rep_LSf_intro; [exact O|exact M|]. elem. apply (comb_exact (toD ar) (toD ar) (toD ar) o); auto.
  - destruct Ha as (Oa & fa & Ma & Ga), Hb as (Ob & fb & Mb & Gb).
    destruct (s_binop_spec (toD ar) (unD ar o) (bin_fd ar o) dbg sa sb r c fa fb Ma Mb Oa Ob) as (s & E & O & M).
    exists (LSd s). cbn [bin_leaf]. rewrite E. split; [reflexivity|]. split; [reflexivity|].
    eapply rep_LSd_intro; [exact O|exact M|]. elem.
    rewrite <- dflt_id, (comb_exact (toD ar) (fun x => x) (fun x => x) o) by auto. now rewrite dflt_id.
  - destruct o; [|discriminate]. destruct Ha as (Oa & fa & Ma & Ga), Hb as (Ob & fb & Mb & Gb).
    destruct (ds_binop_spec (fun v => v) (binF ar Plus) dbg db sa r c fb fa Mb Ma Ob Oa) as (s & E & M & O & _).
    exists (LDf s). cbn [bin_leaf]. unfold sd_binop. rewrite E. split; [reflexivity|]. split; [reflexivity|].
    eapply rep_LDf_intro; [exact O|exact M|]. elem. apply (sd_exact (toD ar) (toD ar) (toD ar) (fun v => v)); auto.
    exact (BF Plus).
  - destruct o; [|discriminate]. destruct Ha as (Oa & fa & Ma & Ga), Hb as (Ob & Mb).
    destruct (ds_binop_spec (fun v => v) (bin_df ar Plus) dbg db sa r c gb fa Mb Ma Ob Oa) as (s & E & M & O & _).
    exists (LDd s). cbn [bin_leaf]. unfold sd_binop. rewrite E. split; [reflexivity|]. split; [reflexivity|].
    eapply rep_LDd_intro; [exact O|exact M|]. elem. apply (sd_exact (fun v => v) (toD ar) (fun v => v) (fun v => v)); auto.
    exact (BDF Plus).
  - exists (LSd sa). split; [reflexivity|]. split; [reflexivity|]. eapply HbZ; reflexivity.
  - destruct Ha as (Oa & fa & Ma & Ga), Hb as (Ob & fb & Mb & Gb).
    destruct (s_binop_spec (fun v => v) (fun v => toD ar (unF ar o v)) (bin_df ar o) dbg sa sb r c fa fb Ma Mb Oa Ob) as (s & E & O & M).
    exists (LSd s). cbn [bin_leaf]. rewrite E. split; [reflexivity|]. split; [reflexivity|].
    eapply rep_LSd_intro; [exact O|exact M|]. elem.
    rewrite <- dflt_id, (comb_exact (fun x => x) (toD ar) (fun x => x) o) by auto. now rewrite dflt_id.
  - destruct Ha as (Oa & fa & Ma & Ga), Hb as (Ob & fb & Mb & Gb).
    destruct (s_binop_spec (fun v => v) (unD ar o) (binD ar o) dbg sa sb r c fa fb Ma Mb Oa Ob) as (s & E & O & M).
    exists (LSd s). cbn [bin_leaf]. rewrite E. split; [reflexivity|]. split; [reflexivity|].
    eapply rep_LSd_intro; [exact O|exact M|]. elem.
    rewrite <- dflt_id, (comb_exact (fun x => x) (fun x => x) (fun x => x) o) by auto. now rewrite !dflt_id.
  - destruct o; [|discriminate]. destruct Ha as (Oa & fa & Ma & Ga), Hb as (Ob & fb & Mb & Gb).
    destruct (ds_binop_spec (toD ar) (binD ar Plus) dbg db sa r c fb fa Mb Ma Ob Oa) as (s & E & M & O & _).
    exists (LDd s). cbn [bin_leaf]. unfold sd_binop. rewrite E. split; [reflexivity|]. split; [reflexivity|].
    eapply rep_LDd_intro; [exact O|exact M|]. elem. cbn [bop]. rewrite <- dflt_id.
    apply (sd_exact (toD ar) (fun v => v) (fun v => v) (toD ar)); auto. exact (BD Plus).
  - destruct o; [|discriminate]. destruct Ha as (Oa & fa & Ma & Ga), Hb as (Ob & Mb).
    destruct (ds_binop_spec (fun v => v) (binD ar Plus) dbg db sa r c gb fa Mb Ma Ob Oa) as (s & E & M & O & _).
    exists (LDd s). cbn [bin_leaf]. unfold sd_binop. rewrite E. split; [reflexivity|]. split; [reflexivity|].
    eapply rep_LDd_intro; [exact O|exact M|]. elem. cbn [bop]. rewrite <- dflt_id.
    apply (sd_exact (fun v => v) (fun v => v) (fun v => v) (fun v => v)); auto. exact (BD Plus).
  - exists (LDf da). split; [reflexivity|]. split; [reflexivity|]. eapply HbZ; reflexivity.
  - destruct Ha as (Oa & fa & Ma & Ga), Hb as (Ob & fb & Mb & Gb).
    destruct (ds_binop_spec (fun v => v) (binF ar o) dbg da sb r c fa fb Ma Mb Oa Ob) as (s & E & M & O & _).
    exists (LDf s). cbn [bin_leaf]. rewrite E. split; [reflexivity|]. split; [reflexivity|].
    eapply rep_LDf_intro; [exact O|exact M|]. elem. apply (ds_exact (toD ar) (toD ar) (toD ar) o (fun v => v)); auto.
  - destruct Ha as (Oa & fa & Ma & Ga), Hb as (Ob & fb & Mb & Gb).
    destruct (ds_binop_spec (toD ar) (binD ar o) dbg da sb r c fa fb Ma Mb Oa Ob) as (s & E & M & O & _).
    exists (LDd s). cbn [bin_leaf]. rewrite E. split; [reflexivity|]. split; [reflexivity|].
    eapply rep_LDd_intro; [exact O|exact M|]. elem. rewrite <- dflt_id.
    apply (ds_exact (toD ar) (fun v => v) (fun v => v) o (toD ar)); auto.
  - destruct Ha as (Oa & fa & Ma & Ga), Hb as (Ob & fb & Mb & Gb).
    destruct (d_binop_spec (binF ar o) dbg da db r c fa fb Ma Mb) as (s & E & M & O & _); [congruence|].
    rewrite Oa in E, O. exists (LDf s). cbn [bin_leaf]. rewrite E. split; [reflexivity|]. split; [reflexivity|].
    eapply rep_LDf_intro; [exact O|exact M|]. elem. apply BF.
  - destruct Ha as (Oa & fa & Ma & Ga), Hb as (Ob & Mb).
    destruct (d_binop_spec (bin_fd ar o) dbg da db r c fa gb Ma Mb) as (s & E & M & O & _); [congruence|].
    rewrite Oa in E, O. exists (LDd s). cbn [bin_leaf]. rewrite E. split; [reflexivity|]. split; [reflexivity|].
    eapply rep_LDd_intro; [exact O|exact M|]. elem. apply BFD.
  - exists (LDd da). split; [reflexivity|]. split; [reflexivity|]. eapply HbZ; reflexivity.
  - destruct Ha as (Oa & Ma), Hb as (Ob & fb & Mb & Gb).
    destruct (ds_binop_spec (fun v => v) (bin_df ar o) dbg da sb r c ga fb Ma Mb Oa Ob) as (s & E & M & O & _).
    exists (LDd s). cbn [bin_leaf]. rewrite E. split; [reflexivity|]. split; [reflexivity|].
    eapply rep_LDd_intro; [exact O|exact M|]. elem. apply (ds_exact (fun v => v) (toD ar) (fun v => v) o (fun v => v)); auto.
  - destruct Ha as (Oa & Ma), Hb as (Ob & fb & Mb & Gb).
    destruct (ds_binop_spec (fun v => v) (binD ar o) dbg da sb r c ga fb Ma Mb Oa Ob) as (s & E & M & O & _).
    exists (LDd s). cbn [bin_leaf]. rewrite E. split; [reflexivity|]. split; [reflexivity|].
    eapply rep_LDd_intro; [exact O|exact M|]. elem. rewrite <- dflt_id.
    apply (ds_exact (fun v => v) (fun v => v) (fun v => v) o (fun v => v)); auto.
  - destruct Ha as (Oa & Ma), Hb as (Ob & fb & Mb & Gb).
    destruct (d_binop_spec (bin_df ar o) dbg da db r c ga fb Ma Mb) as (s & E & M & O & _); [congruence|].
    rewrite Oa in E, O. exists (LDd s). cbn [bin_leaf]. rewrite E. split; [reflexivity|]. split; [reflexivity|].
    eapply rep_LDd_intro; [exact O|exact M|]. elem. apply BDF.
  - destruct Ha as (Oa & Ma), Hb as (Ob & Mb).
    destruct (d_binop_spec (binD ar o) dbg da db r c ga gb Ma Mb) as (s & E & M & O & _); [congruence|].
    rewrite Oa in E, O. exists (LDd s). cbn [bin_leaf]. rewrite E. split; [reflexivity|]. split; [reflexivity|].
    eapply rep_LDd_intro; [exact O|exact M|]. elem. apply BD.
Qed.

End P.
