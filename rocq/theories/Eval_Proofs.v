(** Which operations the dispatched kernels perform on each element. *)
From Verif Require Import Base BaseLemmas Dense_Model Dense_Spec Dense_Proofs Dense2_Proofs Sparse_Model Sparse_Spec
  Sparse_Proofs Sparse2_Proofs Sparse3_Proofs Sparse4_Proofs SparseT_Proofs SparseP_Proofs
  Mult_Model Mult_Spec Mult_Proofs Mult2_Proofs Mult3_Proofs Dyn_Model Dyn_Spec Dyn_Proofs Eval_Spec.

Section P.
Context {F D : Type} (ar : arith F D).

Definition kept {A B} (f : nat -> option A) (g : nat -> option B) (k : nat) : bool :=
  match f k, g k with Some _, Some _ => true | _, _ => false end.

Lemma fold_kept {A B C X Y} (fma : C -> A -> B -> C) (fm : C -> X -> Y -> C) (zero : C) n f g (x : nat -> X) (y : nat -> Y) :
  (forall k c a b, k < n -> f k = Some a -> g k = Some b -> fma c a b = fm c (x k) (y k)) ->
  fold_left (fun acc k => match f k, g k with Some a, Some b => fma acc a b | _, _ => acc end) (seq 0 n) zero =
  fold_left (fun c k => fm c (x k) (y k)) (filter (kept f g) (seq 0 n)) zero.
Proof.
  intros H. induction n as [|n IH]; [reflexivity|].
  rewrite seq_S, filter_app, !fold_left_app. cbn [fold_left filter Nat.add].
  rewrite IH by (intros; apply H; auto; lia). assert (K : kept f g n = match f n, g n with Some _, Some _ => true | _, _ => false end) by reflexivity.
  rewrite K. destruct (f n) as [a|] eqn:Ef, (g n) as [b|] eqn:Eg; cbn [fold_left]; [|reflexivity..].
  apply (H n); auto.
Qed.

(** The four cases of the element types. *)
Lemma eval_DD p fl n (f g : nat -> option D) x y :
  (forall k, k < n -> x k = dflt (d0 ar) (f k)) -> (forall k, k < n -> y k = dflt (d0 ar) (g k)) ->
  dot_eval ar p fl n x y
    (fold_left (fun acc k => match f k, g k with Some a, Some b => fmaD ar acc a b | _, _ => acc end) (seq 0 n) (d0 ar)).
Proof.
  intros Hx Hy. erewrite (fold_kept (fmaD ar) (fmaD ar) _ n f g x y).
  - apply ev_fold. intros k Hk. unfold kept. specialize (Hx k Hk); specialize (Hy k Hk).
    destruct (f k), (g k); cbn in *; intros; auto; discriminate.
  - intros k c a b Hk Ea Eb. rewrite Hx, Hy, Ea, Eb by auto. reflexivity.
Qed.
Lemma eval_FD p fl n (f : nat -> option F) (g : nat -> option D) x y :
  (forall k, k < n -> x k = dflt (d0 ar) (option_map (toD ar) (f k))) -> (forall k, k < n -> y k = dflt (d0 ar) (g k)) ->
  dot_eval ar p fl n x y
    (fold_left (fun acc k => match f k, g k with Some a, Some b => fma_fd ar acc a b | _, _ => acc end) (seq 0 n) (d0 ar)).
Proof.
  intros Hx Hy. erewrite (fold_kept (fma_fd ar) (fmaD ar) _ n f g x y).
  - apply ev_fold. intros k Hk. unfold kept. specialize (Hx k Hk); specialize (Hy k Hk).
    destruct (f k), (g k); cbn in *; intros; auto; discriminate.
  - intros k c a b Hk Ea Eb. rewrite Hx, Hy, Ea, Eb by auto. reflexivity.
Qed.
Lemma eval_DF p fl n (f : nat -> option D) (g : nat -> option F) x y :
  (forall k, k < n -> x k = dflt (d0 ar) (f k)) -> (forall k, k < n -> y k = dflt (d0 ar) (option_map (toD ar) (g k))) ->
  dot_eval ar p fl n x y
    (fold_left (fun acc k => match f k, g k with Some a, Some b => fma_df ar acc a b | _, _ => acc end) (seq 0 n) (d0 ar)).
Proof.
  intros Hx Hy. erewrite (fold_kept (fma_df ar) (fmaD ar) _ n f g x y).
  - apply ev_fold. intros k Hk. unfold kept. specialize (Hx k Hk); specialize (Hy k Hk).
    destruct (f k), (g k); cbn in *; intros; auto; discriminate.
  - intros k c a b Hk Ea Eb. rewrite Hx, Hy, Ea, Eb by auto. reflexivity.
Qed.
Lemma eval_FF p fl n (f g : nat -> option F) x y : fl = true ->
  (forall k, k < n -> x k = dflt (d0 ar) (option_map (toD ar) (f k))) ->
  (forall k, k < n -> y k = dflt (d0 ar) (option_map (toD ar) (g k))) ->
  dot_eval ar p fl n x y
    (toD ar (fold_left (fun acc k => match f k, g k with Some a, Some b => fmaF ar acc a b | _, _ => acc end) (seq 0 n) (f0 ar))).
Proof.
  intros Hf Hx Hy.
  rewrite (fold_kept (fmaF ar) (fmaF ar) _ n f g (fun k => dflt (f0 ar) (f k)) (fun k => dflt (f0 ar) (g k))).
  - apply ev_foldF; [exact Hf| |]; intros k Hk; unfold kept; specialize (Hx k Hk); specialize (Hy k Hk);
      destruct (f k), (g k); cbn in *; intros; auto; discriminate.
  - intros k c a b Hk Ea Eb. rewrite Ea, Eb by auto. reflexivity.
Qed.

Lemma flat_kept {A} n (f : nat -> option A) (y : nat -> A) (zero : A) :
  flat_map (fun k => match f k with Some x => [(x, y k)] | None => [] end) (seq 0 n) =
  map (fun k => (dflt zero (f k), y k)) (filter (fun k => match f k with Some _ => true | _ => false end) (seq 0 n)).
Proof.
  induction n as [|n IH]; [reflexivity|]. rewrite seq_S, flat_map_app, filter_app, map_app, IH. f_equal.
  cbn [flat_map filter Nat.add]. destruct (f n) eqn:E; cbn; rewrite ?E; reflexivity.
Qed.

Lemma filter_true {A} (l : list A) : filter (fun _ => true) l = l.
Proof. induction l; cbn; congruence. Qed.

(** Result shapes. *)
Lemma shape_LDd d m l h : d_orient d = ColMajor -> is_mat d m l h -> rep_leaf ar (LDd d) m l h.
Proof. intros O M. split; auto. Qed.
Lemma shape_LDf d m l h : d_orient d = ColMajor -> is_mat d m l h -> rep_leaf ar (LDf d) m l (fun i j => toD ar (h i j)).
Proof. intros O M. split; auto. exists h. split; auto. Qed.
Lemma shape_LSd s m l h : s_o s = ColMajor -> sp_mat s m l h -> rep_leaf ar (LSd s) m l (fun i j => dflt (d0 ar) (h i j)).
Proof. intros O M. split; auto. exists h. split; auto. Qed.
Lemma shape_LSf s m l h : s_o s = ColMajor -> sp_mat s m l h ->
  rep_leaf ar (LSf s) m l (fun i j => dflt (d0 ar) (option_map (toD ar) (h i j))).
Proof. intros O M. split; auto. exists h. split; auto. Qed.

Ltac sp T := eexists (T _), _; split; [reflexivity|split; [reflexivity|split]].
Ltac gk := intros k Hk; cbv beta;
  repeat match goal with H : forall i j, _ -> _ -> _ i j = _ |- _ => rewrite H by lia; clear H end; try reflexivity.

Lemma mul_leaf_eval p fl dbg a b m n l ga gb :
  rep_leaf ar a m n ga -> rep_leaf ar b n l gb -> fits p m n l ->
  (is_f (leaf_ty a) = true -> is_f (leaf_ty b) = true \/ p = PMKL -> fl = true) ->
  (is_f (leaf_ty b) = true -> is_f (leaf_ty a) = true \/ p = PMKL -> fl = true) ->
  exists c h, mul_leaf ar p dbg a b = Ok c /\ leaf_ty c = mul_lty (leaf_ty a) (leaf_ty b) /\
    rep_leaf ar c m l h /\
    forall i j, i < m -> j < l -> dot_eval ar p fl n (fun k => ga i k) (fun k => gb k j) (h i j).
Proof.
  intros Ha Hb Hfit Hfl1 Hfl2.
  destruct (rep_leaf_dims ar _ _ _ _ Ha) as [Ra Ca]. destruct (rep_leaf_dims ar _ _ _ _ Hb) as [Rb Cb].
  (* a zero operand *)
  assert (HZ : (exists z, a = LZ z) \/ (exists z, b = LZ z) ->
     exists c h, rmap LZ (mul_zero dbg (l_rows a) (l_cols a) (l_rows b) (l_cols b) (z_new 0 0)) = Ok c /\
       leaf_ty c = @leaf_ty F D (LZ (z_new 0 0)) /\ rep_leaf ar c m l h /\
       forall i j, i < m -> j < l -> dot_eval ar p fl n (fun k => ga i k) (fun k => gb k j) (h i j)).
  { intros Hz. rewrite Ra, Ca, Rb, Cb. unfold mul_zero, cassert. rewrite Nat.eqb_refl, andb_false_r. cbn [bind rmap].
    eexists _, (fun _ _ => d0 ar). split; [reflexivity|]. split; [reflexivity|]. split; [cbn [rep_leaf]; repeat split; auto|].
    intros i j Hi Hj.
    replace (d0 ar) with (fold_left (fun c k => fmaD ar c (ga i k) (gb k j)) (filter (fun _ => false) (seq 0 n)) (d0 ar)).
    2: { clear. generalize (seq 0 n). induction l; cbn; auto. }
    apply (ev_fold ar p fl n (fun k => ga i k) (fun k => gb k j)). intros k Hk _.
    destruct Hz as [[z ->]|[z ->]].
    - left. destruct Ha as (_ & _ & H). now apply H.
    - right. destruct Hb as (_ & _ & H). now apply H. }
  destruct a as [za|sa|sa|da|da], b as [zb|sb|sb|db|db]; try (apply HZ; eauto; fail); cbn [leaf_ty is_f] in Hfl1, Hfl2.
  - destruct Ha as (Oa & fa & Ma & Ga), Hb as (Ob & fb & Mb & Gb).
    destruct (mul_ss_spec (fmaF ar) (f0 ar) (fnz ar) dbg sa sb (s_default ColMajor) m n l fa fb Ma Oa Mb Ob eq_refl) as (s & E & O & M).
    cbn [mul_leaf]. rewrite E. sp (@LSf F D); [apply shape_LSf; eassumption|]. intros i j Hi Hj. cbv beta zeta.
    assert (E0 : dot_eval ar p fl n (fun k => ga i k) (fun k => gb k j) (toD ar (prod_ss_at (fmaF ar) (f0 ar) n fa fb i j))).
    { unfold prod_ss_at. apply (eval_FF p fl n (fun k => fa i k) (fun k => fb k j)); [auto| |]; gk. }
    destruct (fnz ar _) eqn:Nz; [exact E0|]. eapply ev_zeroF; eauto.
  - destruct Ha as (Oa & fa & Ma & Ga), Hb as (Ob & fb & Mb & Gb).
    destruct (mul_ss_spec (fma_fd ar) (d0 ar) (dnz ar) dbg sa sb (s_default ColMajor) m n l fa fb Ma Oa Mb Ob eq_refl) as (s & E & O & M).
    cbn [mul_leaf]. rewrite E. sp (@LSd F D); [apply shape_LSd; eassumption|]. intros i j Hi Hj. cbv beta zeta.
    assert (E0 : dot_eval ar p fl n (fun k => ga i k) (fun k => gb k j) (prod_ss_at (fma_fd ar) (d0 ar) n fa fb i j)).
    { unfold prod_ss_at. apply (eval_FD p fl n (fun k => fa i k) (fun k => fb k j)); gk. }
    destruct (dnz ar _) eqn:Nz; [exact E0|]. eapply ev_zero; eauto.
  - destruct Ha as (Oa & fa & Ma & Ga), Hb as (Ob & fb & Mb & Gb).
    destruct (mul_sd_spec (fmaF ar) (f0 ar) dbg sa db (d_default ColMajor) m n l fa fb Ma Oa Mb Ob (default_fresh _) eq_refl) as (s & E & M & _ & O & _).
    cbn [mul_leaf]. rewrite E. sp (@LDf F D); [apply shape_LDf; eassumption|]. intros i j Hi Hj. cbv beta zeta.
    apply (eval_FF p fl n (fun k => fa i k) (fun k => Some (fb k j))); [auto| |]; gk.
  - destruct Ha as (Oa & fa & Ma & Ga), Hb as (Ob & Mb).
    destruct (mul_sd_spec (fma_fd ar) (d0 ar) dbg sa db (d_default ColMajor) m n l fa gb Ma Oa Mb Ob (default_fresh _) eq_refl) as (s & E & M & _ & O & _).
    cbn [mul_leaf]. rewrite E. sp (@LDd F D); [apply shape_LDd; eassumption|]. intros i j Hi Hj. cbv beta zeta.
    apply (eval_FD p fl n (fun k => fa i k) (fun k => Some (gb k j))); gk.
  - destruct Ha as (Oa & fa & Ma & Ga), Hb as (Ob & fb & Mb & Gb).
    destruct (mul_ss_spec (fma_df ar) (d0 ar) (dnz ar) dbg sa sb (s_default ColMajor) m n l fa fb Ma Oa Mb Ob eq_refl) as (s & E & O & M).
    cbn [mul_leaf]. rewrite E. sp (@LSd F D); [apply shape_LSd; eassumption|]. intros i j Hi Hj. cbv beta zeta.
    assert (E0 : dot_eval ar p fl n (fun k => ga i k) (fun k => gb k j) (prod_ss_at (fma_df ar) (d0 ar) n fa fb i j)).
    { unfold prod_ss_at. apply (eval_DF p fl n (fun k => fa i k) (fun k => fb k j)); gk. }
    destruct (dnz ar _) eqn:Nz; [exact E0|]. eapply ev_zero; eauto.
  - destruct Ha as (Oa & fa & Ma & Ga), Hb as (Ob & fb & Mb & Gb).
    destruct (mul_ss_spec (fmaD ar) (d0 ar) (dnz ar) dbg sa sb (s_default ColMajor) m n l fa fb Ma Oa Mb Ob eq_refl) as (s & E & O & M).
    cbn [mul_leaf]. rewrite E. sp (@LSd F D); [apply shape_LSd; eassumption|]. intros i j Hi Hj. cbv beta zeta.
    assert (E0 : dot_eval ar p fl n (fun k => ga i k) (fun k => gb k j) (prod_ss_at (fmaD ar) (d0 ar) n fa fb i j)).
    { unfold prod_ss_at. apply (eval_DD p fl n (fun k => fa i k) (fun k => fb k j)); gk. }
    destruct (dnz ar _) eqn:Nz; [exact E0|]. eapply ev_zero; eauto.
  - destruct Ha as (Oa & fa & Ma & Ga), Hb as (Ob & fb & Mb & Gb).
    destruct (mul_sd_spec (fma_df ar) (d0 ar) dbg sa db (d_default ColMajor) m n l fa fb Ma Oa Mb Ob (default_fresh _) eq_refl) as (s & E & M & _ & O & _).
    cbn [mul_leaf]. rewrite E. sp (@LDd F D); [apply shape_LDd; eassumption|]. intros i j Hi Hj. cbv beta zeta.
    apply (eval_DF p fl n (fun k => fa i k) (fun k => Some (fb k j))); gk.
  - destruct Ha as (Oa & fa & Ma & Ga), Hb as (Ob & Mb). cbn [mul_leaf]. unfold mul_SdDd.
    assert (E0 : exists d h, (match p with PMKL => mul_csrmm (dotD ar) dbg sa db (d_default ColMajor)
                 | _ => mul_sd (fmaD ar) (d0 ar) dbg sa db (d_default ColMajor) end) = Ok d /\ is_mat d m l h /\
               d_orient d = ColMajor /\
               forall i j, i < m -> j < l -> dot_eval ar p fl n (fun k => ga i k) (fun k => gb k j) (h i j)).
    { destruct p.
      1, 2: destruct (mul_sd_spec (fmaD ar) (d0 ar) dbg sa db (d_default ColMajor) m n l fa gb Ma Oa Mb Ob (default_fresh _) eq_refl) as (s & E & M & _ & O & _);
        exists s; eexists; (split; [exact E|]); (split; [exact M|]); (split; [exact O|]); intros i j Hi Hj;
        apply (eval_DD _ fl n (fun k => fa i k) (fun k => Some (gb k j))); gk.
      destruct Hfit as (B1 & B2 & B3 & B4 & B5 & B6).
      destruct (mul_csrmm_spec (dotD ar) dbg sa db (d_default ColMajor) m n l fa gb Ma Oa Mb Ob (default_fresh _) eq_refl B1 B3 B4 B5 B6) as (s & E & M & _ & O & _).
      exists s; eexists; (split; [exact E|]); (split; [exact M|]); (split; [exact O|]); intros i j Hi Hj. cbv beta.
      rewrite (flat_kept n (fun k => fa i k) (fun k => gb k j) (d0 ar)).
      rewrite (map_ext_in _ (fun k => (ga i k, gb k j))).
      - apply (ev_dot ar PMKL fl n (fun k => ga i k) (fun k => gb k j)). intros k Hk. rewrite Ga by lia.
        destruct (fa i k); [discriminate|]. now left.
      - intros k Hk. apply filter_In in Hk. destruct Hk as [Hk _]. apply in_seq in Hk. now rewrite Ga by lia. }
    destruct E0 as (d & h & E & M & O & Hh). rewrite E. exists (LDd d), h. split; [reflexivity|]. split; [reflexivity|].
    split; [now apply shape_LDd|exact Hh].
  - destruct Ha as (Oa & fa & Ma & Ga), Hb as (Ob & fb & Mb & Gb).
    destruct (mul_ds_spec (fmaF ar) (f0 ar) dbg da sb (d_default ColMajor) m n l fa fb (proj2 Ma) (legal_own da (proj1 Ma)) Mb Ob (default_fresh _)) as (s & E & M & _ & O & _).
    cbn [mul_leaf]. rewrite E. sp (@LDf F D); [apply shape_LDf; eassumption|]. intros i j Hi Hj. cbv beta zeta.
    apply (eval_FF p fl n (fun k => Some (fa i k)) (fun k => fb k j)); [auto| |]; gk.
  - destruct Ha as (Oa & fa & Ma & Ga), Hb as (Ob & fb & Mb & Gb).
    destruct (mul_ds_spec (fma_fd ar) (d0 ar) dbg da sb (d_default ColMajor) m n l fa fb (proj2 Ma) (legal_own da (proj1 Ma)) Mb Ob (default_fresh _)) as (s & E & M & _ & O & _).
    cbn [mul_leaf]. rewrite E. sp (@LDd F D); [apply shape_LDd; eassumption|]. intros i j Hi Hj. cbv beta zeta.
    apply (eval_FD p fl n (fun k => Some (fa i k)) (fun k => fb k j)); gk.
  - destruct Ha as (Oa & fa & Ma & Ga), Hb as (Ob & fb & Mb & Gb). cbn [mul_leaf]. unfold mul_DfDf.
    assert (E0 : exists d h, (match p with PNative => mul_dd (fmaF ar) (f0 ar) dbg da db (d_default ColMajor)
                 | _ => mul_blas (dotF ar) dbg da db (d_default ColMajor) end) = Ok d /\ is_mat d m l h /\
               d_orient d = ColMajor /\
               forall i j, i < m -> j < l -> dot_eval ar p fl n (fun k => ga i k) (fun k => gb k j) (toD ar (h i j))).
    { destruct p.
      1: destruct (mul_dd_spec (fmaF ar) (f0 ar) dbg da db (d_default ColMajor) m n l fa fb (proj2 Ma) (or_introl (proj1 Ma)) Oa (proj2 Mb) (or_introl (proj1 Mb)) Ob (default_fresh _) eq_refl) as (s & E & M & _ & O & _);
        exists s; eexists; (split; [exact E|]); (split; [exact M|]); (split; [exact O|]); intros i j Hi Hj;
        apply (eval_FF PNative fl n (fun k => Some (fa i k)) (fun k => Some (fb k j))); [auto| |]; gk.
      all: destruct Hfit as (B1 & B2 & B3 & B4 & B5 & B6);
      destruct (mul_blas_spec (dotF ar) dbg da db (d_default ColMajor) m n l fa fb Ma Oa Mb Ob (default_fresh _) eq_refl B2 B3 ltac:(lia) B5) as (s & E & M & _ & O & _);
      exists s; eexists; (split; [exact E|]); (split; [exact M|]); (split; [exact O|]); intros i j Hi Hj; cbv beta;
      apply (ev_dotF ar _ fl n (fun k => ga i k) (fun k => gb k j) (fun k => fa i k) (fun k => fb k j)); auto; intros k Hk; split; gk. }
    destruct E0 as (d & h & E & M & O & Hh). rewrite E. exists (LDf d), (fun i j => toD ar (h i j)). split; [reflexivity|]. split; [reflexivity|].
    split; [now apply shape_LDf|exact Hh].
  - destruct Ha as (Oa & fa & Ma & Ga), Hb as (Ob & Mb). cbn [mul_leaf]. unfold mul_DfDd.
    assert (E0 : exists d h, (match p with PMKL => mul_mixed_fd (toF ar) (toD ar) (dotF ar) dbg da db
                 | _ => mul_dd (fma_fd ar) (d0 ar) dbg da db (d_default ColMajor) end) = Ok d /\ is_mat d m l h /\
               d_orient d = ColMajor /\
               forall i j, i < m -> j < l -> dot_eval ar p fl n (fun k => ga i k) (fun k => gb k j) (h i j)).
    { destruct p.
      1, 2: destruct (mul_dd_spec (fma_fd ar) (d0 ar) dbg da db (d_default ColMajor) m n l fa gb (proj2 Ma) (or_introl (proj1 Ma)) Oa (proj2 Mb) (or_introl (proj1 Mb)) Ob (default_fresh _) eq_refl) as (s & E & M & _ & O & _);
        exists s; eexists; (split; [exact E|]); (split; [exact M|]); (split; [exact O|]); intros i j Hi Hj;
        apply (eval_FD _ fl n (fun k => Some (fa i k)) (fun k => Some (gb k j))); gk.
      destruct Hfit as (B1 & B2 & B3 & B4 & B5 & B6).
      destruct (mul_mixed_fd_spec (toF ar) (toD ar) (dotF ar) dbg da db m n l fa gb Ma Oa Mb Ob B2 B3 ltac:(lia) B5) as (s & E & M & _ & O & _).
      exists s; eexists; (split; [exact E|]); (split; [exact M|]); (split; [exact O|]); intros i j Hi Hj. cbv beta.
      apply (ev_mixed_fd ar PMKL fl n (fun k => ga i k) (fun k => gb k j) (fun k => fa i k)); auto; gk. }
    destruct E0 as (d & h & E & M & O & Hh). rewrite E. exists (LDd d), h. split; [reflexivity|]. split; [reflexivity|].
    split; [now apply shape_LDd|exact Hh].
  - destruct Ha as (Oa & Ma), Hb as (Ob & fb & Mb & Gb).
    destruct (mul_ds_spec (fma_df ar) (d0 ar) dbg da sb (d_default ColMajor) m n l ga fb (proj2 Ma) (legal_own da (proj1 Ma)) Mb Ob (default_fresh _)) as (s & E & M & _ & O & _).
    cbn [mul_leaf]. rewrite E. sp (@LDd F D); [apply shape_LDd; eassumption|]. intros i j Hi Hj. cbv beta zeta.
    apply (eval_DF p fl n (fun k => Some (ga i k)) (fun k => fb k j)); gk.
  - destruct Ha as (Oa & Ma), Hb as (Ob & fb & Mb & Gb).
    destruct (mul_ds_spec (fmaD ar) (d0 ar) dbg da sb (d_default ColMajor) m n l ga fb (proj2 Ma) (legal_own da (proj1 Ma)) Mb Ob (default_fresh _)) as (s & E & M & _ & O & _).
    cbn [mul_leaf]. rewrite E. sp (@LDd F D); [apply shape_LDd; eassumption|]. intros i j Hi Hj. cbv beta zeta.
    apply (eval_DD p fl n (fun k => Some (ga i k)) (fun k => fb k j)); gk.
  - destruct Ha as (Oa & Ma), Hb as (Ob & fb & Mb & Gb). cbn [mul_leaf]. unfold mul_DdDf.
    assert (E0 : exists d h, (match p with PMKL => mul_mixed_df (toF ar) (toD ar) (dotF ar) dbg da db
                 | _ => mul_dd (fma_df ar) (d0 ar) dbg da db (d_default ColMajor) end) = Ok d /\ is_mat d m l h /\
               d_orient d = ColMajor /\
               forall i j, i < m -> j < l -> dot_eval ar p fl n (fun k => ga i k) (fun k => gb k j) (h i j)).
    { destruct p.
      1, 2: destruct (mul_dd_spec (fma_df ar) (d0 ar) dbg da db (d_default ColMajor) m n l ga fb (proj2 Ma) (or_introl (proj1 Ma)) Oa (proj2 Mb) (or_introl (proj1 Mb)) Ob (default_fresh _) eq_refl) as (s & E & M & _ & O & _);
        exists s; eexists; (split; [exact E|]); (split; [exact M|]); (split; [exact O|]); intros i j Hi Hj;
        apply (eval_DF _ fl n (fun k => Some (ga i k)) (fun k => Some (fb k j))); gk.
      destruct Hfit as (B1 & B2 & B3 & B4 & B5 & B6).
      destruct (mul_mixed_df_spec (toF ar) (toD ar) (dotF ar) dbg da db m n l ga fb Ma Oa Mb Ob B2 B3 ltac:(lia) B5) as (s & E & M & _ & O & _).
      exists s; eexists; (split; [exact E|]); (split; [exact M|]); (split; [exact O|]); intros i j Hi Hj. cbv beta.
      apply (ev_mixed_df ar PMKL fl n (fun k => ga i k) (fun k => gb k j) (fun k => fb k j)); auto; gk. }
    destruct E0 as (d & h & E & M & O & Hh). rewrite E. exists (LDd d), h. split; [reflexivity|]. split; [reflexivity|].
    split; [now apply shape_LDd|exact Hh].
  - destruct Ha as (Oa & Ma), Hb as (Ob & Mb). cbn [mul_leaf]. unfold mul_DdDd.
    assert (E0 : exists d h, (match p with PNative => mul_dd (fmaD ar) (d0 ar) dbg da db (d_default ColMajor)
                 | _ => mul_blas (dotD ar) dbg da db (d_default ColMajor) end) = Ok d /\ is_mat d m l h /\
               d_orient d = ColMajor /\
               forall i j, i < m -> j < l -> dot_eval ar p fl n (fun k => ga i k) (fun k => gb k j) (h i j)).
    { destruct p.
      1: destruct (mul_dd_spec (fmaD ar) (d0 ar) dbg da db (d_default ColMajor) m n l ga gb (proj2 Ma) (or_introl (proj1 Ma)) Oa (proj2 Mb) (or_introl (proj1 Mb)) Ob (default_fresh _) eq_refl) as (s & E & M & _ & O & _);
        exists s; eexists; (split; [exact E|]); (split; [exact M|]); (split; [exact O|]); intros i j Hi Hj;
        apply (eval_DD _ fl n (fun k => Some (ga i k)) (fun k => Some (gb k j))); gk.
      all: destruct Hfit as (B1 & B2 & B3 & B4 & B5 & B6);
      destruct (mul_blas_spec (dotD ar) dbg da db (d_default ColMajor) m n l ga gb Ma Oa Mb Ob (default_fresh _) eq_refl B2 B3 ltac:(lia) B5) as (s & E & M & _ & O & _);
      exists s; eexists; (split; [exact E|]); (split; [exact M|]); (split; [exact O|]); intros i j Hi Hj; cbv beta;
      rewrite <- (filter_true (seq 0 n));
      apply (ev_dot ar _ fl n (fun k => ga i k) (fun k => gb k j)); discriminate. }
    destruct E0 as (d & h & E & M & O & Hh). rewrite E. exists (LDd d), h. split; [reflexivity|]. split; [reflexivity|].
    split; [now apply shape_LDd|exact Hh].
Qed.

(** ** Sums and differences *)
Lemma comb_eval {A B C} (ta : A -> D) (tb : B -> D) (tc : C -> D) o fl ca ub op x y :
  (forall x, tc (ca x) = ta x) ->
  (forall y, bin_eval ar o fl (d0 ar) (tb y) (tc (ub y))) ->
  (forall x y, bin_eval ar o fl (ta x) (tb y) (tc (op x y))) ->
  bin_eval ar o fl (dflt (d0 ar) (option_map ta x)) (dflt (d0 ar) (option_map tb y))
    (dflt (d0 ar) (option_map tc (comb ca ub op x y))).
Proof.
  intros H1 H2 H3. destruct x as [x|], y as [y|]; cbn [comb option_map dflt]; auto.
  - rewrite H1. now apply be_0r.
  - now apply be_0r.
Qed.
Lemma ds_eval {A B C} (ta : A -> D) (tb : B -> D) (tc : C -> D) o fl (cv : A -> C) (aop : C -> B -> C) x y :
  (forall x, tc (cv x) = ta x) -> (forall y, bin_eval ar o fl (ta x) (tb y) (tc (aop (cv x) y))) ->
  bin_eval ar o fl (ta x) (dflt (d0 ar) (option_map tb y)) (tc (match y with Some y => aop (cv x) y | None => cv x end)).
Proof.
  intros H1 H2. destruct y as [y|]; cbn [option_map dflt]; auto. rewrite H1. now apply be_0r.
Qed.
Lemma sd_eval {A B C} (ta : A -> D) (tb : B -> D) (tc : C -> D) fl (cv : A -> C) (aop : C -> B -> C) x y :
  (forall x, tc (cv x) = ta x) -> (forall y, bin_eval ar Plus fl (tb y) (ta x) (tc (aop (cv x) y))) ->
  bin_eval ar Plus fl (dflt (d0 ar) (option_map tb y)) (ta x) (tc (match y with Some y => aop (cv x) y | None => cv x end)).
Proof.
  intros H1 H2. destruct y as [y|]; cbn [option_map dflt]; auto. rewrite H1. apply (be_0l ar Plus fl (d0 ar) (ta x) eq_refl).
Qed.
Lemma dflt_id' (o : option D) : dflt (d0 ar) (option_map (fun x => x) o) = dflt (d0 ar) o.
Proof. now destruct o. Qed.

Ltac elem := intros i j Hi Hj; cbv beta zeta;
  repeat match goal with H : forall i j, _ -> _ -> _ i j = _ |- _ => rewrite (H i j Hi Hj); clear H end.

Lemma bin_leaf_eval o fl dbg a b r c ga gb :
  rep_leaf ar a r c ga -> rep_leaf ar b r c gb -> op_ok o (leaf_ty a) (leaf_ty b) = true ->
  (is_f (leaf_ty a) = true -> is_f (leaf_ty b) = true -> fl = true) ->
  exists e h, bin_leaf ar o dbg a b = Ok e /\ leaf_ty e = add_lty (leaf_ty a) (leaf_ty b) /\
    rep_leaf ar e r c h /\ forall i j, i < r -> j < c -> bin_eval ar o fl (ga i j) (gb i j) (h i j).
Proof.
  intros Ha Hb Hg Hfl.
  assert (HbZ : forall z, b = LZ z -> forall i j, i < r -> j < c -> bin_eval ar o fl (ga i j) (gb i j) (ga i j)).
  { intros z -> i j Hi Hj. destruct Hb as (_ & _ & H). apply be_0r. now apply H. }
  assert (HaZ : forall z, o = Plus -> a = LZ z -> forall i j, i < r -> j < c -> bin_eval ar o fl (ga i j) (gb i j) (gb i j)).
  { intros z -> -> i j Hi Hj. destruct Ha as (_ & _ & H). apply (be_0l ar Plus fl (ga i j) (gb i j)). now apply H. }
  assert (UD : forall y, bin_eval ar o fl (d0 ar) y (unD ar o y)) by (intros; now apply be_0l).
  destruct a as [za|sa|sa|da|da], b as [zb|sb|sb|db|db]; cbn [leaf_ty is_f] in Hfl.
  - exists (LZ za), ga. split; [reflexivity|]. split; [reflexivity|]. split; [exact Ha|]. eapply HbZ; reflexivity.
  - destruct o; [|discriminate]. exists (LSf sb), gb. split; [reflexivity|]. split; [reflexivity|]. split; [exact Hb|]. eapply HaZ; reflexivity.
  - destruct o; [|discriminate]. exists (LSd sb), gb. split; [reflexivity|]. split; [reflexivity|]. split; [exact Hb|]. eapply HaZ; reflexivity.
  - destruct o; [|discriminate]. exists (LDf db), gb. split; [reflexivity|]. split; [reflexivity|]. split; [exact Hb|]. eapply HaZ; reflexivity.
  - destruct o; [|discriminate]. exists (LDd db), gb. split; [reflexivity|]. split; [reflexivity|]. split; [exact Hb|]. eapply HaZ; reflexivity.
  - exists (LSf sa), ga. split; [reflexivity|]. split; [reflexivity|]. split; [exact Ha|]. eapply HbZ; reflexivity.
  - destruct Ha as (Oa & fa & Ma & Ga), Hb as (Ob & fb & Mb & Gb).
    destruct (s_binop_spec (fun v => v) (unF ar o) (binF ar o) dbg sa sb r c fa fb Ma Mb Oa Ob) as (s & E & O & M).
    cbn [bin_leaf]. rewrite E. sp (@LSf F D); [apply shape_LSf; eassumption|]. elem.
    apply (comb_eval (toD ar) (toD ar) (toD ar) o fl); auto; intros; [eapply be_0lF|eapply be_F]; eauto.
  - destruct Ha as (Oa & fa & Ma & Ga), Hb as (Ob & fb & Mb & Gb).
    destruct (s_binop_spec (toD ar) (unD ar o) (bin_fd ar o) dbg sa sb r c fa fb Ma Mb Oa Ob) as (s & E & O & M).
    cbn [bin_leaf]. rewrite E. sp (@LSd F D); [apply shape_LSd; eassumption|]. elem.
    rewrite <- (dflt_id' (fb i j)), <- (dflt_id' (comb _ _ _ _ _)).
    apply (comb_eval (toD ar) (fun x => x) (fun x => x) o fl); auto; intros; apply be_D.
  - destruct o; [|discriminate]. destruct Ha as (Oa & fa & Ma & Ga), Hb as (Ob & fb & Mb & Gb).
    destruct (ds_binop_spec (fun v => v) (binF ar Plus) dbg db sa r c fb fa Mb Ma Ob Oa) as (s & E & M & O & _).
    cbn [bin_leaf]. unfold sd_binop. rewrite E. sp (@LDf F D); [apply shape_LDf; eassumption|]. elem.
    apply (sd_eval (toD ar) (toD ar) (toD ar) fl (fun v => v)); auto. intros. eapply be_Fr; eauto.
  - destruct o; [|discriminate]. destruct Ha as (Oa & fa & Ma & Ga), Hb as (Ob & Mb).
    destruct (ds_binop_spec (fun v => v) (bin_df ar Plus) dbg db sa r c gb fa Mb Ma Ob Oa) as (s & E & M & O & _).
    cbn [bin_leaf]. unfold sd_binop. rewrite E. sp (@LDd F D); [apply shape_LDd; eassumption|]. elem.
    apply (sd_eval (fun v => v) (toD ar) (fun v => v) fl (fun v => v)); auto. intros. now apply be_Dr.
  - exists (LSd sa), ga. split; [reflexivity|]. split; [reflexivity|]. split; [exact Ha|]. eapply HbZ; reflexivity.
  - destruct Ha as (Oa & fa & Ma & Ga), Hb as (Ob & fb & Mb & Gb).
    destruct (s_binop_spec (fun v => v) (fun v => toD ar (unF ar o v)) (bin_df ar o) dbg sa sb r c fa fb Ma Mb Oa Ob) as (s & E & O & M).
    cbn [bin_leaf]. rewrite E. sp (@LSd F D); [apply shape_LSd; eassumption|]. elem.
    rewrite <- (dflt_id' (fa i j)), <- (dflt_id' (comb _ _ _ _ _)).
    apply (comb_eval (fun x => x) (toD ar) (fun x => x) o fl); auto; intros; [|apply be_D].
    eapply be_0lF; eauto.
  - destruct Ha as (Oa & fa & Ma & Ga), Hb as (Ob & fb & Mb & Gb).
    destruct (s_binop_spec (fun v => v) (unD ar o) (binD ar o) dbg sa sb r c fa fb Ma Mb Oa Ob) as (s & E & O & M).
    cbn [bin_leaf]. rewrite E. sp (@LSd F D); [apply shape_LSd; eassumption|]. elem.
    rewrite <- (dflt_id' (fa i j)), <- (dflt_id' (fb i j)), <- (dflt_id' (comb _ _ _ _ _)).
    apply (comb_eval (fun x => x) (fun x => x) (fun x => x) o fl); auto; intros; apply be_D.
  - destruct o; [|discriminate]. destruct Ha as (Oa & fa & Ma & Ga), Hb as (Ob & fb & Mb & Gb).
    destruct (ds_binop_spec (toD ar) (binD ar Plus) dbg db sa r c fb fa Mb Ma Ob Oa) as (s & E & M & O & _).
    cbn [bin_leaf]. unfold sd_binop. rewrite E. sp (@LDd F D); [apply shape_LDd; eassumption|]. elem. rewrite <- (dflt_id' (fa i j)).
    apply (sd_eval (toD ar) (fun v => v) (fun v => v) fl (toD ar)); auto. intros. now apply be_Dr.
  - destruct o; [|discriminate]. destruct Ha as (Oa & fa & Ma & Ga), Hb as (Ob & Mb).
    destruct (ds_binop_spec (fun v => v) (binD ar Plus) dbg db sa r c gb fa Mb Ma Ob Oa) as (s & E & M & O & _).
    cbn [bin_leaf]. unfold sd_binop. rewrite E. sp (@LDd F D); [apply shape_LDd; eassumption|]. elem. rewrite <- (dflt_id' (fa i j)).
    apply (sd_eval (fun v => v) (fun v => v) (fun v => v) fl (fun v => v)); auto. intros. now apply be_Dr.
  - exists (LDf da), ga. split; [reflexivity|]. split; [reflexivity|]. split; [exact Ha|]. eapply HbZ; reflexivity.
  - destruct Ha as (Oa & fa & Ma & Ga), Hb as (Ob & fb & Mb & Gb).
    destruct (ds_binop_spec (fun v => v) (binF ar o) dbg da sb r c fa fb Ma Mb Oa Ob) as (s & E & M & O & _).
    cbn [bin_leaf]. rewrite E. sp (@LDf F D); [apply shape_LDf; eassumption|]. elem.
    apply (ds_eval (toD ar) (toD ar) (toD ar) o fl (fun v => v)); auto. intros. eapply be_F; eauto.
  - destruct Ha as (Oa & fa & Ma & Ga), Hb as (Ob & fb & Mb & Gb).
    destruct (ds_binop_spec (toD ar) (binD ar o) dbg da sb r c fa fb Ma Mb Oa Ob) as (s & E & M & O & _).
    cbn [bin_leaf]. rewrite E. sp (@LDd F D); [apply shape_LDd; eassumption|]. elem. rewrite <- (dflt_id' (fb i j)).
    apply (ds_eval (toD ar) (fun v => v) (fun v => v) o fl (toD ar)); auto. intros. apply be_D.
  - destruct Ha as (Oa & fa & Ma & Ga), Hb as (Ob & fb & Mb & Gb).
    destruct (d_binop_spec (binF ar o) dbg da db r c fa fb Ma Mb) as (s & E & M & O & _); [congruence|].
    rewrite Oa in E, O. cbn [bin_leaf]. rewrite E. sp (@LDf F D); [apply shape_LDf; eassumption|]. elem. eapply be_F; eauto.
  - destruct Ha as (Oa & fa & Ma & Ga), Hb as (Ob & Mb).
    destruct (d_binop_spec (bin_fd ar o) dbg da db r c fa gb Ma Mb) as (s & E & M & O & _); [congruence|].
    rewrite Oa in E, O. cbn [bin_leaf]. rewrite E. sp (@LDd F D); [apply shape_LDd; eassumption|]. elem. apply be_D.
  - exists (LDd da), ga. split; [reflexivity|]. split; [reflexivity|]. split; [exact Ha|]. eapply HbZ; reflexivity.
  - destruct Ha as (Oa & Ma), Hb as (Ob & fb & Mb & Gb).
    destruct (ds_binop_spec (fun v => v) (bin_df ar o) dbg da sb r c ga fb Ma Mb Oa Ob) as (s & E & M & O & _).
    cbn [bin_leaf]. rewrite E. sp (@LDd F D); [apply shape_LDd; eassumption|]. elem.
    apply (ds_eval (fun v => v) (toD ar) (fun v => v) o fl (fun v => v)); auto. intros. apply be_D.
  - destruct Ha as (Oa & Ma), Hb as (Ob & fb & Mb & Gb).
    destruct (ds_binop_spec (fun v => v) (binD ar o) dbg da sb r c ga fb Ma Mb Oa Ob) as (s & E & M & O & _).
    cbn [bin_leaf]. rewrite E. sp (@LDd F D); [apply shape_LDd; eassumption|]. elem. rewrite <- (dflt_id' (fb i j)).
    apply (ds_eval (fun v => v) (fun v => v) (fun v => v) o fl (fun v => v)); auto. intros. apply be_D.
  - destruct Ha as (Oa & Ma), Hb as (Ob & fb & Mb & Gb).
    destruct (d_binop_spec (bin_df ar o) dbg da db r c ga fb Ma Mb) as (s & E & M & O & _); [congruence|].
    rewrite Oa in E, O. cbn [bin_leaf]. rewrite E. sp (@LDd F D); [apply shape_LDd; eassumption|]. elem. apply be_D.
  - destruct Ha as (Oa & Ma), Hb as (Ob & Mb).
    destruct (d_binop_spec (binD ar o) dbg da db r c ga gb Ma Mb) as (s & E & M & O & _); [congruence|].
    rewrite Oa in E, O. cbn [bin_leaf]. rewrite E. sp (@LDd F D); [apply shape_LDd; eassumption|]. elem. apply be_D.
Qed.

End P.
