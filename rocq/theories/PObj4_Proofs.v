(** Handles simulate values: one call, and programs. *)
From Verif Require Import Base BaseLemmas Dense_Model Sparse_Model Mult_Model Dyn_Model PObj_Model PObj_Spec PObj_Proofs PObj2_Proofs PObj3_Proofs.

Section P.
Context {F D : Type} (ar : arith F D) (ready : mty -> bool) (p : policy) (exc dbg : bool).
Implicit Types (h : heap F D) (m : pst F D) (s : vst F D).

Definition orel (r : pst F D * pout D) (q : vst F D * pout D) : Prop := sim (fst r) (fst q) /\ snd r = snd q.

Lemma catch_rel {A B} (Q : A -> B -> Prop) m s (r : res A) (r' : res B) f g : sim m s -> rrel Q r r' ->
  (forall a b, Q a b -> orel (f a) (g b)) -> rrel orel (catch m r f) (vcatch s r' g).
Proof. intros S H G. destruct r, r'; cbn in *; auto; try contradiction. split; auto. Qed.

Lemma cast_rel h t q (x : option (dyn F D)) : load h q = Ok x ->
  rrel (fun a b => a = b /\ part h q = Ok a /\ wf_part h t q) (cast h t q) (vcast t x).
Proof.
  destruct q as [a|]; [|cbn; intros E; injection E as <-; cbn; auto].
  intros L. apply load_inv in L as [(l & E & ->)|(t1 & t2 & p1 & p2 & m1 & m2 & E & _ & _ & ->)]; unfold cast; cbn [part vcast]; rewrite E; cbn [bind]; [|cbn; auto].
  destruct (lty_eqb (leaf_ty l) t) eqn:Et; cbn; auto. split; [|split]; auto.
  exists l. split; auto. revert Et. generalize (leaf_ty l). clear. intros u Eu. destruct u as [|[|]|[|]], t as [|[|]|[|]]; cbn in Eu; congruence.
Qed.

Lemma mm_new_val t1 t2 (m1 m2 : option (leaf F D)) d : mm_new exc dbg t1 t2 m1 m2 = Ok d -> d = DM t1 t2 m1 m2.
Proof.
  unfold mm_new. destruct m1, m2; try congruence. intros E.
  repeat match type of E with (do _ <- ?r; _) = _ => destruct r; cbn [bind] in E; try discriminate end. congruence.
Qed.

Lemma set_same_var s v x o : nth_error (v_var s) v = Some (x, o) -> set_var s v x o = s.
Proof. intros E. unfold set_var. rewrite upd_same by auto. now destruct s. Qed.

Lemma exec_listed2 {R} (op : dyn F D -> dyn F D -> res R) x1 x2 r : exec_dyn_2dim ready op (Some x1) (Some x2) = Ok r -> In (dyn_ty x2) type_list.
Proof.
  intros Ex. unfold exec_dyn_2dim in Ex. cbn [deref bind] in Ex.
  unfold dyn_table in Ex. rewrite nth_error_map in Ex. destruct (nth_error type_list (type_index x1)) as [t1|] eqn:G1; cbn [option_map] in Ex; [|discriminate].
  rewrite nth_error_map in Ex. destruct (nth_error type_list (type_index x2)) as [t2|] eqn:G2; cbn [option_map] in Ex; [|discriminate].
  destruct (ready t1); [|discriminate]. unfold functor in Ex. destruct (mty_eqb (dyn_ty x1) t1); cbn [andb] in Ex; [|discriminate].
  destruct (mty_eqb (dyn_ty x2) t2) eqn:Em; [|discriminate]. apply nth_error_In in G2.
  assert (dyn_ty x2 = t2); [|congruence]. revert Em. generalize (dyn_ty x2). clear. intros t Em.
  destruct t as [[|[|]|[|]]|[|[|]|[|]] [|[|]|[|]]], t2 as [[|[|]|[|]]|[|[|]|[|]] [|[|]|[|]]]; cbn in Em; congruence.
Qed.

Lemma step_sim m s x r : sim m s -> vstep ar ready p exc dbg s x = Some r -> rrel orel (pstep ar ready p exc dbg m x) r.
Proof.
  intros S E. destruct x as [l| |t1 t2 v1 v2|v|d v|k a b|o a b|v i j w|v|v|v|th d|n c ur uc|b i j|b i j v|b|d b|a b|th d rl cl|b];
    cbn [vstep] in E; cbn [pstep].
  - injection E as <-. unfold add_var. destruct (store (p_heap m) (Some (DL l))) as [h' q] eqn:Es. cbn [fst snd].
    apply store_ok in Es as (N & W & L & Fq & Np); [|apply (sim_wf _ _ S)|intros ? Ed; injection Ed as <-; exact Coq.Init.Logic.I].
    split; cbn [fst snd vadd]; auto. now apply (sim_new_var m s h' q (Some (DL l))).
  - injection E as <-. split; cbn [fst snd vadd add_var]; auto.
    apply (sim_new_var m s (p_heap m) None None); auto; try discriminate; [apply news_refl|apply (sim_wf _ _ S)].
  - injection E as <-. unfold var_of, vvar.
    destruct (var_cases m s v1 S) as [[E1 F1]|(q1 & x1 & o1 & E1 & F1 & L1)]; rewrite E1, F1; cbn [bind]; [cbn; auto|].
    destruct (var_cases m s v2 S) as [[E2 F2]|(q2 & x2 & o2 & E2 & F2 & L2)]; rewrite E2, F2; cbn [bind]; [cbn; auto|].
    eapply rrel_bind; [apply (cast_rel _ t1 _ _ L1)|]. intros m1 ? (<- & P1 & W1).
    eapply rrel_bind; [apply (cast_rel _ t2 _ _ L2)|]. intros m2 ? (<- & P2 & W2).
    pose proof (mm_new_val t1 t2 m1 m2) as MV.
    apply catch_rel with (Q := fun a b => a = b /\ mm_new exc dbg t1 t2 m1 m2 = Ok b); auto.
    { destruct (mm_new exc dbg t1 t2 m1 m2); cbn; auto. }
    intros ? q [-> Eq]. rewrite (MV _ Eq). split; cbn [fst snd add_var vadd]; auto.
    apply (sim_pair m (share (share s v1) v2) t1 t2 q1 q2 m1 m2); auto.
    + now do 2 apply sim_share.
    + apply unowned_share2; [now apply sim_share|now apply unowned_share].
    + apply unowned_share; auto. now apply sim_share.
  - injection E as <-. unfold var_of, vvar.
    destruct (var_cases m s v S) as [[E1 F1]|(q & x & o & E1 & F1 & L)]; rewrite E1, F1; cbn [bind]; [cbn; auto|].
    split; cbn [fst snd add_var vadd]; auto. apply (sim_old_var m (share s v) q x); auto using sim_share, unowned_share.
  - injection E as <-. unfold var_of, vvar.
    destruct (var_cases m s d S) as [[E2 F2]|(q2 & x2 & o2 & E2 & F2 & L2)]; rewrite E2, F2; cbn [bind]; [cbn; auto|].
    destruct (var_cases m s v S) as [[E1 F1]|(q & x & o & E1 & F1 & L)]; rewrite E1, F1; cbn [bind]; [cbn; auto|].
    split; cbn [fst snd]; auto. apply (sim_set_var m (share s v) d q x); auto using sim_share, unowned_share.
  - injection E as <-. unfold var_of, vvar.
    destruct (var_cases m s a S) as [[E1 F1]|(q1 & x1 & o1 & E1 & F1 & L1)]; rewrite E1, F1; cbn [bind]; [cbn; auto|].
    destruct (var_cases m s b S) as [[E2 F2]|(q2 & x2 & o2 & E2 & F2 & L2)]; rewrite E2, F2; cbn [bind]; [cbn; auto|].
    eapply catch_rel; [exact S|apply (hop_rel ar ready p dbg k); eauto; apply (sim_wf _ _ S)|].
    intros [h' q] z (N & W & L & Fq & Np). split; cbn [fst snd add_var vadd] in *; auto. now apply (sim_new_var m s h' q z).
  - (* op= *)
    unfold var_of. unfold vvar in E.
    destruct (var_cases m s a S) as [[E1 F1]|(q1 & x1 & o1 & E1 & F1 & L1)]; rewrite F1 in E; [injection E as <-; rewrite E1; cbn; auto|].
    destruct (var_cases m s b S) as [[E2 F2]|(q2 & x2 & o2 & E2 & F2 & L2)]; rewrite F2 in E; [injection E as <-; rewrite E1, E2; cbn; auto|].
    rewrite E1, E2. cbn [bind].
    destruct ((owner s a || negb (in_place x1)) && (negb (a =? b) || windowless x1)) eqn:Hc; [|discriminate]. injection E as <-.
    apply andb_prop in Hc as [Ho Hw]. assert (Oo : owner s a = o1) by (unfold owner; now rewrite F1). rewrite Oo in *.
    unfold asg_dispatch, asg_ptr. rewrite (exec_split ready (fun a b => do c <- asg_dyn ar o dbg a b; Ok (Some c))), L1, L2. cbn [bind].
    destruct (exec_dyn_2dim ready (fun _ _ => Ok tt) x1 x2) as [[]| | | |] eqn:Ex; cbn [bind]; cbn [catch vcatch rrel]; auto.
    2:{ split; cbn; auto. destruct m; exact S. }
    destruct x1 as [x1|]; [|cbn in Ex; discriminate]. destruct x2 as [x2|]; [|cbn in Ex; discriminate].
    destruct q1 as [c1|]; [|cbn in L1; discriminate]. destruct q2 as [c2|]; [|cbn in L2; discriminate].
    destruct (in_place (Some x1)) eqn:Hi.
    + (* an owner's dense matrix *)
      rewrite orb_false_r in Ho. subst o1.
      destruct x1 as [l1|]; [|discriminate].
      assert (Ea : nth_error (p_heap m) c1 = Some (HL l1)).
      { apply load_inv in L1 as [(l & Ea & Ed)|(t1 & t2 & p1 & p2 & m1 & m2 & Ea & _ & _ & Ed)]; congruence. }
      destruct (sim_own _ _ S _ _ _ E1 F1) as (H1 & H2 & H3).
      pose proof (asg_heap_dense ar o dbg (p_heap m) c1 c2 l1 x2 (sim_wf _ _ S) Ea) as AD.
      destruct (asg_heap ar o dbg (p_heap m) c1 c2) as [h1 q].
      assert (K1 : dense_leaf l1 = true) by (destruct l1; auto; discriminate).
      assert (K2 : c1 = c2 -> windowless (Some (DL l1)) = true) by (intros ->; rewrite (H1 b E2), Nat.eqb_refl in Hw; exact Hw).
      assert (K3 : forall t1 t2 p1 p2, nth_error (p_heap m) c2 = Some (HM t1 t2 p1 p2) -> p1 <> Some c1 /\ p2 <> Some c1) by (intros t1 t2 p1 p2; apply (H3 c2 t1 t2)).
      specialize (AD K1 L2 K2 K3). destruct AD as [AR AT].
      destruct (asg_dyn ar o dbg (DL l1) x2) as [d| | | |], q as [[]| | | |]; cbn in AR |- *; try contradiction; auto.
      * destruct AR as (x' & -> & T & ->). split; cbn [fst snd]; auto. eapply sim_change; eauto.
      * split; cbn; auto. rewrite AT by auto. destruct m; exact S.
    + (* never changed *)
      assert (T1 := exec_listed ready _ _ _ _ Ex).
      assert (T2 := exec_listed2 _ _ _ _ Ex).
      destruct (asg_heap_const ar o dbg (p_heap m) c1 c2 x1 x2 (sim_wf _ _ S) L1 L2 Hi T1 T2) as (q & -> & AR).
      destruct (asg_dyn ar o dbg x1 x2) as [d| | | |], q as [[]| | | |]; cbn in AR |- *; try contradiction; auto.
      * subst d. split; cbn [fst snd]; auto. rewrite set_same_var by auto. destruct m; exact S.
      * split; cbn; auto. destruct m; exact S.
  - (* element write *)
    unfold var_of. unfold vvar in E.
    destruct (var_cases m s v S) as [[E1 F1]|(q & x & o & E1 & F1 & L)]; rewrite F1 in E; [injection E as <-; rewrite E1; cbn; auto|].
    rewrite E1. cbn [bind]. assert (Oo : owner s v = o) by (unfold owner; now rewrite F1). rewrite Oo in E. destruct o; [|discriminate]. injection E as <-.
    destruct q as [c|]; [|cbn in L; injection L as <-; cbn; auto].
    apply load_inv in L as [(l & Ec & ->)|(t1 & t2 & p1 & p2 & m1 & m2 & Ec & _ & _ & ->)]; rewrite Ec; [|cbn; auto].
    destruct l as [z|z|z|z|d]; try (cbn; auto; fail).
    eapply rrel_bind; [apply rrel_same|]. intros d1 ? <-. split; cbn [fst snd]; auto. eapply sim_change; eauto.
  - injection E as <-. unfold var_of, vvar.
    destruct (var_cases m s v S) as [[E1 F1]|(q & x & o & E1 & F1 & L)]; rewrite E1, F1; cbn [bind]; [cbn; auto|]. rewrite L. cbn [bind].
    eapply catch_rel; [exact S|apply rrel_same|]. intros n ? <-. split; auto.
  - injection E as <-. unfold var_of, vvar.
    destruct (var_cases m s v S) as [[E1 F1]|(q & x & o & E1 & F1 & L)]; rewrite E1, F1; cbn [bind]; [cbn; auto|]. rewrite L. cbn [bind].
    eapply catch_rel; [exact S|apply rrel_same|]. intros n ? <-. split; auto.
  - injection E as <-. unfold var_of, vvar.
    destruct (var_cases m s v S) as [[E1 F1]|(q & x & o & E1 & F1 & L)]; rewrite E1, F1; cbn [bind]; [cbn; auto|]. rewrite L. cbn [bind].
    eapply catch_rel; [exact S|apply rrel_same|]. intros n ? <-. split; auto.
  - injection E as <-. apply catch_rel with (Q := fun a b => a = b /\ convert ar exc dbg th d = Ok b); auto.
    { destruct (convert ar exc dbg th d); cbn; auto. }
    intros q ? [-> Eq]. unfold add_var. destruct (store (p_heap m) (Some b)) as [h' c] eqn:Es. cbn [fst snd].
    apply store_ok in Es as (N & W & L & Fq & Np); [|apply (sim_wf _ _ S)|intros ? Ed; injection Ed as <-; eapply convert_wt; eauto].
    split; cbn [fst snd vadd]; auto. now apply (sim_new_var m s h' c (Some b)).
  - injection E as <-. split; cbn [fst snd add_blk badd]; auto.
    apply (sim_new_blk m s (p_heap m)); auto; [apply news_refl|apply (sim_wf _ _ S)| |].
    + repeat split; auto. cbn. unfold palloc. generalize (n * c). clear. intros n. induction n; cbn; constructor; cbn; auto.
    + intros a Hin. unfold refs_blk in Hin. cbn in Hin. apply repeat_spec in Hin. discriminate.
  - injection E as <-. unfold blk_of, vblk.
    destruct (blk_cases m s b S) as [[E1 F1]|(B & V & E1 & F1 & L)]; rewrite E1, F1; cbn [bind]; [cbn; auto|].
    assert (U := unowned_in m s B S (nth_error_In _ _ E1)).
    assert (Hq : forall q, dget dbg (hb_mat B) i j = Ok q -> unowned m s q).
    { unfold dget. intros q Eq. destruct (position dbg (d_sh (hb_mat B)) i j) as [k| | | |]; cbn [bind] in Eq; try discriminate.
      unfold rd in Eq. destruct (nth_error (d_buf (hb_mat B)) _) as [[q'|]|] eqn:Ek; try discriminate. injection Eq as ->.
      apply nth_error_In in Ek. intros v a x ->. now apply (U a). }
    pose proof (dget_rel (p_heap m) dbg (hb_mat B) (b_mat V) i j (proj1 L)) as G.
    destruct (dget dbg (hb_mat B) i j) as [q| | | |], (dget dbg (b_mat V) i j) as [x| | | |]; cbn in G |- *; auto.
    split; cbn [fst snd]; auto. apply (sim_old_var m s q x); auto.
  - injection E as <-. unfold blk_of, vblk, var_of, vvar.
    destruct (blk_cases m s b S) as [[E1 F1]|(B & V & E1 & F1 & L)]; rewrite E1, F1; cbn [bind]; [cbn; auto|].
    destruct (var_cases m s v S) as [[E2 F2]|(q & x & o & E2 & F2 & L2)]; rewrite E2, F2; cbn [bind]; [cbn; auto|].
    assert (U := unowned_in m s B S (nth_error_In _ _ E1)).
    assert (Hq : forall M, dset dbg (hb_mat B) i j q = Ok M -> unowned_blk m (share s v) (mkHBlocked M (hb_ubr B) (hb_ubc B))).
    { unfold dset. intros M Eq. destruct (position dbg (d_sh (hb_mat B)) i j) as [k| | | |]; cbn [bind] in Eq; try discriminate.
      unfold wr in Eq. destruct (_ <? _); cbn [bind] in Eq; [|discriminate]. injection Eq as <-.
      intros a Hin. unfold refs_blk in Hin. cbn in Hin. apply In_upd in Hin as [Hin|Hin].
      - injection Hin as Hin. rewrite Hin. now apply unowned_share.
      - apply unowned_share2; auto. }
    pose proof (dset_rel (p_heap m) dbg (hb_mat B) (b_mat V) i j q x (proj1 L) L2) as G.
    destruct (dset dbg (hb_mat B) i j q) as [M| | | |], (dset dbg (b_mat V) i j x) as [MV| | | |]; cbn in G |- *; auto.
    split; cbn [fst snd]; auto. rewrite <- (share_blk s v).
    apply (sim_set_blk m (share s v)); auto using sim_share. split; [exact G|]. apply L.
  - injection E as <-. unfold blk_of, vblk.
    destruct (blk_cases m s b S) as [[E1 F1]|(B & V & E1 & F1 & L)]; rewrite E1, F1; cbn [bind]; [cbn; auto|].
    split; cbn [fst snd add_blk badd]; auto. apply (sim_old_blk m s); auto. apply unowned_in; auto. eapply nth_error_In; eauto.
  - injection E as <-. unfold blk_of, vblk.
    destruct (blk_cases m s d S) as [[E2 F2]|(B2 & V2 & E2 & F2 & L2)]; rewrite E2, F2; cbn [bind]; [cbn; auto|].
    destruct (blk_cases m s b S) as [[E1 F1]|(B & V & E1 & F1 & L)]; rewrite E1, F1; cbn [bind]; [cbn; auto|].
    split; cbn [fst snd]; auto. apply (sim_set_blk m s); auto. apply unowned_in; auto. eapply nth_error_In; eauto.
  - injection E as <-. unfold blk_of, vblk.
    destruct (blk_cases m s a S) as [[E2 F2]|(A & VA & E2 & F2 & LA)]; rewrite E2, F2; cbn [bind]; [cbn; auto|].
    destruct (blk_cases m s b S) as [[E1 F1]|(B & V & E1 & F1 & L)]; rewrite E1, F1; cbn [bind]; [cbn; auto|].
    eapply catch_rel; [exact S|apply hmul_rel; eauto; apply (sim_wf _ _ S)|].
    intros [h' C] VC (N & W & R & Fb). split; cbn [fst snd add_blk badd] in *; auto. now apply (sim_new_blk m s).
  - injection E as <-. eapply catch_rel; [exact S|apply hcut_rel; apply (sim_wf _ _ S)|].
    intros [h' C] VC (N & W & R & Fb). split; cbn [fst snd add_blk badd] in *; auto. now apply (sim_new_blk m s).
  - injection E as <-. unfold blk_of, vblk.
    destruct (blk_cases m s b S) as [[E1 F1]|(B & V & E1 & F1 & L)]; rewrite E1, F1; cbn [bind]; [cbn; auto|].
    rewrite (load_blocked_rel _ _ _ L). cbn [bind]. eapply catch_rel; [exact S|apply rrel_same|]. intros n ? <-. split; auto.
Qed.

Lemma run_sim ops : forall m s r, sim m s -> vrun ar ready p exc dbg s ops = Some r ->
  rrel (fun a b => sim (fst a) (fst b) /\ snd a = snd b) (prun ar ready p exc dbg m ops) r.
Proof.
  induction ops as [|x ops IH]; intros m s r S E; cbn [vrun prun] in *; [injection E as <-; cbn; auto|].
  destruct (vstep ar ready p exc dbg s x) as [q|] eqn:Ex; [|discriminate]. pose proof (step_sim m s x q S Ex) as H.
  destruct (pstep ar ready p exc dbg m x) as [[m1 z]| | | |], q as [[s1 z']| | | |]; cbn in H; try contradiction; try (injection E as <-; cbn; auto; fail).
  cbn [bind]. destruct H as [H1 H2]. cbn in H1, H2. subst z'.
  destruct (vrun ar ready p exc dbg s1 ops) as [q|] eqn:Er; [|discriminate]. injection E as <-. specialize (IH _ _ _ H1 Er).
  destruct (prun ar ready p exc dbg m1 ops) as [[m2 zs]| | | |], q as [[s2 zs']| | | |]; cbn in IH |- *; try contradiction; auto.
  destruct IH. split; auto. congruence.
Qed.
End P.
