From Verif Require Import BaseLemmas Storage_Spec Storage_Proofs.

Section F.
  Context {T : Type}.
  Variable N : nat.
  Implicit Types (y : fsys T).

  Record FInv y : Prop := {
    fi_ok : forall s o, f_alive y s o -> f_own o = true ->
        exists k, nth_error (f_blocks y) (f_data o) = Some k /\ b_live k = true /\
                  b_ext k = false /\ length (b_cells k) = N;
    fi_excl : forall s1 s2 o1 o2, f_alive y s1 o1 -> f_alive y s2 o2 -> s1 <> s2 ->
        f_own o1 = true -> f_own o2 = true -> f_data o1 <> f_data o2;
    fi_noleak : forall b k, nth_error (f_blocks y) b = Some k -> b_live k = true ->
        exists s o, f_alive y s o /\ f_own o = true /\ f_data o = b
  }.

  Lemma f_get_alive y s o : f_get y s = Ok o <-> f_alive y s o.
  Proof.
    unfold f_get, f_alive. destruct (nth_error (f_objs y) s) as [[x|]|]; split; intros H;
      try discriminate; inversion H; auto.
  Qed.

  Lemma f_alive_lt y s o : f_alive y s o -> s < length (f_objs y).
  Proof. unfold f_alive; intros H. apply nth_error_Some; congruence. Qed.

  Lemma f_alive_det y s o1 o2 : f_alive y s o1 -> f_alive y s o2 -> o1 = o2.
  Proof. unfold f_alive; congruence. Qed.

  Lemma nth_upd_inv {A} (l : list (option A)) s c s' o' :
    nth_error (upd l s c) s' = Some (Some o') ->
    (s' = s /\ c = Some o') \/ (s' <> s /\ nth_error l s' = Some (Some o')).
  Proof.
    intros H. destruct (Nat.eq_dec s' s) as [->|Hne].
    - left; split; auto.
      rewrite nth_error_upd in H. rewrite Nat.eqb_refl in H. simpl in H.
      destruct (s <? length l) eqn:E; [now inversion H|].
      exfalso. apply Nat.ltb_ge in E. apply nth_error_None in E. congruence.
    - right; split; auto. rewrite nth_error_upd_ne in H; auto.
  Qed.

  Lemma f_new_inv y cells : FInv y -> length cells = N -> FInv (f_new y cells).
  Proof.
    intros HI Hlen. unfold f_new, h_alloc.
    assert (Hc : forall s o, nth_error (f_objs y ++ [Some {| f_data := length (f_blocks y); f_own := true |}]) s = Some (Some o) ->
      (s = length (f_objs y) /\ o = {| f_data := length (f_blocks y); f_own := true |}) \/
      (s < length (f_objs y) /\ f_alive y s o)).
    { intros s o H. apply nth_error_snoc in H as [[-> E]|[Hl E]]; auto. left; split; auto; now inversion E. }
    constructor; unfold f_alive; simpl.
    - intros s o Ha Ho. destruct (Hc _ _ Ha) as [[-> ->]|[Hl Hy]]; simpl.
      + eexists. rewrite nth_error_snoc_last. split; [reflexivity|]; simpl; auto.
      + destruct (fi_ok _ HI _ _ Hy Ho) as (k & Hk & Hr). exists k. split; auto.
        now apply nth_error_snoc_old.
    - intros s1 s2 o1 o2 H1 H2 Hne Ho1 Ho2.
      destruct (Hc _ _ H1) as [[-> ->]|[L1 A1]]; destruct (Hc _ _ H2) as [[-> ->]|[L2 A2]]; simpl; try lia.
      + destruct (fi_ok _ HI _ _ A2 Ho2) as (k & Hk & _).
        assert (f_data o2 < length (f_blocks y)) by (apply nth_error_Some; congruence). lia.
      + destruct (fi_ok _ HI _ _ A1 Ho1) as (k & Hk & _).
        assert (f_data o1 < length (f_blocks y)) by (apply nth_error_Some; congruence). lia.
      + eapply (fi_excl _ HI s1 s2); eauto.
    - intros b k Hb Hl. apply nth_error_snoc in Hb as [[-> ->]|[Hlt Hb]].
      + exists (length (f_objs y)). eexists. split; [apply nth_error_snoc_last|]. auto.
      + destruct (fi_noleak _ HI _ _ Hb Hl) as (s & o & Ha & Ho & Hd).
        exists s, o. split; auto. now apply nth_error_snoc_old.
  Qed.

  (** object table permuted / ownership handed on, heap unchanged *)
  Lemma f_cells_inv y b k cs :
    FInv y -> nth_error (f_blocks y) b = Some k -> b_live k = true -> length cs = length (b_cells k) ->
    FInv {| f_blocks := upd (f_blocks y) b {| b_live := true; b_ext := b_ext k; b_cells := cs |};
            f_objs := f_objs y |}.
  Proof.
    intros HI Hk Hl Hlen. assert (Hb : b < length (f_blocks y)) by (apply nth_error_Some; congruence).
    constructor; unfold f_alive; simpl.
    - intros s o Ha Ho. destruct (fi_ok _ HI _ _ Ha Ho) as (k' & Hk' & Hl' & He' & Hn').
      destruct (Nat.eq_dec b (f_data o)) as [->|Hne].
      + rewrite nth_error_upd_eq by auto. eexists; split; [reflexivity|]. simpl.
        rewrite Hk in Hk'; inversion Hk'; subst k'. auto with arith. rewrite Hlen; auto.
      + rewrite nth_error_upd_ne by auto. eauto.
    - intros s1 s2 o1 o2 H1 H2. apply (fi_excl _ HI s1 s2 o1 o2 H1 H2).
    - intros c kc Hc Hlc. rewrite nth_error_upd in Hc.
      destruct ((b =? c) && (b <? length (f_blocks y))) eqn:E.
      + apply andb_true_iff in E as [E _]. apply Nat.eqb_eq in E; subst c. apply (fi_noleak _ HI b k Hk Hl).
      + apply (fi_noleak _ HI c kc Hc Hlc).
  Qed.

  Lemma h_read_full h p k : nth_error h p = Some k -> b_live k = true -> length (b_cells k) = N ->
    @h_read T h (Some p) N = Ok (b_cells k).
  Proof.
    intros Hk Hl Hn. unfold h_read. destruct N as [|n] eqn:EN.
    - destruct (b_cells k); [reflexivity|discriminate].
    - rewrite Hk, Hl. cbn [negb]. rewrite Hn, Nat.leb_refl. rewrite <- Hn, firstn_all. reflexivity.
  Qed.

  Lemma f_swap_inv y d s l r : FInv y -> f_alive y d l -> f_alive y s r ->
    FInv {| f_blocks := f_blocks y; f_objs := upd (upd (f_objs y) d (Some r)) s (Some l) |}.
  Proof.
    intros HI Hl Hr.
    assert (Hc : forall s' w, nth_error (upd (upd (f_objs y) d (Some r)) s (Some l)) s' = Some (Some w) ->
        exists t, f_alive y t w /\ ((s' = s /\ t = d) \/ (s' <> s /\ s' = d /\ t = s) \/ (s' <> d /\ s' <> s /\ t = s'))).
    { intros s' w H; apply nth_upd_inv in H as [[-> E]|[Hn E]].
      - inversion E; subst w; exists d; split; auto.
      - apply nth_upd_inv in E as [[-> E']|[Hn' E']].
        + inversion E'; subst w; exists s; split; auto.
        + exists s'; split; auto. }
    constructor; unfold f_alive; simpl.
    + intros s' w Hw Ho; destruct (Hc _ _ Hw) as (t & A & _); eapply (fi_ok _ HI); eauto.
    + intros s1 s2 o1 o2 H1 H2 Hne Ho1 Ho2;
         destruct (Hc _ _ H1) as (t1 & A1 & C1); destruct (Hc _ _ H2) as (t2 & A2 & C2);
         apply (fi_excl _ HI t1 t2); auto; lia.
    + intros b k Hb Hlk; destruct (fi_noleak _ HI _ _ Hb Hlk) as (s' & w & Hw & Ho & Hd).
      pose proof (f_alive_lt _ _ _ Hl) as Ll; pose proof (f_alive_lt _ _ _ Hr) as Lr.
      destruct (Nat.eq_dec s' d) as [->|Hnd].
      * pose proof (f_alive_det _ _ _ _ Hw Hl); subst w; exists s, l; split; auto.
        rewrite nth_error_upd_eq; auto; now rewrite upd_length.
      * destruct (Nat.eq_dec s' s) as [->|Hns].
        -- pose proof (f_alive_det _ _ _ _ Hw Hr); subst w; exists d, r; split; auto.
           rewrite nth_error_upd_ne by auto; now apply nth_error_upd_eq.
        -- exists s', w; split; auto; rewrite !nth_error_upd_ne by auto; exact Hw.
  Qed.

  Lemma fstep_ok y o : FInv y -> f_legal N y o ->
    exists y1 x, fstep N y o = Ok (y1, x) /\ FInv y1.
  Proof.
    intros HI HL. destruct o as [|vs|s|s|cs|vs|blk n|s vs|d s|d s|d s|s i v|s i|s]; cbn [fstep f_legal] in *.
    - do 2 eexists; split; [reflexivity|]. apply f_new_inv; auto. apply alloc_length.
    - rewrite HL, Nat.eqb_refl. do 2 eexists; split; [reflexivity|]. apply f_new_inv; auto.
      now rewrite map_length.
    - destruct HL as (r & Hr & Ho). rewrite (proj2 (f_get_alive _ _ _) Hr). cbn [bind].
      destruct (fi_ok _ HI _ _ Hr Ho) as (k & Hk & Hl & He & Hn).
      rewrite (h_read_full _ _ _ Hk Hl Hn). cbn [bind]. do 2 eexists; split; [reflexivity|].
      now apply f_new_inv.
    - destruct HL as (r & Hr & Ho). rewrite (proj2 (f_get_alive _ _ _) Hr). cbn [bind].
      do 2 eexists; split; [reflexivity|].
      pose proof (f_alive_lt _ _ _ Hr) as Hs.
      assert (Hc : forall s' z, nth_error (upd (f_objs y ++ [Some r]) s (Some {| f_data := f_data r; f_own := false |})) s' = Some (Some z) ->
         f_own z = true -> (s' = length (f_objs y) /\ z = r) \/ (s' <> s /\ s' < length (f_objs y) /\ f_alive y s' z)).
      { intros s' z H Hz. apply nth_upd_inv in H as [[-> E]|[Hne E]].
        - inversion E; subst; discriminate.
        - apply nth_error_snoc in E as [[-> E]|[Hl E]]; auto. left; split; auto; now inversion E. }
      constructor; unfold f_alive; simpl.
      + intros s' z Ha Hz. destruct (Hc _ _ Ha Hz) as [[-> ->]|(N1 & L1 & A1)]; eapply (fi_ok _ HI); eauto.
      + intros s1 s2 o1 o2 H1 H2 Hne Ho1 Ho2.
        destruct (Hc _ _ H1 Ho1) as [[-> ->]|(N1 & L1 & A1)]; destruct (Hc _ _ H2 Ho2) as [[-> ->]|(N2 & L2 & A2)]; try lia.
        * apply (fi_excl _ HI s s2); auto.
        * apply (fi_excl _ HI s1 s); auto.
        * apply (fi_excl _ HI s1 s2); auto.
      + intros b k Hb Hl. destruct (fi_noleak _ HI _ _ Hb Hl) as (s' & z & Ha & Hz & Hd).
        destruct (Nat.eq_dec s' s) as [->|Hne].
        * pose proof (f_alive_det _ _ _ _ Ha Hr); subst z. exists (length (f_objs y)), r.
          split; auto. rewrite nth_error_upd_ne by lia. apply nth_error_snoc_last.
        * exists s', z. split; auto. rewrite nth_error_upd_ne by auto. now apply nth_error_snoc_old.
    - rewrite HL, Nat.eqb_refl. do 2 eexists; split; [reflexivity|]. now apply f_new_inv.
    - destruct HL.
    - destruct HL.
    - destruct HL as ((l & Hl & Hol) & HN). rewrite (proj2 (f_get_alive _ _ _) Hl). cbn [bind].
      destruct (fi_ok _ HI _ _ Hl Hol) as (kl & Hkl & Hlkl & Hel & Hnl).
      assert (Hobj : upd (f_objs y) s (Some {| f_data := f_data l; f_own := true |}) = f_objs y).
      { apply nth_error_ext; intros i. rewrite nth_error_upd.
        destruct ((s =? i) && (s <? length (f_objs y))) eqn:E; auto.
        apply andb_true_iff in E as [E _]. apply Nat.eqb_eq in E; subst i. rewrite Hl.
        destruct l as [dl ol]; simpl in *; now subst ol. }
      rewrite Hobj. rewrite (proj2 (Nat.leb_le _ _) HN).
      assert (Hlen : length (map Some (firstn N vs)) = N) by (rewrite map_length, firstn_length; lia).
      unfold h_write. destruct (map Some (firstn N vs)) as [|c0 cs0] eqn:Ec.
      + cbn [bind]. do 2 eexists; split; [reflexivity|]. destruct y; exact HI.
      + rewrite Hkl, Hlkl. cbn [negb]. rewrite Hlen, Hnl, Nat.leb_refl. cbn [bind]. do 2 eexists; split; [reflexivity|].
        apply f_cells_inv; auto. rewrite app_length, skipn_length. lia.
    - destruct HL as ((l & Hl & Hol) & (r & Hr & Hor)).
      rewrite (proj2 (f_get_alive _ _ _) Hl), (proj2 (f_get_alive _ _ _) Hr). cbn [bind].
      destruct (Nat.eqb_spec d s) as [->|Hne]; [do 2 eexists; split; [reflexivity|]; auto|].
      destruct (fi_ok _ HI _ _ Hr Hor) as (k & Hk & Hlk & He & Hn).
      destruct (fi_ok _ HI _ _ Hl Hol) as (kl & Hkl & Hlkl & Hel & Hnl).
      rewrite (h_read_full _ _ _ Hk Hlk Hn). cbn [bind].
      assert (Hobj : upd (f_objs y) d (Some {| f_data := f_data l; f_own := true |}) = f_objs y).
      { apply nth_error_ext; intros i. rewrite nth_error_upd.
        destruct ((d =? i) && (d <? length (f_objs y))) eqn:E; auto.
        apply andb_true_iff in E as [E _]. apply Nat.eqb_eq in E; subst i. rewrite Hl.
        destruct l as [dl ol]; simpl in *; now subst ol. }
      rewrite Hobj. unfold h_write. destruct (b_cells k) as [|c0 cs0] eqn:Ec.
      + cbn [bind]. do 2 eexists; split; [reflexivity|]. destruct y; exact HI.
      + rewrite Hkl, Hlkl. cbn [negb].
        assert (Hle : length (c0 :: cs0) <= length (b_cells kl)) by lia.
        rewrite (proj2 (Nat.leb_le _ _) Hle). cbn [bind]. do 2 eexists; split; [reflexivity|].
        apply f_cells_inv; auto. rewrite app_length, skipn_length. lia.
    - destruct HL as ((l & Hl) & (r & Hr)).
      rewrite (proj2 (f_get_alive _ _ _) Hl), (proj2 (f_get_alive _ _ _) Hr). cbn [bind].
      do 2 eexists; split; [reflexivity|].
      now apply f_swap_inv.
    - destruct HL as ((l & Hl) & (r & Hr)).
      rewrite (proj2 (f_get_alive _ _ _) Hl), (proj2 (f_get_alive _ _ _) Hr). cbn [bind].
      do 2 eexists; split; [reflexivity|].
      now apply f_swap_inv.
    - destruct HL as ((r & Hr & Ho) & Hi). rewrite (proj2 (f_get_alive _ _ _) Hr). cbn [bind].
      destruct (fi_ok _ HI _ _ Hr Ho) as (k & Hk & Hl & He & Hn).
      unfold h_cell. rewrite Hk, Hl. cbn [negb].
      rewrite (proj2 (Nat.ltb_lt _ _)) by lia. cbn [bind]. do 2 eexists; split; [reflexivity|].
      apply f_cells_inv; auto. now rewrite upd_length.
    - destruct HL as ((r & Hr & Ho) & Hi). rewrite (proj2 (f_get_alive _ _ _) Hr). cbn [bind].
      destruct (fi_ok _ HI _ _ Hr Ho) as (k & Hk & Hl & He & Hn).
      unfold h_cell. rewrite Hk, Hl. cbn [negb].
      rewrite (proj2 (Nat.ltb_lt _ _)) by lia. cbn [bind snd]. unfold rdc.
      destruct (nth_error (b_cells k) i) eqn:En.
      + cbn [bind]. do 2 eexists; split; [reflexivity|]; auto.
      + apply nth_error_None in En; lia.
    - destruct HL as (r & Hr). rewrite (proj2 (f_get_alive _ _ _) Hr). cbn [bind].
      assert (Hc : forall s' z, nth_error (upd (f_objs y) s None) s' = Some (Some z) -> s' <> s /\ f_alive y s' z).
      { intros s' z H. apply nth_upd_inv in H as [[_ E]|H]; [discriminate|auto]. }
      destruct (f_own r) eqn:Eo.
      + destruct (fi_ok _ HI _ _ Hr Eo) as (k & Hk & Hl & He & Hn).
        unfold h_free. rewrite Hk, He, Hl. cbn [bind]. do 2 eexists; split; [reflexivity|].
        constructor; unfold f_alive; simpl.
        * intros s' z Hz Hoz. destruct (Hc _ _ Hz) as [Hne A].
          destruct (fi_ok _ HI _ _ A Hoz) as (k' & Hk' & Hr').
          pose proof (fi_excl _ HI s' s z r A Hr Hne Hoz Eo) as Hd.
          exists k'. rewrite nth_error_upd_ne by auto. auto.
        * intros s1 s2 o1 o2 H1 H2. destruct (Hc _ _ H1) as [_ A1], (Hc _ _ H2) as [_ A2].
          apply (fi_excl _ HI s1 s2); auto.
        * intros b kb Hb Hlb. rewrite nth_error_upd in Hb.
          destruct ((f_data r =? b) && (f_data r <? length (f_blocks y))) eqn:E;
            [inversion Hb; subst; discriminate|].
          destruct (fi_noleak _ HI _ _ Hb Hlb) as (s' & z & Hz & Hoz & Hd).
          exists s', z. split; auto. rewrite nth_error_upd_ne; auto. intros ->.
          pose proof (f_alive_det _ _ _ _ Hz Hr); subst z. rewrite Hd, Nat.eqb_refl in E. simpl in E.
          apply Nat.ltb_ge in E. assert (b < length (f_blocks y)) by (apply nth_error_Some; congruence). lia.
      + cbn [bind]. do 2 eexists; split; [reflexivity|]. constructor; unfold f_alive; simpl.
        * intros s' z Hz Hoz. destruct (Hc _ _ Hz) as [Hne A]. eapply (fi_ok _ HI); eauto.
        * intros s1 s2 o1 o2 H1 H2. destruct (Hc _ _ H1) as [_ A1], (Hc _ _ H2) as [_ A2].
          apply (fi_excl _ HI s1 s2); auto.
        * intros b kb Hb Hlb. destruct (fi_noleak _ HI _ _ Hb Hlb) as (s' & z & Hz & Hoz & Hd).
          exists s', z. split; auto. rewrite nth_error_upd_ne; auto. intros ->.
          pose proof (f_alive_det _ _ _ _ Hz Hr); subst z. congruence.
  Qed.

  Lemma frun_ok y ops : FInv y -> f_legal_run N y ops ->
    exists y1 xs, frun N y ops = Ok (y1, xs) /\ FInv y1.
  Proof.
    revert y; induction ops as [|o t IH]; intros y HI HL; simpl in *.
    - do 2 eexists; split; [reflexivity|]; auto.
    - destruct HL as [HL1 HL2]. destruct (fstep_ok y o HI HL1) as (y1 & x & E & HI1).
      destruct (IH y1 HI1 (HL2 _ _ E)) as (y2 & xs & E2 & HI2).
      rewrite E; simpl. rewrite E2; simpl. do 2 eexists; split; [reflexivity|]; auto.
  Qed.

  Lemma FInv0 : FInv fsys0.
  Proof.
    constructor; unfold f_alive; simpl.
    - intros [|s] o H; discriminate.
    - intros [|s1] s2 o1 o2 H; discriminate.
    - intros [|b] k H; discriminate.
  Qed.

  Lemma fixed_safe ops : f_legal_run N fsys0 ops ->
    exists y xs, frun N fsys0 ops = Ok (y, xs) /\ (f_all_destroyed y -> f_all_freed y).
  Proof.
    intros HL. destruct (frun_ok fsys0 ops FInv0 HL) as (y & xs & E & HI).
    exists y, xs. split; auto. intros HA k Hk. destruct (b_live k) eqn:El; auto. exfalso.
    apply In_nth_error in Hk as [b Hb].
    destruct (fi_noleak _ HI _ _ Hb El) as (s & o & Ha & _).
    apply nth_error_In in Ha. specialize (HA _ Ha). discriminate.
  Qed.
End F.
