(** Fixed-size storages (Storage.h 124-288) against Alias_Spec.v, and: no
    program over run-time sized storages, legal or not, releases memory twice
    or releases memory the library did not obtain. *)
From Verif Require Import BaseLemmas Storage_Model Alias_Spec Alias_Proofs.

Section F.
  Context {T : Type}.
  Variable N : nat.
  Implicit Types (a : astate T) (y : fsys T).

  Definition fconc (h : handle) : fstor :=
    match h with
    | HNone _ => {| f_data := 0; f_own := false |}
    | HOwn r _ => {| f_data := r; f_own := true |}
    | HView r _ => {| f_data := r; f_own := false |}
    end.
  (** Every handle refers to N cells. *)
  Definition sizedN (h : option handle) : Prop :=
    match h with Some (HNone _) => False | Some (HOwn _ n) | Some (HView _ n) => n = N | None => True end.

  Record FRel a y : Prop := {
    fr_wf : wf (regions a) (handles a);
    fr_mem : RB (regions a) (handles a) (f_blocks y);
    fr_obj : f_objs y = map (option_map fconc) (handles a);
    fr_n : forall s h, nth_error (handles a) s = Some h -> sizedN h
  }.

  Lemma flive_get a y s h : FRel a y -> live a s = Some h ->
    nth_error (handles a) s = Some (Some h) /\ f_get y s = Ok (fconc h) /\ sizedN (Some h).
  Proof.
    intros R. unfold live. destruct (nth_error (handles a) s) as [[h'|]|] eqn:E; try discriminate.
    intros X; injection X as ->. split; auto. split; [|eapply (fr_n _ _ R); eassumption].
    unfold f_get. rewrite (fr_obj _ _ R), nth_error_map, E. reflexivity.
  Qed.

  Lemma fconc_data h : sizedN (Some h) -> Some (f_data (fconc h)) = st_data (conc h) /\ hsize h = N /\ st_size (conc h) = N
    /\ f_own (fconc h) = st_own (conc h).
  Proof. destruct h; cbn; try tauto. Qed.

  Lemma f_add_rel a y c : FRel a y -> length c = N ->
    FRel (add (region_new a Obtained c) (HOwn (length (regions a)) N)) (f_new y c).
  Proof.
    intros R L.
    assert (EQ : HOwn (length (regions a)) N = HOwn (length (regions a)) (length c)) by now rewrite L.
    assert (Z : forall h, h = Some (HOwn (length (regions a)) (length c)) -> sizedN h) by (intros h ->; exact L).
    rewrite EQ. clear EQ. destruct R as [W M O S]. constructor; cbn [add region_new regions handles f_new h_alloc f_blocks f_objs].
    - apply wf_snoc; [now apply wf_app|apply fresh_hok|]. intros r n E s n'. injection E as <- <-.
      now apply (fresh_not_owned (regions a)).
    - now apply RB_fresh_add.
    - rewrite map_app, O. cbn. now rewrite (proj1 M).
    - intros s h Hs. apply snoc_cases in Hs. destruct Hs as [[_ ->]|[_ Hs]]; [now apply Z|eauto].
  Qed.

  Lemma f_write_rel a y r g k c : FRel a y -> nth_error (regions a) r = Some g ->
    nth_error (f_blocks y) r = Some k -> b_live k = true -> length c = length (r_cells g) ->
    FRel (mkA (upd (regions a) r (mkRegion (r_kind g) c)) (handles a))
        {| f_blocks := upd (f_blocks y) r {| b_live := true; b_ext := b_ext k; b_cells := c |}; f_objs := f_objs y |}.
  Proof.
    intros [W M O S] Hg Hk LV Lc. constructor; cbn [regions handles f_blocks f_objs]; auto.
    - now apply wf_cells.
    - now apply RB_cells.
  Qed.

  Lemma fspec_sim a y o a1 x : FRel a y -> fspec N a o = Some (a1, x) ->
    exists y1, fstep N y o = Ok (y1, x) /\ FRel a1 y1.
  Proof.
    intros R E. destruct o as [|vs|s|s|cs|vs|r n|s vs|d s|d s|d s|s i v|s i|s]; cbn [fspec] in E.
    - injection E as <- <-. eexists; split; [reflexivity|]. apply f_add_rel; auto. apply repeat_length.
    - cbn [fstep]. destruct (Nat.eqb_spec (length vs) N) as [L|L]; injection E as <- <-; (eexists; split; [reflexivity|]).
      + apply f_add_rel; auto. now rewrite map_length.
      + destruct R as [W M O S]. constructor; cbn [region_new regions handles h_alloc fst f_blocks f_objs]; auto.
        * now apply wf_app.
        * apply RB_app; auto. cbn. split; auto. intros _; left; discriminate.
    - destruct (live a s) as [h|] eqn:L; [|discriminate]. destruct (contents a h) as [c|] eqn:C; [|discriminate].
      destruct (flive_get _ _ _ _ R L) as (Hs & G & Z). injection E as <- <-. cbn [fstep]. rewrite G. cbn [bind].
      destruct (fconc_data h Z) as (D & HS & SZ & _). rewrite D. rewrite <- (eta a) in C.
      destruct (read_ok _ _ _ _ _ (fr_mem _ _ R) (wf_hok _ _ _ _ (fr_wf _ _ R) Hs) C) as (RD & LC).
      rewrite SZ in RD. rewrite RD. cbn [bind]. eexists; split; [reflexivity|]. apply f_add_rel; auto. congruence.
    - destruct (live a s) as [[b|r n|r n]|] eqn:L; try discriminate; injection E as <- <-;
        destruct (flive_get _ _ _ _ R L) as (Hs & G & Z); cbn [fstep]; rewrite G; cbn [bind fconc f_data f_own];
        (eexists; split; [reflexivity|]); destruct R as [W M O S]; pose proof (nth_lt _ _ _ Hs) as Ls.
      + assert (EQ : upd (handles a ++ [Some (HOwn r n)]) s (Some (HView r n)) = upd (handles a) s (Some (HView r n)) ++ [Some (HOwn r n)]).
        { apply nth_error_ext. intros t. destruct (Nat.eq_dec t s) as [->|NE].
          - rewrite nth_error_upd_eq by (rewrite app_length; cbn; lia).
            rewrite nth_error_app1 by (rewrite upd_length; lia). now rewrite nth_error_upd_eq.
          - rewrite nth_error_upd_ne by congruence. destruct (lt_dec t (length (handles a))).
            + rewrite !nth_error_app1 by (try rewrite upd_length; lia). now rewrite nth_error_upd_ne by congruence.
            + rewrite !nth_error_app2 by (try rewrite upd_length; lia). now rewrite upd_length. }
        destruct (wf_own _ _ W _ _ _ Hs) as (g & Hg & Kg & Lg).
        constructor; cbn [put add regions handles f_blocks f_objs].
        * rewrite EQ. apply wf_snoc.
          -- apply wf_upd; [auto|exists g; split; auto; lia|discriminate].
          -- now exists g.
          -- intros r' n' X t m Ht. injection X as <- <-. apply upd_cases in Ht. destruct Ht as [[_ X]|[NE Ht]]; [discriminate|].
             apply NE. eapply (wf_uniq _ _ W); eassumption.
        * rewrite EQ. revert M. apply RB_ext. intros i. split; intros (t & m & Ht).
          -- destruct (Nat.eq_dec t s) as [->|NE].
             ++ rewrite Hs in Ht. injection Ht as -> ->. exists (length (handles a)), m.
                replace (length (handles a)) with (length (upd (handles a) s (Some (HView i m)))) by apply upd_length. apply snoc_last.
             ++ exists t, m. apply snoc_old. now rewrite nth_error_upd_ne by congruence.
          -- apply snoc_cases in Ht. destruct Ht as [[_ X]|[_ Ht]].
             ++ injection X as -> ->. now exists s, n.
             ++ apply upd_cases in Ht. destruct Ht as [[_ X]|[NE Ht]]; [discriminate|now exists t, m].
        * rewrite map_upd, map_app, O. reflexivity.
        * rewrite EQ. intros t h Ht. apply snoc_cases in Ht. destruct Ht as [[_ ->]|[_ Ht]]; [exact (S _ _ Hs)|].
          apply upd_cases in Ht. destruct Ht as [[_ ->]|[_ Ht]]; [exact (S _ _ Hs)|eauto].
      + assert (EQ : upd (map (option_map fconc) (handles a) ++ [Some {| f_data := r; f_own := false |}]) s
                     (Some {| f_data := r; f_own := false |}) = map (option_map fconc) (handles a) ++ [Some {| f_data := r; f_own := false |}]).
        { apply nth_error_ext. intros t. destruct (Nat.eq_dec t s) as [->|NE].
          - rewrite nth_error_upd_eq by (rewrite app_length, map_length; cbn; lia).
            rewrite nth_error_app1 by (rewrite map_length; lia). now rewrite nth_error_map, Hs.
          - now rewrite nth_error_upd_ne by congruence. }
        constructor; cbn [add regions handles f_blocks f_objs].
        * apply wf_snoc; auto; [|discriminate]. exact (wf_hok _ _ _ _ W Hs).
        * apply RB_add_non; auto. discriminate.
        * rewrite O, EQ, map_app. reflexivity.
        * intros t h Ht. apply snoc_cases in Ht. destruct Ht as [[_ ->]|[_ Ht]]; [exact (S _ _ Hs)|eauto].
    - cbn [fstep]. destruct (Nat.eqb_spec (length cs) N) as [L|L]; injection E as <- <-; (eexists; split; [reflexivity|]).
      + now apply f_add_rel.
      + destruct R as [W M O S]. constructor; cbn [region_new regions handles h_alloc fst f_blocks f_objs]; auto.
        * now apply wf_app.
        * apply RB_app; auto. cbn. split; auto. intros _; left; discriminate.
    - injection E as <- <-. cbn [fstep]. eexists; split; [reflexivity|].
      destruct R as [W M O S]. constructor; cbn [region_new regions handles f_blocks f_objs]; auto.
      + now apply wf_app.
      + apply RB_app; auto. cbn. split; auto. intros _; left; discriminate.
    - destruct (nth_error (regions a) r) as [g|] eqn:Hg; [|discriminate].
      destruct (r_kind g) eqn:Kg; try discriminate. destruct (Nat.leb_spec N (length (r_cells g))) as [LN|LN]; [|discriminate].
      injection E as <- <-. cbn [fstep]. eexists; split; [reflexivity|].
      destruct R as [W M O S]. constructor; cbn [add regions handles f_blocks f_objs].
      + apply wf_snoc; auto; [|discriminate]. now exists g.
      + apply RB_add_non; auto. discriminate.
      + rewrite O, map_app. reflexivity.
      + intros t h Ht. apply snoc_cases in Ht. destruct Ht as [[_ ->]|[_ Ht]]; [reflexivity|eauto].
    - destruct (live a s) as [h|] eqn:L; [|discriminate]. destruct (contents a h) as [c|] eqn:C; [|discriminate].
      destruct (flive_get _ _ _ _ R L) as (Hs & G & Z). cbn [fstep]. rewrite G. cbn [bind].
      destruct (fconc_data h Z) as (D & HS & SZ & OW). rewrite <- (eta a) in C.
      destruct (block_of _ _ _ _ _ _ (fr_mem _ _ R) (wf_hok _ _ _ _ (fr_wf _ _ R) Hs) C (eq_sym D))
        as (g & k & Hg & Hk & LV & Ck & Ek & LE & _).
      assert (LW : length (firstn N vs) <= length (r_cells g)) by (rewrite firstn_length; lia).
      assert (HW : h_write (f_blocks y) (Some (f_data (fconc h))) (map Some (firstn N vs))
                   = Ok (upd (f_blocks y) (f_data (fconc h)) {| b_live := true; b_ext := b_ext k;
                          b_cells := map Some (firstn N vs) ++ skipn (length (firstn N vs)) (r_cells g) |})).
      { unfold h_write. destruct (firstn N vs) as [|v0 vs0] eqn:EV.
        - cbn. rewrite <- Ck. f_equal. symmetry. apply nth_error_ext. intros t. destruct (Nat.eq_dec t (f_data (fconc h))) as [->|NE].
          + rewrite nth_error_upd_eq by (eapply nth_lt; eassumption). rewrite Hk. f_equal. destruct k; cbn in *; congruence.
          + now rewrite nth_error_upd_ne by congruence.
        - cbn [map]. rewrite Hk, LV. cbn [negb]. rewrite Ck. cbn [length] in *. rewrite map_length.
          destruct (Nat.leb_spec (S (length vs0)) (length (r_cells g))); [reflexivity|lia]. }
      rewrite HW. cbn [bind].
      pose proof (f_write_rel a y _ g k (map Some (firstn N vs) ++ skipn (length (firstn N vs)) (r_cells g)) R Hg Hk LV
        ltac:(rewrite app_length, map_length, skipn_length; lia)) as X.
      destruct (Nat.leb_spec N (length vs)) as [LN|LN].
      + destruct h as [b|r n|r n]; try discriminate. injection E as <- <-. eexists; split; [reflexivity|].
        cbn [fconc f_data] in *.
        assert (LG : length (r_cells g) = N).
        { destruct (wf_own _ _ (fr_wf _ _ R) _ _ _ Hs) as (g' & Hg' & _ & Lg'). rewrite Hg in Hg'. injection Hg' as <-.
          cbn in HS. lia. }
        rewrite firstn_length, skipn_all2, app_nil_r in X by (rewrite ?firstn_length; lia).
        rewrite firstn_length, skipn_all2, app_nil_r by (rewrite ?firstn_length; lia).
        replace (upd (f_objs y) s (Some {| f_data := r; f_own := true |})) with (f_objs y); [rewrite Hg; exact X|].
        apply nth_error_ext. intros t. destruct (Nat.eq_dec t s) as [->|NE].
        * rewrite (fr_obj _ _ R), nth_error_upd_eq by (rewrite map_length; eapply nth_lt; eassumption).
          now rewrite nth_error_map, Hs.
        * now rewrite nth_error_upd_ne by congruence.
      + injection E as <- <-. eexists; split; [reflexivity|].
        rewrite (write_eq a h (f_data (fconc h)) g) by (auto; now rewrite D).
        rewrite firstn_all2 in X |- * by lia. exact X.
    - destruct (live a d) as [l|] eqn:L1; [|discriminate]. destruct (live a s) as [h|] eqn:L2; [|discriminate].
      destruct (flive_get _ _ _ _ R L1) as (Hd & G1 & Z1). destruct (flive_get _ _ _ _ R L2) as (Hs & G2 & Z2).
      cbn [fstep]. rewrite G1, G2. cbn [bind].
      destruct (Nat.eqb_spec d s) as [->|Hne]; [injection E as <- <-; eauto|].
      destruct l as [b|r n|r n]; try discriminate. destruct (contents a h) as [c|] eqn:C; [|discriminate].
      injection E as <- <-. rewrite <- (eta a) in C.
      destruct (fconc_data h Z2) as (D & HS & SZ & _). rewrite D.
      destruct (read_ok _ _ _ _ _ (fr_mem _ _ R) (wf_hok _ _ _ _ (fr_wf _ _ R) Hs) C) as (RD & LC).
      rewrite SZ in RD. rewrite RD. cbn [bind fconc f_data].
      destruct (wf_own _ _ (fr_wf _ _ R) _ _ _ Hd) as (g & Hg & Kg & Lg).
      destruct (proj2 (fr_mem _ _ R) r g Hg) as (k & Hk & Ck & Ek & Lk).
      assert (LV : b_live k = true) by (apply Lk; right; now exists d, n).
      assert (LN : n = N) by exact Z1. assert (LcN : length c = N) by congruence.
      pose proof (f_write_rel a y r g k c R Hg Hk LV ltac:(lia)) as X.
      assert (OO : f_objs y = upd (f_objs y) d (Some {| f_data := r; f_own := true |})).
      { apply nth_error_ext. intros t. destruct (Nat.eq_dec t d) as [->|NE].
        - rewrite (fr_obj _ _ R), nth_error_upd_eq by (rewrite map_length; eapply nth_lt; eassumption).
          now rewrite nth_error_map, Hd.
        - now rewrite nth_error_upd_ne by congruence. }
      cbn [write]. rewrite Hg.
      unfold h_write. destruct c as [|c0 c].
      + cbn [bind]. eexists; split; [reflexivity|]. rewrite <- OO.
        assert (r_cells g = []) as EG by (apply length_zero_iff_nil; cbn in LcN; lia).
        rewrite <- EG, <- Ck in X.
        replace (upd (f_blocks y) r {| b_live := true; b_ext := b_ext k; b_cells := b_cells k |}) with (f_blocks y) in X.
        * rewrite <- EG, <- Ck. exact X.
        * symmetry. apply nth_error_ext. intros t. destruct (Nat.eq_dec t r) as [->|NE].
          { rewrite nth_error_upd_eq by (eapply nth_lt; eassumption). rewrite Hk. f_equal. destruct k; cbn in *; congruence. }
          { now rewrite nth_error_upd_ne by congruence. }
      + rewrite Hk, LV. cbn [negb]. rewrite Ck. destruct (Nat.leb_spec (length (c0 :: c)) (length (r_cells g))); [|lia].
        cbn [bind]. eexists; split; [reflexivity|]. rewrite <- OO.
        rewrite skipn_all2 by lia. rewrite app_nil_r. exact X.
    - destruct (live a d) as [h|] eqn:L1; [|discriminate]. destruct (live a s) as [k|] eqn:L2; [|discriminate].
      destruct (flive_get _ _ _ _ R L1) as (Hd & G1 & Z1). destruct (flive_get _ _ _ _ R L2) as (Hs & G2 & Z2).
      injection E as <- <-. cbn [fstep]. rewrite G1, G2. cbn [bind]. eexists; split; [reflexivity|].
      destruct R as [W M O S]. constructor; cbn [put regions handles f_blocks f_objs].
      + now apply swap_wf.
      + revert M. apply RB_ext. now apply swap_owned.
      + now rewrite !map_upd, O.
      + intros t x Ht. apply upd_cases in Ht. destruct Ht as [[_ ->]|[_ Ht]]; [exact Z1|].
        apply upd_cases in Ht. destruct Ht as [[_ ->]|[_ Ht]]; [exact Z2|eauto].
    - destruct (live a d) as [h|] eqn:L1; [|discriminate]. destruct (live a s) as [k|] eqn:L2; [|discriminate].
      destruct (flive_get _ _ _ _ R L1) as (Hd & G1 & Z1). destruct (flive_get _ _ _ _ R L2) as (Hs & G2 & Z2).
      injection E as <- <-. cbn [fstep]. rewrite G1, G2. cbn [bind]. eexists; split; [reflexivity|].
      destruct R as [W M O S]. constructor; cbn [put regions handles f_blocks f_objs].
      + now apply swap_wf.
      + revert M. apply RB_ext. now apply swap_owned.
      + now rewrite !map_upd, O.
      + intros t x Ht. apply upd_cases in Ht. destruct Ht as [[_ ->]|[_ Ht]]; [exact Z1|].
        apply upd_cases in Ht. destruct Ht as [[_ ->]|[_ Ht]]; [exact Z2|eauto].
    - destruct (live a s) as [h|] eqn:L; [|discriminate]. destruct (contents a h) as [c|] eqn:C; [|discriminate].
      destruct (Nat.ltb_spec i (length c)) as [Li|Li]; [|discriminate].
      destruct (flive_get _ _ _ _ R L) as (Hs & G & Z). injection E as <- <-. cbn [fstep]. rewrite G. cbn [bind].
      destruct (fconc_data h Z) as (DD & HS & SZ & _). rewrite DD. rewrite <- (eta a) in C.
      destruct (cell_of _ _ _ _ _ i (fr_mem _ _ R) (wf_hok _ _ _ _ (fr_wf _ _ R) Hs) C Li)
        as (r & g & k & D & HC & Hg & Hk & LV & Ck & Ek & -> & Lg & _).
      rewrite HC. cbn [bind]. eexists; split; [reflexivity|]. rewrite (write_eq a h r g) by auto. rewrite Ck.
      eapply f_write_rel; eauto. now rewrite upd_length.
    - destruct (live a s) as [h|] eqn:L; [|discriminate]. destruct (contents a h) as [c|] eqn:C; [|discriminate].
      destruct (nth_error c i) as [v|] eqn:Hv; [|discriminate].
      destruct (flive_get _ _ _ _ R L) as (Hs & G & Z). injection E as <- <-. cbn [fstep]. rewrite G. cbn [bind].
      destruct (fconc_data h Z) as (DD & HS & SZ & _). rewrite DD. rewrite <- (eta a) in C.
      destruct (cell_of _ _ _ _ _ i (fr_mem _ _ R) (wf_hok _ _ _ _ (fr_wf _ _ R) Hs) C (nth_lt _ _ _ Hv))
        as (r & g & k & D & HC & Hg & Hk & LV & Ck & Ek & -> & Lg & Ls).
      rewrite HC. cbn [bind snd]. unfold rdc. rewrite Ck.
      assert (nth_error (r_cells g) i = Some v) as ->.
      { rewrite <- Hv. rewrite <- (firstn_skipn (hsize h) (r_cells g)) at 1. apply nth_error_app1. eapply nth_lt; eassumption. }
      cbn [bind]. eexists; split; [reflexivity|]. exact R.
    - destruct (live a s) as [h|] eqn:L; [|discriminate].
      destruct (flive_get _ _ _ _ R L) as (Hs & G & Z). injection E as <- <-. cbn [fstep]. rewrite G. cbn [bind].
      destruct (fconc_data h Z) as (DD & HS & SZ & OW). rewrite DD, OW.
      destruct (release_ok _ _ _ _ _ (fr_wf _ _ R) (fr_mem _ _ R) Hs) as (bs & F & M' & SC).
      unfold release in F. rewrite F. cbn [bind]. eexists; split; [reflexivity|].
      destruct R as [W M O S]. constructor; cbn [put regions handles f_blocks f_objs].
      + apply wf_upd; [auto|exact I|discriminate].
      + exact M'.
      + now rewrite map_upd, O.
      + intros t x Ht. apply upd_cases in Ht. destruct Ht as [[_ ->]|[_ Ht]]; [exact I|eauto].
  Qed.

  Lemma frel0 : FRel a0 fsys0.
  Proof.
    constructor; cbn; auto.
    - apply wf_iff. split; intros [|s]; intros; discriminate.
    - split; auto. intros [|i] g; discriminate.
    - intros [|s] h; discriminate.
  Qed.

  Lemma fspec_run_sim ops : forall a y a1 xs, FRel a y -> fspec_run N a ops = Some (a1, xs) ->
    exists y1, frun N y ops = Ok (y1, xs) /\ FRel a1 y1.
  Proof.
    induction ops as [|o ops IH]; intros a y a1 xs R E; cbn [fspec_run frun] in *.
    - injection E as <- <-. eauto.
    - destruct (fspec N a o) as [[a' x]|] eqn:S; [|discriminate].
      destruct (fspec_run N a' ops) as [[a2 xs']|] eqn:S'; [|discriminate]. injection E as <- <-.
      destruct (fspec_sim _ _ _ _ _ R S) as (y1 & E1 & R1). destruct (IH _ _ _ _ R1 S') as (y2 & E2 & R2).
      rewrite E1. cbn [bind]. rewrite E2. cbn [bind]. eauto.
  Qed.

  Lemma fixed_alias_run ops a xs : fspec_run N a0 ops = Some (a, xs) ->
    exists y, frun N fsys0 ops = Ok (y, xs) /\ memory_is (f_blocks y) a.
  Proof.
    intros E. destruct (fspec_run_sim _ _ _ _ _ frel0 E) as (y & H & R). exists y. split; auto. apply RB_memory. apply R.
  Qed.
End F.

(** ** Memory never released twice, caller memory never released: all programs *)
Section Free.
  Context {T : Type}.
  Implicit Types (y : sys T).

  Record owners_ok y : Prop := {
    oo_block : forall s o b, nth_error (objs y) s = Some (Some o) -> st_own o = true -> st_data o = Some b ->
      exists k, nth_error (blocks y) b = Some k /\ b_live k = true /\ b_ext k = false;
    oo_uniq : forall s s' o o' b, nth_error (objs y) s = Some (Some o) -> nth_error (objs y) s' = Some (Some o') ->
      st_own o = true -> st_own o' = true -> st_data o = Some b -> st_data o' = Some b -> s = s'
  }.
  Definition bad_free {A} (r : res A) : Prop := r = UB DoubleFree \/ r = UB WildFree.
  Definition ext_live y : Prop := forall b k, nth_error (blocks y) b = Some k -> b_ext k = true -> b_live k = true.

  Lemma h_free_owned y d o : owners_ok y -> nth_error (objs y) d = Some (Some o) -> st_own o = true ->
    exists h, h_free (blocks y) (st_data o) = Ok h /\ length h = length (blocks y) /\
      (forall b k, nth_error (blocks y) b = Some k -> st_data o <> Some b -> nth_error h b = Some k) /\
      (forall b k, nth_error h b = Some k -> st_data o = Some b -> b_ext k = false) /\
      (forall b k, nth_error h b = Some k -> st_data o <> Some b -> nth_error (blocks y) b = Some k).
  Proof.
    intros I Hd Ho. destruct (st_data o) as [b|] eqn:D.
    - destruct (oo_block _ I _ _ _ Hd Ho D) as (k & Hk & L & X). cbn. rewrite Hk, X, L. eexists. split; [reflexivity|].
      split; [apply upd_length|]. split; [|split].
      + intros b' k' Hk' Hn. rewrite nth_error_upd_ne; congruence.
      + intros b' k' Hk' E. injection E as ->. rewrite nth_error_upd_eq in Hk' by (eapply nth_lt; eassumption). injection Hk' as <-. reflexivity.
      + intros b' k' Hk' Hn. rewrite nth_error_upd_ne in Hk' by congruence. exact Hk'.
    - exists (blocks y). cbn. repeat split; auto. intros; discriminate.
  Qed.

  (** The state after a step: objects and blocks described piecewise. *)
  Definition good (r : res (sys T * out T)) : Prop :=
    match r with
    | Ok (y1, _) => owners_ok y1 /\ ext_live y1
    | r => ~ bad_free r
    end.

  Lemma good_ub k : k <> DoubleFree -> k <> WildFree -> good (UB k).
  Proof. intros A B [X|X]; congruence. Qed.

  Lemma owners_snoc y h o : owners_ok y ->
    (forall b k, nth_error (blocks y) b = Some k -> nth_error h b = Some k) ->
    (st_own o = true -> forall b, st_data o = Some b -> length (blocks y) <= b /\
        exists k, nth_error h b = Some k /\ b_live k = true /\ b_ext k = false) ->
    owners_ok (new_obj h y o).
  Proof.
    intros [A B] H1 H2. constructor; cbn [new_obj blocks objs].
    - intros s x b Hs Ho D. apply snoc_cases in Hs. destruct Hs as [[_ X]|[_ Hs]].
      + injection X as ->. now apply H2.
      + destruct (A _ _ _ Hs Ho D) as (k & Hk & R). exists k. auto.
    - intros s s' x x' b Hs Hs' Ho Ho' D D'. apply snoc_cases in Hs, Hs'.
      destruct Hs as [[-> X]|[L Hs]], Hs' as [[-> X']|[L' Hs']]; auto.
      + injection X as ->. destruct (H2 Ho _ D) as (G & _). destruct (A _ _ _ Hs' Ho' D') as (k & Hk & _). apply nth_lt in Hk. lia.
      + injection X' as ->. destruct (H2 Ho' _ D') as (G & _). destruct (A _ _ _ Hs Ho D) as (k & Hk & _). apply nth_lt in Hk. lia.
      + eauto.
  Qed.

  Lemma owners_put y h d o : owners_ok y ->
    (forall s x b k, s <> d -> nth_error (objs y) s = Some (Some x) -> st_own x = true -> st_data x = Some b ->
       nth_error (blocks y) b = Some k -> nth_error h b = Some k) ->
    (forall x, o = Some x -> st_own x = true -> forall b, st_data x = Some b ->
        (exists k, nth_error h b = Some k /\ b_live k = true /\ b_ext k = false) /\
        (forall s x', s <> d -> nth_error (objs y) s = Some (Some x') -> st_own x' = true -> st_data x' <> Some b)) ->
    owners_ok {| blocks := h; objs := upd (objs y) d o |}.
  Proof.
    intros [A B] H1 H2. constructor; cbn [blocks objs].
    - intros s x b Hs Ho D. apply upd_cases in Hs. destruct Hs as [[-> X]|[N Hs]].
      + now apply (H2 x).
      + destruct (A _ _ _ Hs Ho D) as (k & Hk & R). exists k. split; [eapply H1; eauto|auto].
    - intros s s' x x' b Hs Hs' Ho Ho' D D'. apply upd_cases in Hs, Hs'.
      destruct Hs as [[-> X]|[N Hs]], Hs' as [[-> X']|[N' Hs']]; auto.
      + exfalso. eapply (proj2 (H2 x (eq_sym X) Ho _ D)); eauto.
      + exfalso. eapply (proj2 (H2 x' (eq_sym X') Ho' _ D')); eauto.
      + eauto.
  Qed.

  Lemma ext_live_app y h k : ext_live y -> h = blocks y ++ [k] -> b_live k = true -> forall l, ext_live {| blocks := h; objs := l |}.
  Proof.
    intros E -> L l b x Hb Hx. cbn in Hb. apply snoc_cases in Hb. destruct Hb as [[_ ->]|[_ Hb]]; eauto.
  Qed.

  Lemma read_not_bad h p n : ~ bad_free (@h_read T h p n).
  Proof.
    unfold h_read, bad_free. destruct n; [intros [X|X]; discriminate|]. destruct p; [|intros [X|X]; discriminate].
    destruct (nth_error h n0); [|intros [X|X]; discriminate]. destruct (b_live b); cbn [negb]; [|intros [X|X]; discriminate].
    destruct (S n <=? length (b_cells b)); intros [X|X]; discriminate.
  Qed.
  Lemma get_not_bad y s : ~ bad_free (get_obj y s).
  Proof. unfold get_obj, bad_free. destruct (nth_error (objs y) s) as [[o|]|]; intros [X|X]; discriminate. Qed.
  Lemma cell_not_bad h p i : ~ bad_free (@h_cell T h p i).
  Proof.
    unfold h_cell, bad_free. destruct p as [n|]; [|intros [X|X]; discriminate].
    destruct (nth_error h n) as [b|]; [|intros [X|X]; discriminate]. destruct (b_live b); cbn [negb]; [|intros [X|X]; discriminate].
    destruct (i <? length (b_cells b)); intros [X|X]; discriminate.
  Qed.
  Lemma bind_good {A} (x : res A) f : ~ bad_free x -> (forall v, x = Ok v -> good (f v)) -> good (bind x f).
  Proof.
    intros N H. destruct x; cbn; auto; intros [X|X]; try discriminate; apply N; unfold bad_free; [left|right]; congruence.
  Qed.
  Lemma bind_good_q {A} (x : res A) f : ~ bad_free x -> (forall v, x = Ok v -> good (quiet (f v))) -> good (quiet (bind x f)).
  Proof.
    intros N H. unfold quiet. rewrite bind_assoc. apply bind_good; auto.
  Qed.
  Lemma get_some y s o : get_obj y s = Ok o -> nth_error (objs y) s = Some (Some o).
  Proof. unfold get_obj. destruct (nth_error (objs y) s) as [[x|]|]; congruence. Qed.

  Lemma quiet_ok y1 : owners_ok y1 -> ext_live y1 -> good (quiet (Ok y1)).
  Proof. intros; cbn; auto. Qed.

  Lemma fresh_snoc_good y c n own : owners_ok y -> ext_live y ->
    owners_ok (new_obj (blocks y ++ [{| b_live := true; b_ext := false; b_cells := c |}]) y
       {| st_data := Some (length (blocks y)); st_size := n; st_own := own |}) /\
    ext_live (new_obj (blocks y ++ [{| b_live := true; b_ext := false; b_cells := c |}]) y
       {| st_data := Some (length (blocks y)); st_size := n; st_own := own |}).
  Proof.
    intros I E. split.
    - apply owners_snoc; auto; cbn.
      + intros b k Hb. now apply snoc_old.
      + intros _ b X. injection X as <-. split; [lia|]. eexists. split; [apply snoc_last|]. auto.
    - eapply ext_live_app; eauto.
  Qed.

  Lemma same_blocks_new y o : owners_ok y -> ext_live y -> (st_own o = true -> st_data o = None) ->
    owners_ok (new_obj (blocks y) y o) /\ ext_live (new_obj (blocks y) y o).
  Proof.
    intros I E N. split; [|exact E]. apply owners_snoc; auto. intros Ho b D. rewrite N in D by auto. discriminate.
  Qed.

  (** Put a freshly allocated block into slot [d] after the slot's memory was
      released into [h]. *)
  Lemma after_free_put y d l h c n own : owners_ok y -> ext_live y -> nth_error (objs y) d = Some (Some l) ->
    (if st_own l then h_free (blocks y) (st_data l) else Ok (blocks y)) = Ok h ->
    let y1 := {| blocks := h ++ [{| b_live := true; b_ext := false; b_cells := c |}];
                 objs := upd (objs y) d (Some {| st_data := Some (length h); st_size := n; st_own := own |}) |} in
    owners_ok y1 /\ ext_live y1.
  Proof.
    intros I E Hd F y1.
    assert (P : length h = length (blocks y) /\
      (forall b k, nth_error (blocks y) b = Some k -> (st_own l = true -> st_data l <> Some b) -> nth_error h b = Some k) /\
      (forall b k, nth_error h b = Some k -> b_ext k = true -> b_live k = true)).
    { destruct (st_own l) eqn:O.
      - destruct (h_free_owned y d l I Hd O) as (h' & F' & L & K1 & K2 & K3). rewrite F in F'. injection F' as <-.
        split; auto. split; [intros; apply K1; auto|]. intros b k Hb Hx.
        destruct (st_data l) as [b'|] eqn:D.
        + destruct (Nat.eq_dec b b') as [e|ne].
          * subst b'. rewrite (K2 b k Hb eq_refl) in Hx. discriminate.
          * apply (E b k); auto. apply K3; auto. congruence.
        + apply (E b k); auto. apply K3; auto. discriminate.
      - injection F as <-. split; auto. }
    destruct P as (L & K1 & K3). split.
    - apply owners_put; auto.
      + intros s x b k N Hs Ho D Hk. apply snoc_old. apply K1; auto. intros Ol Dl. apply N. eapply (oo_uniq _ I); eauto.
      + intros x X Ho b D. injection X as <-. cbn in D. injection D as <-. split.
        * eexists. split; [apply snoc_last|]. auto.
        * intros s x' N Hs Ho' D'. destruct (oo_block _ I _ _ _ Hs Ho' D') as (k & Hk & _). apply nth_lt in Hk. lia.
    - intros b k Hb Hx. cbn in Hb. apply snoc_cases in Hb. destruct Hb as [[_ ->]|[_ Hb]]; [reflexivity|eauto].
  Qed.

  Lemma free_not_bad y d l : owners_ok y -> nth_error (objs y) d = Some (Some l) ->
    ~ bad_free (if st_own l then h_free (blocks y) (st_data l) else Ok (blocks y)).
  Proof.
    intros I Hd. destruct (st_own l) eqn:O; [|intros [X|X]; discriminate].
    destruct (h_free_owned y d l I Hd O) as (h' & F' & _). rewrite F'. intros [X|X]; discriminate.
  Qed.

  (** Slot [d] released, then overwritten by [o], which owns nothing. *)
  Lemma after_free_non y d l h o : owners_ok y -> ext_live y -> nth_error (objs y) d = Some (Some l) ->
    (if st_own l then h_free (blocks y) (st_data l) else Ok (blocks y)) = Ok h ->
    (forall x, o = Some x -> st_own x = false) ->
    owners_ok {| blocks := h; objs := upd (objs y) d o |} /\ ext_live {| blocks := h; objs := upd (objs y) d o |}.
  Proof.
    intros I E Hd F N.
    destruct (after_free_put y d l h [] 0 true I E Hd F) as (I1 & E1). split.
    - constructor; cbn [blocks objs] in *.
      + intros s x b Hs Ho D. apply upd_cases in Hs. destruct Hs as [[-> X]|[NE Hs]]; [rewrite (N x) in Ho; [discriminate|auto]|].
        destruct (oo_block _ I1 s x b) as (k & Hk & R); auto.
        { cbn. now rewrite nth_error_upd_ne by congruence. }
        cbn in Hk. apply snoc_cases in Hk. destruct Hk as [[-> _]|[_ Hk]]; [|now exists k].
        exfalso. destruct (oo_block _ I _ _ _ Hs Ho D) as (k' & Hk' & _). apply nth_lt in Hk'.
        assert (length h = length (blocks y)).
        { destruct (st_own l) eqn:O; [|congruence]. destruct (h_free_owned y d l I Hd O) as (h' & F' & L & _). congruence. }
        lia.
      + intros s s' x x' b Hs Hs' Ho Ho' D D'. apply upd_cases in Hs, Hs'.
        destruct Hs as [[-> X]|[NE Hs]]; [rewrite (N x) in Ho; [discriminate|auto]|].
        destruct Hs' as [[-> X]|[NE' Hs']]; [rewrite (N x') in Ho'; [discriminate|auto]|].
        eapply (oo_uniq _ I); eauto.
    - intros b k Hb Hx. apply (E1 b k); auto. cbn in *. now apply snoc_old.
  Qed.

  Lemma write_good y k (b : block T) c : owners_ok y -> ext_live y -> nth_error (blocks y) k = Some b ->
    owners_ok {| blocks := upd (blocks y) k {| b_live := true; b_ext := b_ext b; b_cells := c |}; objs := objs y |} /\
    ext_live {| blocks := upd (blocks y) k {| b_live := true; b_ext := b_ext b; b_cells := c |}; objs := objs y |}.
  Proof.
    intros I E Hb. split.
    - constructor; cbn [blocks objs]; [|apply I]. intros s x r Hs Ho D. destruct (oo_block _ I _ _ _ Hs Ho D) as (q & Hq & L & X).
      destruct (Nat.eq_dec r k) as [->|N].
      + rewrite Hb in Hq. injection Hq as <-. eexists. split; [apply nth_error_upd_eq; eapply nth_lt; eassumption|]. auto.
      + exists q. rewrite nth_error_upd_ne by congruence. auto.
    - intros r q Hq Hx. cbn in Hq. apply upd_cases in Hq. destruct Hq as [[-> ->]|[N Hq]]; [reflexivity|eauto].
  Qed.

  Lemma h_write_cases h p (vs : buf T) :
    match h_write h p vs with
    | Ok h' => h' = h \/ exists k b c, nth_error h k = Some b /\ h' = upd h k {| b_live := true; b_ext := b_ext b; b_cells := c |}
    | UB k => k <> DoubleFree /\ k <> WildFree
    | _ => False
    end.
  Proof.
    unfold h_write. destruct vs; [auto|]. destruct p as [i|]; [|split; discriminate].
    destruct (nth_error h i) as [b|] eqn:Hb; [|split; discriminate]. destruct (b_live b); cbn [negb]; [|split; discriminate].
    destruct (length (o :: vs) <=? length (b_cells b)); [|split; discriminate]. right. do 3 eexists. split; [exact Hb|reflexivity].
  Qed.

  Lemma step_good y o : owners_ok y -> ext_live y -> good (step y o).
  Proof.
    intros I E. destruct o as [|n|vs|s|s|s|vs|r n|s|s n|d s|d s|u w|s v|s i v|s i|s vs|s]; cbn [step].
    - apply same_blocks_new; auto.
    - now apply fresh_snoc_good.
    - now apply fresh_snoc_good.
    - unfold s_copy_ctor. apply bind_good_q; [apply get_not_bad|]. intros x _. apply bind_good_q; [apply read_not_bad|]. intros c _.
      cbn [h_alloc]. apply quiet_ok; now apply fresh_snoc_good.
    - unfold s_move_ctor. apply bind_good_q; [apply get_not_bad|]. intros x G. apply get_some in G. apply quiet_ok; [|exact E].
      constructor; cbn [set_obj new_obj blocks objs].
      + intros t z b Ht Ho D. apply upd_cases in Ht. destruct Ht as [[_ X]|[_ Ht]]; [injection X as ->; discriminate|].
        apply snoc_cases in Ht. destruct Ht as [[_ X]|[_ Ht]]; [injection X as ->|]; eapply (oo_block _ I); eauto.
      + intros t t' z z' b Ht Ht' Ho Ho' D D'. apply upd_cases in Ht, Ht'.
        destruct Ht as [[_ X]|[N Ht]]; [injection X as ->; discriminate|].
        destruct Ht' as [[_ X]|[N' Ht']]; [injection X as ->; discriminate|].
        apply snoc_cases in Ht, Ht'. destruct Ht as [[-> X]|[L Ht]], Ht' as [[-> X']|[L' Ht']]; auto.
        * injection X as ->. exfalso. apply N'. symmetry. eapply (oo_uniq _ I); eauto.
        * injection X' as ->. exfalso. apply N. eapply (oo_uniq _ I); eauto.
        * eapply (oo_uniq _ I); eauto.
    - unfold s_conv_ctor. apply bind_good_q; [apply get_not_bad|]. intros x _. apply bind_good_q; [apply read_not_bad|]. intros c _.
      cbn [h_alloc]. apply quiet_ok; now apply fresh_snoc_good.
    - cbn. split.
      + constructor; cbn [blocks objs]; [|apply I]. intros s x b Hs Ho D. destruct (oo_block _ I _ _ _ Hs Ho D) as (k & Hk & R).
        exists k. split; [now apply snoc_old|auto].
      + eapply ext_live_app; eauto.
    - apply same_blocks_new; auto. discriminate.
    - apply bind_good; [apply get_not_bad|]. intros x _. apply same_blocks_new; auto. discriminate.
    - unfold s_resize. apply bind_good; [apply get_not_bad|]. intros x G. apply get_some in G.
      destruct (st_size x =? n); [cbn; auto|]. destruct (st_own x) eqn:O; cbn [negb]; [|cbn; auto].
      assert (Q : (match st_data x with None => Ok (blocks y) | Some _ => h_free (blocks y) (st_data x) end)
                  = (if st_own x then h_free (blocks y) (st_data x) else Ok (blocks y))).
      { rewrite O. now destruct (st_data x). }
      rewrite Q. apply bind_good; [now apply (free_not_bad y s)|]. intros h F. cbn [h_alloc good].
      eapply (after_free_put y s x h); eauto.
    - unfold s_copy_assign. apply bind_good_q; [apply get_not_bad|]. intros l G1. apply bind_good_q; [apply get_not_bad|]. intros x G2.
      apply get_some in G1, G2. destruct (Nat.eqb_spec d s); [now apply quiet_ok|].
      apply bind_good_q; [now apply (free_not_bad y d)|]. intros h F. destruct (st_own x) eqn:O.
      + apply bind_good_q; [apply read_not_bad|]. intros c _. cbn [h_alloc]. apply quiet_ok; eapply (after_free_put y d l h); eauto.
      + apply quiet_ok; (eapply (after_free_non y d l h); eauto; intros z Z; injection Z as <-; reflexivity).
    - unfold s_move_assign. apply bind_good_q; [apply get_not_bad|]. intros l G1. apply bind_good_q; [apply get_not_bad|]. intros x G2.
      apply get_some in G1, G2. apply bind_good_q; [now apply (free_not_bad y d)|]. intros h F.
      destruct (after_free_non y d l h None I E G1 F ltac:(discriminate)) as (I1 & E1).
      apply quiet_ok; [|exact E1]. constructor; cbn [set_obj blocks objs].
      + intros t z b Ht Ho D. apply upd_cases in Ht. destruct Ht as [[_ X]|[N Ht]]; [injection X as ->; discriminate|].
        apply upd_cases in Ht. destruct Ht as [[-> X]|[N' Ht]].
        * injection X as ->. eapply (oo_block _ I1 s x); eauto. cbn. now rewrite nth_error_upd_ne by congruence.
        * eapply (oo_block _ I1 t z); eauto. cbn. now rewrite nth_error_upd_ne by congruence.
      + intros t t' z z' b Ht Ht' Ho Ho' D D'. apply upd_cases in Ht, Ht'.
        destruct Ht as [[_ X]|[N Ht]]; [injection X as ->; discriminate|].
        destruct Ht' as [[_ X]|[N' Ht']]; [injection X as ->; discriminate|].
        apply upd_cases in Ht, Ht'. destruct Ht as [[-> X]|[L Ht]], Ht' as [[-> X']|[L' Ht']]; auto.
        * injection X as ->. exfalso. apply N'. symmetry. eapply (oo_uniq _ I); eauto.
        * injection X' as ->. exfalso. apply N. eapply (oo_uniq _ I); eauto.
        * eapply (oo_uniq _ I); eauto.
    - unfold s_swap. apply bind_good_q; [apply get_not_bad|]. intros x G1. apply bind_good_q; [apply get_not_bad|]. intros z G2.
      apply get_some in G1, G2. apply quiet_ok; [|exact E].
      assert (P : forall t q, nth_error (upd (upd (objs y) u (Some z)) w (Some x)) t = Some q ->
        exists v, nth_error (objs y) v = Some q /\ ((t = w /\ v = u) \/ (t <> w /\ t = u /\ v = w) \/ (t <> w /\ t <> u /\ v = t))).
      { intros t q Ht. apply upd_cases in Ht. destruct Ht as [[-> ->]|[N Ht]]; [exists u; auto 8|].
        apply upd_cases in Ht. destruct Ht as [[-> ->]|[N' Ht]]; [exists w; auto 8|exists t; auto 8]. }
      constructor; cbn [set_obj blocks objs].
      + intros t q b Ht Ho D. destruct (P _ _ Ht) as (v & Hv & _). eapply (oo_block _ I); eauto.
      + intros t t' q q' b Ht Ht' Ho Ho' D D'. destruct (P _ _ Ht) as (v & Hv & C1). destruct (P _ _ Ht') as (v' & Hv' & C2).
        pose proof (oo_uniq _ I _ _ _ _ _ Hv Hv' Ho Ho' D D') as <-.
        destruct C1 as [[? ?]|[[? [? ?]]|[? [? ?]]]], C2 as [[? ?]|[[? [? ?]]|[? [? ?]]]]; subst; auto; congruence.
    - unfold s_fill. apply bind_good_q; [apply get_not_bad|]. intros x _.
      pose proof (h_write_cases (blocks y) (st_data x) (repeat (Some v) (st_size x))) as C.
      destruct (h_write (blocks y) (st_data x) (repeat (Some v) (st_size x))) as [h| | |k|]; cbn [bind quiet good] in *; try contradiction.
      + destruct C as [->|(k & b & c & Hb & ->)]; [now destruct y|]. now apply write_good.
      + intros [X|X]; injection X as ->; tauto.
    - unfold s_write. apply bind_good_q; [apply get_not_bad|]. intros x _. apply bind_good_q; [apply cell_not_bad|]. intros [k b] C.
      apply quiet_ok; apply write_good; auto;
        (unfold h_cell in C; destruct (st_data x) as [q|]; [|discriminate]; destruct (nth_error (blocks y) q) as [b'|] eqn:Hb; [|discriminate];
         destruct (negb (b_live b')); [discriminate|]; destruct (i <? length (b_cells b')); [|discriminate]; congruence).
    - unfold s_read. rewrite bind_assoc. apply bind_good; [apply get_not_bad|]. intros x _. rewrite bind_assoc.
      apply bind_good; [apply cell_not_bad|]. intros [k b] _. cbn [snd]. unfold rdc.
      destruct (nth_error (b_cells b) i); cbn; auto. intros [X|X]; discriminate.
    - unfold s_load. apply bind_good_q; [apply get_not_bad|]. intros x G. apply get_some in G. cbn [h_alloc]. apply quiet_ok.
      + apply owners_put; auto.
        * intros t z b k _ _ _ _ Hk. now apply snoc_old.
        * intros z X Ho b D. injection X as <-. cbn in D. injection D as <-. split.
          -- eexists. split; [apply snoc_last|]. auto.
          -- intros t z' N Ht Ho' D'. destruct (oo_block _ I _ _ _ Ht Ho' D') as (k & Hk & _). apply nth_lt in Hk. lia.
      + eapply ext_live_app; eauto.
    - unfold s_destroy. apply bind_good_q; [apply get_not_bad|]. intros x G. apply get_some in G.
      assert (Q : (if st_own x then match st_data x with None => Ok (blocks y) | Some _ => h_free (blocks y) (st_data x) end else Ok (blocks y))
                  = (if st_own x then h_free (blocks y) (st_data x) else Ok (blocks y))).
      { destruct (st_own x); auto. now destruct (st_data x). }
      rewrite Q. apply bind_good_q; [now apply (free_not_bad y s)|]. intros h F.
      apply quiet_ok; eapply (after_free_non y s x h); eauto; discriminate.
  Qed.

  Lemma run_good ops : forall y, owners_ok y -> ext_live y ->
    match run y ops with Ok (y1, _) => owners_ok y1 /\ ext_live y1 | r => ~ bad_free r end.
  Proof.
    induction ops as [|o ops IH]; intros y I E; cbn [run]; [auto|].
    pose proof (step_good y o I E) as G. destruct (step y o) as [[y1 x]| | |k|]; cbn [bind good] in *; auto;
      try (intros [X|X]; discriminate).
    - specialize (IH y1 (proj1 G) (proj2 G)). destruct (run y1 ops) as [[y2 xs]| | |k|]; cbn [bind] in *; auto;
        try (intros [X|X]; discriminate).
    - intros [X|X]; apply G; [left|right]; congruence.
  Qed.

  Lemma never_bad_free ops :
    run (sys0 (T:=T)) ops <> UB DoubleFree /\ run (sys0 (T:=T)) ops <> UB WildFree /\
    (forall y xs, run (sys0 (T:=T)) ops = Ok (y, xs) -> forall k, In k (blocks y) -> b_ext k = true -> b_live k = true).
  Proof.
    assert (I : owners_ok (sys0 (T:=T))) by (constructor; intros [|s]; intros; discriminate).
    assert (E : ext_live (sys0 (T:=T))) by (intros [|b] k; discriminate).
    pose proof (run_good ops _ I E) as G. destruct (run sys0 ops) as [[y xs]| | |k|]; (split; [|split]); try discriminate;
      try (intros X; apply G; first [left; congruence | right; congruence]).
    intros y' xs' X k Hk Hx. injection X as <- <-. apply In_nth_error in Hk. destruct Hk as (b & Hb). now apply (proj2 G b).
  Qed.
End Free.
