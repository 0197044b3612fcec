From Verif Require Import BaseLemmas Storage_Spec.

Section P.
  Context {T : Type}.
  Implicit Types (y : sys T) (h : list (block T)) (o : stor).

  (** An object whose pointer and size fit the heap. *)
  Definition obj_ok h o : Prop :=
    match st_data o with
    | None => st_size o = 0
    | Some b => exists k, nth_error h b = Some k /\ b_live k = true /\
        (if st_own o then b_ext k = false /\ length (b_cells k) = st_size o
         else st_size o <= length (b_cells k))
    end.

  Record Inv y : Prop := {
    inv_ok : forall s o, alive y s o -> obj_ok (blocks y) o;
    inv_excl : forall s1 s2 o1 o2 b, alive y s1 o1 -> alive y s2 o2 -> s1 <> s2 ->
        st_own o1 = true -> st_data o1 = Some b -> st_data o2 = Some b -> False;
    inv_ext : forall b k, nth_error (blocks y) b = Some k -> b_ext k = true -> b_live k = true
  }.
  (* owning objects never point at caller memory: part of obj_ok *)

  Definition NoLeak y : Prop :=
    forall b k, nth_error (blocks y) b = Some k -> b_live k = true -> b_ext k = false ->
      exists s o, alive y s o /\ st_own o = true /\ st_data o = Some b.

  Lemma obj_ok_app h k o : obj_ok h o -> obj_ok (h ++ [k]) o.
  Proof.
    unfold obj_ok. destruct (st_data o) as [b|]; auto.
    intros (k' & Hn & Hl & Ho). exists k'. split; auto.
    rewrite nth_error_app1; auto. apply nth_error_Some. now rewrite Hn.
  Qed.

  Lemma seen_app h k o : obj_ok h o -> seen (h ++ [k]) o = seen h o.
  Proof.
    unfold obj_ok, seen. destruct (st_data o) as [b|]; auto.
    intros (k' & Hn & _). rewrite nth_error_app1; auto.
    apply nth_error_Some. now rewrite Hn.
  Qed.

  Lemma obj_ok_upd_ne h b k o : st_data o <> Some b -> obj_ok h o -> obj_ok (upd h b k) o.
  Proof.
    unfold obj_ok. destruct (st_data o) as [c|]; auto.
    intros Hne (k' & Hn & Hr). exists k'. split; auto.
    rewrite nth_error_upd_ne by congruence; auto.
  Qed.

  Lemma seen_upd_ne h b k o : st_data o <> Some b -> seen (upd h b k) o = seen h o.
  Proof.
    unfold seen. destruct (st_data o) as [c|]; auto.
    intros Hne. rewrite nth_error_upd_ne by congruence; auto.
  Qed.

  (** changing cells only, same length *)
  Lemma obj_ok_upd_cells h b k cs o :
    nth_error h b = Some k -> b_live k = true -> length cs = length (b_cells k) ->
    obj_ok h o -> obj_ok (upd h b {| b_live := true; b_ext := b_ext k; b_cells := cs |}) o.
  Proof.
    intros Hk Hl Hlen Ho. unfold obj_ok in *. destruct (st_data o) as [c|]; auto.
    destruct Ho as (k' & Hn & Hl' & Hr).
    destruct (Nat.eq_dec b c) as [->|Hne].
    - rewrite Hk in Hn; inversion Hn; subst k'.
      eexists; rewrite nth_error_upd_eq by (apply nth_error_Some; congruence).
      split; [reflexivity|]; simpl. split; auto. rewrite Hlen. exact Hr.
    - exists k'. rewrite nth_error_upd_ne by auto. auto.
  Qed.

  Lemma nth_error_firstn_lt {A} (l : list A) n i : i < n -> nth_error (firstn n l) i = nth_error l i.
  Proof.
    revert n i; induction l as [|h t IH]; intros [|n] [|i] Hi; simpl; auto; try lia.
    apply IH; lia.
  Qed.
  Lemma nth_error_firstn_ge {A} (l : list A) n i : n <= i -> nth_error (firstn n l) i = None.
  Proof. intros Hi. apply nth_error_None. rewrite firstn_length. lia. Qed.

  Lemma alive_upd_eq h l s o : s < length l ->
    alive {| blocks := h; objs := upd l s (Some o) |} s o.
  Proof. intros Hs. unfold alive; simpl. now apply nth_error_upd_eq. Qed.

  Lemma alive_upd_inv h l s c s' o' :
    alive {| blocks := h; objs := upd l s c |} s' o' ->
    (s' = s /\ c = Some o') \/ (s' <> s /\ nth_error l s' = Some (Some o')).
  Proof.
    unfold alive; simpl; intros H.
    destruct (Nat.eq_dec s' s) as [->|Hne].
    - left; split; auto.
      rewrite nth_error_upd in H. rewrite Nat.eqb_refl in H. simpl in H.
      destruct (s <? length l) eqn:E; [now inversion H|].
      exfalso. apply Nat.ltb_ge in E. apply nth_error_None in E. congruence.
    - right; split; auto. rewrite nth_error_upd_ne in H; auto.
  Qed.

  Lemma alive_app_inv h l o s' o' :
    alive {| blocks := h; objs := l ++ [Some o] |} s' o' ->
    (s' = length l /\ o' = o) \/ (s' < length l /\ nth_error l s' = Some (Some o')).
  Proof.
    unfold alive; simpl; intros H.
    assert (Hlt : s' < length (l ++ [Some o])) by (apply nth_error_Some; congruence).
    rewrite app_length in Hlt; simpl in Hlt.
    destruct (Nat.eq_dec s' (length l)) as [->|Hne].
    - left. rewrite nth_error_app2 in H by lia. rewrite Nat.sub_diag in H. now inversion H.
    - right. rewrite nth_error_app1 in H by lia. split; auto; lia.
  Qed.

  Lemma alive_lt y s o : alive y s o -> s < length (objs y).
  Proof. unfold alive; intros H. apply nth_error_Some. congruence. Qed.

  Lemma get_obj_alive y s o : get_obj y s = Ok o <-> alive y s o.
  Proof.
    unfold get_obj, alive. destruct (nth_error (objs y) s) as [[x|]|]; split; intros H;
      try discriminate; inversion H; auto.
  Qed.

  Lemma alive_blocks_irrel h h' l s o :
    alive (T:=T) {| blocks := h; objs := l |} s o -> alive {| blocks := h'; objs := l |} s o.
  Proof. auto. Qed.

  (** Releasing the memory of an owning object. *)
  Lemma free_owned y d l :
    Inv y -> alive y d l -> st_own l = true ->
    exists h1, h_free (blocks y) (st_data l) = Ok h1 /\
      length h1 = length (blocks y) /\
      (forall s o, alive y s o -> s <> d -> obj_ok h1 o /\ seen h1 o = seen (blocks y) o) /\
      (forall b k, nth_error h1 b = Some k -> b_ext k = true -> b_live k = true) /\
      (forall b k, nth_error h1 b = Some k -> b_live k = true ->
          nth_error (blocks y) b = Some k /\ st_data l <> Some b).
  Proof.
    intros HI Hd Ho. pose proof (inv_ok _ HI _ _ Hd) as Hok.
    destruct (st_data l) as [b|] eqn:Eb; unfold obj_ok in Hok; rewrite Eb in Hok.
    - destruct Hok as (k & Hk & Hl & Hr). rewrite Ho in Hr. destruct Hr as [He Hlen].
      simpl. rewrite Hk, He, Hl. eexists; split; [reflexivity|].
      assert (Hlt : b < length (blocks y)) by (apply nth_error_Some; congruence).
      split; [now rewrite upd_length|]. repeat split.
      + apply obj_ok_upd_ne; [|eapply (inv_ok _ HI); eauto].
        intros E. eapply (inv_excl _ HI d s l o b); eauto; lia.
      + apply seen_upd_ne. intros E. eapply (inv_excl _ HI d s l o b); eauto; lia.
      + intros c kc Hc Hext. rewrite nth_error_upd in Hc.
        destruct ((b =? c) && (b <? length (blocks y))).
        * inversion Hc; subst; simpl in *; discriminate.
        * eapply (inv_ext _ HI); eauto.
      + rewrite nth_error_upd in H. destruct ((b =? b0) && (b <? length (blocks y))) eqn:E;
          [inversion H; subst; discriminate|auto].
      + intros E; inversion E; subst b0. rewrite nth_error_upd_eq in H by auto.
        inversion H; subst; discriminate.
    - simpl. eexists; split; [reflexivity|]. split; auto. repeat split; auto.
      + eapply (inv_ok _ HI); eauto.
      + eapply (inv_ext _ HI); eauto.
      + discriminate.
  Qed.

  (** Reading the elements of a live object. *)
  Lemma read_ok h o : obj_ok h o ->
    h_read h (st_data o) (st_size o) = Ok (seen h o).
  Proof.
    unfold obj_ok, h_read, seen. destruct (st_data o) as [b|].
    - intros (k & Hk & Hl & Hr). rewrite Hk, Hl. simpl.
      assert (Hle : st_size o <= length (b_cells k)) by (destruct (st_own o); lia).
      destruct (st_size o) as [|n] eqn:En; [reflexivity|].
      rewrite (proj2 (Nat.leb_le _ _) Hle). reflexivity.
    - intros ->. reflexivity.
  Qed.

  Lemma seen_length h o : obj_ok h o -> length (seen h o) = st_size o.
  Proof.
    unfold obj_ok, seen. destruct (st_data o) as [b|]; [|intros ->; reflexivity].
    intros (k & Hk & Hl & Hr). rewrite Hk. rewrite firstn_length.
    destruct (st_own o); lia.
  Qed.

  (** ** Generic preservation lemmas *)

  (** Append a fresh block and set / append an object that owns it (or not). *)
  Lemma inv_new_alloc h l y d cells own :
    (forall s o, alive y s o -> s <> d -> obj_ok h o) ->
    (forall s1 s2 o1 o2 b, alive y s1 o1 -> alive y s2 o2 -> s1 <> s2 ->
        st_own o1 = true -> st_data o1 = Some b -> st_data o2 = Some b -> False) ->
    (forall b k, nth_error h b = Some k -> b_ext k = true -> b_live k = true) ->
    (forall s o, nth_error l s = Some (Some o) ->
       (s = d /\ o = {| st_data := Some (length h); st_size := length cells; st_own := own |})
       \/ (s <> d /\ alive y s o)) ->
    Inv {| blocks := h ++ [{| b_live := true; b_ext := false; b_cells := cells |}]; objs := l |}.
  Proof.
    intros Hok Hex Hext Hl. constructor; simpl.
    - intros s o Ha. destruct (Hl s o Ha) as [[-> ->]|[Hne Hy]].
      + unfold obj_ok; simpl. eexists.
        rewrite nth_error_app2 by lia. rewrite Nat.sub_diag. simpl.
        split; [reflexivity|]; simpl. destruct own; auto.
      + apply obj_ok_app. eauto.
    - intros s1 s2 o1 o2 b H1 H2 Hne Ho Hd1 Hd2.
      destruct (Hl _ _ H1) as [[-> ->]|[N1 A1]]; destruct (Hl _ _ H2) as [[-> ->]|[N2 A2]];
        simpl in *; try lia.
      + inversion Hd1; subst b. specialize (Hok _ _ A2 N2). unfold obj_ok in Hok.
        rewrite Hd2 in Hok. destruct Hok as (k & Hk & _).
        assert (length h < length h) by (apply nth_error_Some; congruence). lia.
      + inversion Hd2; subst b. specialize (Hok _ _ A1 N1). unfold obj_ok in Hok.
        rewrite Hd1 in Hok. destruct Hok as (k & Hk & _).
        assert (length h < length h) by (apply nth_error_Some; congruence). lia.
      + eapply (Hex s1 s2); eauto; lia.
    - intros b k Hb He.
      destruct (Nat.lt_ge_cases b (length h)) as [Hlt|Hge].
      + rewrite nth_error_app1 in Hb by auto. eauto.
      + rewrite nth_error_app2 in Hb by auto.
        destruct (b - length h) as [|m]; simpl in Hb; [inversion Hb; subst; discriminate|].
        destruct m; discriminate.
  Qed.

  Lemma nth_error_snoc {A} (l : list A) x i z :
    nth_error (l ++ [x]) i = Some z -> (i = length l /\ z = x) \/ (i < length l /\ nth_error l i = Some z).
  Proof.
    intros H. destruct (Nat.lt_ge_cases i (length l)) as [Hlt|Hge].
    - rewrite nth_error_app1 in H by auto. auto.
    - rewrite nth_error_app2 in H by auto. left.
      destruct (i - length l) as [|m] eqn:E; simpl in H.
      + inversion H; split; auto; lia.
      + destruct m; discriminate.
  Qed.

  Lemma nth_error_snoc_last {A} (l : list A) x : nth_error (l ++ [x]) (length l) = Some x.
  Proof. rewrite nth_error_app2 by lia. now rewrite Nat.sub_diag. Qed.

  Lemma nth_error_snoc_old {A} (l : list A) x i z :
    nth_error l i = Some z -> nth_error (l ++ [x]) i = Some z.
  Proof. intros H. rewrite nth_error_app1; auto. apply nth_error_Some; congruence. Qed.

  Definition step_good y (y1 : sys T) (o : op T) : Prop :=
    Inv y1 /\ (NoLeak y -> ~ loses y o -> NoLeak y1).

  Lemma alive_det y s o1 o2 : alive y s o1 -> alive y s o2 -> o1 = o2.
  Proof. unfold alive; congruence. Qed.

  (** new object owning a fresh block *)
  Lemma fresh_good y cells (o : op T) :
    Inv y -> step_good y (s_fresh y cells) o.
  Proof.
    intros HI. split.
    - unfold s_fresh, h_alloc, new_obj.
      eapply (inv_new_alloc (blocks y) _ y (length (objs y)) cells true).
      + intros s z Hz _; eapply (inv_ok _ HI); eauto.
      + eapply (inv_excl _ HI); eauto.
      + eapply (inv_ext _ HI); eauto.
      + intros s z Hz. apply nth_error_snoc in Hz as [[-> E]|[Hlt E]].
        * left; split; auto. inversion E; auto.
        * right; split; auto; lia.
    - intros HN _ b k Hb Hl He. unfold s_fresh, h_alloc, new_obj in *; simpl in *.
      apply nth_error_snoc in Hb as [[-> ->]|[Hlt Hb]].
      + exists (length (objs y)). eexists. split; [apply nth_error_snoc_last|]. auto.
      + destruct (HN b k Hb Hl He) as (s & z & Hz & Ho & Hd).
        exists s, z. split; auto. now apply nth_error_snoc_old.
  Qed.

  Lemma copy_ctor_good y s :
    Inv y -> (exists o, alive y s o) ->
    exists y1, s_copy_ctor y s = Ok y1 /\ step_good y y1 (OCopyCtor s).
  Proof.
    intros HI (r & Hr). pose proof (inv_ok _ HI _ _ Hr) as Hok.
    unfold s_copy_ctor. rewrite (proj2 (get_obj_alive _ _ _) Hr); simpl.
    rewrite read_ok by auto; simpl.
    eexists; split; [reflexivity|]. split.
    - unfold new_obj.
      eapply (inv_new_alloc (blocks y) _ y (length (objs y)) (seen (blocks y) r) (st_own r)).
      + intros s' z Hz _; eapply (inv_ok _ HI); eauto.
      + eapply (inv_excl _ HI); eauto.
      + eapply (inv_ext _ HI); eauto.
      + intros s' z Hz. apply nth_error_snoc in Hz as [[-> E]|[Hlt E]].
        * left; split; auto. inversion E. rewrite seen_length; auto.
        * right; split; auto; lia.
    - intros HN HL b k Hb Hl He. simpl in *.
      apply nth_error_snoc in Hb as [[-> ->]|[Hlt Hb]].
      + exists (length (objs y)). eexists. split; [apply nth_error_snoc_last|]. simpl.
        split; auto. destruct (st_own r) eqn:E; auto. exfalso; apply HL; eauto.
      + destruct (HN b k Hb Hl He) as (s' & z & Hz & Ho & Hd).
        exists s', z. split; auto. now apply nth_error_snoc_old.
  Qed.

  Lemma conv_ctor_good y s :
    Inv y -> (exists o, alive y s o) ->
    exists y1, s_conv_ctor y s = Ok y1 /\ step_good y y1 (OConvCtor s).
  Proof.
    intros HI (r & Hr). pose proof (inv_ok _ HI _ _ Hr) as Hok.
    unfold s_conv_ctor. rewrite (proj2 (get_obj_alive _ _ _) Hr); simpl.
    rewrite read_ok by auto; simpl.
    eexists; split; [reflexivity|].
    assert (E : {| blocks := blocks y ++ [{| b_live := true; b_ext := false; b_cells := seen (blocks y) r |}];
      objs := objs y ++ [Some {| st_data := Some (length (blocks y)); st_size := st_size r; st_own := true |}] |}
      = s_fresh y (seen (blocks y) r)).
    { unfold s_fresh, h_alloc, new_obj. rewrite seen_length; auto. }
    unfold new_obj. rewrite E. apply (fresh_good y _ (OConvCtor s) HI).
  Qed.

  Lemma move_ctor_good y s :
    Inv y -> (exists o, alive y s o) ->
    exists y1, s_move_ctor y s = Ok y1 /\ step_good y y1 (OMoveCtor s).
  Proof.
    intros HI (r & Hr).
    unfold s_move_ctor. rewrite (proj2 (get_obj_alive _ _ _) Hr); simpl.
    eexists; split; [reflexivity|].
    assert (Hs : s < length (objs y)) by (eapply alive_lt; eauto).
    assert (Hcases : forall s' z, alive (set_obj (new_obj (blocks y) y r) s
        (Some {| st_data := None; st_size := 0; st_own := false |})) s' z ->
        (s' = s /\ z = {| st_data := None; st_size := 0; st_own := false |}) \/
        (s' = length (objs y) /\ z = r) \/ (s' <> s /\ s' < length (objs y) /\ alive y s' z)).
    { intros s' z Hz. unfold set_obj in Hz; apply alive_upd_inv in Hz as [[-> E]|[Hne Hz]].
      - left; split; auto; now inversion E.
      - right. simpl in Hz. apply nth_error_snoc in Hz as [[-> E]|[Hlt E]].
        + left; split; auto; now inversion E.
        + right; auto. }
    split.
    - constructor.
      + intros s' z Hz. destruct (Hcases _ _ Hz) as [[-> ->]|[[-> ->]|(Hne & Hlt & Ha)]].
        * reflexivity.
        * eapply (inv_ok _ HI); eauto.
        * eapply (inv_ok _ HI); eauto.
      + intros s1 s2 o1 o2 b H1 H2 Hne Ho Hd1 Hd2.
        destruct (Hcases _ _ H1) as [[-> ->]|[[-> ->]|(N1 & L1 & A1)]]; try discriminate;
        destruct (Hcases _ _ H2) as [[-> ->]|[[-> ->]|(N2 & L2 & A2)]]; try discriminate; try lia.
        * eapply (inv_excl _ HI s s2); eauto; lia.
        * eapply (inv_excl _ HI s1 s); eauto; lia.
        * eapply (inv_excl _ HI s1 s2); eauto; lia.
      + simpl. eapply (inv_ext _ HI); eauto.
    - intros HN _ b k Hb Hl He. simpl in Hb.
      destruct (HN b k Hb Hl He) as (s' & z & Hz & Ho & Hd).
      unfold alive; simpl.
      destruct (Nat.eq_dec s' s) as [->|Hne].
      + pose proof (alive_det _ _ _ _ Hz Hr); subst z.
        exists (length (objs y)), r. split; auto.
        rewrite nth_error_upd_ne by lia. apply nth_error_snoc_last.
      + exists s', z. split; auto. rewrite nth_error_upd_ne by auto. now apply nth_error_snoc_old.
  Qed.

  Lemma resize_good y s n :
    Inv y -> (exists o, alive y s o) ->
    exists y1 x, s_resize y s n = Ok (y1, x) /\ step_good y y1 (OResize s n).
  Proof.
    intros HI (r & Hr).
    unfold s_resize. rewrite (proj2 (get_obj_alive _ _ _) Hr). cbn [bind].
    destruct (st_size r =? n). { do 2 eexists; split; [reflexivity|]; split; auto. }
    destruct (st_own r) eqn:Eo; cbn [negb]; [|do 2 eexists; split; [reflexivity|]; split; auto].
    destruct (free_owned y s r HI Hr Eo) as (h1 & E1 & Hlen & Hoth & Hext & Hlive).
    assert (E1' : (match st_data r with None => Ok (blocks y) | Some _ => h_free (blocks y) (st_data r) end) = Ok h1).
    { destruct (st_data r); auto. }
    rewrite E1'. cbn [bind h_alloc]. do 2 eexists; split; [reflexivity|].
    assert (Hs : s < length (objs y)) by (eapply alive_lt; eauto).
    split.
    - eapply (inv_new_alloc h1 _ y s (alloc n) true).
      + intros s' z Hz Hne; eapply Hoth; eauto.
      + eapply (inv_excl _ HI); eauto.
      + exact Hext.
      + intros s' z Hz. destruct (alive_upd_inv [] _ _ _ _ _ Hz) as [[-> E]|[Hne E]].
        * left; split; auto. inversion E. now rewrite alloc_length.
        * right; auto.
    - intros HN _ b k Hb Hl He. simpl in *.
      apply nth_error_snoc in Hb as [[-> ->]|[Hlt Hb]].
      + exists s. eexists. split; [now apply alive_upd_eq|]. auto.
      + destruct (Hlive b k Hb Hl) as [Hb' Hnd].
        destruct (HN b k Hb' Hl He) as (s' & z & Hz & Ho & Hd).
        exists s', z. split; auto. unfold alive; simpl.
        rewrite nth_error_upd_ne; auto. intros ->.
        pose proof (alive_det _ _ _ _ Hz Hr); subst z. congruence.
  Qed.

  Lemma copy_assign_good y d s :
    Inv y -> (exists o, alive y d o) -> (exists o, alive y s o) ->
    exists y1, s_copy_assign y d s = Ok y1 /\ step_good y y1 (OCopyAssign d s).
  Proof.
    intros HI (l & Hl) (r & Hr).
    unfold s_copy_assign. rewrite (proj2 (get_obj_alive _ _ _) Hl), (proj2 (get_obj_alive _ _ _) Hr).
    cbn [bind].
    destruct (Nat.eqb_spec d s) as [Heq|Hne]. { eexists; split; [reflexivity|]; split; auto. }
    assert (Hd : d < length (objs y)) by (eapply alive_lt; eauto).
    assert (HF : exists h1, (if st_own l then h_free (blocks y) (st_data l) else Ok (blocks y)) = Ok h1 /\
      (forall s o, alive y s o -> s <> d -> obj_ok h1 o /\ seen h1 o = seen (blocks y) o) /\
      (forall b k, nth_error h1 b = Some k -> b_ext k = true -> b_live k = true) /\
      (forall b k, nth_error h1 b = Some k -> b_live k = true ->
          nth_error (blocks y) b = Some k /\ (st_own l = true -> st_data l <> Some b))).
    { destruct (st_own l) eqn:Eo.
      - destruct (free_owned y d l HI Hl Eo) as (h1 & E1 & Hlen & Hoth & Hext & Hlive).
        exists h1. split; auto. split; auto. split; auto. intros b k Hb Hk.
        destruct (Hlive b k Hb Hk); auto.
      - exists (blocks y). split; auto. split; [|split].
        + intros; split; auto. eapply (inv_ok _ HI); eauto.
        + eapply (inv_ext _ HI); eauto.
        + intros; split; auto. discriminate. }
    destruct HF as (h1 & E1 & Hoth & Hext & Hlive). rewrite E1; cbn [bind].
    destruct (Hoth s r Hr (not_eq_sym Hne)) as [Hrok Hrseen].
    destruct (st_own r) eqn:Er.
    - rewrite read_ok by auto. cbn [bind h_alloc]. eexists; split; [reflexivity|]. split.
      + eapply (inv_new_alloc h1 _ y d (seen h1 r) true).
        * intros s' z Hz Hn; eapply Hoth; eauto.
        * eapply (inv_excl _ HI); eauto.
        * exact Hext.
        * intros s' z Hz. destruct (alive_upd_inv [] _ _ _ _ _ Hz) as [[-> E]|[Hn E]].
          -- left; split; auto. inversion E. now rewrite seen_length.
          -- right; auto.
      + intros HN _ b k Hb Hlk He. simpl in *.
        apply nth_error_snoc in Hb as [[-> ->]|[Hlt Hb]].
        * exists d. eexists. split; [now apply alive_upd_eq|]. auto.
        * destruct (Hlive b k Hb Hlk) as [Hb' Hnd].
          destruct (HN b k Hb' Hlk He) as (s' & z & Hz & Ho & Hdz).
          exists s', z. split; auto. unfold alive; simpl.
          rewrite nth_error_upd_ne; auto. intros ->.
          pose proof (alive_det _ _ _ _ Hz Hl); subst z. apply Hnd; auto.
    - eexists; split; [reflexivity|].
      assert (Hcases : forall s' z, alive {| blocks := h1; objs := upd (objs y) d
           (Some {| st_data := st_data r; st_size := st_size r; st_own := false |}) |} s' z ->
         (s' = d /\ z = r) \/ (s' <> d /\ alive y s' z)).
      { intros s' z Hz. apply alive_upd_inv in Hz as [[-> E]|[Hn E]]; [left|right; auto].
        split; auto. inversion E. rewrite <- Er. now destruct r. }
      split.
      + constructor.
        * intros s' z Hz. destruct (Hcases _ _ Hz) as [[-> ->]|[Hn Ha]]; simpl; auto.
          eapply Hoth; eauto.
        * intros s1 s2 o1 o2 b H1 H2 Hn Ho Hd1 Hd2.
          destruct (Hcases _ _ H1) as [[-> ->]|[N1 A1]]; [congruence|].
          destruct (Hcases _ _ H2) as [[-> ->]|[N2 A2]].
          -- destruct (Nat.eq_dec s1 s) as [->|Hns].
             ++ pose proof (alive_det _ _ _ _ A1 Hr); subst o1. congruence.
             ++ eapply (inv_excl _ HI s1 s); eauto; lia.
          -- eapply (inv_excl _ HI s1 s2); eauto; lia.
        * exact Hext.
      + intros HN _ b k Hb Hlk He. simpl in *.
        destruct (Hlive b k Hb Hlk) as [Hb' Hnd].
        destruct (HN b k Hb' Hlk He) as (s' & z & Hz & Ho & Hdz).
        exists s', z. split; auto. unfold alive; simpl.
        rewrite nth_error_upd_ne; auto. intros ->.
        pose proof (alive_det _ _ _ _ Hz Hl); subst z. apply Hnd; auto.
  Qed.

  Lemma move_assign_good y d s :
    Inv y -> (exists o, alive y d o) -> (exists o, alive y s o) ->
    exists y1, s_move_assign y d s = Ok y1 /\ step_good y y1 (OMoveAssign d s).
  Proof.
    intros HI (l & Hl) (r & Hr).
    unfold s_move_assign. rewrite (proj2 (get_obj_alive _ _ _) Hl), (proj2 (get_obj_alive _ _ _) Hr).
    cbn [bind].
    assert (Hd : d < length (objs y)) by (eapply alive_lt; eauto).
    assert (Hs : s < length (objs y)) by (eapply alive_lt; eauto).
    assert (HF : exists h1, (if st_own l then h_free (blocks y) (st_data l) else Ok (blocks y)) = Ok h1 /\
      (forall s o, alive y s o -> s <> d -> obj_ok h1 o /\ seen h1 o = seen (blocks y) o) /\
      (forall b k, nth_error h1 b = Some k -> b_ext k = true -> b_live k = true) /\
      (forall b k, nth_error h1 b = Some k -> b_live k = true ->
          nth_error (blocks y) b = Some k /\ (st_own l = true -> st_data l <> Some b))).
    { destruct (st_own l) eqn:Eo.
      - destruct (free_owned y d l HI Hl Eo) as (h1 & E1 & Hlen & Hoth & Hext & Hlive).
        exists h1. split; auto. split; auto. split; auto. intros b k Hb Hk.
        destruct (Hlive b k Hb Hk); auto.
      - exists (blocks y). split; auto. split; [|split].
        + intros; split; auto. eapply (inv_ok _ HI); eauto.
        + eapply (inv_ext _ HI); eauto.
        + intros; split; auto. discriminate. }
    destruct HF as (h1 & E1 & Hoth & Hext & Hlive). rewrite E1; cbn [bind].
    eexists; split; [reflexivity|]. unfold set_obj; simpl.
    set (mv := {| st_data := None; st_size := 0; st_own := false |}).
    assert (Hcases : forall s' z, alive {| blocks := h1; objs := upd (upd (objs y) d (Some r)) s (Some mv) |} s' z ->
         (s' = s /\ z = mv) \/ (s' <> s /\ s' = d /\ z = r) \/ (s' <> s /\ s' <> d /\ alive y s' z)).
    { intros s' z Hz. apply alive_upd_inv in Hz as [[-> E]|[Hn E]].
      - left. split; auto. now inversion E.
      - right. destruct (alive_upd_inv [] _ _ _ _ _ E) as [[-> E']|[Hn' E']].
        + left. split; auto. split; auto. now inversion E'.
        + right; auto. }
    split.
    - constructor.
      + intros s' z Hz. destruct (Hcases _ _ Hz) as [[-> ->]|[(N1 & -> & ->)|(N1 & N2 & A)]]; simpl.
        * reflexivity.
        * eapply Hoth; eauto.
        * eapply Hoth; eauto.
      + intros s1 s2 o1 o2 b H1 H2 Hn Ho Hd1 Hd2.
        destruct (Hcases _ _ H1) as [[-> ->]|[(N1 & -> & ->)|(N1 & M1 & A1)]]; try discriminate;
        destruct (Hcases _ _ H2) as [[-> ->]|[(N2 & -> & ->)|(N2 & M2 & A2)]]; try discriminate; try lia.
        * eapply (inv_excl _ HI s s2); eauto; lia.
        * eapply (inv_excl _ HI s1 s); eauto; lia.
        * eapply (inv_excl _ HI s1 s2); eauto; lia.
      + exact Hext.
    - intros HN _ b k Hb Hlk He. simpl in *.
      destruct (Hlive b k Hb Hlk) as [Hb' Hnd].
      destruct (HN b k Hb' Hlk He) as (s' & z & Hz & Ho & Hdz).
      unfold alive; simpl.
      destruct (Nat.eq_dec s' d) as [->|Hnd'].
      { pose proof (alive_det _ _ _ _ Hz Hl); subst z. exfalso; apply Hnd; auto. }
      destruct (Nat.eq_dec s' s) as [->|Hns].
      + pose proof (alive_det _ _ _ _ Hz Hr); subst z.
        exists d, r. split; auto. rewrite nth_error_upd_ne by auto.
        now rewrite nth_error_upd_eq.
      + exists s', z. split; auto. rewrite !nth_error_upd_ne by auto. exact Hz.
  Qed.

  Lemma swap_good y a b :
    Inv y -> (exists o, alive y a o) -> (exists o, alive y b o) ->
    exists y1, s_swap y a b = Ok y1 /\ step_good y y1 (OSwap a b).
  Proof.
    intros HI (x & Hx) (z & Hz).
    unfold s_swap. rewrite (proj2 (get_obj_alive _ _ _) Hx), (proj2 (get_obj_alive _ _ _) Hz).
    cbn [bind]. eexists; split; [reflexivity|]. unfold set_obj; simpl.
    assert (Ha : a < length (objs y)) by (eapply alive_lt; eauto).
    assert (Hb : b < length (objs y)) by (eapply alive_lt; eauto).
    assert (Hcases : forall s' w, alive {| blocks := blocks y; objs := upd (upd (objs y) a (Some z)) b (Some x) |} s' w ->
       exists s0, alive y s0 w /\ ((s' = b /\ s0 = a) \/ (s' <> b /\ s' = a /\ s0 = b) \/ (s' <> a /\ s' <> b /\ s0 = s'))).
    { intros s' w Hw. apply alive_upd_inv in Hw as [[-> E]|[Hn E]].
      - inversion E; subst w. exists a; split; auto.
      - destruct (alive_upd_inv [] _ _ _ _ _ E) as [[-> E']|[Hn' E']].
        + inversion E'; subst w. exists b; split; auto.
        + exists s'; split; auto. }
    split.
    - constructor.
      + intros s' w Hw. destruct (Hcases _ _ Hw) as (s0' & A & _). eapply (inv_ok _ HI); eauto.
      + intros s1 s2 o1 o2 c H1 H2 Hn Ho Hd1 Hd2.
        destruct (Hcases _ _ H1) as (t1 & A1 & C1). destruct (Hcases _ _ H2) as (t2 & A2 & C2).
        eapply (inv_excl _ HI t1 t2); eauto; lia.
      + eapply (inv_ext _ HI); eauto.
    - intros HN _ c k Hc Hl He. simpl in *.
      destruct (HN c k Hc Hl He) as (s' & w & Hw & Ho & Hd). unfold alive; simpl.
      destruct (Nat.eq_dec s' a) as [->|Hna].
      + pose proof (alive_det _ _ _ _ Hw Hx); subst w. exists b, x. split; auto.
        rewrite nth_error_upd_eq; auto. now rewrite upd_length.
      + destruct (Nat.eq_dec s' b) as [->|Hnb].
        * pose proof (alive_det _ _ _ _ Hw Hz); subst w. exists a, z. split; auto.
          rewrite nth_error_upd_ne by auto. now apply nth_error_upd_eq.
        * exists s', w. split; auto. rewrite !nth_error_upd_ne by auto. exact Hw.
  Qed.

  (** changing the contents of one live block *)
  Lemma cells_good y b k cs (o : op T) :
    Inv y -> nth_error (blocks y) b = Some k -> b_live k = true ->
    length cs = length (b_cells k) ->
    step_good y {| blocks := upd (blocks y) b {| b_live := true; b_ext := b_ext k; b_cells := cs |};
                   objs := objs y |} o.
  Proof.
    intros HI Hk Hl Hlen. assert (Hb : b < length (blocks y)) by (apply nth_error_Some; congruence).
    split.
    - constructor; simpl.
      + intros s z Hz. eapply obj_ok_upd_cells; eauto. eapply (inv_ok _ HI); eauto.
      + intros s1 s2 o1 o2 c; apply (inv_excl _ HI).
      + intros c kc Hc He. rewrite nth_error_upd in Hc.
        destruct ((b =? c) && (b <? length (blocks y))); [inversion Hc; auto|].
        eapply (inv_ext _ HI); eauto.
    - intros HN _ c kc Hc Hlc He. simpl in Hc. rewrite nth_error_upd in Hc.
      destruct ((b =? c) && (b <? length (blocks y))) eqn:E.
      + apply andb_true_iff in E as [E _]. apply Nat.eqb_eq in E; subst c.
        inversion Hc; subst kc; simpl in *. apply (HN b k); auto.
      + apply (HN c kc); auto.
  Qed.

  Lemma write_cells h o vs : obj_ok h o -> length vs = st_size o ->
    h_write h (st_data o) vs = Ok h /\ vs = [] \/
    exists b k, vs <> [] /\ st_data o = Some b /\ nth_error h b = Some k /\ b_live k = true /\
      h_write h (st_data o) vs =
        Ok (upd h b {| b_live := true; b_ext := b_ext k;
                       b_cells := vs ++ skipn (length vs) (b_cells k) |}) /\
      length (vs ++ skipn (length vs) (b_cells k)) = length (b_cells k).
  Proof.
    intros Hok Hlen. unfold h_write. destruct vs as [|v vs']; [left; auto|]. right.
    unfold obj_ok in Hok. destruct (st_data o) as [b|]; [|simpl in Hlen; lia].
    destruct Hok as (k & Hk & Hl & Hr). exists b, k. rewrite Hk, Hl. cbn [negb].
    assert (Hle : length (v :: vs') <= length (b_cells k)) by (destruct (st_own o); lia).
    rewrite (proj2 (Nat.leb_le _ _) Hle). split; [discriminate|]. repeat split; auto.
    rewrite app_length, skipn_length. lia.
  Qed.

  Lemma fill_good y s v :
    Inv y -> (exists o, alive y s o) ->
    exists y1, s_fill y s v = Ok y1 /\ step_good y y1 (OFill s v).
  Proof.
    intros HI (r & Hr). unfold s_fill. rewrite (proj2 (get_obj_alive _ _ _) Hr). cbn [bind].
    destruct (write_cells (blocks y) r (repeat (Some v) (st_size r))) as [[E Hnil]|(b & k & _ & Hd & Hk & Hl & E & Hlen)].
    - eapply (inv_ok _ HI); eauto.
    - apply repeat_length.
    - rewrite E; cbn [bind]. eexists; split; [reflexivity|]. destruct y; simpl in *; split; auto.
    - rewrite E; cbn [bind]. eexists; split; [reflexivity|]. now apply cells_good.
  Qed.

  Lemma cell_ok h o i : obj_ok h o -> i < st_size o ->
    exists b k, st_data o = Some b /\ nth_error h b = Some k /\ b_live k = true /\
      i < length (b_cells k) /\ h_cell h (st_data o) i = Ok (b, k).
  Proof.
    intros Hok Hi. unfold obj_ok in Hok. destruct (st_data o) as [b|]; [|lia].
    destruct Hok as (k & Hk & Hl & Hr). exists b, k.
    assert (Hle : i < length (b_cells k)) by (destruct (st_own o); lia).
    repeat split; auto. unfold h_cell. rewrite Hk, Hl. cbn [negb].
    now rewrite (proj2 (Nat.ltb_lt _ _) Hle).
  Qed.

  Lemma write_good y s i v :
    Inv y -> (exists o, alive y s o /\ i < st_size o) ->
    exists y1, s_write y s i v = Ok y1 /\ step_good y y1 (OWrite s i v).
  Proof.
    intros HI (r & Hr & Hi). unfold s_write. rewrite (proj2 (get_obj_alive _ _ _) Hr). cbn [bind].
    destruct (cell_ok (blocks y) r i) as (b & k & Hd & Hk & Hl & Hlt & E); auto.
    { eapply (inv_ok _ HI); eauto. }
    rewrite E; cbn [bind]. eexists; split; [reflexivity|]. apply cells_good; auto.
    now rewrite upd_length.
  Qed.

  Lemma read_good y s i :
    Inv y -> (exists o, alive y s o /\ i < st_size o) ->
    exists c, s_read y s i = Ok c.
  Proof.
    intros HI (r & Hr & Hi). unfold s_read. rewrite (proj2 (get_obj_alive _ _ _) Hr). cbn [bind].
    destruct (cell_ok (blocks y) r i) as (b & k & Hd & Hk & Hl & Hlt & E); auto.
    { eapply (inv_ok _ HI); eauto. }
    rewrite E; cbn [bind snd]. unfold rdc.
    destruct (nth_error (b_cells k) i) eqn:En; eauto.
    apply nth_error_None in En; lia.
  Qed.

  Lemma load_good y s vs :
    Inv y -> (exists o, alive y s o) ->
    exists y1, s_load y s vs = Ok y1 /\ step_good y y1 (OLoad s vs).
  Proof.
    intros HI (r & Hr). unfold s_load. rewrite (proj2 (get_obj_alive _ _ _) Hr). cbn [bind h_alloc].
    eexists; split; [reflexivity|].
    assert (Hs : s < length (objs y)) by (eapply alive_lt; eauto).
    split.
    - eapply (inv_new_alloc (blocks y) _ y s (map Some vs) true).
      + intros s' z Hz _; eapply (inv_ok _ HI); eauto.
      + eapply (inv_excl _ HI); eauto.
      + eapply (inv_ext _ HI); eauto.
      + intros s' z Hz. destruct (alive_upd_inv [] _ _ _ _ _ Hz) as [[-> E]|[Hne E]].
        * left; split; auto. inversion E. now rewrite map_length.
        * right; auto.
    - intros HN HL b k Hb Hl He. simpl in *.
      apply nth_error_snoc in Hb as [[-> ->]|[Hlt Hb]].
      + exists s. eexists. split; [now apply alive_upd_eq|]. auto.
      + destruct (HN b k Hb Hl He) as (s' & z & Hz & Ho & Hd).
        exists s', z. split; auto. unfold alive; simpl.
        rewrite nth_error_upd_ne; auto. intros ->.
        pose proof (alive_det _ _ _ _ Hz Hr); subst z.
        apply HL. exists r. split; auto. split; auto. congruence.
  Qed.

  Lemma destroy_good y s :
    Inv y -> (exists o, alive y s o) ->
    exists y1, s_destroy y s = Ok y1 /\ step_good y y1 (ODestroy s).
  Proof.
    intros HI (r & Hr). unfold s_destroy. rewrite (proj2 (get_obj_alive _ _ _) Hr). cbn [bind].
    assert (Hs : s < length (objs y)) by (eapply alive_lt; eauto).
    assert (HF : exists h1, (if st_own r then
               match st_data r with None => Ok (blocks y) | Some _ => h_free (blocks y) (st_data r) end
             else Ok (blocks y)) = Ok h1 /\
      (forall s' o, alive y s' o -> s' <> s -> obj_ok h1 o) /\
      (forall b k, nth_error h1 b = Some k -> b_ext k = true -> b_live k = true) /\
      (forall b k, nth_error h1 b = Some k -> b_live k = true ->
          nth_error (blocks y) b = Some k /\ (st_own r = true -> st_data r <> Some b))).
    { destruct (st_own r) eqn:Eo.
      - destruct (free_owned y s r HI Hr Eo) as (h1 & E1 & Hlen & Hoth & Hext & Hlive).
        exists h1. split; [|split; [|split]].
        + destruct (st_data r); auto.
        + intros s' o' Ho Hn; eapply Hoth; eauto.
        + auto.
        + intros b k Hb Hk. destruct (Hlive b k Hb Hk); auto.
      - exists (blocks y). split; auto. split; [|split].
        + intros; eapply (inv_ok _ HI); eauto.
        + eapply (inv_ext _ HI); eauto.
        + intros; split; auto. discriminate. }
    destruct HF as (h1 & E1 & Hoth & Hext & Hlive). rewrite E1; cbn [bind].
    eexists; split; [reflexivity|].
    assert (Hcases : forall s' z, alive {| blocks := h1; objs := upd (objs y) s None |} s' z ->
       s' <> s /\ alive y s' z).
    { intros s' z Hz. apply alive_upd_inv in Hz as [[_ E]|H]; [discriminate|auto]. }
    split.
    - constructor.
      + intros s' z Hz. destruct (Hcases _ _ Hz) as [Hn A]. eapply Hoth; eauto.
      + intros s1 s2 o1 o2 b H1 H2. destruct (Hcases _ _ H1) as [N1 A1]. destruct (Hcases _ _ H2) as [N2 A2].
        eapply (inv_excl _ HI s1 s2); eauto; lia.
      + exact Hext.
    - intros HN _ b k Hb Hl He. simpl in *.
      destruct (Hlive b k Hb Hl) as [Hb' Hnd].
      destruct (HN b k Hb' Hl He) as (s' & z & Hz & Ho & Hd).
      exists s', z. split; auto. unfold alive; simpl. rewrite nth_error_upd_ne; auto.
      intros ->. pose proof (alive_det _ _ _ _ Hz Hr); subst z. apply Hnd; auto.
  Qed.

  Lemma nonown_new_good y o1 op0 :
    Inv y -> obj_ok (blocks y) o1 ->
    (forall s o b, alive y s o -> st_own o = true -> st_data o = Some b -> st_data o1 <> Some b) ->
    (st_own o1 = true -> st_data o1 = None) ->
    step_good y (new_obj (blocks y) y o1) op0.
  Proof.
    intros HI Hok Hno Hown. split.
    - constructor.
      + intros s z Hz. apply alive_app_inv in Hz as [[-> ->]|[Hlt Hz]]; simpl; auto.
        eapply (inv_ok _ HI); eauto.
      + intros s1 s2 z1 z2 b H1 H2 Hn Ho Hd1 Hd2.
        apply alive_app_inv in H1 as [[-> ->]|[L1 A1]]; apply alive_app_inv in H2 as [[-> ->]|[L2 A2]]; try lia.
        * specialize (Hown Ho). congruence.
        * eapply Hno; eauto.
        * eapply (inv_excl _ HI s1 s2); eauto; lia.
      + simpl. eapply (inv_ext _ HI); eauto.
    - intros HN _ b k Hb Hl He. simpl in *.
      destruct (HN b k Hb Hl He) as (s' & z & Hz & Ho & Hd).
      exists s', z. split; auto. now apply nth_error_snoc_old.
  Qed.

  Lemma step_ok y (o : op T) :
    Inv y -> legal y o -> exists y1 x, step y o = Ok (y1, x) /\ step_good y y1 o.
  Proof.
    intros HI HL. destruct o as [|n|vs|s|s|s|vs|blk n|s|s n|d s|d s|a b|s v|s i v|s i|s vs|s];
      cbn [step legal] in *.
    - do 2 eexists; split; [reflexivity|]. apply nonown_new_good; auto; simpl.
      + reflexivity.
      + discriminate.
    - do 2 eexists; split; [reflexivity|]. now apply fresh_good.
    - do 2 eexists; split; [reflexivity|]. now apply fresh_good.
    - destruct (copy_ctor_good y s HI HL) as (y1 & E & G). rewrite E; simpl; eauto.
    - destruct (move_ctor_good y s HI HL) as (y1 & E & G). rewrite E; simpl; eauto.
    - destruct (conv_ctor_good y s HI HL) as (y1 & E & G). rewrite E; simpl; eauto.
    - do 2 eexists; split; [reflexivity|]. split.
      + constructor; simpl.
        * intros s z Hz. apply obj_ok_app. eapply (inv_ok _ HI); eauto.
        * intros s1 s2 o1 o2 c; apply (inv_excl _ HI).
        * intros b k Hb He. apply nth_error_snoc in Hb as [[-> ->]|[Hlt Hb]]; auto.
          eapply (inv_ext _ HI); eauto.
      + intros HN _ b k Hb Hl He. simpl in *.
        apply nth_error_snoc in Hb as [[-> ->]|[Hlt Hb]]; [discriminate|].
        exact (HN b k Hb Hl He).
    - destruct HL as (k & Hk & He & Hn). do 2 eexists; split; [reflexivity|].
      apply nonown_new_good; auto; simpl.
      + unfold obj_ok; simpl. exists k. split; auto. split; [eapply (inv_ext _ HI); eauto|auto].
      + intros s z b Hz Ho Hd E. inversion E; subst b.
        pose proof (inv_ok _ HI _ _ Hz) as Hok. unfold obj_ok in Hok. rewrite Hd, Ho in Hok.
        destruct Hok as (k' & Hk' & _ & He' & _). congruence.
      + discriminate.
    - contradiction.
    - apply resize_good; auto.
    - destruct HL as [HL1 HL2]. destruct (copy_assign_good y d s HI HL1 HL2) as (y1 & E & G). rewrite E; simpl; eauto.
    - destruct HL as [HL1 HL2]. destruct (move_assign_good y d s HI HL1 HL2) as (y1 & E & G). rewrite E; simpl; eauto.
    - destruct HL as [HL1 HL2]. destruct (swap_good y a b HI HL1 HL2) as (y1 & E & G). rewrite E; simpl; eauto.
    - destruct (fill_good y s v HI HL) as (y1 & E & G). rewrite E; simpl; eauto.
    - destruct (write_good y s i v HI HL) as (y1 & E & G). rewrite E; simpl; eauto.
    - destruct (read_good y s i HI HL) as (c & E). rewrite E; simpl. do 2 eexists; split; [reflexivity|].
      split; auto.
    - destruct (load_good y s vs HI HL) as (y1 & E & G). rewrite E; simpl; eauto.
    - destruct (destroy_good y s HI HL) as (y1 & E & G). rewrite E; simpl; eauto.
  Qed.

  Lemma Inv0 : Inv sys0.
  Proof.
    constructor; unfold alive; simpl.
    - intros [|s] o H; discriminate.
    - intros [|s1] s2 o1 o2 b H; discriminate.
    - intros [|b] k H; discriminate.
  Qed.

  Lemma NoLeak0 : NoLeak sys0.
  Proof. intros b k H; destruct b; discriminate. Qed.

  Lemma run_ok y ops :
    Inv y -> legal_run y ops ->
    exists y1 xs, run y ops = Ok (y1, xs) /\ Inv y1 /\
      (NoLeak y -> never_loses y ops -> NoLeak y1).
  Proof.
    revert y; induction ops as [|o t IH]; intros y HI HL; simpl in *.
    - do 2 eexists; split; [reflexivity|]; auto.
    - destruct HL as [HL1 HL2].
      destruct (step_ok y o HI HL1) as (y1 & x & E & G1 & G2).
      destruct (IH y1 G1 (HL2 _ _ E)) as (y2 & xs & E2 & I2 & N2).
      rewrite E; simpl. rewrite E2; simpl. do 2 eexists; split; [reflexivity|]. split; auto.
      intros HN [Hl1 Hl2]. apply N2; auto. eapply Hl2; eauto.
  Qed.

  Lemma noleak_all_freed y : NoLeak y -> all_destroyed y -> all_freed y.
  Proof.
    intros HN HA k Hk He. destruct (b_live k) eqn:El; auto. exfalso.
    apply In_nth_error in Hk as [b Hb].
    destruct (HN b k Hb El He) as (s & o & Ha & _).
    apply nth_error_In in Ha. specialize (HA _ Ha). discriminate.
  Qed.

  (** ** Value semantics *)

  Definition InvV y : Prop :=
    Inv y /\ forall s o, alive y s o -> st_own o = false -> st_size o = 0.

  Lemma vget_view y s x : vget (view y) s = Some x ->
    exists o, alive y s o /\ x = {| v_vals := seen (blocks y) o; v_resizable := st_own o |}.
  Proof.
    unfold vget, view, alive. rewrite nth_error_map_eq.
    destruct (nth_error (objs y) s) as [[o|]|]; simpl; intros H; inversion H. eauto.
  Qed.

  Definition vw h o : vobj T := {| v_vals := seen h o; v_resizable := st_own o |}.

  Lemma map_upd {A B} (f : A -> B) l i v : map f (upd l i v) = upd (map f l) i (f v).
  Proof. revert i; induction l as [|h t IH]; intros [|k]; simpl; auto. now rewrite IH. Qed.

  Lemma view_as h l : view {| blocks := h; objs := l |} = map (option_map (vw h)) l.
  Proof. reflexivity. Qed.

  Lemma map_vw_ext h h' l :
    (forall s o, nth_error l s = Some (Some o) -> seen h' o = seen h o) ->
    map (option_map (vw h')) l = map (option_map (vw h)) l.
  Proof.
    intros H. apply map_ext_in. intros [o|] Hin; simpl; auto.
    apply In_nth_error in Hin as [s Hs]. unfold vw. now rewrite (H s o Hs).
  Qed.

  Lemma upd_map_vw_ext h h' l d x :
    (forall s o, nth_error l s = Some (Some o) -> s <> d -> seen h' o = seen h o) ->
    upd (map (option_map (vw h')) l) d x = upd (map (option_map (vw h)) l) d x.
  Proof.
    intros H. apply nth_error_ext; intros i. rewrite !nth_error_upd, !map_length.
    destruct ((d =? i) && (d <? length l)) eqn:E; auto.
    rewrite !nth_error_map_eq. destruct (nth_error l i) as [[o|]|] eqn:En; simpl; auto.
    unfold vw. rewrite (H i o); auto. intros ->.
    apply andb_false_iff in E as [E|E].
    - rewrite Nat.eqb_refl in E; discriminate.
    - apply Nat.ltb_ge in E. apply nth_error_None in E. congruence.
  Qed.

  Lemma free_any y d l :
    Inv y -> alive y d l ->
    exists h1, (if st_own l then h_free (blocks y) (st_data l) else Ok (blocks y)) = Ok h1 /\
      length h1 = length (blocks y) /\
      (forall s o, alive y s o -> s <> d -> obj_ok h1 o /\ seen h1 o = seen (blocks y) o).
  Proof.
    intros HI Hl. destruct (st_own l) eqn:Eo.
    - destruct (free_owned y d l HI Hl Eo) as (h1 & E1 & Hlen & Hoth & _). eauto.
    - exists (blocks y). split; auto. split; auto. intros; split; auto. eapply (inv_ok _ HI); eauto.
  Qed.

  Lemma seen_last h cells own :
    seen (h ++ [{| b_live := true; b_ext := false; b_cells := cells |}])
      {| st_data := Some (length h); st_size := length cells; st_own := own |} = cells.
  Proof.
    unfold seen; simpl. rewrite nth_error_snoc_last. simpl. apply firstn_all.
  Qed.

  Lemma invv_from y y1 : Inv y1 ->
    (forall s o, alive y1 s o -> st_own o = false -> st_size o = 0) -> InvV y1.
  Proof. split; auto. Qed.

  Lemma vstep_fresh y cells :
    InvV y ->
    InvV (s_fresh y cells) /\
    view (s_fresh y cells) = view y ++ [Some {| v_vals := cells; v_resizable := true |}].
  Proof.
    intros [HI HZ]. split.
    - split; [exact (proj1 (fresh_good y cells ODefault HI))|].
      intros s o Ha Ho. unfold s_fresh, h_alloc, new_obj in Ha.
      apply alive_app_inv in Ha as [[-> ->]|[_ Ha]]; [discriminate|eapply HZ; eauto].
    - unfold s_fresh, h_alloc, new_obj. rewrite view_as, map_app. f_equal.
      + destruct y as [h l]; simpl. rewrite view_as. apply map_vw_ext.
        intros s o Hs. apply seen_app. apply (inv_ok _ HI s o Hs).
      + simpl. f_equal. f_equal. unfold vw. rewrite seen_last. reflexivity.
  Qed.

  Lemma seen_cells_eq h b k cs o :
    nth_error h b = Some k -> st_data o = Some b ->
    seen (upd h b {| b_live := true; b_ext := b_ext k; b_cells := cs |}) o = firstn (st_size o) cs.
  Proof.
    intros Hk Hd. unfold seen. rewrite Hd. rewrite nth_error_upd_eq; auto.
    apply nth_error_Some; congruence.
  Qed.

  Lemma vstep_ok y (o : op T) v1 x :
    InvV y -> vstep (view y) o = Some (v1, x) ->
    exists y1, step y o = Ok (y1, x) /\ InvV y1 /\ view y1 = v1.
  Proof.
    intros HIV HV. pose proof HIV as [HI HZ].
    assert (Hlive : forall s r, alive y s r -> exists o', alive y s o') by eauto.
    destruct o as [|n|vs|s|s|s|vs|blk n|s|s n|d s|d s|a b|s v|s i v|s i|s vs|s]; cbn [step vstep] in *.
    - (* default *)
      inversion HV; subst. eexists; split; [reflexivity|]. split.
      + split.
        * refine (proj1 (nonown_new_good y _ ODefault HI _ _ _)); simpl; auto.
          -- reflexivity.
          -- discriminate.
        * intros s o Ha Ho. apply alive_app_inv in Ha as [[-> ->]|[_ Ha]]; [reflexivity|eapply HZ; eauto].
      + unfold s_default, new_obj. rewrite view_as, map_app. f_equal.
    - inversion HV; subst. eexists; split; [reflexivity|].
      destruct (vstep_fresh y (alloc n) HIV) as [A B]. rewrite B. auto.
    - inversion HV; subst. eexists; split; [reflexivity|].
      destruct (vstep_fresh y (map Some vs) HIV) as [A B]. rewrite B. auto.
    - (* copy ctor *)
      destruct (vget (view y) s) as [z|] eqn:Eg; [|discriminate]. inversion HV; subst; clear HV.
      apply vget_view in Eg as (r & Hr & ->).
      pose proof (inv_ok _ HI _ _ Hr) as Hok.
      destruct (copy_ctor_good y s HI (Hlive _ _ Hr)) as (y1 & E & G & _).
      rewrite E; simpl. eexists; split; [reflexivity|].
      unfold s_copy_ctor in E. rewrite (proj2 (get_obj_alive _ _ _) Hr) in E. cbn [bind] in E.
      rewrite read_ok in E by auto. cbn [bind h_alloc] in E. inversion E; subst y1; clear E.
      split; [split; auto|].
      + intros s' o' Ha Ho'. apply alive_app_inv in Ha as [[-> ->]|[_ Ha]].
        * simpl in *. eapply HZ; eauto.
        * eapply HZ; eauto.
      + unfold new_obj. rewrite view_as, map_app. f_equal.
        * destruct y as [h l]; simpl. rewrite view_as. apply map_vw_ext.
          intros s' o' Hs. apply seen_app. apply (inv_ok _ HI s' o' Hs).
        * simpl. do 2 f_equal. unfold vw; simpl. f_equal.
          rewrite <- (seen_length (blocks y) r Hok). apply seen_last.
    - (* move ctor *)
      destruct (vget (view y) s) as [z|] eqn:Eg; [|discriminate]. inversion HV; subst; clear HV.
      apply vget_view in Eg as (r & Hr & ->).
      destruct (move_ctor_good y s HI (Hlive _ _ Hr)) as (y1 & E & G & _).
      rewrite E; simpl. eexists; split; [reflexivity|].
      unfold s_move_ctor in E. rewrite (proj2 (get_obj_alive _ _ _) Hr) in E. cbn [bind] in E.
      inversion E; subst y1; clear E. split; [split; auto|].
      + intros s' o' Ha Ho'. unfold set_obj in Ha. apply alive_upd_inv in Ha as [[-> E]|[_ Ha]].
        * inversion E; reflexivity.
        * simpl in Ha. apply nth_error_snoc in Ha as [[-> E]|[_ Ha]].
          -- inversion E; subst. eapply HZ; eauto.
          -- eapply HZ; eauto.
      + unfold set_obj, new_obj. simpl. rewrite view_as, map_upd, map_app. reflexivity.
    - (* conv ctor *)
      destruct (vget (view y) s) as [z|] eqn:Eg; [|discriminate]. inversion HV; subst; clear HV.
      apply vget_view in Eg as (r & Hr & ->).
      pose proof (inv_ok _ HI _ _ Hr) as Hok.
      unfold s_conv_ctor. rewrite (proj2 (get_obj_alive _ _ _) Hr). cbn [bind].
      rewrite read_ok by auto. cbn [bind h_alloc quiet]. eexists; split; [reflexivity|].
      destruct (vstep_fresh y (seen (blocks y) r) HIV) as [A B].
      unfold s_fresh, h_alloc in A, B. rewrite (seen_length _ _ Hok) in A, B. split; auto.
    - discriminate.
    - discriminate.
    - discriminate.
    - (* resize *)
      destruct (vget (view y) s) as [z|] eqn:Eg; [|discriminate].
      apply vget_view in Eg as (r & Hr & ->). cbn [v_vals v_resizable] in HV.
      pose proof (inv_ok _ HI _ _ Hr) as Hok. rewrite (seen_length _ _ Hok) in HV.
      destruct (resize_good y s n HI (Hlive _ _ Hr)) as (y1 & x1 & E & G & _).
      rewrite E. unfold s_resize in E. rewrite (proj2 (get_obj_alive _ _ _) Hr) in E. cbn [bind] in E.
      destruct (st_size r =? n) eqn:En.
      { inversion E; inversion HV; subst. eexists; split; [reflexivity|]; auto. }
      destruct (st_own r) eqn:Eo; cbn [negb] in E.
      + destruct (free_any y s r HI Hr) as (h1 & E1 & Hlen & Hoth). rewrite Eo in E1.
        assert (E1' : (match st_data r with None => Ok (blocks y) | Some _ => h_free (blocks y) (st_data r) end) = Ok h1)
          by (destruct (st_data r); auto).
        rewrite E1' in E. cbn [bind h_alloc] in E. inversion E; inversion HV; subst; clear E HV.
        eexists; split; [reflexivity|]. split; [split; auto|].
        * intros s' o' Ha Ho'. apply alive_upd_inv in Ha as [[-> E]|[_ Ha]].
          -- inversion E; subst; discriminate.
          -- eapply HZ; eauto.
        * rewrite view_as, map_upd. simpl. rewrite upd_map_vw_ext with (h := blocks y).
          -- unfold view. f_equal. unfold vw. do 2 f_equal.
             rewrite <- (@alloc_length T n) at 2. apply seen_last.
          -- intros s' o' Hs Hn. destruct (Hoth s' o' Hs Hn) as [Hk Hsn].
             rewrite seen_app by auto. exact Hsn.
      + inversion E; inversion HV; subst. eexists; split; [reflexivity|]; auto.
    - (* copy assign *)
      destruct (vget (view y) d) as [zd|] eqn:Egd; [|discriminate].
      destruct (vget (view y) s) as [z|] eqn:Eg; [|discriminate]. inversion HV; subst; clear HV.
      apply vget_view in Eg as (r & Hr & ->). apply vget_view in Egd as (l & Hl & ->).
      destruct (copy_assign_good y d s HI (Hlive _ _ Hl) (Hlive _ _ Hr)) as (y1 & E & G & _).
      rewrite E; simpl. eexists; split; [reflexivity|].
      unfold s_copy_assign in E.
      rewrite (proj2 (get_obj_alive _ _ _) Hl), (proj2 (get_obj_alive _ _ _) Hr) in E. cbn [bind] in E.
      destruct (Nat.eqb_spec d s) as [Heq|Hne].
      { inversion E; subst y1 d. split; [split; auto|].
        symmetry. apply nth_error_ext; intros i. rewrite nth_error_upd.
        destruct ((s =? i) && (s <? length (view y))) eqn:Ei; auto.
        apply andb_true_iff in Ei as [Ei _]. apply Nat.eqb_eq in Ei; subst i.
        unfold view. rewrite nth_error_map_eq. rewrite Hr. reflexivity. }
      destruct (free_any y d l HI Hl) as (h1 & E1 & Hlen & Hoth). rewrite E1 in E. cbn [bind] in E.
      destruct (Hoth s r Hr (not_eq_sym Hne)) as [Hrok Hrs].
      destruct (st_own r) eqn:Er.
      + rewrite read_ok in E by auto. cbn [bind h_alloc] in E. inversion E; subst y1; clear E.
        split; [split; auto|].
        * intros s' o' Ha Ho'. apply alive_upd_inv in Ha as [[-> E]|[_ Ha]].
          -- inversion E; subst; discriminate.
          -- eapply HZ; eauto.
        * rewrite view_as, map_upd. simpl. rewrite upd_map_vw_ext with (h := blocks y).
          -- unfold view. f_equal. unfold vw. simpl. do 2 f_equal.
             rewrite <- Hrs. rewrite <- (seen_length h1 r Hrok). apply seen_last.
          -- intros s' o' Hs Hn. destruct (Hoth s' o' Hs Hn) as [Hk Hsn].
             rewrite seen_app by auto. exact Hsn.
      + inversion E; subst y1; clear E. split; [split; auto|].
        * intros s' o' Ha Ho'. apply alive_upd_inv in Ha as [[-> E]|[_ Ha]].
          -- inversion E; subst; simpl. eapply HZ; eauto.
          -- eapply HZ; eauto.
        * rewrite view_as, map_upd. simpl. rewrite upd_map_vw_ext with (h := blocks y).
          -- unfold view. f_equal. unfold vw. simpl. do 2 f_equal. exact Hrs.
          -- intros s' o' Hs Hn. apply (Hoth s' o' Hs Hn).
    - (* move assign *)
      destruct (vget (view y) d) as [zd|] eqn:Egd; [|discriminate].
      destruct (vget (view y) s) as [z|] eqn:Eg; [|discriminate]. inversion HV; subst; clear HV.
      apply vget_view in Eg as (r & Hr & ->). apply vget_view in Egd as (l & Hl & ->).
      destruct (move_assign_good y d s HI (Hlive _ _ Hl) (Hlive _ _ Hr)) as (y1 & E & G & _).
      rewrite E; simpl. eexists; split; [reflexivity|].
      unfold s_move_assign in E.
      rewrite (proj2 (get_obj_alive _ _ _) Hl), (proj2 (get_obj_alive _ _ _) Hr) in E. cbn [bind] in E.
      destruct (free_any y d l HI Hl) as (h1 & E1 & Hlen & Hoth). rewrite E1 in E. cbn [bind] in E.
      inversion E; subst y1; clear E. split; [split; auto|].
      + intros s' o' Ha Ho'. apply alive_upd_inv in Ha as [[-> E]|[_ Ha]].
        * inversion E; reflexivity.
        * destruct (alive_upd_inv [] _ _ _ _ _ Ha) as [[-> E]|[_ Ha']].
          -- inversion E; subst. eapply HZ; eauto.
          -- eapply HZ; eauto.
      + unfold set_obj. simpl. rewrite view_as, map_upd, map_upd. simpl.
        apply nth_error_ext; intros i. rewrite !nth_error_upd, !upd_length, !map_length.
        unfold view. rewrite map_length.
        destruct ((s =? i) && (s <? length (objs y))) eqn:Es; auto.
        destruct ((d =? i) && (d <? length (objs y))) eqn:Ed.
        * apply andb_true_iff in Ed as [Ed _]. apply Nat.eqb_eq in Ed; subst i.
          destruct (Nat.eq_dec s d) as [->|Hne].
          { rewrite Nat.eqb_refl in Es. simpl in Es. apply Nat.ltb_ge in Es.
            apply alive_lt in Hl. lia. }
          unfold vw. rewrite (proj2 (Hoth s r Hr Hne)). reflexivity.
        * rewrite !nth_error_map_eq. destruct (nth_error (objs y) i) as [[o'|]|] eqn:Ei; simpl; auto.
          unfold vw. rewrite (proj2 (Hoth i o' Ei ltac:(intros ->;
            rewrite Nat.eqb_refl in Ed; simpl in Ed; apply Nat.ltb_ge in Ed; apply alive_lt in Hl; lia))).
          reflexivity.
    - (* swap *)
      destruct (vget (view y) a) as [za|] eqn:Ega; [|discriminate].
      destruct (vget (view y) b) as [zb|] eqn:Egb; [|discriminate]. inversion HV; subst; clear HV.
      apply vget_view in Ega as (ra & Ha & ->). apply vget_view in Egb as (rb & Hb & ->).
      destruct (swap_good y a b HI (Hlive _ _ Ha) (Hlive _ _ Hb)) as (y1 & E & G & _).
      rewrite E; simpl. eexists; split; [reflexivity|].
      unfold s_swap in E.
      rewrite (proj2 (get_obj_alive _ _ _) Ha), (proj2 (get_obj_alive _ _ _) Hb) in E. cbn [bind] in E.
      inversion E; subst y1; clear E. split; [split; auto|].
      + intros s' o' Hx Ho'. apply alive_upd_inv in Hx as [[-> E]|[_ Hx]].
        * inversion E; subst. eapply HZ; eauto.
        * destruct (alive_upd_inv [] _ _ _ _ _ Hx) as [[-> E]|[_ Hx']].
          -- inversion E; subst. eapply HZ; eauto.
          -- eapply HZ; eauto.
      + unfold set_obj. simpl. rewrite view_as, map_upd, map_upd. reflexivity.
    - (* fill *)
      destruct (vget (view y) s) as [z|] eqn:Eg; [|discriminate]. inversion HV; subst; clear HV.
      apply vget_view in Eg as (r & Hr & ->). cbn [v_vals v_resizable].
      pose proof (inv_ok _ HI _ _ Hr) as Hok. rewrite (seen_length _ _ Hok).
      destruct (fill_good y s v HI (Hlive _ _ Hr)) as (y1 & E & G & _).
      rewrite E; simpl. eexists; split; [reflexivity|].
      unfold s_fill in E. rewrite (proj2 (get_obj_alive _ _ _) Hr) in E. cbn [bind] in E.
      destruct (write_cells (blocks y) r (repeat (Some v) (st_size r)) Hok (repeat_length _ _))
        as [[E' Hnil]|(b & k & Hnn & Hd & Hk & Hlk & E' & Hlen)]; rewrite E' in E; cbn [bind] in E;
        inversion E; subst y1; clear E.
      + split; [split; auto|]. rewrite Hnil.
        unfold view; simpl. symmetry. apply nth_error_ext; intros i. rewrite nth_error_upd.
        destruct ((s =? i) && (s <? length (map (option_map (fun o => {| v_vals := seen (blocks y) o; v_resizable := st_own o |})) (objs y)))) eqn:Ei; auto.
        apply andb_true_iff in Ei as [Ei _]. apply Nat.eqb_eq in Ei; subst i.
        rewrite nth_error_map_eq. rewrite Hr. simpl. do 2 f_equal.
        assert (Hz : st_size r = 0) by (destruct (st_size r); [auto|discriminate]).
        pose proof (seen_length _ _ Hok) as Hsl. rewrite Hz in Hsl.
        destruct (seen (blocks y) r); [reflexivity|discriminate].
      + split; [split; auto|]. rewrite view_as.
        apply nth_error_ext; intros i. rewrite nth_error_upd. unfold view. rewrite map_length, !nth_error_map_eq.
        destruct ((s =? i) && (s <? length (objs y))) eqn:Ei.
        * apply andb_true_iff in Ei as [Ei _]. apply Nat.eqb_eq in Ei; subst i.
          rewrite Hr; simpl. do 2 f_equal. unfold vw. f_equal.
          rewrite (seen_cells_eq _ _ _ _ _ Hk Hd). rewrite firstn_app, repeat_length, Nat.sub_diag.
          simpl. rewrite app_nil_r. rewrite firstn_all2; auto. now rewrite repeat_length.
        * destruct (nth_error (objs y) i) as [[o'|]|] eqn:Eo; simpl; auto.
          do 2 f_equal. unfold vw. f_equal. apply seen_upd_ne.
          intros Ed. assert (Hsi : s <> i).
          { intros ->. rewrite Nat.eqb_refl in Ei. simpl in Ei. apply Nat.ltb_ge in Ei. apply alive_lt in Hr; lia. }
          assert (Eor : st_own r = true).
          { destruct (st_own r) eqn:Eor; auto. exfalso. apply Hnn.
            rewrite (HZ _ _ Hr Eor). reflexivity. }
          eapply (inv_excl _ HI s i); eauto; lia.
    - (* write *)
      destruct (vget (view y) s) as [z|] eqn:Eg; [|discriminate].
      apply vget_view in Eg as (r & Hr & ->). cbn [v_vals v_resizable] in HV.
      pose proof (inv_ok _ HI _ _ Hr) as Hok. rewrite (seen_length _ _ Hok) in HV.
      destruct (Nat.ltb_spec i (st_size r)) as [Hi|Hi]; [|discriminate].
      inversion HV; subst; clear HV.
      destruct (write_good y s i v HI (ex_intro _ r (conj Hr Hi))) as (y1 & E & G & _).
      rewrite E; simpl. eexists; split; [reflexivity|].
      unfold s_write in E. rewrite (proj2 (get_obj_alive _ _ _) Hr) in E. cbn [bind] in E.
      destruct (cell_ok _ _ _ Hok Hi) as (b & k & Hd & Hk & Hlk & Hlt & E'). rewrite E' in E.
      cbn [bind] in E. inversion E; subst y1; clear E. split; [split; auto|].
      rewrite view_as.
      apply nth_error_ext; intros j. rewrite nth_error_upd. unfold view. rewrite map_length, !nth_error_map_eq.
      destruct ((s =? j) && (s <? length (objs y))) eqn:Ei.
      + apply andb_true_iff in Ei as [Ei _]. apply Nat.eqb_eq in Ei; subst j.
        rewrite Hr; simpl. do 2 f_equal. unfold vw. f_equal.
        rewrite (seen_cells_eq _ _ _ _ _ Hk Hd). unfold seen. rewrite Hd, Hk.
        apply nth_error_ext; intros j. rewrite nth_error_upd, firstn_length.
        destruct (Nat.lt_ge_cases j (st_size r)) as [Hj|Hj].
        * rewrite !nth_error_firstn_lt by auto. rewrite nth_error_upd.
          replace (i <? Nat.min (st_size r) (length (b_cells k))) with true by (symmetry; apply Nat.ltb_lt; lia).
          replace (i <? length (b_cells k)) with true by (symmetry; apply Nat.ltb_lt; lia).
          reflexivity.
        * rewrite !nth_error_firstn_ge by auto.
          destruct (Nat.eqb_spec i j); [lia|reflexivity].
      + destruct (nth_error (objs y) j) as [[o'|]|] eqn:Eo; simpl; auto.
        do 2 f_equal. unfold vw. f_equal. apply seen_upd_ne.
        intros Ed. assert (Hsj : s <> j).
        { intros ->. rewrite Nat.eqb_refl in Ei. simpl in Ei. apply Nat.ltb_ge in Ei. apply alive_lt in Hr; lia. }
        assert (Eor : st_own r = true).
        { destruct (st_own r) eqn:Eor; auto. rewrite (HZ _ _ Hr Eor) in Hi. lia. }
        eapply (inv_excl _ HI s j); eauto; lia.
    - (* read *)
      destruct (vget (view y) s) as [z|] eqn:Eg; [|discriminate].
      apply vget_view in Eg as (r & Hr & ->). cbn [v_vals v_resizable] in HV.
      pose proof (inv_ok _ HI _ _ Hr) as Hok.
      destruct (nth_error (seen (blocks y) r) i) as [c|] eqn:En; [|discriminate].
      inversion HV; subst; clear HV.
      assert (Hi : i < st_size r) by (rewrite <- (seen_length _ _ Hok); apply nth_error_Some; congruence).
      unfold s_read. rewrite (proj2 (get_obj_alive _ _ _) Hr). cbn [bind].
      destruct (cell_ok _ _ _ Hok Hi) as (b & k & Hd & Hk & Hlk & Hlt & E'). rewrite E'. cbn [bind snd].
      unfold seen in En. rewrite Hd, Hk in En. rewrite nth_error_firstn_lt in En by auto.
      unfold rdc. rewrite En. cbn [bind]. eexists; split; [reflexivity|]. auto.
    - (* load *)
      destruct (vget (view y) s) as [z|] eqn:Eg; [|discriminate]. inversion HV; subst; clear HV.
      apply vget_view in Eg as (r & Hr & ->).
      destruct (load_good y s vs HI (Hlive _ _ Hr)) as (y1 & E & G & _).
      rewrite E; simpl. eexists; split; [reflexivity|].
      unfold s_load in E. rewrite (proj2 (get_obj_alive _ _ _) Hr) in E. cbn [bind h_alloc] in E.
      inversion E; subst y1; clear E. split; [split; auto|].
      + intros s' o' Ha Ho'. apply alive_upd_inv in Ha as [[-> E]|[_ Ha]].
        * inversion E; subst; discriminate.
        * eapply HZ; eauto.
      + rewrite view_as, map_upd. simpl. rewrite upd_map_vw_ext with (h := blocks y).
        * unfold view. f_equal. unfold vw. simpl. do 2 f_equal.
          rewrite <- (map_length Some vs). apply seen_last.
        * intros s' o' Hs Hn. apply seen_app. apply (inv_ok _ HI s' o' Hs).
    - (* destroy *)
      destruct (vget (view y) s) as [z|] eqn:Eg; [|discriminate]. inversion HV; subst; clear HV.
      apply vget_view in Eg as (r & Hr & ->).
      destruct (destroy_good y s HI (Hlive _ _ Hr)) as (y1 & E & G & _).
      rewrite E; simpl. eexists; split; [reflexivity|].
      unfold s_destroy in E. rewrite (proj2 (get_obj_alive _ _ _) Hr) in E. cbn [bind] in E.
      destruct (free_any y s r HI Hr) as (h1 & E1 & Hlen & Hoth).
      assert (E1' : (if st_own r then
               match st_data r with None => Ok (blocks y) | Some _ => h_free (blocks y) (st_data r) end
             else Ok (blocks y)) = Ok h1) by (destruct (st_own r), (st_data r); auto).
      rewrite E1' in E. cbn [bind] in E. inversion E; subst y1; clear E. split; [split; auto|].
      + intros s' o' Ha Ho'. apply alive_upd_inv in Ha as [[-> E]|[_ Ha]]; [discriminate|eapply HZ; eauto].
      + rewrite view_as, map_upd. simpl. rewrite upd_map_vw_ext with (h := blocks y); auto.
        intros s' o' Hs Hn. apply (Hoth s' o' Hs Hn).
  Qed.

  Lemma InvV0 : InvV sys0.
  Proof. split; [apply Inv0|]. intros s o H. unfold alive in H. destruct s; discriminate. Qed.

  Lemma vrun_ok y ops v1 xs :
    InvV y -> vrun (view y) ops = Some (v1, xs) ->
    exists y1, run y ops = Ok (y1, xs) /\ InvV y1 /\ view y1 = v1.
  Proof.
    revert y v1 xs; induction ops as [|o t IH]; intros y v1 xs HI HV; simpl in *.
    - inversion HV; subst. eexists; split; [reflexivity|]; auto.
    - destruct (vstep (view y) o) as [[v' x]|] eqn:E; [|discriminate].
      destruct (vrun v' t) as [[v2 xs2]|] eqn:E2; [|discriminate]. inversion HV; subst; clear HV.
      destruct (vstep_ok y o v' x HI E) as (y1 & Es & HI1 & Hv). subst v'.
      destruct (IH y1 _ _ HI1 E2) as (y2 & Er & HI2 & Hv2).
      rewrite Es; simpl. rewrite Er; simpl. eexists; split; [reflexivity|]; auto.
  Qed.

  Lemma vstep_legal y (o : op T) v1 x : vstep (view y) o = Some (v1, x) ->
    InvV y -> legal y o.
  Proof.
    intros HV [HI HZ]. 
    assert (Hg : forall s z, vget (view y) s = Some z -> exists r, alive y s r)
      by (intros s z Hz; apply vget_view in Hz as (r & Hr & _); eauto).
    destruct o as [|n|vs|s|s|s|vs|blk n|s|s n|d s|d s|a b|s v|s i v|s i|s vs|s]; simpl in *; auto;
      try discriminate;
      try (destruct (vget (view y) s) as [z|] eqn:Eg; [eauto|discriminate]).
    - destruct (vget (view y) d) eqn:E1; [|discriminate]. destruct (vget (view y) s) eqn:E2; [|discriminate]. eauto.
    - destruct (vget (view y) d) eqn:E1; [|discriminate]. destruct (vget (view y) s) eqn:E2; [|discriminate]. eauto.
    - destruct (vget (view y) a) eqn:E1; [|discriminate]. destruct (vget (view y) b) eqn:E2; [|discriminate]. eauto.
    - apply vget_view in Eg as (r & Hr & ->). simpl in HV.
      rewrite seen_length in HV by (eapply (inv_ok _ HI); eauto).
      destruct (Nat.ltb_spec i (st_size r)); [eauto|discriminate].
    - apply vget_view in Eg as (r & Hr & ->). simpl in HV.
      destruct (nth_error (seen (blocks y) r) i) eqn:En; [|discriminate].
      exists r; split; auto. rewrite <- (seen_length (blocks y) r) by (eapply (inv_ok _ HI); eauto).
      apply nth_error_Some; congruence.
  Qed.

  Lemma clean_op_not_loses y (o : op T) v1 x : vstep (view y) o = Some (v1, x) ->
    clean_op (view y) o = true -> ~ loses y o.
  Proof.
    intros HV HC HL. destruct o; simpl in *; auto; try discriminate.
    destruct HL as (r & Hr & Ho).
    destruct (vget (view y) s) as [z|] eqn:Eg; [|discriminate].
    apply vget_view in Eg as (r' & Hr' & ->). pose proof (alive_det _ _ _ _ Hr Hr'); subst r'.
    simpl in HC. congruence.
  Qed.

  Lemma vrun_noleak y ops v1 xs y1 :
    InvV y -> NoLeak y -> vrun (view y) ops = Some (v1, xs) -> clean (view y) ops = true ->
    run y ops = Ok (y1, xs) -> NoLeak y1.
  Proof.
    revert y v1 xs y1; induction ops as [|o t IH]; intros y v1 xs y1 HI HN HV HC HR; simpl in *.
    - inversion HR; subst; auto.
    - destruct (vstep (view y) o) as [[v' x]|] eqn:E; [|discriminate].
      destruct (vrun v' t) as [[v2 xs2]|] eqn:E2; [|discriminate]. inversion HV; subst; clear HV.
      apply andb_true_iff in HC as [HC1 HC2].
      destruct (vstep_ok y o v' x HI E) as (y' & Es & HI1 & Hv).
      rewrite Es in HR; simpl in HR.
      destruct (run y' t) as [[y2 xs']| | | |] eqn:Er; simpl in HR; try discriminate.
      inversion HR; subst. apply (IH y' _ _ _ HI1) with (2 := E2); auto.
      destruct (step_ok y o (proj1 HI) (vstep_legal y o _ _ E HI)) as (y3 & x3 & Es3 & _ & G).
      rewrite Es in Es3; inversion Es3; subst y3 x3. apply G; auto.
      eapply clean_op_not_loses; eauto.
  Qed.

  (** ** The theorems *)

  Lemma value_semantics ops v xs :
    vrun [] ops = Some (v, xs) ->
    exists y, run sys0 ops = Ok (y, xs) /\ view y = v.
  Proof.
    intros HV. destruct (vrun_ok sys0 ops v xs InvV0 HV) as (y & E & _ & Hv). eauto.
  Qed.

  Lemma no_leak ops v xs :
    vrun [] ops = Some (v, xs) -> clean [] ops = true -> (forall x, In x v -> x = None) ->
    exists y, run sys0 ops = Ok (y, xs) /\ all_freed y.
  Proof.
    intros HV HC HA. destruct (vrun_ok sys0 ops v xs InvV0 HV) as (y & E & _ & Hv).
    exists y; split; auto. apply noleak_all_freed.
    - eapply (vrun_noleak sys0); eauto. apply InvV0. apply NoLeak0.
    - intros o Ho. subst v. unfold view in HA.
      specialize (HA _ (in_map _ _ _ Ho)). destruct o; auto; discriminate.
  Qed.

  Lemma safe_and_leak_free ops v xs :
    vrun [] ops = Some (v, xs) ->
    exists y, run sys0 ops = Ok (y, xs) /\
      (clean [] ops = true -> (forall x, In x v -> x = None) -> all_freed y).
  Proof.
    intros HV. destruct (value_semantics ops v xs HV) as (y & E & _).
    exists y. split; auto. intros HC HA.
    destruct (no_leak ops v xs HV HC HA) as (y1 & E1 & H). rewrite E in E1; inversion E1; subst; exact H.
  Qed.

  Lemma proxy_safe ops :
    legal_run sys0 ops ->
    exists y xs, run sys0 ops = Ok (y, xs) /\ ext_intact y /\ (never_loses sys0 ops -> all_destroyed y -> all_freed y).
  Proof.
    intros HL. destruct (run_ok sys0 ops Inv0 HL) as (y & xs & E & HI & HN).
    exists y, xs. split; auto. split.
    - intros k Hk He. apply In_nth_error in Hk as [b Hb]. eapply (inv_ext _ HI); eauto.
    - intros Hn HA. apply noleak_all_freed; auto. apply HN; auto. apply NoLeak0.
  Qed.
End P.
