From Verif Require Import BaseLemmas Storage_Spec Storage_Proofs Obj_Model Obj_Spec.

Section P.
Context {T N : Type} (o : orient) (dbg : bool) (norm_of : nat -> nat -> buf T -> res N) (eqv : T -> T -> bool).
Notation mvstep := (@mvstep T N o norm_of eqv).
Notation mstep := (@mstep T N o dbg norm_of eqv).

(** Header [h] describes value [x]. *)
Definition hd_ok (h : hdr N) (x : mval T) : Prop :=
  h_rows h = x_rows x /\ h_cols h = x_cols x /\
  (x_size x = true -> h_full h = x_rows x * x_cols x) /\
  (forall a b, x_ub x = Some (a, b) -> h_ubr h = a /\ h_ubc h = b) /\
  match x_norm x with
  | Unasked => h_norm h = None
  | Asked => exists n, h_norm h = Some n /\ norm_of (x_rows x) (x_cols x) (v_vals (x_st x)) = Ok n
  | Stale => True
  end.

Definition R (m : msys T N) (v : @mvals T) : Prop :=
  InvV (m_sys m) /\ view (m_sys m) = map (option_map x_st) v /\
  length (m_hdr m) = length v /\
  forall s x, mget v s = Some x -> exists h, nth_error (m_hdr m) s = Some h /\ hd_ok h x.

Lemma vget_map (v : @mvals T) s : vget (map (option_map x_st) v) s = option_map x_st (mget v s).
Proof.
  unfold vget, mget. rewrite nth_error_map_eq. destruct (nth_error v s) as [[x|]|]; reflexivity.
Qed.

Lemma mget_app_old (v : @mvals T) c s x : mget v s = Some x -> mget (v ++ [c]) s = Some x.
Proof.
  unfold mget. intros H. destruct (nth_error v s) eqn:E; [|discriminate].
  rewrite nth_error_app1 by (apply nth_error_Some; congruence). now rewrite E.
Qed.

Lemma mget_app (v : @mvals T) c s x : mget (v ++ [c]) s = Some x ->
  (s = length v /\ c = Some x) \/ (s < length v /\ mget v s = Some x).
Proof.
  unfold mget. destruct (Nat.lt_ge_cases s (length v)).
  - rewrite nth_error_app1 by auto. auto.
  - rewrite nth_error_app2 by auto. destruct (s - length v) as [|k] eqn:E.
    + simpl. destruct c; [|discriminate]. intros [= ->]. left; split; auto; lia.
    + simpl. destruct k; discriminate.
Qed.

Lemma mget_upd (v : @mvals T) s c t x : mget (upd v s c) t = Some x ->
  (t = s /\ c = Some x /\ s < length v) \/ (t <> s /\ mget v t = Some x).
Proof.
  unfold mget. destruct (Nat.eq_dec t s) as [->|Hn].
  - destruct (Nat.lt_ge_cases s (length v)).
    + rewrite nth_error_upd_eq by auto. destruct c; [|discriminate]. intros [= ->]. auto.
    + assert (nth_error (upd v s c) s = None) as ->
        by (apply nth_error_None; rewrite upd_length; auto). discriminate.
  - rewrite nth_error_upd_ne by auto. auto.
Qed.

Lemma mget_lt (v : @mvals T) s x : mget v s = Some x -> s < length v.
Proof. unfold mget. intros H. apply nth_error_Some. destruct (nth_error v s); discriminate || congruence. Qed.

Lemma nth_upd_hdr (l : list (hdr N)) s h t k : nth_error (upd l s h) t = Some k -> s < length l ->
  (t = s /\ k = h) \/ (t <> s /\ nth_error l t = Some k).
Proof.
  intros H Hl. destruct (Nat.eq_dec t s) as [->|Hn].
  - rewrite nth_error_upd_eq in H by auto. left; split; congruence.
  - rewrite nth_error_upd_ne in H by auto. auto.
Qed.

(** Conclude a step from the storage step. *)
Lemma finish m v so hs v1 vs x :
  R m v ->
  vstep (map (option_map x_st) v) so = Some (vs, x) ->
  vs = map (option_map x_st) v1 ->
  length hs = length v1 ->
  (forall s z, mget v1 s = Some z -> exists h, nth_error hs s = Some h /\ hd_ok h z) ->
  exists m1, with_storage m so hs = Ok (m1, of_out x) /\ R m1 v1.
Proof.
  intros (HI & Hv & HL & HH) HS -> HL1 HH1. rewrite <- Hv in HS.
  destruct (vstep_ok _ _ _ _ HI HS) as (y1 & E & HI1 & Hv1).
  unfold with_storage. rewrite E; simpl. eexists; split; [reflexivity|].
  repeat split; simpl; auto; try apply HI1.
Qed.

Lemma old_new m v h0 x0 : R m v -> hd_ok h0 x0 ->
  forall s z, mget (v ++ [Some x0]) s = Some z -> exists h, nth_error (m_hdr m ++ [h0]) s = Some h /\ hd_ok h z.
Proof.
  intros (HI & Hv & HL & HH) H0 s z Hs. apply mget_app in Hs as [[-> E]|[Hlt Hs]].
  - inversion E; subst. exists h0; split; auto. rewrite nth_error_app2 by lia.
    rewrite HL, Nat.sub_diag. reflexivity.
  - destruct (HH _ _ Hs) as (h & Hh & Hk). exists h; split; auto.
    rewrite nth_error_app1 by lia. auto.
Qed.

Lemma old_upd m v d h0 c : R m v -> (forall x0, c = Some x0 -> hd_ok h0 x0) ->
  forall s z, mget (upd v d c) s = Some z -> exists h, nth_error (upd (m_hdr m) d h0) s = Some h /\ hd_ok h z.
Proof.
  intros (HI & Hv & HL & HH) H0 s z Hs. apply mget_upd in Hs as [(-> & E & Hlt)|[Hn Hs]].
  - exists h0; split; auto. apply nth_error_upd_eq. lia.
  - destruct (HH _ _ Hs) as (h & Hh & Hk). exists h; split; auto.
    rewrite nth_error_upd_ne by auto. auto.
Qed.

Lemma old_keep m v d c : R m v -> (forall x0 h0, c = Some x0 -> nth_error (m_hdr m) d = Some h0 -> hd_ok h0 x0) ->
  forall s z, mget (upd v d c) s = Some z -> exists h, nth_error (m_hdr m) s = Some h /\ hd_ok h z.
Proof.
  intros (HI & Hv & HL & HH) H0 s z Hs. apply mget_upd in Hs as [(-> & E & Hlt)|[Hn Hs]].
  - destruct (nth_error (m_hdr m) d) as [h|] eqn:Eh; [|apply nth_error_None in Eh; lia].
    exists h; split; auto.
  - eauto.
Qed.

Lemma hdr_some m v s x : R m v -> mget v s = Some x -> exists h, hdr_of m s = Ok h /\ hd_ok h x /\ nth_error (m_hdr m) s = Some h.
Proof.
  intros (HI & Hv & HL & HH) Hs. destruct (HH _ _ Hs) as (h & Hh & Hk). exists h.
  unfold hdr_of. rewrite Hh. auto.
Qed.

Lemma alive_of m v s x : R m v -> mget v s = Some x ->
  exists r, get_obj (m_sys m) s = Ok r /\ obj_ok (blocks (m_sys m)) r /\
            x_st x = {| v_vals := seen (blocks (m_sys m)) r; v_resizable := st_own r |} /\ alive (m_sys m) s r.
Proof.
  intros (HI & Hv & HL & HH) Hs.
  assert (E : vget (view (m_sys m)) s = Some (x_st x)) by now rewrite Hv, vget_map, Hs.
  apply vget_view in E as (r & Ha & E). exists r. split; [now apply get_obj_alive|]. split; auto.
  eapply (inv_ok _ (proj1 HI)); eauto.
Qed.

Lemma mem_ok m v s x : R m v -> mget v s = Some x -> mem_of m s = Ok (v_vals (x_st x)).
Proof.
  intros HR Hs. destruct (alive_of _ _ _ _ HR Hs) as (r & E & Hok & Ex & _).
  unfold mem_of. rewrite E; simpl. rewrite Ex; simpl. apply read_ok; auto.
Qed.

Lemma position_place r c i j : i < r -> j < c ->
  position dbg (own_shape o r c) i j = Ok (place o r c i j).
Proof.
  intros Hi Hj. unfold position, own_shape; simpl.
  apply Nat.ltb_lt in Hi, Hj. rewrite Hi, Hj. unfold cassert. destruct dbg; simpl; unfold place; destruct o; reflexivity.
Qed.

Lemma values_equal a b xs ys : values a = Some xs -> values b = Some ys ->
  (if length a =? length b then buf_equal eqv a b else Ok false) = Ok (alike eqv xs ys).
Proof.
  revert b xs ys; induction a as [|[x|] a IH]; intros [|[y|] b] xs ys; simpl; try discriminate;
    try (intros [= <-] [= <-]; reflexivity).
  - intros [= <-]. destruct (values b); intros [= <-]; reflexivity.
  - destruct (values a); intros [= <-] [= <-]; reflexivity.
  - destruct (values a) as [xs'|]; [|discriminate]. intros [= <-].
    destruct (values b) as [ys'|] eqn:Eb; [|discriminate]. intros [= <-]. simpl.
    specialize (IH b xs' ys' eq_refl Eb).
    destruct (eqv x y); simpl.
    + exact IH.
    + destruct (length a =? length b); reflexivity.
Qed.

Lemma touch_ok h x rest n0 : hd_ok h x -> n0 = h_norm h ->
  match touch (x_norm x) with
  | Unasked => n0 = None | Asked => rest | Stale => True end.
Proof. intros (_&_&_&_&H) ->. destruct (x_norm x); simpl; auto. Qed.
Arguments touch_ok h x : clear implicits.

Ltac hd := repeat split; simpl in *; auto; try congruence;
  try match goal with H : x_ub _ = Some (_, _), H4 : forall a b, _ -> h_ubr _ = a /\ _ |- _ => destruct (H4 _ _ H); auto end.

Lemma step_ok m v x v1 z : R m v -> mvstep v x = Some (v1, z) ->
  exists m1, mstep m x = Ok (m1, z) /\ R m1 v1.
Proof.
  intros HR HS. pose proof HR as (HI & Hv & HL & HH).
  destruct x as [|r c|r c ur uc|s|s|d s|d s|a b|s r c|s r c ur uc|s w|s i j w|s i j|s|s|s|s|a b|a b|s];
    cbn [Obj_Spec.mvstep Obj_Model.mstep] in *.
  - inversion HS; subst. eapply finish with (x := ONone); eauto; try reflexivity.
    + rewrite map_app; reflexivity.
    + rewrite !app_length; simpl; lia.
    + apply old_new; auto. hd.
  - inversion HS; subst. eapply finish with (x := ONone); eauto; try reflexivity.
    + rewrite map_app; reflexivity.
    + rewrite !app_length; simpl; lia.
    + apply old_new; auto. hd.
  - inversion HS; subst. eapply finish with (x := ONone); eauto; try reflexivity.
    + rewrite map_app; reflexivity.
    + rewrite !app_length; simpl; lia.
    + apply old_new; auto. hd.
  - destruct (mget v s) as [m0|] eqn:E; [|discriminate]. inversion HS; subst.
    destruct (hdr_some _ _ _ _ HR E) as (h & -> & Hh & _). simpl.
    eapply finish with (x := ONone); [exact HR| | | |].
    + simpl. rewrite vget_map, E. reflexivity.
    + rewrite map_app; reflexivity.
    + rewrite !app_length; simpl; lia.
    + apply old_new; auto.
  - destruct (mget v s) as [m0|] eqn:E; [|discriminate]. inversion HS; subst.
    destruct (hdr_some _ _ _ _ HR E) as (h & -> & Hh & En). simpl.
    eapply finish with (x := ONone); [exact HR| | | |].
    + simpl. rewrite vget_map, E. reflexivity.
    + rewrite map_upd, map_app; reflexivity.
    + rewrite upd_length, !app_length; simpl; lia.
    + intros t z Ht. apply mget_upd in Ht as [(-> & Ez & _)|[Hn Ht]].
      * exists h. split. { rewrite nth_error_app1 by (apply nth_error_Some; congruence). auto. }
        inversion Ez; subst z. pose proof (touch_ok h m0 True _ Hh eq_refl) as HT.
        destruct Hh as (H1 & H2 & H3 & H4 & H5). hd.
        destruct (x_norm m0); simpl in *; auto.
      * eapply old_new; eauto. destruct Hh as (H1 & H2 & H3 & H4 & H5). hd.
  - destruct (mget v d) as [k0|] eqn:Ed; [|discriminate].
    destruct (mget v s) as [m0|] eqn:E; [|discriminate]. inversion HS; subst.
    destruct (hdr_some _ _ _ _ HR E) as (h & -> & Hh & En).
    destruct (hdr_some _ _ _ _ HR Ed) as (h' & -> & Hh' & En'). simpl.
    eapply finish with (x := ONone); [exact HR| | | |].
    + simpl. rewrite !vget_map, E, Ed. reflexivity.
    + rewrite map_upd; reflexivity.
    + rewrite !upd_length; lia.
    + apply old_upd; auto. now intros ? [= <-].
  - destruct (mget v d) as [k0|] eqn:Ed; [|discriminate].
    destruct (mget v s) as [m0|] eqn:E; [|discriminate]. inversion HS; subst.
    destruct (hdr_some _ _ _ _ HR E) as (h & -> & Hh & En).
    destruct (hdr_some _ _ _ _ HR Ed) as (h' & -> & Hh' & En'). simpl.
    eapply finish with (x := ONone); [exact HR| | | |].
    + simpl. rewrite !vget_map, E, Ed. reflexivity.
    + rewrite !map_upd; reflexivity.
    + rewrite !upd_length; lia.
    + intros t z Ht. apply mget_upd in Ht as [(-> & Ez & Hlt)|[Hn Ht]].
      * inversion Ez; subst z. rewrite upd_length in Hlt.
        destruct (Nat.eq_dec s d) as [->|Hne].
        -- assert (k0 = m0) by congruence; subst k0. assert (h' = h) by congruence; subst h'.
           rewrite nth_error_upd_eq by lia. eexists; split; [reflexivity|].
           destruct Hh as (H1 & H2 & H3 & H4 & H5). hd.
           destruct (x_norm m0); simpl in *; auto.
        -- rewrite nth_error_upd_ne by auto. exists h; split; auto.
           destruct Hh as (H1 & H2 & H3 & H4 & H5). hd.
           destruct (x_norm m0); simpl in *; auto.
      * eapply old_upd; eauto. intros ? [= <-].
        destruct Hh as (H1 & H2 & H3 & H4 & H5). destruct Hh' as (_ & _ & _ & _ & H5').
        hd.
        destruct (x_norm k0); simpl in *; auto.
  - destruct (mget v a) as [k0|] eqn:Ed; [|discriminate].
    destruct (mget v b) as [m0|] eqn:E; [|discriminate]. inversion HS; subst.
    destruct (hdr_some _ _ _ _ HR E) as (h & -> & Hh & En).
    destruct (hdr_some _ _ _ _ HR Ed) as (h' & -> & Hh' & En'). simpl.
    eapply finish with (x := ONone); [exact HR| | | |].
    + simpl. rewrite !vget_map, E, Ed. reflexivity.
    + rewrite !map_upd; reflexivity.
    + rewrite !upd_length; lia.
    + destruct Hh as (H1 & H2 & H3 & H4 & H5). destruct Hh' as (H1' & H2' & H3' & H4' & H5').
      intros t z Ht. apply mget_upd in Ht as [(-> & Ez & Hlt)|[Hn Ht]].
      * inversion Ez; subst z. rewrite upd_length in Hlt.
        rewrite nth_error_upd_eq by (rewrite upd_length; lia). eexists; split; [reflexivity|].
        repeat split; simpl; auto.
        -- intros HB. apply andb_true_iff in HB as [HB1 HB2]. apply Nat.eqb_eq in HB2. rewrite HB2. auto.
        -- destruct (x_ub k0) as [[a1 a2]|] eqn:U1; destruct (x_ub m0) as [[b1 b2]|] eqn:U2; try discriminate.
           destruct (a1 =? b1) eqn:Q1; destruct (a2 =? b2) eqn:Q2; try discriminate.
           simpl in H. inversion H; subst. apply Nat.eqb_eq in Q1. subst. destruct (H4 _ _ eq_refl); auto.
        -- destruct (x_ub k0) as [[a1 a2]|] eqn:U1; destruct (x_ub m0) as [[b1 b2]|] eqn:U2; try discriminate.
           destruct (a1 =? b1) eqn:Q1; destruct (a2 =? b2) eqn:Q2; try discriminate.
           simpl in H. inversion H; subst. apply Nat.eqb_eq in Q2. subst. destruct (H4 _ _ eq_refl); auto.
        -- destruct (x_norm m0); simpl in *; auto.
      * destruct (Nat.eq_dec t a) as [->|Hna].
        -- rewrite nth_error_upd_ne by auto. apply mget_upd in Ht as [(_ & Ez & Hlt)|[Hx _]]; [|congruence].
           inversion Ez; subst z.
           rewrite nth_error_upd_eq by lia. eexists; split; [reflexivity|].
           repeat split; simpl; auto.
           ++ intros HB. apply andb_true_iff in HB as [HB1 HB2]. apply Nat.eqb_eq in HB2. rewrite <- HB2. auto.
           ++ destruct (x_ub k0) as [[a1 a2]|] eqn:U1; destruct (x_ub m0) as [[b1 b2]|] eqn:U2; try discriminate.
              destruct (a1 =? b1) eqn:Q1; destruct (a2 =? b2) eqn:Q2; try discriminate.
              simpl in H. inversion H; subst. destruct (H4' _ _ eq_refl); auto.
           ++ destruct (x_ub k0) as [[a1 a2]|] eqn:U1; destruct (x_ub m0) as [[b1 b2]|] eqn:U2; try discriminate.
              destruct (a1 =? b1) eqn:Q1; destruct (a2 =? b2) eqn:Q2; try discriminate.
              simpl in H. inversion H; subst. destruct (H4' _ _ eq_refl); auto.
           ++ destruct (x_norm k0); simpl in *; auto.
        -- rewrite !nth_error_upd_ne by auto.
           apply mget_upd in Ht as [(Hx & _ & _)|[_ Ht]]; [congruence|]. eauto.
  - destruct (mget v s) as [m0|] eqn:E; [|discriminate].
    destruct (hdr_some _ _ _ _ HR E) as (h & -> & Hh & En). cbn [bind].
    assert (Hnew : forall st u, hd_ok (mkHdr r c (r * c) (h_ubr h) (h_ubc h) (h_norm h))
               (mkVal r c st (x_ub m0) u (touch (x_norm m0)))).
    { intros st u. destruct Hh as (H1 & H2 & H3 & H4 & H5). hd. destruct (x_norm m0); simpl in *; auto. }
    destruct (length (v_vals (x_st m0)) =? r * c) eqn:El.
    + inversion HS; subst. eapply finish with (x := ONone); [exact HR| | | |].
      * simpl. rewrite vget_map, E. simpl. rewrite El. reflexivity.
      * rewrite map_upd. symmetry. simpl. unfold mget in E.
        apply nth_error_ext. intros i. destruct (Nat.eq_dec i s) as [->|Hn].
        -- rewrite nth_error_upd_eq by (rewrite map_length; apply mget_lt with (x := m0); exact E).
           rewrite nth_error_map_eq. destruct (nth_error v s) as [[q|]|]; try discriminate.
           inversion E; reflexivity.
        -- rewrite nth_error_upd_ne by auto. reflexivity.
      * rewrite !upd_length; lia.
      * apply old_upd; auto. now intros ? [= <-].
    + destruct (v_resizable (x_st m0)) eqn:Er; inversion HS; subst.
      * eapply finish with (x := ONone); [exact HR| | | |].
        -- simpl. rewrite vget_map, E. simpl. rewrite El, Er. reflexivity.
        -- rewrite map_upd. reflexivity.
        -- rewrite !upd_length; lia.
        -- apply old_upd; auto. now intros ? [= <-].
      * eapply finish with (x := OThrew); [exact HR| | | |].
        -- simpl. rewrite vget_map, E. simpl. rewrite El, Er. reflexivity.
        -- rewrite map_upd. symmetry. simpl. unfold mget in E.
           apply nth_error_ext. intros i. destruct (Nat.eq_dec i s) as [->|Hn].
           ++ rewrite nth_error_upd_eq by (rewrite map_length; apply mget_lt with (x := m0); exact E).
              rewrite nth_error_map_eq. destruct (nth_error v s) as [[q|]|]; try discriminate.
              inversion E; reflexivity.
           ++ rewrite nth_error_upd_ne by auto. reflexivity.
        -- rewrite !upd_length; lia.
        -- apply old_upd; auto. now intros ? [= <-].
  - destruct (mget v s) as [m0|] eqn:E; [|discriminate].
    destruct (hdr_some _ _ _ _ HR E) as (h & -> & Hh & En). cbn [bind].
    assert (Hnew : forall st, hd_ok (mkHdr r c (h_full h) ur uc (h_norm h))
               (mkVal r c st (Some (ur, uc)) (x_size m0 && (x_rows m0 * x_cols m0 =? r * c)) (touch (x_norm m0)))).
    { intros st. destruct Hh as (H1 & H2 & H3 & H4 & H5). hd.
      intros HB. apply andb_true_iff in HB as [HB1 HB2]. apply Nat.eqb_eq in HB2. rewrite <- HB2; auto.
      destruct (x_norm m0); simpl in *; auto. }
    destruct (length (v_vals (x_st m0)) =? r * c) eqn:El.
    + inversion HS; subst. eapply finish with (x := ONone); [exact HR| | | |].
      * simpl. rewrite vget_map, E. simpl. rewrite El. reflexivity.
      * rewrite map_upd. symmetry. simpl. unfold mget in E.
        apply nth_error_ext. intros i. destruct (Nat.eq_dec i s) as [->|Hn].
        -- rewrite nth_error_upd_eq by (rewrite map_length; apply mget_lt with (x := m0); exact E).
           rewrite nth_error_map_eq. destruct (nth_error v s) as [[q|]|]; try discriminate.
           inversion E; reflexivity.
        -- rewrite nth_error_upd_ne by auto. reflexivity.
      * rewrite !upd_length; lia.
      * apply old_upd; auto. now intros ? [= <-].
    + destruct (v_resizable (x_st m0)) eqn:Er; inversion HS; subst.
      * eapply finish with (x := ONone); [exact HR| | | |].
        -- simpl. rewrite vget_map, E. simpl. rewrite El, Er. reflexivity.
        -- rewrite map_upd. reflexivity.
        -- rewrite !upd_length; lia.
        -- apply old_upd; auto. now intros ? [= <-].
      * eapply finish with (x := OThrew); [exact HR| | | |].
        -- simpl. rewrite vget_map, E. simpl. rewrite El, Er. reflexivity.
        -- rewrite map_upd. symmetry. simpl. unfold mget in E.
           apply nth_error_ext. intros i. destruct (Nat.eq_dec i s) as [->|Hn].
           ++ rewrite nth_error_upd_eq by (rewrite map_length; apply mget_lt with (x := m0); exact E).
              rewrite nth_error_map_eq. destruct (nth_error v s) as [[q|]|]; try discriminate.
              inversion E; reflexivity.
           ++ rewrite nth_error_upd_ne by auto. reflexivity.
        -- rewrite !upd_length; lia.
        -- apply old_upd; auto. now intros ? [= <-].
  - destruct (mget v s) as [m0|] eqn:E; [|discriminate]. inversion HS; subst.
    destruct (hdr_some _ _ _ _ HR E) as (h & -> & Hh & En). cbn [bind].
    eapply finish with (x := ONone); [exact HR| | | |].
    + simpl. rewrite vget_map, E. reflexivity.
    + rewrite map_upd; reflexivity.
    + rewrite upd_length; lia.
    + apply old_keep; auto. intros ? h0 [= <-] Q. assert (h0 = h) by congruence; subst.
      destruct Hh as (H1 & H2 & H3 & H4 & H5). hd.
      destruct (x_norm m0); simpl in *; auto.
  - destruct (mget v s) as [m0|] eqn:E; [|discriminate].
    destruct (hdr_some _ _ _ _ HR E) as (h & -> & Hh & En). cbn [bind].
    destruct (Nat.ltb_spec i (x_rows m0)); [|discriminate].
    destruct (Nat.ltb_spec j (x_cols m0)); [|discriminate]. simpl in HS.
    destruct (_ <? _) eqn:Ep in HS; [|discriminate]. inversion HS; subst.
    pose proof Hh as (H1 & H2 & H3 & H4 & H5). rewrite H1, H2, position_place by auto. cbn [bind].
    eapply finish with (x := ONone); [exact HR| | | |].
    + simpl. rewrite vget_map, E. simpl. rewrite Ep. reflexivity.
    + rewrite map_upd; reflexivity.
    + rewrite upd_length; lia.
    + apply old_keep; auto. intros ? h0 [= <-] Q. assert (h0 = h) by congruence; subst.
      hd.
      destruct (x_norm m0); simpl in *; auto.
  - destruct (mget v s) as [m0|] eqn:E; [|discriminate].
    destruct (hdr_some _ _ _ _ HR E) as (h & -> & Hh & En). cbn [bind].
    destruct (Nat.ltb_spec i (x_rows m0)); [|discriminate].
    destruct (Nat.ltb_spec j (x_cols m0)); [|discriminate]. simpl in HS.
    destruct (nth_error _ _) as [cc|] eqn:Ep in HS; [|discriminate]. inversion HS; subst.
    pose proof Hh as (H1 & H2 & H3 & H4 & H5). rewrite H1, H2, position_place by auto. cbn [bind].
    eapply finish with (x := OVal cc); [exact HR| | reflexivity | auto | auto].
    simpl. rewrite vget_map, E. simpl. rewrite Ep. reflexivity.
  - destruct (mget v s) as [m0|] eqn:E; [|discriminate]. inversion HS; subst.
    destruct (hdr_some _ _ _ _ HR E) as (h & -> & Hh & En).
    destruct (alive_of _ _ _ _ HR E) as (q & -> & _). cbn [bind].
    destruct Hh as (H1 & H2 & _). rewrite H1, H2. eexists; split; eauto.
  - destruct (mget v s) as [m0|] eqn:E; [|discriminate].
    destruct (x_size m0) eqn:Es; [|discriminate]. inversion HS; subst.
    destruct (hdr_some _ _ _ _ HR E) as (h & -> & Hh & En).
    destruct (alive_of _ _ _ _ HR E) as (q & -> & _). cbn [bind].
    destruct Hh as (H1 & H2 & H3 & _). rewrite H3 by auto. eexists; split; eauto.
  - destruct (mget v s) as [m0|] eqn:E; [|discriminate].
    destruct (x_ub m0) as [[a b]|] eqn:Es; [|discriminate]. inversion HS; subst.
    destruct (hdr_some _ _ _ _ HR E) as (h & -> & Hh & En).
    destruct (alive_of _ _ _ _ HR E) as (q & -> & _). cbn [bind].
    destruct Hh as (H1 & H2 & H3 & H4 & _). destruct (H4 _ _ Es) as [-> ->]. eexists; split; eauto.
  - destruct (mget v s) as [m0|] eqn:E; [|discriminate].
    destruct (hdr_some _ _ _ _ HR E) as (h & -> & Hh & En).
    rewrite (mem_ok _ _ _ _ HR E). cbn [bind].
    pose proof Hh as (H1 & H2 & H3 & H4 & H5).
    assert (Hvm : forall n0, map (option_map x_st) (upd v s (Some (mkVal (x_rows m0) (x_cols m0) (x_st m0) (x_ub m0) (x_size m0) n0)))
                  = map (option_map x_st) v).
    { intros n0. rewrite map_upd. simpl. unfold mget in E.
      apply nth_error_ext. intros i. destruct (Nat.eq_dec i s) as [->|Hn].
      - rewrite nth_error_upd_eq by (rewrite map_length; apply mget_lt with (x := m0); exact E).
        rewrite nth_error_map_eq. destruct (nth_error v s) as [[q|]|]; try discriminate.
        inversion E; reflexivity.
      - rewrite nth_error_upd_ne by auto. reflexivity. }
    destruct (x_norm m0) eqn:Enorm; [| |discriminate].
    + rewrite H5. rewrite H1, H2.
      destruct (norm_of _ _ _) as [n| | | |] eqn:Ef; try discriminate. inversion HS; subst. cbn [bind].
      eexists; split; [reflexivity|]. split; [exact HI|]. simpl. split; [now rewrite Hvm|].
      split; [rewrite !upd_length; auto|].
      apply old_upd; auto. intros ? [= <-]. hd.
      exists n; split; auto.
    + destruct H5 as (n & Hn & Ef). rewrite Hn. rewrite Ef in HS. inversion HS; subst.
      eexists; split; [reflexivity|]. split; [exact HI|]. split; [now rewrite Hvm|].
      split; [rewrite !upd_length; auto|].
      apply old_keep; auto. intros ? h0 [= <-] Q. assert (h0 = h) by congruence; subst.
      hd. exists n; split; auto.
  - destruct (mget v a) as [k0|] eqn:Ed; [|discriminate].
    destruct (mget v b) as [m0|] eqn:E; [|discriminate].
    destruct (hdr_some _ _ _ _ HR E) as (h & -> & Hh & En).
    destruct (hdr_some _ _ _ _ HR Ed) as (h' & -> & Hh' & En'). cbn [bind].
    rewrite (mem_ok _ _ _ _ HR E), (mem_ok _ _ _ _ HR Ed). cbn [bind].
    destruct (values (v_vals (x_st k0))) as [xs|] eqn:Ex; [|discriminate].
    destruct (values (v_vals (x_st m0))) as [ys|] eqn:Ey; [|discriminate]. inversion HS; subst.
    rewrite (values_equal _ _ _ _ Ex Ey). cbn [bind].
    destruct Hh as (H1 & H2 & _). destruct Hh' as (H1' & H2' & _). rewrite H1, H2, H1', H2'.
    eexists; split; [|eauto]. do 3 f_equal.
    destruct (alike eqv xs ys), (x_rows k0 =? x_rows m0), (x_cols k0 =? x_cols m0); reflexivity.
  - destruct (mget v a) as [k0|] eqn:Ed; [|discriminate].
    destruct (mget v b) as [m0|] eqn:E; [|discriminate].
    destruct (hdr_some _ _ _ _ HR E) as (h & -> & Hh & En).
    destruct (hdr_some _ _ _ _ HR Ed) as (h' & -> & Hh' & En').
    destruct (alive_of _ _ _ _ HR E) as (q & -> & Hq & Exq & Aq).
    destruct (alive_of _ _ _ _ HR Ed) as (p & -> & Hp & Exp & Ap). cbn [bind].
    destruct (Nat.eqb_spec a b) as [->|Hne].
    + inversion HS; subst. assert (p = q) by (eapply alive_det; eauto). subst p.
      assert (h' = h) by congruence. subst h'. eexists; split; [|eauto].
      rewrite !Nat.eqb_refl, Bool.eqb_reflx. destruct (st_data q); simpl; rewrite ?Nat.eqb_refl; reflexivity.
    + destruct ((_ =? 0) && (_ =? 0)) eqn:Ez in HS; [discriminate|]. inversion HS; subst.
      eexists; split; [|eauto]. do 3 f_equal.
      pose proof (seen_length _ _ Hp) as Lp. pose proof (seen_length _ _ Hq) as Lq.
      rewrite Exp, Exq in Ez. simpl in Ez. rewrite Lp, Lq in Ez.
      destruct (st_data p) as [i|] eqn:Dp; destruct (st_data q) as [j|] eqn:Dq; try reflexivity.
      * destruct (Nat.eqb_spec i j) as [->|]; [|reflexivity].
        destruct (st_own p) eqn:Op.
        -- exfalso. eapply (inv_excl _ (proj1 HI) a b p q j); eauto.
        -- destruct (st_own q) eqn:Oq; [simpl; now rewrite andb_false_r|].
           assert (st_size p = 0) by (eapply (proj2 HI); eauto).
           assert (st_size q = 0) by (eapply (proj2 HI); eauto).
           rewrite H, H0 in Ez. discriminate.
      * unfold obj_ok in Hp, Hq. rewrite Dp in Hp. rewrite Dq in Hq. rewrite Hp, Hq in Ez. discriminate.
  - destruct (mget v s) as [m0|] eqn:E; [|discriminate]. inversion HS; subst.
    destruct (hdr_some _ _ _ _ HR E) as (h & -> & Hh & En). cbn [bind].
    eapply finish with (x := ONone); [exact HR| | | |].
    + simpl. rewrite vget_map, E. reflexivity.
    + rewrite map_upd; reflexivity.
    + rewrite upd_length; lia.
    + apply old_keep; auto. congruence.
Qed.

Lemma R0 : R msys0 [].
Proof.
  split; [apply InvV0|]. split; [reflexivity|]. split; [reflexivity|].
  intros s x H. unfold mget in H. destruct s; discriminate.
Qed.

Lemma run_ok m v ops v1 zs : R m v -> mvrun o norm_of eqv v ops = Some (v1, zs) ->
  exists m1, mrun o dbg norm_of eqv m ops = Ok (m1, zs) /\ R m1 v1.
Proof.
  revert m v v1 zs; induction ops as [|x t IH]; intros m v v1 zs HR HS; simpl in *.
  - inversion HS; subst. eauto.
  - destruct (mvstep v x) as [[v' z]|] eqn:E; [|discriminate].
    destruct (mvrun _ _ _ v' t) as [[v2 zs2]|] eqn:E2; [|discriminate]. inversion HS; subst.
    destruct (step_ok _ _ _ _ _ HR E) as (m1 & -> & HR1). simpl.
    destruct (IH _ _ _ _ HR1 E2) as (m2 & -> & HR2). simpl. eauto.
Qed.

(** ** No leak *)
Lemma ws_noleak (m : msys T N) so hs m1 z : Inv (m_sys m) -> Storage_Spec.legal (m_sys m) so -> ~ loses (m_sys m) so ->
  NoLeak (m_sys m) -> with_storage m so hs = Ok (m1, z) -> NoLeak (m_sys m1).
Proof.
  intros HI HL HN HK E. unfold with_storage in E.
  destruct (Storage_Proofs.step_ok (m_sys m) so HI HL) as (y1 & x & Es & _ & G).
  rewrite Es in E. simpl in E. inversion E; subst. simpl. auto.
Qed.

Lemma step_noleak m v x v1 z m1 : R m v -> mvstep v x = Some (v1, z) -> mclean_op v x = true ->
  NoLeak (m_sys m) -> mstep m x = Ok (m1, z) -> NoLeak (m_sys m1).
Proof.
  intros HR HS HC HK HM. pose proof HR as ((HI & HZ) & Hv & HL & HH).
  assert (Al : forall s y, mget v s = Some y -> exists q, alive (m_sys m) s q).
  { intros s y Hs. destruct (alive_of _ _ _ _ HR Hs) as (q & _ & _ & _ & A). eauto. }
  destruct x as [|r c|r c ur uc|s|s|d s|d s|a b|s r c|s r c ur uc|s w|s i j w|s i j|s|s|s|s|a b|a b|s];
    cbn [Obj_Spec.mvstep Obj_Model.mstep mclean_op] in *.
  1-3: eapply ws_noleak; eauto; simpl; auto.
  - destruct (mget v s) as [m0|] eqn:E; [|discriminate].
    destruct (hdr_some _ _ _ _ HR E) as (h & Eh & _). rewrite Eh in HM. simpl in HM.
    eapply ws_noleak; eauto; simpl; eauto.
    intros (q & Aq & Oq). destruct (alive_of _ _ _ _ HR E) as (q' & _ & _ & Ex & A').
    assert (q = q') by (eapply alive_det; eauto). subst. rewrite Ex in HC. simpl in HC. congruence.
  - destruct (mget v s) as [m0|] eqn:E; [|discriminate].
    destruct (hdr_some _ _ _ _ HR E) as (h & Eh & _). rewrite Eh in HM. simpl in HM.
    eapply ws_noleak; eauto; simpl; eauto.
  - destruct (mget v d) as [k0|] eqn:Ed; [|discriminate]. destruct (mget v s) as [m0|] eqn:E; [|discriminate].
    destruct (hdr_some _ _ _ _ HR E) as (h & Eh & _). destruct (hdr_some _ _ _ _ HR Ed) as (h' & Eh' & _).
    rewrite Eh, Eh' in HM. simpl in HM. eapply ws_noleak; eauto; simpl; eauto.
  - destruct (mget v d) as [k0|] eqn:Ed; [|discriminate]. destruct (mget v s) as [m0|] eqn:E; [|discriminate].
    destruct (hdr_some _ _ _ _ HR E) as (h & Eh & _). destruct (hdr_some _ _ _ _ HR Ed) as (h' & Eh' & _).
    rewrite Eh, Eh' in HM. simpl in HM. eapply ws_noleak; eauto; simpl; eauto.
  - destruct (mget v a) as [k0|] eqn:Ed; [|discriminate]. destruct (mget v b) as [m0|] eqn:E; [|discriminate].
    destruct (hdr_some _ _ _ _ HR E) as (h & Eh & _). destruct (hdr_some _ _ _ _ HR Ed) as (h' & Eh' & _).
    rewrite Eh, Eh' in HM. simpl in HM. eapply ws_noleak; eauto; simpl; eauto.
  - destruct (mget v s) as [m0|] eqn:E; [|discriminate].
    destruct (hdr_some _ _ _ _ HR E) as (h & Eh & _). rewrite Eh in HM. cbn [bind] in HM.
    eapply ws_noleak; eauto; simpl; eauto.
  - destruct (mget v s) as [m0|] eqn:E; [|discriminate].
    destruct (hdr_some _ _ _ _ HR E) as (h & Eh & _). rewrite Eh in HM. cbn [bind] in HM.
    eapply ws_noleak; eauto; simpl; eauto.
  - destruct (mget v s) as [m0|] eqn:E; [|discriminate].
    destruct (hdr_some _ _ _ _ HR E) as (h & Eh & _). rewrite Eh in HM. cbn [bind] in HM.
    eapply ws_noleak; eauto; simpl; eauto.
  - destruct (mget v s) as [m0|] eqn:E; [|discriminate].
    destruct (hdr_some _ _ _ _ HR E) as (h & Eh & Hh & _). rewrite Eh in HM. cbn [bind] in HM.
    destruct (Nat.ltb_spec i (x_rows m0)); [|discriminate].
    destruct (Nat.ltb_spec j (x_cols m0)); [|discriminate]. simpl in HS.
    destruct (Nat.ltb_spec (place o (x_rows m0) (x_cols m0) i j) (length (v_vals (x_st m0)))) as [Hp|]; [|discriminate].
    destruct Hh as (H1 & H2 & _). rewrite H1, H2, position_place in HM by auto. cbn [bind] in HM.
    eapply ws_noleak; eauto; simpl; eauto.
    destruct (alive_of _ _ _ _ HR E) as (q & _ & Hq & Ex & A). exists q; split; auto.
    rewrite Ex in Hp. simpl in Hp. now rewrite seen_length in Hp.
  - destruct (mget v s) as [m0|] eqn:E; [|discriminate].
    destruct (hdr_some _ _ _ _ HR E) as (h & Eh & Hh & _). rewrite Eh in HM. cbn [bind] in HM.
    destruct (Nat.ltb_spec i (x_rows m0)); [|discriminate].
    destruct (Nat.ltb_spec j (x_cols m0)); [|discriminate]. simpl in HS.
    destruct (nth_error _ _) as [cc|] eqn:Ep in HS; [|discriminate].
    destruct Hh as (H1 & H2 & _). rewrite H1, H2, position_place in HM by auto. cbn [bind] in HM.
    eapply ws_noleak; eauto; simpl; eauto.
    destruct (alive_of _ _ _ _ HR E) as (q & _ & Hq & Ex & A). exists q; split; auto.
    rewrite Ex in Ep. simpl in Ep. rewrite <- (seen_length _ _ Hq). apply nth_error_Some. congruence.
  - destruct (get_obj _ _); try discriminate. destruct (hdr_of m s); try discriminate. simpl in HM. now inversion HM; subst.
  - destruct (get_obj _ _); try discriminate. destruct (hdr_of m s); try discriminate. simpl in HM. now inversion HM; subst.
  - destruct (get_obj _ _); try discriminate. destruct (hdr_of m s); try discriminate. simpl in HM. now inversion HM; subst.
  - destruct (hdr_of m s) as [h| | | |]; try discriminate. simpl in HM.
    destruct (mem_of m s) as [b| | | |]; try discriminate. simpl in HM.
    destruct (h_norm h); [now inversion HM; subst|].
    destruct (norm_of _ _ _); try discriminate. simpl in HM. now inversion HM; subst.
  - destruct (hdr_of m a) as [h| | | |]; try discriminate. destruct (hdr_of m b) as [h'| | | |]; try discriminate. simpl in HM.
    destruct (mem_of m a) as [x| | | |]; try discriminate. destruct (mem_of m b) as [y| | | |]; try discriminate. simpl in HM.
    match type of HM with (do e <- ?t; _) = _ => destruct t; try discriminate end. simpl in HM. now inversion HM; subst.
  - destruct (hdr_of m a) as [h| | | |]; try discriminate. destruct (hdr_of m b) as [h'| | | |]; try discriminate. simpl in HM.
    destruct (get_obj (m_sys m) a); try discriminate. destruct (get_obj (m_sys m) b); try discriminate. simpl in HM. now inversion HM; subst.
  - destruct (mget v s) as [m0|] eqn:E; [|discriminate].
    destruct (hdr_some _ _ _ _ HR E) as (h & Eh & _). rewrite Eh in HM. cbn [bind] in HM.
    eapply ws_noleak; eauto; simpl; eauto.
Qed.

Lemma run_noleak m v ops v1 zs m1 : R m v -> mvrun o norm_of eqv v ops = Some (v1, zs) ->
  mclean o norm_of eqv v ops = true -> NoLeak (m_sys m) ->
  mrun o dbg norm_of eqv m ops = Ok (m1, zs) -> NoLeak (m_sys m1).
Proof.
  revert m v v1 zs m1; induction ops as [|x t IH]; intros m v v1 zs m1 HR HS HC HK HM; simpl in *.
  - inversion HM; subst; auto.
  - destruct (mvstep v x) as [[v' z]|] eqn:E; [|discriminate].
    destruct (mvrun _ _ _ v' t) as [[v2 zs2]|] eqn:E2; [|discriminate]. inversion HS; subst.
    apply andb_true_iff in HC as [HC1 HC2].
    destruct (step_ok _ _ _ _ _ HR E) as (m' & Es & HR1). rewrite Es in HM. simpl in HM.
    destruct (mrun _ _ _ _ m' t) as [[m2 zs']| | | |] eqn:E3; try discriminate. simpl in HM. inversion HM; subst.
    apply (IH m' v' v1 zs2 m1 HR1 E2 HC2); auto. exact (step_noleak m v x v' z m' HR E HC1 HK Es).
Qed.

Lemma mrun_app m a b : mrun o dbg norm_of eqv m (a ++ b) =
  (do r <- mrun o dbg norm_of eqv m a; let '(m1, z1) := r in
   do r2 <- mrun o dbg norm_of eqv m1 b; let '(m2, z2) := r2 in Ok (m2, z1 ++ z2)).
Proof.
  revert m; induction a as [|x a IH]; intros m; simpl.
  - destruct (mrun _ _ _ _ m b) as [[? ?]| | | |]; reflexivity.
  - destruct (mstep m x) as [[m1 z]| | | |]; simpl; auto. rewrite IH.
    destruct (mrun _ _ _ _ m1 a) as [[m2 zs]| | | |]; simpl; auto.
    destruct (mrun _ _ _ _ m2 b) as [[? ?]| | | |]; reflexivity.
Qed.
Lemma mvrun_app v a b : mvrun o norm_of eqv v (a ++ b) =
  match mvrun o norm_of eqv v a with
  | Some (v1, z1) => match mvrun o norm_of eqv v1 b with Some (v2, z2) => Some (v2, z1 ++ z2) | None => None end
  | None => None
  end.
Proof.
  revert v; induction a as [|x a IH]; intros v; simpl.
  - destruct (mvrun _ _ _ v b) as [[? ?]|]; reflexivity.
  - destruct (mvstep v x) as [[v1 z]|]; simpl; auto. rewrite IH.
    destruct (mvrun _ _ _ v1 a) as [[v2 zs]|]; simpl; auto.
    destruct (mvrun _ _ _ v2 b) as [[? ?]|]; reflexivity.
Qed.
End P.
