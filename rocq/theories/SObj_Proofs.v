From Verif Require Import Base BaseLemmas Storage_Model Storage_Spec Storage_Proofs SObj_Model SObj_Spec.

Section P.
Context {T : Type}.

Definition stv (x : sval T) : vobj T := {| v_vals := sv_val x; v_resizable := sv_res x |}.
Definition stk (x : sval T) : vobj nat := {| v_vals := sv_key x; v_resizable := sv_res x |}.
Definition sto (x : sval T) : vobj nat := {| v_vals := sv_off x; v_resizable := sv_res x |}.
Definition hd_ok (h : shdr) (x : sval T) : Prop :=
  sh_r h = sv_rows x /\ sh_c h = sv_cols x /\ (sv_size x = true -> sh_full h = sv_rows x * sv_cols x).
Definition R (m : ssys T) (v : svals T) : Prop :=
  InvV (sy_val m) /\ InvV (sy_key m) /\ InvV (sy_off m) /\
  view (sy_val m) = map (option_map stv) v /\ view (sy_key m) = map (option_map stk) v /\
  view (sy_off m) = map (option_map sto) v /\
  length (sy_hdr m) = length v /\
  (forall s x, sget v s = Some x -> exists h, nth_error (sy_hdr m) s = Some h /\ hd_ok h x).
Definition NL (m : ssys T) : Prop := NoLeak (sy_val m) /\ NoLeak (sy_key m) /\ NoLeak (sy_off m).

Lemma full_step {A} (y : sys A) o v1 x : InvV y -> vstep (view y) o = Some (v1, x) ->
  exists y1, step y o = Ok (y1, x) /\ InvV y1 /\ view y1 = v1 /\ (clean_op (view y) o = true -> NoLeak y -> NoLeak y1).
Proof.
  intros HI HV. destruct (vstep_ok y o v1 x HI HV) as (y1 & E & HI1 & Hv). exists y1. repeat (split; [assumption|]).
  intros HC HN. destruct (step_ok y o (proj1 HI) (vstep_legal y o _ _ HV HI)) as (y3 & x3 & Es3 & _ & G).
  rewrite E in Es3. inversion Es3; subst y3 x3. apply G; auto. eapply clean_op_not_loses; eauto.
Qed.

Lemma vget_map {A} (f : sval T -> vobj A) (v : svals T) s : vget (map (option_map f) v) s = option_map f (sget v s).
Proof. unfold vget, sget. rewrite nth_error_map_eq. destruct (nth_error v s) as [[x|]|]; reflexivity. Qed.
Lemma sget_lt (v : svals T) s x : sget v s = Some x -> s < length v.
Proof. unfold sget. intros H. apply nth_error_Some. destruct (nth_error v s); discriminate || congruence. Qed.
Lemma sget_app (v : svals T) c s x : sget (v ++ [c]) s = Some x ->
  (s = length v /\ c = Some x) \/ (s < length v /\ sget v s = Some x).
Proof.
  unfold sget. destruct (Nat.lt_ge_cases s (length v)).
  - rewrite nth_error_app1 by auto. auto.
  - rewrite nth_error_app2 by auto. destruct (s - length v) as [|k] eqn:E.
    + simpl. destruct c; [|discriminate]. intros [= ->]. left; split; auto; lia.
    + simpl. destruct k; discriminate.
Qed.
Lemma sget_upd (v : svals T) s c t x : sget (upd v s c) t = Some x ->
  (t = s /\ c = Some x /\ s < length v) \/ (t <> s /\ sget v t = Some x).
Proof.
  unfold sget. destruct (Nat.eq_dec t s) as [->|Hn].
  - destruct (Nat.lt_ge_cases s (length v)).
    + rewrite nth_error_upd_eq by auto. destruct c; [|discriminate]. intros [= ->]. auto.
    + assert (nth_error (upd v s c) s = None) as -> by (apply nth_error_None; rewrite upd_length; auto). discriminate.
  - rewrite nth_error_upd_ne by auto. auto.
Qed.
Lemma same_upd {A} (f : sval T -> vobj A) (v : svals T) s x y : sget v s = Some x -> f y = f x ->
  map (option_map f) (upd v s (Some y)) = map (option_map f) v.
Proof.
  intros H E. rewrite map_upd. cbn [option_map]. rewrite E. unfold sget in H. revert s H.
  induction v as [|a v IH]; intros [|s] H; cbn in *; try discriminate.
  - destruct a; [|discriminate]. injection H as ->. reflexivity.
  - f_equal. now apply IH.
Qed.

(** A step made of three storage steps that do not throw. *)
Lemma finish m v ov ok oo hs v1 xv xk xo :
  R m v ->
  vstep (map (option_map stv) v) ov = Some (map (option_map stv) v1, xv) -> xv <> OThrew ->
  vstep (map (option_map stk) v) ok = Some (map (option_map stk) v1, xk) -> xk <> OThrew ->
  vstep (map (option_map sto) v) oo = Some (map (option_map sto) v1, xo) -> xo <> OThrew ->
  length hs = length v1 ->
  (forall s z, sget v1 s = Some z -> exists h, nth_error hs s = Some h /\ hd_ok h z) ->
  exists m1, on3 m ov ok oo hs = Ok (m1, SNone) /\ R m1 v1 /\
    (clean_op (view (sy_val m)) ov = true -> clean_op (view (sy_key m)) ok = true -> clean_op (view (sy_off m)) oo = true -> NL m -> NL m1).
Proof.
  intros (I1 & I2 & I3 & V1 & V2 & V3 & HL & HH) S1 N1 S2 N2 S3 N3 HL1 HH1.
  rewrite <- V1 in S1. rewrite <- V2 in S2. rewrite <- V3 in S3.
  destruct (full_step _ _ _ _ I1 S1) as (y1 & E1 & J1 & W1 & C1).
  destruct (full_step _ _ _ _ I2 S2) as (y2 & E2 & J2 & W2 & C2).
  destruct (full_step _ _ _ _ I3 S3) as (y3 & E3 & J3 & W3 & C3).
  unfold on3. rewrite E1. cbn [bind]. destruct xv; [| congruence |]; (rewrite E2; cbn [bind]; destruct xk; [|congruence|];
    (rewrite E3; cbn [bind]; destruct xo; [|congruence|])); (eexists; split; [reflexivity|split]);
    try (unfold R; cbn [sy_val sy_key sy_off sy_hdr]; auto 12);
    (intros K1 K2 K3 (L1 & L2 & L3); unfold NL; cbn [sy_val sy_key sy_off]; auto).
Qed.

Lemma hdr_some m v s x : R m v -> sget v s = Some x -> exists h, shdr_of m s = Ok h /\ hd_ok h x.
Proof.
  intros (_ & _ & _ & _ & _ & _ & HL & HH) Hs. destruct (HH _ _ Hs) as (h & Hh & Hk). exists h. unfold shdr_of. rewrite Hh. auto.
Qed.
Lemma old_new m v h0 x0 : R m v -> hd_ok h0 x0 ->
  forall s z, sget (v ++ [Some x0]) s = Some z -> exists h, nth_error (sy_hdr m ++ [h0]) s = Some h /\ hd_ok h z.
Proof.
  intros (_ & _ & _ & _ & _ & _ & HL & HH) H0 s z Hs. apply sget_app in Hs as [[-> E]|[Hlt Hs]].
  - inversion E; subst. exists h0; split; auto. rewrite nth_error_app2 by lia. rewrite HL, Nat.sub_diag. reflexivity.
  - destruct (HH _ _ Hs) as (h & Hh & Hk). exists h; split; auto. rewrite nth_error_app1 by lia. auto.
Qed.
Lemma hdr_upd (hs : list shdr) (v : svals T) d h0 c : length hs = length v ->
  (forall s z, sget v s = Some z -> exists h, nth_error hs s = Some h /\ hd_ok h z) ->
  (forall x0, c = Some x0 -> hd_ok h0 x0) ->
  forall s z, sget (upd v d c) s = Some z -> exists h, nth_error (upd hs d h0) s = Some h /\ hd_ok h z.
Proof.
  intros HL HH H0 s z Hs. apply sget_upd in Hs as [(-> & E & Hlt)|[Hn Hs]].
  - exists h0; split; auto. apply nth_error_upd_eq. lia.
  - destruct (HH _ _ Hs) as (h & Hh & Hk). exists h; split; auto. rewrite nth_error_upd_ne by auto. auto.
Qed.
Lemma hdr_keep (hs : list shdr) (v : svals T) d c : length hs = length v ->
  (forall s z, sget v s = Some z -> exists h, nth_error hs s = Some h /\ hd_ok h z) ->
  (forall x0 h0, c = Some x0 -> nth_error hs d = Some h0 -> hd_ok h0 x0) ->
  forall s z, sget (upd v d c) s = Some z -> exists h, nth_error hs s = Some h /\ hd_ok h z.
Proof.
  intros HL HH H0 s z Hs. apply sget_upd in Hs as [(-> & E & Hlt)|[Hn Hs]].
  - destruct (nth_error hs d) as [h|] eqn:Eh; [|apply nth_error_None in Eh; lia]. exists h; split; auto.
  - eauto.
Qed.

Lemma resized_step {A} (f : sval T -> vobj A) (v : svals T) s x n : sget v s = Some x -> v_resizable (f x) = true ->
  vstep (map (option_map f) v) (OResize s n) =
    Some (upd (map (option_map f) v) s (Some {| v_vals := resized (v_vals (f x)) n; v_resizable := true |}), ONone).
Proof.
  intros Hs Hr. cbn [vstep]. rewrite vget_map, Hs. cbn [option_map]. unfold resized. destruct (length (v_vals (f x)) =? n).
  - f_equal. f_equal. clear n.
    assert (E : {| v_vals := v_vals (f x); v_resizable := true |} = f x) by (destruct (f x); cbn in *; congruence). rewrite E.
    clear Hr E. unfold sget in Hs. revert s Hs. induction v as [|a v IH]; intros [|s] Hs; cbn in *; try discriminate.
    + destruct a; [|discriminate]. injection Hs as ->. reflexivity.
    + f_equal. now apply IH.
  - rewrite Hr. reflexivity.
Qed.
Lemma kept_step {A} (f : sval T -> vobj A) (v : svals T) s x n : sget v s = Some x -> v_resizable (f x) = false ->
  vstep (map (option_map f) v) (OResize s n) = Some (map (option_map f) v, if length (v_vals (f x)) =? n then ONone else OThrew).
Proof.
  intros Hs Hr. cbn [vstep]. rewrite vget_map, Hs. cbn [option_map]. destruct (length (v_vals (f x)) =? n); [reflexivity|].
  now rewrite Hr.
Qed.

(** Steps that touch one storage. *)
Definition st_app {A} (f : sval T -> vobj A) v x : map (option_map f) (v ++ [Some x]) = map (option_map f) v ++ [Some (f x)] :=
  map_app _ _ _.

Lemma sstep_ok m v x v1 z : R m v -> svstep v x = Some (v1, z) ->
  exists m1, sstep m x = Ok (m1, z) /\ R m1 v1 /\ (sclean_op v x = true -> NL m -> NL m1).
Proof.
  intros HR HS. pose proof HR as (I1 & I2 & I3 & V1 & V2 & V3 & HL & HH).
  assert (FIN : forall ov ok oo hs v1 xv xk xo,
    vstep (map (option_map stv) v) ov = Some (map (option_map stv) v1, xv) -> xv <> OThrew ->
    vstep (map (option_map stk) v) ok = Some (map (option_map stk) v1, xk) -> xk <> OThrew ->
    vstep (map (option_map sto) v) oo = Some (map (option_map sto) v1, xo) -> xo <> OThrew ->
    length hs = length v1 ->
    (forall s z, sget v1 s = Some z -> exists h, nth_error hs s = Some h /\ hd_ok h z) ->
    (sclean_op v x = true -> clean_op (view (sy_val m)) ov = true /\ clean_op (view (sy_key m)) ok = true /\ clean_op (view (sy_off m)) oo = true) ->
    exists m1, on3 m ov ok oo hs = Ok (m1, SNone) /\ R m1 v1 /\ (sclean_op v x = true -> NL m -> NL m1)).
  { intros ov ok oo hs w xv xk xo S1 N1 S2 N2 S3 N3 L1 H1 C.
    destruct (finish m v ov ok oo hs w xv xk xo HR S1 N1 S2 N2 S3 N3 L1 H1) as (m1 & E & Q & K).
    exists m1. split; [exact E|]. split; [exact Q|]. intros HC. destruct (C HC) as (A & B & D). auto. }
  assert (ONE : forall {A} (y : sys A) o w xo, InvV y -> vstep (view y) o = Some (w, xo) -> clean_op (view y) o = true ->
    exists y1, step y o = Ok (y1, xo) /\ InvV y1 /\ view y1 = w /\ (NoLeak y -> NoLeak y1)).
  { intros A y o w xo HI HV HC. destruct (full_step y o w xo HI HV) as (y1 & E & J & W & C). exists y1. auto. }
  destruct x as [|r c n|s|s|d s|d s|a b|s r c n|s i w|s i w|s i w|s i|s i|s i|s|s|s|s|s]; cbn [svstep] in HS.
  - (* default *) injection HS as <- <-. cbn [sstep].
    apply (FIN _ _ _ _ _ ONone ONone ONone); try discriminate.
    + cbn [vstep]. now rewrite st_app.
    + cbn [vstep]. now rewrite st_app.
    + cbn [vstep]. now rewrite st_app.
    + rewrite !app_length. cbn. lia.
    + apply old_new; auto. repeat split.
    + auto.
  - (* sized *) injection HS as <- <-. cbn [sstep].
    apply (FIN _ _ _ _ _ ONone ONone ONone); try discriminate.
    + cbn [vstep]. now rewrite st_app.
    + cbn [vstep]. now rewrite st_app.
    + cbn [vstep]. now rewrite st_app.
    + rewrite !app_length. cbn. lia.
    + apply old_new; auto. repeat split.
    + auto.
  - (* copy *) destruct (sget v s) as [x|] eqn:Es; [|discriminate]. injection HS as <- <-. cbn [sstep].
    destruct (hdr_some m v s x HR Es) as (h & -> & Hh). cbn [bind].
    apply (FIN _ _ _ _ _ ONone ONone ONone); try discriminate.
    + cbn [vstep]. now rewrite vget_map, Es, st_app.
    + cbn [vstep]. now rewrite vget_map, Es, st_app.
    + cbn [vstep]. now rewrite vget_map, Es, st_app.
    + rewrite !app_length. cbn. lia.
    + apply old_new; auto.
    + cbn [sclean_op clean_op]. rewrite V1, V2, V3, !vget_map, Es. cbn [option_map]. auto.
  - (* move *) destruct (sget v s) as [x|] eqn:Es; [|discriminate]. injection HS as <- <-. cbn [sstep].
    destruct (hdr_some m v s x HR Es) as (h & Eh & Hh). rewrite Eh. cbn [bind]. unfold shdr_of in Eh.
    pose proof (sget_lt v s x Es) as Ls.
    apply (FIN _ _ _ _ _ ONone ONone ONone); try discriminate; try (cbn [vstep]; rewrite vget_map, Es, map_upd, st_app; reflexivity).
    + rewrite upd_length, !app_length. cbn. lia.
    + apply hdr_keep; [rewrite !app_length; cbn; lia|apply old_new; auto|].
      intros x0 h0 [= <-] H0. rewrite nth_error_app1 in H0 by lia. rewrite H0 in Eh. injection Eh as ->. exact Hh.
    + auto.
  - (* copy assignment *) destruct (sget v d) as [x0|] eqn:Ed; [|discriminate]. destruct (sget v s) as [x|] eqn:Es; [|discriminate].
    injection HS as <- <-. cbn [sstep].
    destruct (hdr_some m v s x HR Es) as (h & -> & Hh). destruct (hdr_some m v d x0 HR Ed) as (k & -> & Hk). cbn [bind].
    apply (FIN _ _ _ _ _ ONone ONone ONone); try discriminate; try (cbn [vstep]; rewrite !vget_map, Es, Ed, map_upd; reflexivity).
    + now rewrite !upd_length.
    + apply hdr_upd; auto. intros y [= <-]. exact Hh.
    + auto.
  - (* move assignment *) destruct (sget v d) as [x0|] eqn:Ed; [|discriminate]. destruct (sget v s) as [x|] eqn:Es; [|discriminate].
    injection HS as <- <-. cbn [sstep].
    destruct (hdr_some m v s x HR Es) as (h & Eh & Hh). rewrite Eh. destruct (hdr_some m v d x0 HR Ed) as (k & -> & Hk). cbn [bind].
    apply (FIN _ _ _ _ _ ONone ONone ONone); try discriminate; try (cbn [vstep]; rewrite !vget_map, Es, Ed, !map_upd; reflexivity).
    + now rewrite !upd_length.
    + apply hdr_keep; [now rewrite !upd_length|apply hdr_upd; auto; intros y [= <-]; exact Hh|].
      intros y h0 [= <-] H0. unfold shdr_of in Eh. destruct (Nat.eq_dec s d) as [->|Hn].
      * rewrite nth_error_upd_eq in H0 by (rewrite HL; eapply sget_lt; eauto). injection H0 as <-. exact Hh.
      * rewrite nth_error_upd_ne in H0 by auto. rewrite H0 in Eh. injection Eh as ->. exact Hh.
    + auto.
  - (* swap *) destruct (sget v a) as [x|] eqn:Ea; [|discriminate]. destruct (sget v b) as [y|] eqn:Eb; [|discriminate].
    injection HS as <- <-. cbn [sstep].
    destruct (hdr_some m v a x HR Ea) as (h & -> & Hh). destruct (hdr_some m v b y HR Eb) as (k & -> & Hk). cbn [bind].
    apply (FIN _ _ _ _ _ ONone ONone ONone); try discriminate; try (cbn [vstep]; rewrite !vget_map, Ea, Eb, !map_upd; reflexivity).
    + now rewrite !upd_length.
    + destruct Hh as (H1 & H2 & H3), Hk as (K1 & K2 & K3).
      assert (Q : sv_size x && sv_size y && (sv_rows x * sv_cols x =? sv_rows y * sv_cols y) = true ->
        sh_full h = sv_rows y * sv_cols y /\ sh_full k = sv_rows x * sv_cols x).
      { intros E. apply andb_true_iff in E as [E E3]. apply andb_true_iff in E as [E1 E2]. apply Nat.eqb_eq in E3.
        rewrite (H3 E1), (K3 E2). auto. }
      apply hdr_upd; [now rewrite !upd_length|apply hdr_upd; auto|].
      * intros z [= <-]. repeat split; cbn; auto. intros E. apply Q, E.
      * intros z [= <-]. repeat split; cbn; auto. intros E. apply Q, E.
    + auto.
  - (* resize *) destruct (sget v s) as [x|] eqn:Es; [|discriminate]. cbn [sstep].
    destruct (hdr_some m v s x HR Es) as (h & -> & Hh). cbn [bind].
    destruct (sv_res x) eqn:Er.
    + injection HS as <- <-. apply (FIN _ _ _ _ _ ONone ONone ONone); try discriminate.
      * rewrite (resized_step stv v s x _ Es Er), map_upd. reflexivity.
      * rewrite (resized_step stk v s x _ Es Er), map_upd. reflexivity.
      * rewrite (resized_step sto v s x _ Es Er), map_upd. reflexivity.
      * now rewrite !upd_length.
      * apply hdr_upd; auto. intros z [= <-]. repeat split.
      * auto.
    + injection HS as <- <-.
      set (y := mkSv r c true (sv_val x) (sv_key x) (sv_off x) false).
      assert (Z1 := same_upd stv v s x y Es). assert (Z2 := same_upd stk v s x y Es). assert (Z3 := same_upd sto v s x y Es).
      specialize (Z1 ltac:(unfold stv; cbn; now rewrite Er)). specialize (Z2 ltac:(unfold stk; cbn; now rewrite Er)).
      specialize (Z3 ltac:(unfold sto; cbn; now rewrite Er)).
      pose proof (kept_step stv v s x (nnz_or_all r c n) Es Er) as K1. pose proof (kept_step stk v s x (nnz_or_all r c n) Es Er) as K2.
      pose proof (kept_step sto v s x (c + 1) Es Er) as K3. rewrite <- V1 in K1. rewrite <- V2 in K2. rewrite <- V3 in K3. cbn [v_vals stv stk sto] in *.
      destruct (ONE _ _ _ _ _ I1 K1 eq_refl) as (y1 & E1 & J1 & W1 & C1).
      destruct (ONE _ _ _ _ _ I2 K2 eq_refl) as (y2 & E2 & J2 & W2 & C2).
      destruct (ONE _ _ _ _ _ I3 K3 eq_refl) as (y3 & E3 & J3 & W3 & C3).
      assert (HHd : forall s' z, sget (upd v s (Some y)) s' = Some z -> exists h, nth_error (upd (sy_hdr m) s (mkSHdr r c (r * c))) s' = Some h /\ hd_ok h z)
        by (apply hdr_upd; auto; intros z [= <-]; repeat split).
      unfold on3. rewrite E1. cbn [bind].
      destruct (length (sv_val x) =? nnz_or_all r c n) eqn:L1; cbn [andb].
      * rewrite E2. cbn [bind]. destruct (length (sv_key x) =? nnz_or_all r c n) eqn:L2; cbn [andb].
        -- rewrite E3. cbn [bind]. destruct (length (sv_off x) =? c + 1) eqn:L3; (eexists; split; [reflexivity|split]);
             try (unfold R; cbn [sy_val sy_key sy_off sy_hdr]; rewrite Z1, Z2, Z3, !upd_length; rewrite ?W1, ?W2, ?W3; auto 12);
             (intros _ (N1 & N2 & N3); unfold NL; cbn; auto).
        -- eexists; split; [reflexivity|split];
             try (unfold R; cbn [sy_val sy_key sy_off sy_hdr]; rewrite Z1, Z2, Z3, !upd_length; rewrite ?W1, ?W2, ?W3; auto 12);
             (intros _ (N1 & N2 & N3); unfold NL; cbn; auto).
      * eexists; split; [reflexivity|split];
             try (unfold R; cbn [sy_val sy_key sy_off sy_hdr]; rewrite Z1, Z2, Z3, !upd_length; rewrite ?W1, ?W2, ?W3; auto 12);
             (intros _ (N1 & N2 & N3); unfold NL; cbn; auto).
  - (* put value *) destruct (sget v s) as [x|] eqn:Es; [|discriminate]. destruct (i <? length (sv_val x)) eqn:Ei; [|discriminate].
    injection HS as <- <-. cbn [sstep]. set (y := setv x _).
    assert (K : vstep (view (sy_val m)) (OWrite s i w) = Some (map (option_map stv) (upd v s (Some y)), ONone)).
    { rewrite V1. cbn [vstep]. rewrite vget_map, Es. cbn [option_map v_vals stv]. now rewrite Ei, map_upd. }
    destruct (ONE _ _ _ _ _ I1 K eq_refl) as (y1 & E1 & J1 & W1 & C1). rewrite E1. cbn [bind sval_out].
    eexists; split; [reflexivity|split].
    + unfold R. cbn [sy_val sy_key sy_off sy_hdr]. rewrite (same_upd stk v s x y Es), (same_upd sto v s x y Es), upd_length by reflexivity.
      repeat (split; [solve [auto|apply J1]|]). apply hdr_keep; auto. intros x0 h0 [= <-] H0.
      destruct (HH s x Es) as (h & E & Hh). rewrite H0 in E. injection E as ->. exact Hh.
    + intros _ (N1 & N2 & N3). unfold NL; cbn; auto.
  - destruct (sget v s) as [x|] eqn:Es; [|discriminate]. destruct (i <? length (sv_key x)) eqn:Ei; [|discriminate].
    injection HS as <- <-. cbn [sstep]. set (y := setk x _).
    assert (K : vstep (view (sy_key m)) (OWrite s i w) = Some (map (option_map stk) (upd v s (Some y)), ONone)).
    { rewrite V2. cbn [vstep]. rewrite vget_map, Es. cbn [option_map v_vals stk]. now rewrite Ei, map_upd. }
    destruct (ONE _ _ _ _ _ I2 K eq_refl) as (y1 & E1 & J1 & W1 & C1). rewrite E1. cbn [bind sidx].
    eexists; split; [reflexivity|split].
    + unfold R. cbn [sy_val sy_key sy_off sy_hdr]. rewrite (same_upd stv v s x y Es), (same_upd sto v s x y Es), upd_length by reflexivity.
      repeat (split; [solve [auto|apply J1]|]). apply hdr_keep; auto. intros x0 h0 [= <-] H0.
      destruct (HH s x Es) as (h & E & Hh). rewrite H0 in E. injection E as ->. exact Hh.
    + intros _ (N1 & N2 & N3). unfold NL; cbn; auto.
  - destruct (sget v s) as [x|] eqn:Es; [|discriminate]. destruct (i <? length (sv_off x)) eqn:Ei; [|discriminate].
    injection HS as <- <-. cbn [sstep]. set (y := seto x _).
    assert (K : vstep (view (sy_off m)) (OWrite s i w) = Some (map (option_map sto) (upd v s (Some y)), ONone)).
    { rewrite V3. cbn [vstep]. rewrite vget_map, Es. cbn [option_map v_vals sto]. now rewrite Ei, map_upd. }
    destruct (ONE _ _ _ _ _ I3 K eq_refl) as (y1 & E1 & J1 & W1 & C1). rewrite E1. cbn [bind sidx].
    eexists; split; [reflexivity|split].
    + unfold R. cbn [sy_val sy_key sy_off sy_hdr]. rewrite (same_upd stv v s x y Es), (same_upd stk v s x y Es), upd_length by reflexivity.
      repeat (split; [solve [auto|apply J1]|]). apply hdr_keep; auto. intros x0 h0 [= <-] H0.
      destruct (HH s x Es) as (h & E & Hh). rewrite H0 in E. injection E as ->. exact Hh.
    + intros _ (N1 & N2 & N3). unfold NL; cbn; auto.
  - (* get *) destruct (sget v s) as [x|] eqn:Es; [|discriminate]. destruct (nth_error (sv_val x) i) as [c|] eqn:Ei; [|discriminate].
    injection HS as <- <-. cbn [sstep].
    assert (K : vstep (view (sy_val m)) (ORead s i) = Some (view (sy_val m), OVal c)).
    { rewrite V1. cbn [vstep]. rewrite vget_map, Es. cbn [option_map v_vals stv]. now rewrite Ei. }
    destruct (ONE _ _ _ _ _ I1 K eq_refl) as (y1 & E1 & _). rewrite E1. cbn [bind sval_out]. eauto.
  - destruct (sget v s) as [x|] eqn:Es; [|discriminate]. destruct (nth_error (sv_key x) i) as [c|] eqn:Ei; [|discriminate].
    injection HS as <- <-. cbn [sstep].
    assert (K : vstep (view (sy_key m)) (ORead s i) = Some (view (sy_key m), OVal c)).
    { rewrite V2. cbn [vstep]. rewrite vget_map, Es. cbn [option_map v_vals stk]. now rewrite Ei. }
    destruct (ONE _ _ _ _ _ I2 K eq_refl) as (y1 & E1 & _). rewrite E1. cbn [bind sidx]. eauto.
  - destruct (sget v s) as [x|] eqn:Es; [|discriminate]. destruct (nth_error (sv_off x) i) as [c|] eqn:Ei; [|discriminate].
    injection HS as <- <-. cbn [sstep].
    assert (K : vstep (view (sy_off m)) (ORead s i) = Some (view (sy_off m), OVal c)).
    { rewrite V3. cbn [vstep]. rewrite vget_map, Es. cbn [option_map v_vals sto]. now rewrite Ei. }
    destruct (ONE _ _ _ _ _ I3 K eq_refl) as (y1 & E1 & _). rewrite E1. cbn [bind sidx]. eauto.
  - (* dims *) destruct (sget v s) as [x|] eqn:Es; [|discriminate]. injection HS as <- <-. cbn [sstep].
    assert (K : vget (view (sy_val m)) s = Some (stv x)) by (rewrite V1, vget_map, Es; reflexivity).
    apply vget_view in K as (q & Ha & _). rewrite (proj2 (get_obj_alive _ _ _) Ha). cbn [bind].
    destruct (hdr_some m v s x HR Es) as (h & -> & H1 & H2 & _). cbn [bind]. rewrite H1, H2. eauto.
  - destruct (sget v s) as [x|] eqn:Es; [|discriminate]. destruct (sv_size x) eqn:Ez; [|discriminate]. injection HS as <- <-. cbn [sstep].
    assert (K : vget (view (sy_val m)) s = Some (stv x)) by (rewrite V1, vget_map, Es; reflexivity).
    apply vget_view in K as (q & Ha & _). rewrite (proj2 (get_obj_alive _ _ _) Ha). cbn [bind].
    destruct (hdr_some m v s x HR Es) as (h & -> & H1 & H2 & H3). cbn [bind]. rewrite (H3 Ez). eauto.
  - destruct (sget v s) as [x|] eqn:Es; [|discriminate]. injection HS as <- <-. cbn [sstep].
    assert (K : vget (view (sy_val m)) s = Some (stv x)) by (rewrite V1, vget_map, Es; reflexivity).
    apply vget_view in K as (q & Ha & Eq). rewrite (proj2 (get_obj_alive _ _ _) Ha). cbn [bind].
    injection Eq as -> _. rewrite seen_length by (eapply (inv_ok _ (proj1 I1)); eauto). eauto.
  - destruct (sget v s) as [x|] eqn:Es; [|discriminate]. injection HS as <- <-. cbn [sstep].
    assert (K : vget (view (sy_off m)) s = Some (sto x)) by (rewrite V3, vget_map, Es; reflexivity).
    apply vget_view in K as (q & Ha & Eq). rewrite (proj2 (get_obj_alive _ _ _) Ha). cbn [bind].
    injection Eq as -> _. rewrite seen_length by (eapply (inv_ok _ (proj1 I3)); eauto). eauto.
  - (* destroy *) destruct (sget v s) as [x|] eqn:Es; [|discriminate]. injection HS as <- <-. cbn [sstep].
    apply (FIN _ _ _ _ _ ONone ONone ONone); try discriminate; try (cbn [vstep]; rewrite vget_map, Es, map_upd; reflexivity).
    + now rewrite upd_length.
    + apply hdr_keep; auto. discriminate.
    + auto.
Qed.

Lemma R0 : R ssys0 [].
Proof.
  unfold R. cbn [ssys0 sy_val sy_key sy_off sy_hdr]. do 3 (split; [apply InvV0|]). do 4 (split; [reflexivity|]).
  intros s x H. destruct s; discriminate.
Qed.
Lemma NL0 : NL (ssys0 (T := T)).
Proof. repeat split; cbn; apply NoLeak0. Qed.

Lemma srun_ok m v ops v1 zs : R m v -> svrun v ops = Some (v1, zs) ->
  exists m1, srun m ops = Ok (m1, zs) /\ R m1 v1 /\ (sclean v ops = true -> NL m -> NL m1).
Proof.
  revert m v v1 zs; induction ops as [|x t IH]; intros m v v1 zs HR HS; cbn [svrun srun sclean] in *.
  - inversion HS; subst. eauto.
  - destruct (svstep v x) as [[v' z]|] eqn:E; [|discriminate].
    destruct (svrun v' t) as [[v2 zs2]|] eqn:E2; [|discriminate]. inversion HS; subst.
    destruct (sstep_ok _ _ _ _ _ HR E) as (m1 & -> & HR1 & C1). cbn [bind].
    destruct (IH _ _ _ _ HR1 E2) as (m2 & -> & HR2 & C2). cbn [bind]. exists m2. split; [reflexivity|]. split; [exact HR2|].
    intros HC HN. apply andb_true_iff in HC as [A B]. auto.
Qed.
End P.
