From Verif Require Import BaseLemmas Storage_Spec Storage_Proofs Alloc_Spec.

Section P.
Context {T : Type}.
Implicit Types (y : sys T) (g : list bool).

Definition resp (o : stor) : bool := st_own o && match st_data o with Some _ => true | None => false end.
Definition HG y g : Prop :=
  length g = length (objs y) /\ forall s o, alive y s o -> nth_error g s = Some (resp o).

Lemma hg_nth y g s o : HG y g -> alive y s o -> nth s g false = resp o.
Proof. intros [_ H] A. apply nth_error_nth. auto. Qed.


Lemma hg_upd y g h s o' b : HG y g -> s < length (objs y) -> (forall o, o' = Some o -> resp o = b) ->
  HG {| blocks := h; objs := upd (objs y) s o' |} (upd g s b).
Proof.
  intros [L H] Hs R. split; [simpl; now rewrite !upd_length|].
  intros s' o A. apply alive_upd_inv in A. destruct A as [[-> E]|[N A]].
  - rewrite (R o E). apply nth_error_upd_eq. lia.
  - rewrite nth_error_upd_ne by congruence. apply H. exact A.
Qed.
Lemma hg_new y g h o b : HG y g -> resp o = b -> HG {| blocks := h; objs := objs y ++ [Some o] |} (g ++ [b]).
Proof.
  intros [L H] R. split; [simpl; rewrite !app_length; simpl; lia|].
  intros s' o' A. apply alive_app_inv in A. destruct A as [[-> ->]|[Q A]].
  - rewrite <- L, nth_error_snoc_last. now rewrite R.
  - rewrite nth_error_app1 by lia. apply H. exact A.
Qed.
Lemma hg_blocks y g h : HG y g -> HG {| blocks := h; objs := objs y |} g.
Proof. intros [L H]. split; [exact L|]. intros s o A. apply H. exact A. Qed.

Lemma vget_alive y s o : alive y s o -> vget (view y) s = Some (vw (blocks y) o).
Proof. intros A. unfold vget, view, alive in *. rewrite nth_error_map_eq, A. reflexivity. Qed.

(** An ordinary call keeps the bookkeeping of who holds memory. *)
Lemma holds_ok y g o v1 x y1 :
  InvV y -> HG y g -> vstep (view y) o = Some (v1, x) -> step y o = Ok (y1, x) -> HG y1 (holds_after (view y) g o).
Proof.
  intros [HI HZ] G V S.
  assert (GO : forall s z, vget (view y) s = Some z -> exists r, alive y s r /\ get_obj y s = Ok r /\ z = vw (blocks y) r).
  { intros s z E. apply vget_view in E. destruct E as (r & A & ->). exists r. split; auto. split; auto. now apply get_obj_alive. }
  destruct o as [|n|vs|s|s|s|vs|blk n|s|s n|d s|d s|a b|s v|s i v|s i|s vs|s]; cbn [step vstep holds_after] in *; try discriminate.
  - injection S as <- <-. now apply hg_new.
  - injection S as <- <-. now apply hg_new.
  - injection S as <- <-. now apply hg_new.
  - destruct (vget (view y) s) as [z|] eqn:Z; [|discriminate]. destruct (GO _ _ Z) as (r & A & E & ->).
    unfold s_copy_ctor in S. rewrite E in S. cbn [bind] in S.
    destruct (h_read _ _ _) as [cells| | | |]; cbn [bind quiet] in S; try discriminate.
    injection S as <- <-. apply hg_new; [exact G|]. unfold resp. cbn [st_own st_data vw v_resizable]. now rewrite andb_true_r.
  - destruct (vget (view y) s) as [z|] eqn:Z; [|discriminate]. destruct (GO _ _ Z) as (r & A & E & ->).
    unfold s_move_ctor in S. rewrite E in S. cbn [bind quiet] in S. injection S as <- <-.
    unfold set_obj, new_obj. cbn [blocks objs].
    pose proof (hg_new y g (blocks y) r _ G eq_refl) as G1.
    apply (hg_upd _ _ (blocks y) s (Some {| st_data := None; st_size := 0; st_own := false |}) false) in G1.
    + cbn [objs] in G1. rewrite (hg_nth y g s r G A). exact G1.
    + cbn [objs]. rewrite app_length. apply alive_lt in A. lia.
    + intros o Q. injection Q as <-. reflexivity.
  - destruct (vget (view y) s) as [z|] eqn:Z; [|discriminate]. destruct (GO _ _ Z) as (r & A & E & ->).
    unfold s_conv_ctor in S. rewrite E in S. cbn [bind] in S.
    destruct (h_read _ _ _) as [cells| | | |]; cbn [bind quiet] in S; try discriminate.
    injection S as <- <-. apply hg_new; [exact G|]. reflexivity.
  - (* resize *)
    destruct (vget (view y) s) as [z|] eqn:Z; [|discriminate]. destruct (GO _ _ Z) as (r & A & E & ->).
    cbn [v_vals v_resizable vw] in *. unfold s_resize in S. rewrite E in S. cbn [bind] in S.
    rewrite seen_length in * by (eapply inv_ok; eauto).
    destruct (st_size r =? n); [injection S as <- <-; exact G|].
    destruct (st_own r) eqn:Ow; cbn [negb] in S; [|injection S as <- <-; exact G].
    destruct (match st_data r with Some _ => _ | None => _ end) as [h1| | | |] eqn:F; cbn [bind] in S; try discriminate.
    injection S as <- <-. apply hg_upd; [exact G|eapply alive_lt; eauto|]. intros o Q. injection Q as <-. reflexivity.
  - (* copy assignment *)
    destruct (vget (view y) d) as [z0|] eqn:Z0; [|discriminate]. destruct (GO _ _ Z0) as (l & A0 & E0 & ->).
    destruct (vget (view y) s) as [z|] eqn:Z; [|discriminate]. destruct (GO _ _ Z) as (r & A & E & ->).
    unfold s_copy_assign in S. rewrite E0, E in S. cbn [bind] in S.
    destruct (d =? s); [injection S as <- <-; exact G|].
    destruct (if st_own l then _ else _) as [h1| | | |]; cbn [bind quiet] in S; try discriminate.
    cbn [vw v_resizable].
    destruct (st_own r) eqn:Ow.
    + destruct (h_read _ _ _) as [cells| | | |]; cbn [bind quiet] in S; try discriminate.
      injection S as <- <-. apply hg_upd; [exact G|eapply alive_lt; eauto|]. intros o Q. injection Q as <-. reflexivity.
    + cbn [bind quiet] in S. injection S as <- <-. apply hg_upd; [exact G|eapply alive_lt; eauto|]. intros o Q. injection Q as <-. reflexivity.
  - (* move assignment *)
    destruct (vget (view y) d) as [z0|] eqn:Z0; [|discriminate]. destruct (GO _ _ Z0) as (l & A0 & E0 & ->).
    destruct (vget (view y) s) as [z|] eqn:Z; [|discriminate]. destruct (GO _ _ Z) as (r & A & E & ->).
    unfold s_move_assign in S. rewrite E0, E in S. cbn [bind] in S.
    destruct (if st_own l then _ else _) as [h1| | | |]; cbn [bind quiet] in S; try discriminate.
    injection S as <- <-. rewrite (hg_nth y g s r G A).
    assert (G1 : HG {| blocks := h1; objs := upd (objs y) d (Some r) |} (upd g d (resp r))).
    { apply hg_upd; [exact G|eapply alive_lt; eauto|]. intros o Q. now injection Q as ->. }
    apply (hg_upd _ _ h1 s (Some {| st_data := None; st_size := 0; st_own := false |}) false) in G1.
    + exact G1.
    + cbn [objs]. rewrite upd_length. eapply alive_lt; eauto.
    + intros o Q. injection Q as <-. reflexivity.
  - (* swap *)
    destruct (vget (view y) a) as [z0|] eqn:Z0; [|discriminate]. destruct (GO _ _ Z0) as (l & A0 & E0 & ->).
    destruct (vget (view y) b) as [z|] eqn:Z; [|discriminate]. destruct (GO _ _ Z) as (r & A & E & ->).
    unfold s_swap in S. rewrite E0, E in S. cbn [bind quiet] in S. injection S as <- <-.
    rewrite (hg_nth y g a l G A0), (hg_nth y g b r G A).
    assert (G1 : HG {| blocks := blocks y; objs := upd (objs y) a (Some r) |} (upd g a (resp r))).
    { apply hg_upd; [exact G|eapply alive_lt; eauto|]. intros o Q. now injection Q as ->. }
    apply (hg_upd _ _ (blocks y) b (Some l) (resp l)) in G1.
    + exact G1.
    + cbn [objs]. rewrite upd_length. eapply alive_lt; eauto.
    + intros o Q. now injection Q as ->.
  - unfold s_fill in S. destruct (get_obj y s); cbn [bind quiet] in S; try discriminate.
    destruct (h_write _ _ _); cbn [bind quiet] in S; try discriminate. injection S as <- <-. now apply hg_blocks.
  - unfold s_write in S. destruct (get_obj y s); cbn [bind quiet] in S; try discriminate.
    destruct (h_cell _ _ _) as [[k b]| | | |]; cbn [bind quiet] in S; try discriminate. injection S as <- <-. now apply hg_blocks.
  - destruct (s_read y s i); cbn [bind] in S; try discriminate. injection S as <- <-. exact G.
  - destruct (vget (view y) s) as [z|] eqn:Z; [|discriminate]. destruct (GO _ _ Z) as (r & A & E & ->).
    unfold s_load in S. rewrite E in S. cbn [bind quiet] in S. injection S as <- <-.
    apply hg_upd; [exact G|eapply alive_lt; eauto|]. intros o Q. injection Q as <-. reflexivity.
  - destruct (vget (view y) s) as [z|] eqn:Z; [|discriminate]. destruct (GO _ _ Z) as (r & A & E & ->).
    unfold s_destroy in S. rewrite E in S. cbn [bind] in S.
    destruct (if st_own r then _ else _) as [h1| | | |]; cbn [bind quiet] in S; try discriminate. injection S as <- <-.
    apply hg_upd; [exact G|eapply alive_lt; eauto|]. discriminate.
Qed.

Lemma sys_eta y : {| blocks := blocks y; objs := objs y |} = y.
Proof. now destruct y. Qed.
Lemma upd_same {A} (l : list A) i x : nth_error l i = Some x -> upd l i x = l.
Proof. revert i; induction l as [|a l IH]; intros [|i] H; simpl in *; try discriminate; [now injection H as ->|now rewrite IH]. Qed.

(** A call that does not fail, or does not allocate, is the ordinary call. *)
Lemma as_usual_ok y g o ok v1 g1 x :
  InvV y -> HG y g -> as_usual (view y) g o = Some (v1, g1, x) ->
  (ok = false -> astep y (o, ok) = do r <- step y o; fine r) ->
  exists z y1, x = AOut z /\ vstep (view y) o = Some (v1, z) /\ step y o = Ok (y1, z) /\
    astep y (o, ok) = Ok (y1, x) /\ InvV y1 /\ view y1 = v1 /\ HG y1 g1.
Proof.
  intros I G A F. unfold as_usual in A. destruct (vstep (view y) o) as [[v2 z]|] eqn:V; [|discriminate]. injection A as <- <- <-.
  destruct (vstep_ok y o v2 z I V) as (y1 & S & I1 & W).
  exists z, y1. split; [reflexivity|]. split; [reflexivity|]. split; [exact S|]. split.
  - destruct ok; [|rewrite F by reflexivity]; unfold astep; rewrite S; reflexivity.
  - split; [exact I1|]. split; [exact W|]. eapply holds_ok; eauto.
Qed.

Lemma wstep_ok y g c v1 g1 x :
  InvV y -> HG y g -> wstep (view y) g c = Some (v1, g1, x) ->
  (x = ABad /\ astep y c = Ok (y, ABad) /\ v1 = view y /\ g1 = g) \/
  exists z y1, x = AOut z /\ vstep (view y) (fst c) = Some (v1, z) /\ step y (fst c) = Ok (y1, z) /\
    astep y c = Ok (y1, x) /\ InvV y1 /\ view y1 = v1 /\ HG y1 g1.
Proof.
  intros I G W. destruct c as [o ok]. unfold wstep in W. destruct ok.
  { right. eapply as_usual_ok; [exact I|exact G|exact W|discriminate]. }
  pose proof I as [HI HZ].
  assert (GO : forall s z, vget (view y) s = Some z -> exists r, alive y s r /\ get_obj y s = Ok r /\ z = vw (blocks y) r).
  { intros s z E. apply vget_view in E. destruct E as (r & A & ->). exists r. split; auto. split; auto. now apply get_obj_alive. }
  destruct o as [|n|vs|s|s|s|vs|blk n|s|s n|d s|d s|a b|s v|s i v|s i|s vs|s]; unfold no_effect in W;
    try (right; eapply as_usual_ok; [exact I|exact G|exact W|reflexivity]).
  - left. now injection W as <- <- <-.
  - left. now injection W as <- <- <-.
  - left. destruct (vget (view y) s) as [z|] eqn:Z; [|discriminate]. destruct (GO _ _ Z) as (r & A & E & ->).
    injection W as <- <- <-. split; [reflexivity|]. split; [|tauto]. unfold astep. rewrite E. reflexivity.
  - left. destruct (vget (view y) s) as [z|] eqn:Z; [|discriminate]. destruct (GO _ _ Z) as (r & A & E & ->).
    injection W as <- <- <-. split; [reflexivity|]. split; [|tauto]. unfold astep. rewrite E. reflexivity.
  - destruct (vget (view y) s) as [z|] eqn:Z; [|discriminate]. destruct (GO _ _ Z) as (r & A & E & ->).
    cbn [v_vals v_resizable vw] in W. rewrite seen_length in W by (eapply inv_ok; eauto).
    destruct (st_size r =? n) eqn:Q.
    + right. eapply as_usual_ok; [exact I|exact G|exact W|]. intros _. unfold astep, step, s_resize. rewrite E. cbn [bind]. now rewrite Q.
    + destruct (st_own r) eqn:Ow; cbn [negb orb] in W.
      * left. rewrite (hg_nth y g s r G A) in W. unfold resp in W. rewrite Ow in W. cbn [andb] in W.
        destruct (st_data r) eqn:D; [discriminate|]. injection W as <- <- <-. split; [reflexivity|]. split; [|tauto].
        unfold astep. rewrite E. cbn [bind]. rewrite Q, Ow, D. cbn [negb bind]. now rewrite sys_eta.
      * right. eapply as_usual_ok; [exact I|exact G|exact W|]. intros _. unfold astep, step, s_resize. rewrite E. cbn [bind].
        now rewrite Q, Ow.
  - destruct (vget (view y) d) as [z0|] eqn:Z0; [|discriminate]. destruct (GO _ _ Z0) as (l & A0 & E0 & ->).
    destruct (vget (view y) s) as [z|] eqn:Z; [|discriminate]. destruct (GO _ _ Z) as (r & A & E & ->).
    cbn [v_resizable vw] in W. destruct (d =? s) eqn:Q.
    + right. eapply as_usual_ok; [exact I|exact G|exact W|]. intros _. unfold astep, step, s_copy_assign. rewrite E0, E. cbn [bind]. now rewrite Q.
    + destruct (st_own r) eqn:Ow; cbn [negb orb] in W.
      * left. rewrite (hg_nth y g d l G A0) in W. unfold resp in W.
        destruct (st_own l && _) eqn:R; [discriminate|]. injection W as <- <- <-. split; [reflexivity|]. split; [|tauto].
        unfold astep. rewrite E0, E. cbn [bind]. rewrite Q.
        assert (F : (if st_own l then h_free (blocks y) (st_data l) else Ok (blocks y)) = Ok (blocks y)).
        { destruct (st_own l); [|reflexivity]. destruct (st_data l); [discriminate R|]. reflexivity. }
        rewrite F. cbn [bind]. rewrite Ow. now rewrite sys_eta.
      * right. eapply as_usual_ok; [exact I|exact G|exact W|]. intros _. unfold astep, step, s_copy_assign. rewrite E0, E. cbn [bind]. rewrite Q.
        destruct (if st_own l then _ else _); cbn [bind quiet]; try reflexivity. rewrite Ow. reflexivity.
  - left. destruct (vget (view y) s) as [z|] eqn:Z; [|discriminate]. destruct (GO _ _ Z) as (r & A & E & ->).
    cbn [v_vals vw] in W. rewrite seen_length in W by (eapply inv_ok; eauto).
    destruct (Nat.eqb_spec (length vs) (st_size r)) as [Q|Q]; [|discriminate]. injection W as <- <- <-.
    split; [reflexivity|]. split; [|tauto]. unfold astep. rewrite E. cbn [bind]. unfold set_obj. rewrite Q.
    rewrite upd_same; [now rewrite sys_eta|]. unfold alive in A. rewrite A. now destruct r.
Qed.

Lemma wrun_ok y g cs v g1 xs :
  InvV y -> HG y g -> wrun (view y) g cs = Some (v, g1, xs) ->
  exists y1, arun y cs = Ok (y1, xs) /\ run y (survivors cs xs) = Ok (y1, reports xs) /\
    vrun (view y) (survivors cs xs) = Some (v, reports xs) /\ view y1 = v /\ InvV y1 /\ HG y1 g1.
Proof.
  revert y g v g1 xs; induction cs as [|c t IH]; intros y g v g1 xs I G W; cbn [wrun] in W.
  - injection W as <- <- <-. exists y. repeat (split; [reflexivity|]). tauto.
  - destruct (wstep (view y) g c) as [[[v2 g2] x]|] eqn:S; [|discriminate].
    destruct (wrun v2 g2 t) as [[[v3 g3] ys]|] eqn:R; [|discriminate]. injection W as <- <- <-.
    destruct (wstep_ok y g c v2 g2 x I G S) as [(-> & A & -> & ->)|(z & y1 & -> & V & St & A & I1 & <- & G1)].
    + destruct (IH y g v3 g3 ys I G R) as (y2 & E1 & E2 & E3 & rest). exists y2.
      cbn [arun survivors reports]. rewrite A. cbn [bind]. rewrite E1. cbn [bind]. tauto.
    + destruct (IH y1 g2 v3 g3 ys I1 G1 R) as (y2 & E1 & E2 & E3 & rest). exists y2.
      cbn [arun survivors reports run vrun]. rewrite A. cbn [bind]. rewrite E1. cbn [bind].
      rewrite St. cbn [bind]. rewrite E2. cbn [bind]. rewrite V, E3. tauto.
Qed.

Lemma HG0 : HG sys0 [].
Proof. split; [reflexivity|]. intros [|s] o A; discriminate. Qed.

Lemma arun_app y cs cs2 : arun y (cs ++ cs2) =
  do r <- arun y cs; let '(y1, xs) := r in do r2 <- arun y1 cs2; let '(y2, xs2) := r2 in Ok (y2, xs ++ xs2).
Proof.
  revert y; induction cs as [|c t IH]; intros y; simpl.
  - destruct (arun y cs2) as [[y1 xs]| | | |]; reflexivity.
  - destruct (astep y c) as [[y1 x]| | | |]; simpl; auto. rewrite IH.
    destruct (arun y1 t) as [[y2 xs]| | | |]; simpl; auto. destruct (arun y2 cs2) as [[y3 xs3]| | | |]; reflexivity.
Qed.

(** After an allocation failure in the middle of a resize or an assignment: the
    block is gone, the object still owns it. *)
Definition dangling (y : sys T) (s : nat) : Prop :=
  exists o p k, alive y s o /\ st_own o = true /\ st_data o = Some p /\ nth_error (blocks y) p = Some k /\
    b_live k = false /\ b_ext k = false.

Lemma freed_dangling y s o p :
  InvV y -> alive y s o -> st_own o = true -> st_data o = Some p ->
  exists h1, h_free (blocks y) (Some p) = Ok h1 /\ dangling {| blocks := h1; objs := objs y |} s /\ length h1 = length (blocks y).
Proof.
  intros [HI HZ] A Ow D. pose proof (inv_ok _ HI _ _ A) as K. unfold obj_ok in K. rewrite D, Ow in K.
  destruct K as (k & Hk & L & E & _). simpl. rewrite Hk, E, L. eexists. split; [reflexivity|]. split.
  - exists o, p. eexists. split; [exact A|]. split; [exact Ow|]. split; [exact D|]. split.
    + simpl. apply nth_error_upd_eq. apply nth_error_Some. congruence.
    + split; reflexivity.
  - apply upd_length.
Qed.

Lemma failed_resize y g s x n :
  InvV y -> HG y g -> vget (view y) s = Some x -> nth s g false = true -> length (v_vals x) <> n ->
  exists y1, astep y (OResize s n, false) = Ok (y1, ABad) /\ dangling y1 s.
Proof.
  intros I G V H N. apply vget_view in V. destruct V as (r & A & ->). rewrite (hg_nth _ _ _ _ G A) in H.
  unfold resp in H. apply andb_true_iff in H. destruct H as [Ow D]. destruct (st_data r) as [p|] eqn:P; [|discriminate].
  cbn [v_vals] in N. rewrite seen_length in N by (eapply inv_ok; [exact (proj1 I)|exact A]).
  destruct (freed_dangling y s r p I A Ow P) as (h1 & F & Dg & _).
  unfold astep. rewrite (proj2 (get_obj_alive _ _ _) A). cbn [bind].
  destruct (Nat.eqb_spec (st_size r) n); [contradiction|]. rewrite Ow, P, F. cbn [negb bind]. eauto.
Qed.
Lemma failed_copy y g d s x z :
  InvV y -> HG y g -> vget (view y) d = Some x -> vget (view y) s = Some z -> nth d g false = true ->
  v_resizable z = true -> d <> s ->
  exists y1, astep y (OCopyAssign d s, false) = Ok (y1, ABad) /\ dangling y1 d.
Proof.
  intros I G V V2 H Z N. apply vget_view in V. destruct V as (r & A & ->). rewrite (hg_nth _ _ _ _ G A) in H.
  apply vget_view in V2. destruct V2 as (q & A2 & ->). cbn [v_resizable] in Z.
  unfold resp in H. apply andb_true_iff in H. destruct H as [Ow D]. destruct (st_data r) as [p|] eqn:P; [|discriminate].
  destruct (freed_dangling y d r p I A Ow P) as (h1 & F & Dg & _).
  unfold astep. rewrite (proj2 (get_obj_alive _ _ _) A), (proj2 (get_obj_alive _ _ _) A2). cbn [bind].
  destruct (Nat.eqb_spec d s); [contradiction|]. rewrite Ow, P, F. cbn [bind]. rewrite Z. eauto.
Qed.

Lemma dangling_free y s : dangling y s -> exists o, alive y s o /\ st_own o = true /\
  h_free (blocks y) (st_data o) = UB DoubleFree /\ st_data o <> None.
Proof.
  intros (o & p & k & A & Ow & D & K & L & E). exists o. split; [exact A|]. split; [exact Ow|]. split; [|congruence].
  rewrite D. simpl. now rewrite K, E, L.
Qed.
Lemma dangling_destroy y s : dangling y s -> step y (ODestroy s) = UB DoubleFree.
Proof.
  intros H. destruct (dangling_free y s H) as (o & A & Ow & F & N). simpl. unfold s_destroy.
  rewrite (proj2 (get_obj_alive _ _ _) A). cbn [bind]. rewrite Ow.
  destruct (st_data o); [|congruence]. rewrite F. reflexivity.
Qed.
Lemma dangling_move_into y d s r : dangling y d -> alive y s r -> step y (OMoveAssign d s) = UB DoubleFree.
Proof.
  intros H B. destruct (dangling_free y d H) as (o & A & Ow & F & N). simpl. unfold s_move_assign.
  rewrite (proj2 (get_obj_alive _ _ _) A), (proj2 (get_obj_alive _ _ _) B). cbn [bind]. rewrite Ow, F. reflexivity.
Qed.
Lemma dangling_copy_into y d s r : dangling y d -> alive y s r -> d <> s -> step y (OCopyAssign d s) = UB DoubleFree.
Proof.
  intros H B Q. destruct (dangling_free y d H) as (o & A & Ow & F & N). simpl. unfold s_copy_assign.
  rewrite (proj2 (get_obj_alive _ _ _) A), (proj2 (get_obj_alive _ _ _) B). cbn [bind].
  destruct (Nat.eqb_spec d s); [contradiction|]. rewrite Ow, F. reflexivity.
Qed.
Lemma dangling_read y s i : dangling y s -> step y (ORead s i) = UB UseAfterFree.
Proof.
  intros (o & p & k & A & Ow & D & K & L & E). simpl. unfold s_read. rewrite (proj2 (get_obj_alive _ _ _) A). cbn [bind].
  unfold h_cell. rewrite D, K, L. reflexivity.
Qed.
End P.
