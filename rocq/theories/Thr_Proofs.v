From Verif Require Import BaseLemmas Storage_Spec Storage_Proofs Thr_Model.

Section P.
Context {T : Type}.
Implicit Types (y : sys T) (b : nat).

Definition points y b : Prop := exists s o, alive y s o /\ st_data o = Some b.
Definition owner y b : Prop := exists s o, alive y s o /\ st_own o = true /\ st_data o = Some b.
Lemma owner_points y b : owner y b -> points y b.
Proof. intros (s & o & A & _ & D). exists s, o. auto. Qed.

(** What a call leaves alone. *)
Record frame y y1 (lost : Prop) : Prop := {
  fr_len : length (blocks y) <= length (blocks y1);
  fr_keep : forall b, b < length (blocks y) -> ~ points y b -> nth_error (blocks y1) b = nth_error (blocks y) b;
  fr_pts : forall b, points y1 b -> points y b \/ length (blocks y) <= b;
  fr_live : forall b k, nth_error (blocks y1) b = Some k -> b < length (blocks y) -> b_live k = true ->
      exists k0, nth_error (blocks y) b = Some k0 /\ b_live k0 = true /\ b_ext k0 = b_ext k;
  fr_own : ~ lost -> forall b k, nth_error (blocks y1) b = Some k -> b_live k = true -> b_ext k = false -> owner y b -> owner y1 b;
  fr_new : ~ lost -> forall b k, nth_error (blocks y1) b = Some k -> b_live k = true -> b_ext k = false -> length (blocks y) <= b -> owner y1 b
}.

Lemma frame_same_blocks y y1 lost :
  blocks y1 = blocks y -> (forall b, points y1 b -> points y b) -> (~ lost -> forall b, owner y b -> owner y1 b) -> frame y y1 lost.
Proof.
  intros E P O. split; rewrite ?E; auto.
  - intros b k H _ L. exists k. auto.
  - intros NL b k H L X Hb. exfalso. apply nth_error_None in Hb. congruence.
Qed.

(** Only cells change. *)
Lemma frame_cells y y1 lost p k cs :
  objs y1 = objs y -> points y p -> nth_error (blocks y) p = Some k -> b_live k = true ->
  blocks y1 = upd (blocks y) p {| b_live := true; b_ext := b_ext k; b_cells := cs |} -> frame y y1 lost.
Proof.
  intros O Pp K L E.
  assert (PT : forall b, points y1 b <-> points y b) by (intros b; unfold points, alive; now rewrite O).
  assert (OW : forall b, owner y1 b <-> owner y b) by (intros b; unfold owner, alive; now rewrite O).
  split; rewrite ?E, ?upd_length; auto.
  - intros b Hb NP. rewrite nth_error_upd_ne; [reflexivity|]. intros ->. contradiction.
  - intros b Hb. left. now apply PT.
  - intros b k1 H _ L1. rewrite nth_error_upd in H. destruct ((p =? b) && _) eqn:Q.
    + injection H as <-. apply andb_true_iff in Q. destruct Q as [Q _]. apply Nat.eqb_eq in Q. subst b. exists k. auto.
    + exists k1. auto.
  - intros _ b k1 _ _ _ H. now apply OW.
  - intros _ b k1 H _ _ Hb. exfalso. assert (b < length (upd (blocks y) p {| b_live := true; b_ext := b_ext k; b_cells := cs |})) by (apply nth_error_Some; congruence).
    rewrite upd_length in *. lia.
Qed.

Lemma alive_snoc h l x s (o : stor) : alive (T:=T) {| blocks := h; objs := l ++ [Some x] |} s o <->
  (s < length l /\ nth_error l s = Some (Some o)) \/ (s = length l /\ o = x).
Proof.
  split.
  - intros A. apply alive_app_inv in A. tauto.
  - intros [[L A]|[-> ->]]; unfold alive; cbn [objs]; [rewrite nth_error_app1 by lia; exact A|apply nth_error_snoc_last].
Qed.
Lemma alive_upd h l s x s' (o : stor) : s < length l ->
  (alive (T:=T) {| blocks := h; objs := upd l s x |} s' o <->
   (s' = s /\ x = Some o) \/ (s' <> s /\ nth_error l s' = Some (Some o))).
Proof.
  intros L. split; [intros A; now apply alive_upd_inv in A|]. unfold alive. cbn [objs].
  intros [[-> ->]|[N A]]; [now apply nth_error_upd_eq|]. now rewrite nth_error_upd_ne by auto.
Qed.

(** A new object, over a block that is new or over none. *)
Lemma frame_new y cells n own (lost : Prop) : (own = false -> lost) ->
  frame y {| blocks := blocks y ++ [{| b_live := true; b_ext := false; b_cells := cells |}];
             objs := objs y ++ [Some {| st_data := Some (length (blocks y)); st_size := n; st_own := own |}] |} lost.
Proof.
  intros Hl. split; cbn [blocks objs].
  - rewrite app_length. lia.
  - intros b Hb _. now rewrite nth_error_app1.
  - intros b (s & o & A & D). apply alive_snoc in A. destruct A as [[_ A]|[_ ->]]; [left; exists s, o; auto|]. cbn in D. injection D as <-. right. lia.
  - intros b k H Hb L. rewrite nth_error_app1 in H by exact Hb. exists k. auto.
  - intros _ b k _ _ _ (s & o & A & O & D). exists s, o. split; [|auto]. apply alive_snoc. left. split; [eapply alive_lt; exact A|exact A].
  - intros NL b k H L X Hb. assert (b < length (blocks y ++ [{| b_live := true; b_ext := false; b_cells := cells |}])) by (apply nth_error_Some; congruence).
    rewrite app_length in *. cbn [length] in *. assert (b = length (blocks y)) by lia. subst b.
    exists (length (objs y)). eexists. split; [apply alive_snoc; right; split; reflexivity|]. cbn [st_own st_data]. split; [|reflexivity].
    destruct own; [reflexivity|]. exfalso. auto.
Qed.

(** Releasing a block, as far as other blocks are concerned. *)
Lemma free_spec h p h1 : h_free (T:=T) h p = Ok h1 ->
  length h1 = length h /\ (forall b, p <> Some b -> nth_error h1 b = nth_error h b) /\
  (forall b k, p = Some b -> nth_error h1 b = Some k -> b_live k = false).
Proof.
  unfold h_free. destruct p as [i|].
  - destruct (nth_error h i) as [k|] eqn:K; [|discriminate]. destruct (b_ext k); [discriminate|]. destruct (b_live k); [|discriminate].
    intros E. injection E as <-. split; [apply upd_length|]. split.
    + intros b N. apply nth_error_upd_ne. congruence.
    + intros b k1 E H. injection E as <-. rewrite nth_error_upd_eq in H by (apply nth_error_Some; congruence). now injection H as <-.
  - intros E. injection E as <-. split; [reflexivity|]. split; [auto|discriminate].
Qed.

(** Object [d] gives up its memory (released if it owns it) and takes [o1]; then
    blocks may be appended. *)
Lemma frame_replace y d l h1 o1 extra (lost : Prop) :
  Inv y -> alive y d l ->
  (if st_own l then h_free (blocks y) (st_data l) else Ok (blocks y)) = Ok h1 ->
  (extra = [] \/ exists c, extra = [{| b_live := true; b_ext := false; b_cells := c |}]) ->
  (forall b, (exists x, o1 = Some x /\ st_data x = Some b) -> points y b \/ (b = length (blocks y))) ->
  (extra <> [] -> exists x, o1 = Some x /\ st_data x = Some (length (blocks y)) /\ (st_own x = true \/ lost)) ->
  frame y {| blocks := h1 ++ extra; objs := upd (objs y) d o1 |} lost.
Proof.
  intros HI A F EX P N. pose proof (alive_lt _ _ _ A) as Ld.
  assert (FS : length h1 = length (blocks y) /\
     (forall b, (st_own l = true /\ st_data l = Some b) \/ nth_error h1 b = nth_error (blocks y) b) /\
     (forall b k, st_own l = true -> st_data l = Some b -> nth_error h1 b = Some k -> b_live k = false)).
  { destruct (st_own l) eqn:O.
    - destruct (free_spec _ _ _ F) as (L & K & D). split; [exact L|]. split; [|intros b k _; exact (D b k)].
      intros b. destruct (st_data l) as [q|]; [|right; apply K; discriminate]. destruct (Nat.eq_dec q b) as [->|Q]; [left; auto|].
      right. apply K. congruence.
    - injection F as <-. split; [reflexivity|]. split; [auto|discriminate]. }
  clear F. destruct FS as (FL & FK & FD).
  assert (NX : forall b k, nth_error (h1 ++ extra) b = Some k -> length (blocks y) <= b -> b = length (blocks y) /\ extra <> []).
  { intros b k H Hb. rewrite nth_error_app2 in H by lia. destruct EX as [->|(c & ->)]; [destruct (b - length h1); discriminate|].
    split; [|discriminate]. assert (Z0 : b - length h1 < length [{| b_live := true; b_ext := false; b_cells := c |}]) by (apply nth_error_Some; congruence). cbn [length] in Z0. lia. }
  assert (OLD : forall b, b < length (blocks y) -> nth_error (h1 ++ extra) b = nth_error h1 b) by (intros; apply nth_error_app1; lia).
  split; cbn [blocks objs].
  - rewrite app_length. lia.
  - intros b Hb NP. rewrite OLD by exact Hb. destruct (FK b) as [[O D]|E]; [|exact E]. exfalso. apply NP. exists d, l. auto.
  - intros b (s & o & B & D). apply alive_upd in B; [|exact Ld]. destruct B as [[-> E]|[_ B]].
    + subst o1. destruct (P b (ex_intro _ o (conj eq_refl D))) as [Q | ->]; [left; exact Q|right; lia].
    + left. exists s, o. auto.
  - intros b k H Hb L. rewrite OLD in H by exact Hb. destruct (FK b) as [[O D]|E].
    + exfalso. rewrite (FD b k O D H) in L. discriminate.
    + rewrite E in H. exists k. auto.
  - intros NL b k H L X (s & o & B & O & D). destruct (Nat.eq_dec s d) as [->|Q].
    + exfalso. pose proof (alive_det _ _ _ _ A B) as ->. 
      assert (Hb : b < length (blocks y)).
      { pose proof (inv_ok _ HI _ _ B) as K. unfold obj_ok in K. rewrite D in K. destruct K as (k0 & K & _). apply nth_error_Some. congruence. }
      rewrite OLD in H by exact Hb. rewrite (FD b k O D H) in L. discriminate.
    + exists s, o. split; [|auto]. apply alive_upd; [exact Ld|]. right. auto.
  - intros NL b k H L X Hb. destruct (NX b k H Hb) as [-> NE]. destruct (N NE) as (x & -> & D & O).
    exists d, x. split; [apply alive_upd; auto|]. split; [|exact D]. tauto.
Qed.

Lemma step_frame y o y1 x : InvV y -> legal y o -> (match o with OProxy _ _ => False | _ => True end) ->
  step y o = Ok (y1, x) -> frame y y1 (loses y o).
Proof.
  intros [HI HZ] LG NP S.
  destruct o as [|n|vs|s|s|s|vs|blk n|s|s n|d s|d s|a b|s v|s i v|s i|s vs|s]; cbn [step legal loses] in *; try contradiction.
  - injection S as <- _. unfold s_default, new_obj. apply frame_same_blocks; [reflexivity| |].
    + intros b (s & o & A & D). apply alive_snoc in A. destruct A as [[_ A]|[_ ->]]; [exists s, o; auto|discriminate].
    + intros _ b (s & o & A & O & D). exists s, o. split; [|auto]. apply alive_snoc. left. split; [eapply alive_lt; exact A|exact A].
  - injection S as <- _. apply frame_new. discriminate.
  - injection S as <- _. apply frame_new. discriminate.
  - destruct LG as (r & A). unfold s_copy_ctor in S. rewrite (proj2 (get_obj_alive _ _ _) A) in S. cbn [bind] in S.
    destruct (h_read _ _ _) as [cells| | | |]; cbn [bind quiet] in S; try discriminate. injection S as <- _.
    apply frame_new. intros O. exists r. auto.
  - destruct LG as (r & A). unfold s_move_ctor in S. rewrite (proj2 (get_obj_alive _ _ _) A) in S. cbn [bind quiet] in S. injection S as <- _.
    pose proof (alive_lt _ _ _ A) as L0. assert (L1 : s < length (objs y ++ [Some r])) by (rewrite app_length; lia).
    unfold set_obj, new_obj. cbn [blocks objs]. apply frame_same_blocks; [reflexivity| |].
    + intros b (s' & o & B & D). apply alive_upd in B; [|exact L1]. destruct B as [[_ E]|[Q B]]; [injection E as <-; discriminate|].
      assert (B1 : alive {| blocks := blocks y; objs := objs y ++ [Some r] |} s' o) by exact B.
      apply alive_snoc in B1. destruct B1 as [[_ B1]|[_ ->]]; [exists s', o; auto|exists s, r; auto].
    + intros _ b (s' & o & B & O & D). destruct (Nat.eq_dec s' s) as [->|Q].
      * pose proof (alive_det _ _ _ _ A B) as ->. exists (length (objs y)), o. split; [|auto]. apply alive_upd; [exact L1|]. right.
        split; [lia|]. apply nth_error_snoc_last.
      * exists s', o. split; [|auto]. apply alive_upd; [exact L1|]. right. split; [exact Q|]. rewrite nth_error_app1; [exact B|]. eapply alive_lt; exact B.
  - destruct LG as (r & A). unfold s_conv_ctor in S. rewrite (proj2 (get_obj_alive _ _ _) A) in S. cbn [bind] in S.
    destruct (h_read _ _ _) as [cells| | | |]; cbn [bind quiet] in S; try discriminate. injection S as <- _.
    apply frame_new. discriminate.
  - injection S as <- _. split; cbn [blocks objs].
    + rewrite app_length. lia.
    + intros b Hb _. now rewrite nth_error_app1.
    + intros b (s & o & A & D). left. exists s, o. auto.
    + intros b k H Hb L. rewrite nth_error_app1 in H by exact Hb. exists k. auto.
    + intros _ b k _ _ _ H. exact H.
    + intros _ b k H L X Hb. rewrite nth_error_app2 in H by exact Hb. destruct (b - length (blocks y)) as [|q]; cbn in H; [injection H as <-; discriminate|]. destruct q; discriminate.
  - (* resize *)
    destruct LG as (r & A). unfold s_resize in S. rewrite (proj2 (get_obj_alive _ _ _) A) in S. cbn [bind] in S.
    destruct (st_size r =? n); [injection S as <- _; apply frame_same_blocks; auto|].
    destruct (st_own r) eqn:Ow; cbn [negb] in S; [|injection S as <- _; apply frame_same_blocks; auto].
    destruct (match st_data r with Some _ => _ | None => _ end) as [h1| | | |] eqn:F; cbn [bind] in S; try discriminate.
    injection S as <- _.
    assert (F1 : (if st_own r then h_free (blocks y) (st_data r) else Ok (blocks y)) = Ok h1).
    { rewrite Ow. destruct (st_data r); exact F. }
    assert (L1 : length h1 = length (blocks y)). { rewrite Ow in F1. apply (free_spec _ _ _ F1). }
    unfold h_alloc. apply (frame_replace y s r h1 _ _ _ HI A F1).
    + right. eauto.
    + intros b (x0 & E & D). injection E as <-. cbn in D. injection D as <-. right. exact L1.
    + intros _. eexists. split; [reflexivity|]. cbn. rewrite L1. auto.
  - (* copy assignment *)
    destruct LG as [(l & A) (r & B)]. unfold s_copy_assign in S.
    rewrite (proj2 (get_obj_alive _ _ _) A), (proj2 (get_obj_alive _ _ _) B) in S. cbn [bind] in S.
    destruct (Nat.eqb_spec d s); [injection S as <- _; apply frame_same_blocks; auto|].
    destruct (if st_own l then _ else _) as [h1| | | |] eqn:F; cbn [bind quiet] in S; try discriminate.
    assert (L1 : length h1 = length (blocks y)). { destruct (st_own l); [apply (free_spec _ _ _ F)|now injection F as <-]. }
    destruct (st_own r) eqn:Ow.
    + destruct (h_read _ _ _) as [cells| | | |]; cbn [bind quiet] in S; try discriminate. injection S as <- _.
      apply (frame_replace y d l h1 _ _ _ HI A F).
      * right. eauto.
      * intros b (x0 & E & D). injection E as <-. cbn in D. injection D as <-. right. exact L1.
      * intros _. eexists. split; [reflexivity|]. cbn. rewrite L1. auto.
    + cbn [bind quiet] in S. injection S as <- _. rewrite <- (app_nil_r h1). apply (frame_replace y d l h1 _ _ _ HI A F).
      * auto.
      * intros b (x0 & E & D). injection E as <-. cbn in D. left. exists s, r. auto.
      * intros Q. congruence.
  - (* move assignment *)
    destruct LG as [(l & A) (r & B)]. unfold s_move_assign in S.
    rewrite (proj2 (get_obj_alive _ _ _) A), (proj2 (get_obj_alive _ _ _) B) in S. cbn [bind] in S.
    destruct (if st_own l then _ else _) as [h1| | | |] eqn:F; cbn [bind quiet] in S; try discriminate.
    injection S as <- _. pose proof (alive_lt _ _ _ A) as La. pose proof (alive_lt _ _ _ B) as Lb.
    assert (G : frame y {| blocks := h1 ++ []; objs := upd (objs y) d (Some r) |} True).
    { apply (frame_replace y d l h1 _ _ _ HI A F); auto.
      - intros b (x0 & E & D). injection E as <-. left. exists s, r. auto.
      - intros Q. congruence. }
    rewrite app_nil_r in G. destruct G as [G1 G2 G3 G4 _ _]. cbn [blocks objs] in *.
    assert (L2 : s < length (upd (objs y) d (Some r))) by (rewrite upd_length; exact Lb).
    assert (FL : length h1 = length (blocks y)). { destruct (st_own l); [apply (free_spec _ _ _ F)|now injection F as <-]. }
    unfold set_obj. cbn [blocks objs]. split; cbn [blocks objs]; auto.
    + intros b (s' & o & C & D). apply alive_upd in C; [|exact L2]. destruct C as [[_ E]|[_ C]]; [injection E as <-; discriminate|].
      apply G3. exists s', o. auto.
    + intros _ b k H L X (s' & o & C & O & D). destruct (Nat.eq_dec s' s) as [->|Q].
      * (* the source's block is now the target's, unless they are the same object *)
        pose proof (alive_det _ _ _ _ B C) as ->. destruct (Nat.eq_dec d s) as [->|Q2].
        -- exfalso. pose proof (alive_det _ _ _ _ A B) as ->. rewrite O in F. destruct (free_spec _ _ _ F) as (_ & _ & Z).
           rewrite (Z b k D H) in L. discriminate.
        -- exists d, o. split; [|auto]. apply alive_upd; [exact L2|]. right. split; [auto|]. now apply nth_error_upd_eq.
      * destruct (Nat.eq_dec s' d) as [->|Q2].
        -- exfalso. pose proof (alive_det _ _ _ _ A C) as ->. rewrite O in F. destruct (free_spec _ _ _ F) as (_ & _ & Z).
           rewrite (Z b k D H) in L. discriminate.
        -- exists s', o. split; [|auto]. apply alive_upd; [exact L2|]. right. split; [auto|]. now rewrite nth_error_upd_ne by auto.
    + intros _ b k H L X Hb. exfalso. assert (b < length h1) by (apply nth_error_Some; congruence). lia.
  - (* swap *)
    destruct LG as [(l & A) (r & B)]. unfold s_swap in S.
    rewrite (proj2 (get_obj_alive _ _ _) A), (proj2 (get_obj_alive _ _ _) B) in S. cbn [bind quiet] in S. injection S as <- _.
    pose proof (alive_lt _ _ _ A) as La. pose proof (alive_lt _ _ _ B) as Lb.
    assert (L2 : b < length (upd (objs y) a (Some r))) by (rewrite upd_length; exact Lb).
    unfold set_obj. cbn [blocks objs]. apply frame_same_blocks; [reflexivity| |].
    + intros p (s' & o & C & D). apply alive_upd in C; [|exact L2]. destruct C as [[_ E]|[_ C]]; [injection E as <-; exists a, l; auto|].
      assert (C1 : alive {| blocks := blocks y; objs := upd (objs y) a (Some r) |} s' o) by exact C.
      apply alive_upd in C1; [|exact La]. destruct C1 as [[_ E]|[_ C1]]; [injection E as <-; exists b, r; auto|exists s', o; auto].
    + intros _ p (s' & o & C & O & D). destruct (Nat.eq_dec s' a) as [->|Q].
      * pose proof (alive_det _ _ _ _ A C) as ->. exists b, o. split; [|auto]. apply alive_upd; [exact L2|]. auto.
      * destruct (Nat.eq_dec s' b) as [->|Q2].
        -- pose proof (alive_det _ _ _ _ B C) as ->. exists a, o. split; [|auto]. apply alive_upd; [exact L2|]. right. split; [auto|]. now apply nth_error_upd_eq.
        -- exists s', o. split; [|auto]. apply alive_upd; [exact L2|]. right. split; [auto|]. now rewrite nth_error_upd_ne by auto.
  - (* fill *)
    destruct LG as (r & A). unfold s_fill in S. rewrite (proj2 (get_obj_alive _ _ _) A) in S. cbn [bind] in S.
    unfold h_write in S. destruct (repeat _ _) as [|c cs]; cbn [bind quiet] in S.
    + injection S as <- _. apply frame_same_blocks; auto.
    + destruct (st_data r) as [p|] eqn:P; [|discriminate]. destruct (nth_error (blocks y) p) as [k|] eqn:K; [|discriminate].
      destruct (b_live k) eqn:L; cbn [negb] in S; [|discriminate]. destruct (length _ <=? _); [|discriminate]. cbn [bind] in S. injection S as <- _.
      eapply (frame_cells y _ _ p k); [reflexivity|exists s, r; auto|exact K|exact L|cbn [blocks]; reflexivity].
  - destruct LG as (r & A & _). unfold s_write in S. rewrite (proj2 (get_obj_alive _ _ _) A) in S. cbn [bind] in S.
    unfold h_cell in S. destruct (st_data r) as [p|] eqn:P; [|discriminate]. destruct (nth_error (blocks y) p) as [k|] eqn:K; [|discriminate].
    destruct (b_live k) eqn:L; cbn [negb] in S; [|discriminate]. destruct (i <? _); [|discriminate]. cbn [bind quiet] in S. injection S as <- _.
    eapply (frame_cells y _ _ p k); [reflexivity|exists s, r; auto|exact K|exact L|cbn [blocks]; reflexivity].
  - destruct (s_read y s i); cbn [bind] in S; try discriminate. injection S as <- _. apply frame_same_blocks; auto.
  - (* load *)
    destruct LG as (r & A). unfold s_load in S. rewrite (proj2 (get_obj_alive _ _ _) A) in S. cbn [bind] in S.
    unfold h_alloc in S. cbn [bind quiet] in S. injection S as <- _. pose proof (alive_lt _ _ _ A) as La. split; cbn [blocks objs].
    + rewrite app_length. lia.
    + intros b Hb _. now rewrite nth_error_app1.
    + intros b (s' & o & C & D). apply alive_upd in C; [|exact La]. destruct C as [[_ E]|[_ C]]; [|left; exists s', o; auto].
      injection E as <-. cbn in D. injection D as <-. right. lia.
    + intros b k H Hb L. rewrite nth_error_app1 in H by exact Hb. exists k. auto.
    + intros NL b k _ _ _ (s' & o & C & O & D). destruct (Nat.eq_dec s' s) as [->|Q].
      * exfalso. pose proof (alive_det _ _ _ _ A C) as ->. apply NL. exists o. split; [exact A|]. split; [exact O|congruence].
      * exists s', o. split; [|auto]. apply alive_upd; auto.
    + intros _ b k H L X Hb. exists s. eexists. split; [apply alive_upd; [exact La|]; left; split; reflexivity|]. cbn [st_own st_data]. split; [reflexivity|].
      f_equal. assert (b < length (blocks y ++ [{| b_live := true; b_ext := false; b_cells := map Some vs |}])) by (apply nth_error_Some; congruence).
      rewrite app_length in *. cbn [length] in *. lia.
  - (* destroy *)
    destruct LG as (r & A). unfold s_destroy in S. rewrite (proj2 (get_obj_alive _ _ _) A) in S. cbn [bind] in S.
    destruct (if st_own r then _ else _) as [h1| | | |] eqn:F; cbn [bind quiet] in S; try discriminate. injection S as <- _.
    rewrite <- (app_nil_r h1). apply (frame_replace y s r h1 None [] _ HI A).
    + destruct (st_own r); [|exact F]. destruct (st_data r); exact F.
    + auto.
    + intros b (x0 & E & _). discriminate.
    + intros Q. congruence.
Qed.

(** ** Threads *)
Record Sep (z : tsys T) (v : nat -> vsys T) : Prop := {
  sp_inv : forall t, InvV (of_thread z t);
  sp_view : forall t, view (of_thread z t) = v t;
  sp_sep : forall t u b, t <> u -> points (of_thread z t) b -> points (of_thread z u) b -> False
}.
Definition TNoLeak (z : tsys T) : Prop :=
  forall b k, nth_error (t_heap z) b = Some k -> b_live k = true -> b_ext k = false -> exists t, owner (of_thread z t) b.

Lemma points_lt y b : Inv y -> points y b -> b < length (blocks y).
Proof.
  intros I (s & o & A & D). pose proof (inv_ok _ I _ _ A) as K. unfold obj_ok in K. rewrite D in K. destruct K as (k & K & _).
  apply nth_error_Some. congruence.
Qed.

Lemma vstep_no_proxy v (o : op T) r : vstep v o = Some r -> match o with OProxy _ _ => False | _ => True end.
Proof. destruct o; auto; discriminate. Qed.

Lemma tstep_ok z v t o v1 x :
  Sep z v -> vstep (v t) o = Some (v1, x) ->
  exists z1, tstep z t o = Ok (z1, x) /\ Sep z1 (fun u => if u =? t then v1 else v u) /\
    (TNoLeak z -> clean_op (v t) o = true -> TNoLeak z1).
Proof.
  intros [I V SP] E. pose proof (I t) as It. rewrite <- (V t) in E.
  destruct (vstep_ok _ o v1 x It E) as (y1 & S & I1 & V1).
  pose proof (vstep_legal _ o _ _ E It) as LG.
  pose proof (step_frame _ o y1 x It LG (vstep_no_proxy _ _ _ E) S) as FR. destruct FR as [F1 F2 F3 F4 F5 F6].
  set (z1 := mkTsys (blocks y1) (fun u => if u =? t then objs y1 else t_objs z u)).
  exists z1. split; [unfold tstep; rewrite S; reflexivity|].
  assert (ME : of_thread z1 t = y1) by (unfold of_thread, z1; cbn; rewrite Nat.eqb_refl; now destruct y1).
  assert (OT : forall u, u <> t -> of_thread z1 u = {| blocks := blocks y1; objs := t_objs z u |}).
  { intros u N. unfold of_thread, z1. cbn. apply Nat.eqb_neq in N. now rewrite N. }
  assert (PO : forall u, u <> t -> forall b, points (of_thread z1 u) b <-> points (of_thread z u) b).
  { intros u N b. rewrite OT by exact N. reflexivity. }
  assert (KP : forall u b, u <> t -> points (of_thread z u) b -> nth_error (blocks y1) b = nth_error (t_heap z) b).
  { intros u b N P. apply (F2 b); [exact (points_lt _ _ (proj1 (I u)) P)|]. intros P2. eapply (SP t u b); auto. }
  split; [split|].
  - intros u. destruct (Nat.eq_dec u t) as [->|N]; [rewrite ME; exact I1|].
    destruct (I u) as [[K1 K2 K3] KZ]. rewrite OT by exact N. split; [split|].
    + intros s o1 A. pose proof (K1 s o1 A) as OK. unfold obj_ok in *. destruct (st_data o1) as [b|] eqn:D; [|exact OK].
      cbn [blocks]. rewrite (KP u b N); [exact OK|]. exists s, o1. auto.
    + exact K2.
    + exact (inv_ext _ (proj1 I1)).
    + exact KZ.
  - intros u. destruct (Nat.eqb_spec u t) as [->|N]; [now rewrite ME|]. rewrite <- (V u), (OT u N).
    change (of_thread z u) with {| blocks := t_heap z; objs := t_objs z u |}. rewrite !view_as. apply map_vw_ext.
    intros s o1 A. unfold seen. destruct (st_data o1) as [b|] eqn:D; [|reflexivity]. cbn [blocks]. rewrite (KP u b N); [reflexivity|].
    exists s, o1. auto.
  - intros a c b N P Q. destruct (Nat.eq_dec a t) as [->|Na].
    + apply PO in Q; [|auto]. rewrite ME in P. destruct (F3 b P) as [P0|L]; [exact (SP t c b N P0 Q)|].
      pose proof (points_lt _ _ (proj1 (I c)) Q). cbn in *. lia.
    + apply PO in P; [|exact Na]. destruct (Nat.eq_dec c t) as [->|Nc].
      * rewrite ME in Q. destruct (F3 b Q) as [P0|L]; [exact (SP a t b N P P0)|].
        pose proof (points_lt _ _ (proj1 (I a)) P). cbn in *. lia.
      * apply PO in Q; [|exact Nc]. exact (SP a c b N P Q).
  - intros NL C b k H L X. rewrite <- (V t) in C. pose proof (clean_op_not_loses _ o _ _ E C) as NLo.
    destruct (Nat.lt_ge_cases b (length (t_heap z))) as [Hb|Hb].
    + destruct (F4 b k H Hb L) as (k0 & H0 & L0 & X0). rewrite X in X0. destruct (NL b k0 H0 L0 X0) as (u & O).
      destruct (Nat.eq_dec u t) as [->|N].
      * exists t. rewrite ME. exact (F5 NLo b k H L X O).
      * exists u. rewrite OT by exact N. exact O.
    + exists t. rewrite ME. exact (F6 NLo b k H L X Hb).
Qed.

Definition progs (l : list (nat * op T)) (t : nat) : list (op T) := part t l.

Lemma part_cons {A} t u (a : A) l : part u ((t, a) :: l) = if t =? u then a :: part u l else part u l.
Proof. unfold part. cbn [filter fst]. now destruct (t =? u). Qed.

Lemma trun_ok l : forall z v w xs,
  Sep z v -> (forall t, vrun (v t) (part t l) = Some (w t, xs t)) ->
  exists z1 rs, trun z l = Ok (z1, rs) /\ Sep z1 w /\ (forall t, part t rs = xs t) /\
    (TNoLeak z -> (forall t, clean (v t) (part t l) = true) -> TNoLeak z1).
Proof.
  induction l as [|[t o] l IH]; intros z v w xs SP H.
  - exists z, []. split; [reflexivity|]. split.
    + destruct SP as [I V S]. split; auto. intros t. specialize (H t). cbn in H. injection H as <- _. apply V.
    + split; [|auto]. intros t. specialize (H t). cbn in H. injection H as _ <-. reflexivity.
  - pose proof (H t) as Ht. rewrite part_cons, Nat.eqb_refl in Ht. cbn [vrun] in Ht.
    destruct (vstep (v t) o) as [[v1 x]|] eqn:E; [|discriminate].
    destruct (vrun v1 (part t l)) as [[v2 ys]|] eqn:R; [|discriminate]. injection Ht as Hw Hx.
    destruct (tstep_ok z v t o v1 x SP E) as (z1 & S & SP1 & NL).
    destruct (IH z1 _ w (fun u => if u =? t then ys else xs u) SP1) as (z2 & rs & R2 & SP2 & P & NL2).
    { intros u. destruct (Nat.eqb_spec u t) as [->|N]; [now rewrite R, Hw|]. specialize (H u). rewrite part_cons in H.
      assert (Q : (t =? u) = false) by (apply Nat.eqb_neq; auto). rewrite Q in H. exact H. }
    exists z2, ((t, x) :: rs). cbn [trun]. rewrite S. cbn [bind]. rewrite R2. cbn [bind]. split; [reflexivity|]. split; [exact SP2|]. split.
    + intros u. rewrite part_cons, P. destruct (Nat.eqb_spec u t) as [->|N]; [now rewrite Nat.eqb_refl|].
      assert (Q : (t =? u) = false) by (apply Nat.eqb_neq; auto). now rewrite Q.
    + intros N0 C. apply NL2.
      * apply NL; [exact N0|]. specialize (C t). rewrite part_cons, Nat.eqb_refl in C. cbn [clean] in C. now apply andb_true_iff in C.
      * intros u. specialize (C u). rewrite part_cons in C. destruct (Nat.eqb_spec u t) as [->|N].
        -- rewrite Nat.eqb_refl in C. cbn [clean] in C. rewrite E in C. now apply andb_true_iff in C.
        -- assert (Q : (t =? u) = false) by (apply Nat.eqb_neq; auto). now rewrite Q in C.
Qed.

Lemma Sep0 : Sep tsys0 (fun _ => []).
Proof.
  split.
  - intros t. exact InvV0.
  - reflexivity.
  - intros t u b _ (s & o & A & _). destruct s; discriminate.
Qed.
Lemma TNoLeak0 : TNoLeak tsys0.
Proof. intros b k H. destruct b; discriminate. Qed.
End P.
