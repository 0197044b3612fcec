(** Exact behaviour where C51, C52 and C55 are violated, for every input. *)
From Coq Require Import ZArith.
From Verif Require Import Base BaseLemmas Dense_Model Dense_Spec Dense_Proofs Dense2_Proofs Dense_Props Sparse_Model Sparse_Spec
  Sparse_Proofs Sparse2_Proofs Sparse3_Proofs Sparse_Props Norm_Spec Norm_Proofs IO_Model IO_Proofs IO_Props
  Storage_Spec Storage_Proofs Obj_Model Obj_Spec Obj_Proofs Eq_Model Eq_Spec Eq_Proofs Tools_Props Eq_Props.
From Coq Require Import Sorting.Sorted.

(** ** C51 *)
(** The place of element (i, j) of an r x c matrix in memory. *)
Definition cell_no (o : orient) (r c i j : nat) : nat :=
  match o with RowMajor => i * c + j | ColMajor => j * r + i end.

(** Dense matrices of any orientations: equal exactly if the dimensions agree and
    the elements that lie at the same place in memory are alike. *)
Theorem C51_dense_any_orientation_exact :
  forall (T U : Type) (eqv : T -> U -> bool) (a : dense T) (b : dense U) r c f r' c' g,
    is_mat a r c f -> is_mat b r' c' g ->
    exists e, d_equal eqv a b = Ok e /\
      (e = true <-> r = r' /\ c = c' /\
        forall i j i' j', i < r -> j < c -> i' < r -> j' < c ->
          cell_no (d_orient a) r c i j = cell_no (d_orient b) r c i' j' -> eqv (f i j) (g i' j') = true).
Proof.
  intros T U eqv a b r c f r' c' g Ha Hb.
  pose proof (buf_of_mat _ _ _ _ Ha) as Ea. pose proof (buf_of_mat _ _ _ _ Hb) as Eb.
  destruct Ha as [_ (Hr & Hc & _)]. destruct Hb as [_ (Hr' & Hc' & _)].
  unfold d_equal. rewrite Ea, Eb, !map_length, !storage_length, Hr, Hc, Hr', Hc'.
  destruct (Nat.eqb_spec (r * c) (r' * c')) as [E|E]; cbn [negb].
  2:{ exists false. split; auto. split; [discriminate|]. intros (-> & -> & _). congruence. }
  destruct (buf_equal_lists eqv (in_storage_order (d_orient a) r c f) (in_storage_order (d_orient b) r' c' g))
      as (e & -> & He); [now rewrite !storage_length|]. cbn [bind].
  eexists; split; [reflexivity|].
  rewrite !andb_true_iff, !Nat.eqb_eq. split.
  - intros [[He1 <-] <-]. do 2 (split; auto). intros i j i' j' Hi Hj Hi' Hj' HE. rewrite He in He1.
    apply (He1 (cell_no (d_orient a) r c i j)).
    + apply (storage_nth (d_orient a) r c f i j Hi Hj).
    + rewrite HE. apply (storage_nth (d_orient b) r c g i' j' Hi' Hj').
  - intros (<- & <- & H). split; [split|]; auto. apply He. intros k x y Hx Hy.
    assert (Hk : k < r * c) by (rewrite <- (storage_length (d_orient a) r c f); apply nth_error_Some; congruence).
    assert (L : forall o, exists i j, i < r /\ j < c /\ k = cell_no o r c i j).
    { intros o. assert (0 < r /\ 0 < c) as [Pr Pc] by nia. destruct o; unfold cell_no.
      - exists (k / c), (k mod c). split; [apply Nat.div_lt_upper_bound; lia|]. split; [apply Nat.mod_upper_bound; lia|].
        rewrite (Nat.div_mod_eq k c) at 1. lia.
      - exists (k mod r), (k / r). split; [apply Nat.mod_upper_bound; lia|]. split; [apply Nat.div_lt_upper_bound; lia|].
        rewrite (Nat.div_mod_eq k r) at 1. lia. }
    destruct (L (d_orient a)) as (i & j & Hi & Hj & Ek). destruct (L (d_orient b)) as (i' & j' & Hi' & Hj' & Ek').
    pose proof (storage_nth (d_orient a) r c f i j Hi Hj) as Na. pose proof (storage_nth (d_orient b) r c g i' j' Hi' Hj') as Nb.
    change (lin (d_orient a) r c i j) with (cell_no (d_orient a) r c i j) in Na.
    change (lin (d_orient b) r c i' j') with (cell_no (d_orient b) r c i' j') in Nb.
    rewrite <- Ek in Na. rewrite <- Ek' in Nb. rewrite Hx in Na. rewrite Hy in Nb. injection Na as ->. injection Nb as ->.
    apply H; auto. congruence.
Qed.
Print Assumptions C51_dense_any_orientation_exact.
Example C51_dense_any_orientation_nonvacuous :
  is_mat demoC 2 3 demoC_f /\ is_mat demoC_row 2 3 demoC_f /\ d_orient demoC <> d_orient demoC_row /\
  d_equal Z.eqb demoC demoC_row = Ok false /\ d_equal (fun x y => Z.abs (x - y) <=? 9)%Z demoC demoC_row = Ok true.
Proof.
  split; [exact demoC_mat|]. split.
  - split; [split; [reflexivity|split; reflexivity]|]. split; [reflexivity|]. split; [reflexivity|].
    intros [|[|i]] [|[|[|j]]] Hi Hj; try lia; vm_compute; reflexivity.
  - split; [discriminate|]. split; vm_compute; reflexivity.
Qed.

(** The compressed lines of a matrix: columns of a column-major, rows of a
    row-major one; [along] is the element stored at place [k] of line [l]. *)
Definition lines (o : orient) (r c : nat) : nat := match o with RowMajor => r | ColMajor => c end.
Definition along {T} (o : orient) (r c : nat) (f : nat -> nat -> option T) (l k : nat) : option T :=
  match o with
  | RowMajor => if k <? c then f l k else None
  | ColMajor => if k <? r then f k l else None
  end.

Lemma along_lk {T} (s : sparse T) r c f L : s_rows s = r -> s_cols s = c -> lines_ok (s_major s) L -> length L = s_minor s ->
  denotes s L f -> forall l k, l < length L -> along (s_o s) r c f l k = lk k (nth l L []).
Proof.
  intros Hr Hc HO HL HD l k Hl. rewrite HL in Hl.
  assert (Q : s_major s <= k -> lk k (nth l L []) = None).
  { intros Hk. apply lk_None. intros Hin. assert (Hn : In (nth l L []) L) by (apply nth_In; lia).
    eapply Forall_forall in HO; [|exact Hn]. destruct HO as [_ HF]. eapply Forall_forall in HF; [|exact Hin]. lia. }
  unfold denotes, key_of, line_of, s_minor, s_major in *. unfold along. subst r c. destruct (s_o s).
  - destruct (Nat.ltb_spec k (s_cols s)) as [H|H]; [now rewrite HD by auto|now rewrite Q].
  - destruct (Nat.ltb_spec k (s_rows s)) as [H|H]; [now rewrite HD by auto|now rewrite Q].
Qed.

(** Sparse matrices without unused cells, of any orientations and dimensions:
    equal exactly if they have the same number of lines and every line stores
    alike values at the same places; dimensions and orientations are not looked
    at. *)
Theorem C51_sparse_any_shape_exact :
  forall (T U : Type) (eqv : T -> U -> bool) (a : sparse T) (b : sparse U) r c f r' c' g,
    sp_mat a r c f -> sp_mat b r' c' g -> compact a -> compact b ->
    exists e, sp_equal eqv a b = Ok e /\
      (e = true <-> lines (s_o a) r c = lines (s_o b) r' c' /\
        forall l k, l < lines (s_o a) r c -> both eqv (along (s_o a) r c f l k) (along (s_o b) r' c' g l k)).
Proof.
  intros T U eqv a b r c f r' c' g Ha Hb Ca Cb.
  destruct (proj1 (sp_mat_lines a r c f) Ha) as (Ra & Ka & _ & LA & RA & NA & OA & DA).
  destruct (proj1 (sp_mat_lines b r' c' g) Hb) as (Rb & Kb & _ & LB & RB & NB & OB & DB).
  destruct (repr_compact a LA RA NA Ca) as [Va Qa]. destruct (repr_compact b LB RB NB Cb) as [Vb Qb].
  assert (Main : exists e, sp_equal eqv a b = Ok e /\
      (e = true <-> Forall2 (Forall2 (fun x y => fst x = fst y /\ eqv (snd x) (snd y) = true)) LA LB)).
  { unfold sp_equal. rewrite (proj1 RA), (proj1 RB), Va, Vb, Qa, Qb.
    destruct (arr_equal_lists Nat.eqb (psum 0 LA) (psum 0 LB)) as (e1 & -> & H1). cbn [bind].
    rewrite Forall2_eqb in H1.
    destruct e1.
    2:{ exists false. split; auto. split; [discriminate|]. intros HF. apply H1.
        apply psum_len. clear -HF. induction HF as [|x y LA LB HF' _ IH]; simpl; auto. f_equal; auto. eapply Forall2_length; eauto. }
    apply proj1 in H1. specialize (H1 eq_refl). apply psum_inj in H1.
    destruct (arr_equal_lists Nat.eqb (map fst (concat LA)) (map fst (concat LB))) as (e2 & -> & H2). cbn [bind].
    rewrite Forall2_eqb in H2. 
    pose proof (Forall2_concat (fun x y => fst x = fst y /\ eqv (snd x) (snd y) = true) LA LB H1) as FC.
    rewrite (Forall2_both (fun x y => eqv (snd x) (snd y) = true) fst fst) in FC.
    destruct e2.
    2:{ exists false. split; auto. split; [discriminate|]. intros E; apply FC in E as [E _]. apply H2; exact E. }
    destruct (arr_equal_lists eqv (map snd (concat LA)) (map snd (concat LB))) as (e3 & -> & H3).
    exists e3. split; auto. rewrite H3, Forall2_mapped. split; [|intros E; apply FC in E; tauto].
    intros H. apply FC. split; auto. tauto. }
  destruct Main as (e & -> & He). exists e; split; auto. rewrite He.
  assert (Ga : forall l k, l < length LA -> along (s_o a) r c f l k = lk k (nth l LA [])) by (now apply along_lk).
  assert (Gb : forall l k, l < length LB -> along (s_o b) r' c' g l k = lk k (nth l LB [])) by (now apply along_lk).
  assert (Ma : lines (s_o a) r c = length LA) by (rewrite NA; unfold lines, s_minor; subst; reflexivity).
  assert (Mb : lines (s_o b) r' c' = length LB) by (rewrite NB; unfold lines, s_minor; subst; reflexivity).
  rewrite Ma, Mb. clear - OA OB Ga Gb.
  assert (Lines : Forall2 (Forall2 (fun x y => fst x = fst y /\ eqv (snd x) (snd y) = true)) LA LB <->
                  length LA = length LB /\
                  forall l k, l < length LA -> both eqv (lk k (nth l LA [])) (lk k (nth l LB []))).
  { clear Ga Gb. revert LB OB. induction OA as [|la LA [Sa Fa] OA IH]; intros LB OB.
    - split; [intros H; inversion H; split; auto; intros l k Hl; cbn in Hl; lia|]. intros [H _]. destruct LB; [constructor|discriminate].
    - destruct LB as [|lb LB]; [split; [intros H; inversion H|intros [H _]; discriminate]|].
      inversion OB as [|? ? [Sb Fb] OB']; subst. specialize (IH LB OB').
      assert (HL : Forall2 (fun x y => fst x = fst y /\ eqv (snd x) (snd y) = true) la lb <->
                   forall k, both eqv (lk k la) (lk k lb)).
      { rewrite line_both by auto. split; [|auto]. intros H k.
        destruct (in_dec Nat.eq_dec k (map fst la ++ map fst lb)) as [Hi|Hn]; auto.
        rewrite !lk_None; [exact I| |]; intros Q; apply Hn, in_or_app; auto. }
      split.
      + intros HF. inversion HF as [|? ? ? ? H1 H2]; subst. apply IH in H2 as [H2 H3]. split; [cbn; lia|].
        intros [|l] k Hl; cbn [nth]; [now apply HL|]. apply H3. cbn in Hl. lia.
      + intros [H1 H2]. constructor.
        * apply HL. intros k. apply (H2 0 k). cbn; lia.
        * apply IH. split; [cbn in H1; lia|]. intros l k Hl. apply (H2 (S l) k). cbn; lia. }
  rewrite Lines. split; intros [E H]; (split; [exact E|]); intros l k Hl; specialize (H l k Hl);
    rewrite Ga, Gb in * by lia; exact H.
Qed.
Print Assumptions C51_sparse_any_shape_exact.

(** ** C52 *)
Section Kept.
Context {T N : Type} (o : orient) (dbg : bool) (norm_of : nat -> nat -> buf T -> res N) (eqv : T -> T -> bool).
Notation vrun := (mvrun o norm_of eqv []).
Notation vstep := (mvstep o norm_of eqv).
Notation run := (mrun o dbg norm_of eqv msys0).
Notation step' := (mstep o dbg norm_of eqv).

Definition remembers (d : nat) (n : N) (m : msys T N) : Prop :=
  exists h, nth_error (m_hdr m) d = Some h /\ h_norm h = Some n.

Lemma hdr_app (hs : list (hdr N)) d h x : nth_error hs d = Some h -> nth_error (hs ++ [x]) d = Some h.
Proof. intros H. rewrite nth_error_app1; [exact H|]. apply nth_error_Some. congruence. Qed.

Lemma kept_step d n m x m1 z : (forall s, x <> MCopyAssign d s) -> remembers d n m -> step' m x = Ok (m1, z) -> remembers d n m1.
Proof.
  intros HX (h & Hh & Hn) E.
  assert (U : forall hs s h', (exists h, nth_error hs d = Some h /\ h_norm h = Some n) -> (s = d -> h_norm h' = Some n) ->
     exists k, nth_error (upd hs s h') d = Some k /\ h_norm k = Some n).
  { intros hs s h' (h1 & H1 & H3) H2. destruct (Nat.eq_dec s d) as [->|Hne].
    - exists h'. split; [|auto]. apply nth_error_upd_eq. apply nth_error_Some. congruence.
    - exists h1. split; [|auto]. now rewrite nth_error_upd_ne. }
  assert (G : forall s k, hdr_of m s = Ok k -> s = d -> h_norm k = Some n).
  { intros s k Hk ->. unfold hdr_of in Hk. rewrite Hh in Hk. now injection Hk as <-. }
  assert (W : forall so hs, (do r <- step (m_sys m) so; let '(y, x) := r in Ok (mkMsys y hs, of_out x)) = Ok (m1, z) -> m_hdr m1 = hs).
  { intros so hs Q. apply bind_ok in Q as ([y w] & _ & Q). injection Q as <- _. reflexivity. }
  destruct x; cbn [mstep] in E; unfold with_storage in E;
    repeat match goal with
    | H : (do _ <- hdr_of _ _; _) = Ok _ |- _ => apply bind_ok in H as (? & ? & H)
    | H : (do _ <- get_obj _ _; _) = Ok _ |- _ => apply bind_ok in H as (? & ? & H)
    | H : (do _ <- position _ _ _ _; _) = Ok _ |- _ => apply bind_ok in H as (? & ? & H)
    | H : (do _ <- mem_of _ _; _) = Ok _ |- _ => apply bind_ok in H as (? & ? & H)
    | H : (do _ <- step _ _; _) = Ok _ |- _ => apply W in H; unfold remembers; rewrite H
    end; eauto using hdr_app.
  all: try (apply U; [now eauto|]; intros; cbn [h_norm]; subst; eauto; fail).
  - apply U; [now eauto|]. intros ->. exfalso. eapply HX. reflexivity.
  - apply U; [apply U; [now eauto|]|]; intros; cbn [h_norm]; subst; eauto.
  - injection E as <- _. exists h; auto.
  - injection E as <- _. exists h; auto.
  - injection E as <- _. exists h; auto.
  - match type of E with match h_norm ?k with _ => _ end = _ => destruct (h_norm k) eqn:Ek end.
    + injection E as <- _. exists h; auto.
    + apply bind_ok in E as (n1 & _ & E). injection E as <- _. apply U; [now eauto|]. intros ->.
      exfalso. match goal with H : hdr_of _ _ = Ok _ |- _ => apply G in H; [|reflexivity] end. congruence.
  - apply bind_ok in E as (e & _ & E). injection E as <- _. exists h; auto.
  - injection E as <- _. exists h; auto.
Qed.

Lemma kept_run d n ops : forall m m1 zs, (forall s, ~ In (MCopyAssign d s) ops) -> remembers d n m ->
  mrun o dbg norm_of eqv m ops = Ok (m1, zs) -> remembers d n m1.
Proof.
  induction ops as [|x t IH]; intros m m1 zs HX HK E; cbn [mrun] in E.
  - now injection E as <- _.
  - apply bind_ok in E as ([m2 z] & E2 & E). apply bind_ok in E as ([m3 zs'] & E3 & E). injection E as <- _.
    eapply IH; [|eapply kept_step; [|exact HK|exact E2]|exact E3].
    + intros s Hs. apply (HX s). now right.
    + intros s ->. apply (HX s). now left.
Qed.

(** A norm once asked for is reported for ever: whatever is done to the matrix
    afterwards (new elements, resizing, moves and swaps in either direction) the
    old answer is given, unless another matrix is copied onto it. *)
Theorem C52_norm_is_never_recomputed :
  forall ops v zs d v1 n more v2 zs2, vrun ops = Some (v, zs) -> vstep v (MNorm d) = Some (v1, MNormIs n) ->
    mvrun o norm_of eqv v1 more = Some (v2, zs2) -> (forall s, ~ In (MCopyAssign d s) more) -> mget v2 d <> None ->
    exists m, run (ops ++ MNorm d :: more ++ [MNorm d]) = Ok (m, zs ++ MNormIs n :: zs2 ++ [MNormIs n]).
Proof.
  intros ops v zs d v1 n more v2 zs2 H HN HM HC HD.
  destruct (run_ok o dbg norm_of eqv msys0 [] ops v zs (R0 norm_of) H) as (m & E & HR).
  destruct (step_ok o dbg norm_of eqv m v (MNorm d) v1 (MNormIs n) HR HN) as (m1 & E1 & HR1).
  destruct (run_ok o dbg norm_of eqv m1 v1 more v2 zs2 HR1 HM) as (m2 & E2 & HR2).
  assert (K : remembers d n m1).
  { cbn [mstep] in E1. apply bind_ok in E1 as (h & Eh & E1). apply bind_ok in E1 as (b & _ & E1).
    unfold hdr_of in Eh. destruct (nth_error (m_hdr m) d) as [h'|] eqn:Ed; [|discriminate]. injection Eh as ->.
    destruct (h_norm h) as [n0|] eqn:En.
    - injection E1 as <- ->. exists h; auto.
    - apply bind_ok in E1 as (n1 & _ & E1). injection E1 as <- ->. exists (mkHdr (h_rows h) (h_cols h) (h_full h) (h_ubr h) (h_ubc h) (Some n)). split; [|reflexivity]. apply nth_error_upd_eq.
      apply nth_error_Some. congruence. }
  pose proof (kept_run d n more m1 m2 zs2 HC K E2) as (h & Hh & Hn).
  destruct (mget v2 d) as [y|] eqn:Ey; [|congruence].
  destruct (hdr_some norm_of m2 v2 d y HR2 Ey) as (h' & Eh & _ & Hh'). rewrite Hh in Hh'. injection Hh' as <-.
  pose proof (mem_ok norm_of m2 v2 d y HR2 Ey) as Em.
  exists m2. rewrite mrun_app, E. cbn [bind]. cbn [mrun]. rewrite E1. cbn [bind]. rewrite mrun_app, E2. cbn [bind mrun mstep].
  rewrite Eh. cbn [bind]. rewrite Em. cbn [bind]. rewrite Hn. reflexivity.
Qed.

(** The source of a move keeps its dimensions but has no memory: every access to
    an element is undefined behaviour, also if it was moved onto itself. *)
Theorem C52_moved_from_exact :
  forall ops v zs s x mv, vrun ops = Some (v, zs) -> mget v s = Some x ->
    (mv = MMoveCtor s \/ exists d, mv = MMoveAssign d s /\ mget v d <> None) ->
    (exists m, run (ops ++ [mv; MDims s]) = Ok (m, zs ++ [MNone; MPair (x_rows x) (x_cols x)])) /\
    forall i j, i < x_rows x -> j < x_cols x -> run (ops ++ [mv; MRead s i j]) = UB NullDeref.
Proof.
  intros ops v zs s x mv H Hs HV.
  destruct (run_ok o dbg norm_of eqv msys0 [] ops v zs (R0 norm_of) H) as (m & E & HR).
  assert (Hlt : s < length v) by (eapply mget_lt; eauto).
  assert (exists v1 y, vstep v mv = Some (v1, MNone) /\ mget v1 s = Some y /\ x_rows y = x_rows x /\ x_cols y = x_cols x) as (v1 & y & Ev & Ey & Yr & Yc).
  { destruct HV as [->|(d & -> & Hd)].
    - cbn [mvstep]. rewrite Hs. eexists _, _. split; [reflexivity|]. split; [apply mget_put; rewrite app_length; lia|]. split; reflexivity.
    - destruct (mget v d) as [k|] eqn:Ed; [|congruence]. cbn [mvstep]. rewrite Ed, Hs. eexists _, _. split; [reflexivity|].
      split; [apply mget_put; rewrite upd_length; lia|]. split; reflexivity. }
  destruct (step_ok o dbg norm_of eqv m v mv v1 MNone HR Ev) as (m1 & E1 & HR1).
  destruct (hdr_some norm_of m1 v1 s y HR1 Ey) as (h & Eh & (Hr & Hc & _) & Hh).
  destruct (alive_of norm_of m1 v1 s y HR1 Ey) as (q & Eq & _ & _ & _).
  split.
  - exists m1. rewrite mrun_app, E. cbn [bind mrun]. rewrite E1. cbn [bind mstep]. rewrite Eq, Eh. cbn [bind]. now rewrite Hr, Hc, Yr, Yc.
  - intros i j Hi Hj. rewrite mrun_app, E. cbn [bind mrun]. rewrite E1. cbn [bind mstep]. rewrite Eh. cbn [bind].
    rewrite position_place by lia. cbn [bind]. unfold with_storage. cbn [step]. unfold s_read. rewrite Eq. cbn [bind].
    assert (Q : st_data q = None).
    { destruct HV as [->|(d & -> & Hd)]; cbn [mstep] in E1.
      - apply bind_ok in E1 as (h1 & _ & E1). unfold with_storage in E1. apply bind_ok in E1 as ([y1 z1] & E1 & E2). injection E2 as <- _.
        cbn [step] in E1. unfold quiet in E1. apply bind_ok in E1 as (y2 & E1 & E2). injection E2 as <- _. cbn [m_sys] in Eq.
        unfold s_move_ctor in E1. apply bind_ok in E1 as (r & Er & E1). injection E1 as <-.
        unfold get_obj in Eq, Er. cbn [set_obj new_obj objs] in Eq. rewrite nth_error_upd_eq in Eq; [now injection Eq as <-|].
        rewrite app_length. assert (s < length (objs (m_sys m))) by (apply nth_error_Some; destruct (nth_error _ s); congruence). lia.
      - apply bind_ok in E1 as (h1 & _ & E1). apply bind_ok in E1 as (h2 & _ & E1). unfold with_storage in E1. apply bind_ok in E1 as ([y1 z1] & E1 & E2). injection E2 as <- _.
        cbn [step] in E1. unfold quiet in E1. apply bind_ok in E1 as (y2 & E1 & E2). injection E2 as <- _. cbn [m_sys] in Eq.
        unfold s_move_assign in E1. apply bind_ok in E1 as (l & El & E1). apply bind_ok in E1 as (r & Er & E1). apply bind_ok in E1 as (hh & _ & E1). injection E1 as <-.
        unfold get_obj in Eq, Er. cbn [set_obj objs] in Eq. rewrite nth_error_upd_eq in Eq; [now injection Eq as <-|].
        rewrite upd_length. apply nth_error_Some. destruct (nth_error _ s); congruence. }
    rewrite Q. reflexivity.
Qed.
End Kept.
Print Assumptions C52_norm_is_never_recomputed.
Print Assumptions C52_moved_from_exact.

(** Both on small programs. *)
Example C52_kept_nonvacuous :
  exists v v1 v2 zs2, mvrun ColMajor znorm Z.eqb [] [MSized 1 1; MAll 0 3%Z; MSized 1 1; MAll 1 8%Z] = Some (v, [MNone; MNone; MNone; MNone]) /\
    mvstep ColMajor znorm Z.eqb v (MNorm 1) = Some (v1, MNormIs 8%Z) /\
    mvrun ColMajor znorm Z.eqb v1 [MMoveAssign 1 0; MAll 1 5%Z; MRead 1 0 0] = Some (v2, zs2) /\ mget v2 1 <> None /\
    exists x, mget v 0 = Some x /\ x_rows x = 1 /\ x_cols x = 1.
Proof.
  eexists _, _, _, _. split; [vm_compute; reflexivity|]. split; [vm_compute; reflexivity|]. split; [vm_compute; reflexivity|].
  split; [discriminate|]. eexists. split; [reflexivity|]. split; reflexivity.
Qed.

(** ** C55 *)
(** A file written from a row-major matrix holds it row by row; the importer fills
    its column-major matrix, of whatever dimensions the header names, with the
    same sequence. *)
Theorem C55_row_major_exact :
  forall (T : Type) (d : dense T) r c f, is_mat d r c f -> full_ok d -> d_orient d = RowMajor ->
    exists file, raw_write d = Ok file /\ forall rest r' c', r' * c' <= r * c ->
    exists e, import_raw (Some (r', c')) (Some (file ++ rest)) = Ok e /\
      is_mat e r' c' (fun i j => f ((j * r' + i) / c) ((j * r' + i) mod c)) /\ d_orient e = ColMajor.
Proof.
  intros T d r c f M HF HO. exists (in_storage_order (d_orient d) r c f). split; [now apply raw_write_ok|].
  intros rest r' c' HL. destruct (import_ok (in_storage_order (d_orient d) r c f ++ rest) r' c'
    (fun i j => f ((j * r' + i) / c) ((j * r' + i) mod c))) as (e & E & Me & Oe & _); [|eauto].
  rewrite HO. intros i j Hi Hj. assert (Hk : j * r' + i < r * c) by nia. assert (0 < c) by nia.
  assert (E : nth_error (in_storage_order RowMajor r c f) (j * r' + i) = Some (f ((j * r' + i) / c) ((j * r' + i) mod c))).
  { rewrite <- (storage_nth RowMajor r c f ((j * r' + i) / c) ((j * r' + i) mod c)).
    - f_equal. unfold lin. rewrite (Nat.div_mod_eq (j * r' + i) c) at 1. lia.
    - apply Nat.div_lt_upper_bound; lia.
    - apply Nat.mod_upper_bound; lia. }
  rewrite nth_error_app1; [exact E|]. apply nth_error_Some. rewrite E. discriminate.
Qed.
Print Assumptions C55_row_major_exact.
Example C55_row_major_nonvacuous :
  is_mat demoC_row 2 3 demoC_f /\ full_ok demoC_row /\ d_orient demoC_row = RowMajor /\
  exists file e, raw_write demoC_row = Ok file /\ import_raw (Some (3, 2)) (Some file) = Ok e /\ dget true e 1 1 = Ok (demoC_f 1 1).
Proof.
  split; [|split; [reflexivity|split; [reflexivity|]]].
  - split; [split; [reflexivity|split; reflexivity]|]. split; [reflexivity|]. split; [reflexivity|].
    intros [|[|i]] [|[|[|j]]] Hi Hj; try lia; vm_compute; reflexivity.
  - eexists _, _. split; [vm_compute; reflexivity|]. split; vm_compute; reflexivity.
Qed.
