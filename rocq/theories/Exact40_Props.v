(** C73: a window that was destroyed is never usable again. *)
From Verif Require Import Base BaseLemmas Storage_Model Dense_Model WObj_Model.

Section Dead.
Context {T : Type} (dbg : bool).

(** The windows an operation works on. *)
Definition windows_used (x : wop T) : list nat :=
  match x with
  | VCopy w | VMove w | VAll w _ | VWrite w _ _ _ | VRead w _ _ | VDims w | VLd w | VDense w _ _ | VDestroy w => [w]
  | VAssign d w | VMoveAssign d w => [d; w]
  | _ => []
  end.
Definition gone (m : wsys T) (w : nat) : Prop := nth_error (w_wins m) w = Some None.

Lemma storage_wins (m m1 : wsys T) so ds z : w_storage m so ds = Ok (m1, z) -> w_wins m1 = w_wins m.
Proof. unfold w_storage. destruct (step (w_sys m) so) as [[y o]| | | |]; cbn [bind]; try discriminate. now intros [= <- <-]. Qed.
Lemma all_wins (m m1 : wsys T) u v : w_all m u v = Ok m1 -> w_wins m1 = w_wins m.
Proof.
  unfold w_all. destruct (w_addrs u) as [[|a l]| | | |]; cbn [bind]; try discriminate; [now intros [= <-]|].
  destruct (w_block m u) as [kb| | | |]; cbn [bind]; try discriminate.
  destruct (foldM _ _ _); cbn [bind]; try discriminate. now intros [= <-].
Qed.
Lemma gone_win (m : wsys T) w : gone m w -> win_of m w = UB DeadObject.
Proof. unfold gone, win_of. now intros ->. Qed.
Lemma gone_app (ws : list (option win)) w v : nth_error ws w = Some None -> nth_error (ws ++ [v]) w = Some None.
Proof. intros H. rewrite nth_error_app1; [exact H|]. apply nth_error_Some. now rewrite H. Qed.

Lemma wstep_gone (m m1 : wsys T) w x z : gone m w -> wstep dbg m x = Ok (m1, z) -> gone m1 w.
Proof.
  intros G E. pose proof (gone_win m w G) as GW.
  assert (S : forall so ds, w_storage m so ds = Ok (m1, z) -> gone m1 w).
  { intros so ds H. unfold gone. now rewrite (storage_wins _ _ _ _ _ H). }
  destruct x; cbn [wstep] in E;
    repeat match type of E with
    | bind ?a _ = Ok _ => destruct a eqn:?; cbn [bind] in E; try discriminate
    | (let '(_, _) := ?a in _) = Ok _ => destruct a; cbn [bind] in E
    end; try (eapply S; eassumption); try (injection E as <- <-); unfold gone in *; cbn [w_wins set_cells];
    try assumption; try (now apply gone_app).
  - destruct (Nat.eq_dec d w) as [->|N]; [congruence|]. now rewrite nth_error_upd_ne by auto.
  - destruct (Nat.eq_dec d w) as [->|N]; [congruence|]. now rewrite nth_error_upd_ne by auto.
  - match goal with H : w_all _ _ _ = Ok _ |- _ => now rewrite (all_wins _ _ _ _ H) end.
  - destruct (Nat.eq_dec w0 w) as [->|N]; [congruence|]. now rewrite nth_error_upd_ne by auto.
Qed.
Lemma wrun_gone ops : forall (m : wsys T) w m1 zs, gone m w -> wrun dbg m ops = Ok (m1, zs) -> gone m1 w.
Proof.
  induction ops as [|x t IH]; intros m w m1 zs G E; cbn [wrun] in E; [injection E as <- <-; exact G|].
  destruct (wstep dbg m x) as [[m2 z]| | | |] eqn:Ex; cbn [bind] in E; try discriminate.
  destruct (wrun dbg m2 t) as [[m3 zs']| | | |] eqn:Et; cbn [bind] in E; try discriminate. injection E as <- <-.
  eapply IH; [|exact Et]. eapply wstep_gone; eassumption.
Qed.
Lemma wrun_app a b (m : wsys T) r : wrun dbg m (a ++ b) = Ok r -> exists m1 z1 z2, wrun dbg m a = Ok (m1, z1) /\ wrun dbg m1 b = Ok (fst r, z2).
Proof.
  revert m r. induction a as [|x t IH]; intros m r E; cbn [app] in E.
  - destruct r as [m' z']. exists m, [], z'. auto.
  - cbn [wrun] in *. destruct (wstep dbg m x) as [[m2 z]| | | |] eqn:Ex; cbn [bind] in *; try discriminate.
    destruct (wrun dbg m2 (t ++ b)) as [[m3 zs]| | | |] eqn:Et; cbn [bind] in E; try discriminate. injection E as <-.
    destruct (IH _ _ Et) as (m4 & z1 & z2 & E1 & E2). rewrite E1. cbn [bind]. eexists _, _, _. eauto.
Qed.

(** C73.  Whatever a program does after destroying a window: every use of that window
    (reading, writing, copying or moving it, assigning to or from it, asking for its
    dimensions, destroying it again) is a use of a dead object. *)
Theorem C73_destroyed_window_is_gone (before : list (wop T)) w (more : list (wop T)) m outs x :
  wrun dbg (wsys0 (T := T)) (before ++ VDestroy w :: more) = Ok (m, outs) ->
  In w (windows_used x) -> wstep dbg m x = UB DeadObject.
Proof.
  intros E HI. apply wrun_app in E as (m1 & z1 & z2 & _ & E). cbn [wrun wstep fst] in E.
  destruct (win_of m1 w) as [v| | | |] eqn:W; cbn [bind] in E; try discriminate.
  destruct (wrun dbg _ more) as [[m3 zs]| | | |] eqn:Em in E; cbn [bind] in E; try discriminate. injection E as E1 _. subst m3.
  assert (G : gone m w).
  { eapply wrun_gone; [|exact Em]. unfold gone. cbn [w_wins]. apply nth_error_upd_eq.
    unfold win_of in W. apply nth_error_Some. destruct (nth_error (w_wins m1) w); congruence. }
  apply gone_win in G. destruct x; cbn [windows_used] in HI; try contradiction;
    repeat (destruct HI as [HI|HI]; [|]); try contradiction; subst; cbn [wstep]; rewrite ?G; try reflexivity.
  - assert (V : (exists v', win_of m w0 = Ok v') \/ win_of m w0 = UB DeadObject)
      by (unfold win_of; destruct (nth_error (w_wins m) w0) as [[v'|]|]; eauto).
    destruct V as [[v' V]|V]; rewrite V; reflexivity.
  - assert (V : (exists v', win_of m w0 = Ok v') \/ win_of m w0 = UB DeadObject)
      by (unfold win_of; destruct (nth_error (w_wins m) w0) as [[v'|]|]; eauto).
    destruct V as [[v' V]|V]; rewrite V; reflexivity.
Qed.
End Dead.
Print Assumptions C73_destroyed_window_is_gone.

(** A window is destroyed, another one made, and the first is read. *)
Example C73_destroyed_nonvacuous :
  let p := [WSized 2 2; WAll 0 7%nat; VNew 0 1 1 0 0] ++ VDestroy 0 :: [VNew 0 1 1 1 1] in
  exists m outs, wrun true (wsys0 (T := nat)) p = Ok (m, outs) /\
    wstep true m (VRead 0 0 0) = UB DeadObject /\ wstep true m (VAssign 0 1) = UB DeadObject /\
    exists m2, wstep true m (VRead 1 0 0) = Ok (m2, WVal (Some 7%nat)).
Proof. eexists _, _. split; [vm_compute; reflexivity|]. split; [reflexivity|]. split; [reflexivity|]. eexists. vm_compute. reflexivity. Qed.
Print Assumptions C73_destroyed_nonvacuous.
