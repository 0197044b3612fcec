(** C01: a storage that was destroyed is never usable again. *)
From Verif Require Import Base BaseLemmas Storage_Model.

Section Dead.
Context {T : Type}.

(** The storages an operation works on. *)
Definition storages_used (x : op T) : list nat :=
  match x with
  | OCopyCtor s | OMoveCtor s | OConvCtor s | OProxyOf s | OResize s _ | OFill s _ | OWrite s _ _ | ORead s _ | OLoad s _ | ODestroy s => [s]
  | OCopyAssign d s | OMoveAssign d s | OSwap d s => [d; s]
  | _ => []
  end.
Definition gone (y : sys T) (s : nat) : Prop := nth_error (objs y) s = Some None.

Lemma gone_get (y : sys T) s : gone y s -> get_obj y s = UB DeadObject.
Proof. unfold gone, get_obj. now intros ->. Qed.
Lemma get_cases (y : sys T) s : (exists o, get_obj y s = Ok o) \/ get_obj y s = UB DeadObject.
Proof. unfold get_obj. destruct (nth_error (objs y) s) as [[o|]|]; eauto. Qed.
Lemma gone_app (l : list (option stor)) s v : nth_error l s = Some None -> nth_error (l ++ [v]) s = Some None.
Proof. intros H. rewrite nth_error_app1; [exact H|]. apply nth_error_Some. now rewrite H. Qed.

Lemma gone_upd (l : list (option stor)) s k v : s <> k -> nth_error l s = Some None -> nth_error (upd l k v) s = Some None.
Proof. intros N H. now rewrite nth_error_upd_ne by auto. Qed.

Lemma step_gone (y y1 : sys T) s x z : gone y s -> step y x = Ok (y1, z) -> gone y1 s.
Proof.
  intros G E. pose proof (gone_get y s G) as GG.
  assert (NE : forall k o, get_obj y k = Ok o -> s <> k) by (intros k o H ->; congruence).
  unfold gone in *.
  destruct x; cbn [step] in E;
    unfold quiet, s_copy_ctor, s_move_ctor, s_conv_ctor, s_resize, s_copy_assign, s_move_assign, s_swap, s_fill, s_write,
      s_read, s_load, s_destroy, s_default, s_fresh, new_obj, set_obj, h_alloc in E;
    repeat match goal with
    | H : Ok _ = Ok _ |- _ => injection H; clear H; intros; subst
    | H : bind ?a _ = Ok _ |- _ => destruct a eqn:?; cbn [bind] in H; try discriminate H
    | H : (if ?c then _ else _) = Ok _ |- _ => destruct c eqn:?; try discriminate H
    | H : (let '(_, _) := ?a in _) = Ok _ |- _ => destruct a; try discriminate H
    end; cbn [objs];
    repeat first [assumption | apply gone_app | apply gone_upd; [eapply NE; eassumption|]].
Qed.
Lemma run_gone ops : forall (y : sys T) s y1 zs, gone y s -> run y ops = Ok (y1, zs) -> gone y1 s.
Proof.
  induction ops as [|x t IH]; intros y s y1 zs G E; cbn [run] in E; [injection E as <- <-; exact G|].
  destruct (step y x) as [[y2 z]| | | |] eqn:Ex; cbn [bind] in E; try discriminate.
  destruct (run y2 t) as [[y3 zs']| | | |] eqn:Et; cbn [bind] in E; try discriminate. injection E as <- <-.
  eapply IH; [|exact Et]. eapply step_gone; eassumption.
Qed.
Lemma run_app a b (y : sys T) r : run y (a ++ b) = Ok r -> exists y1 z1 z2, run y a = Ok (y1, z1) /\ run y1 b = Ok (fst r, z2).
Proof.
  revert y r. induction a as [|x t IH]; intros y r E; cbn [app] in E.
  - destruct r as [y' z']. exists y, [], z'. auto.
  - cbn [run] in *. destruct (step y x) as [[y2 z]| | | |] eqn:Ex; cbn [bind] in *; try discriminate.
    destruct (run y2 (t ++ b)) as [[y3 zs]| | | |] eqn:Et; cbn [bind] in E; try discriminate. injection E as <-.
    destruct (IH _ _ Et) as (y4 & z1 & z2 & E1 & E2). rewrite E1. cbn [bind]. eexists _, _, _. eauto.
Qed.

(** C01.  Whatever a program does after destroying a storage object: every use of that
    object (copying, moving, converting, viewing, resizing, assigning to or from it,
    swapping, filling, reading, writing, loading into it, destroying it again) is a
    use of a dead object. *)
Theorem C01_destroyed_storage_is_gone (before : list (op T)) s (more : list (op T)) y outs x :
  run (sys0 (T := T)) (before ++ ODestroy s :: more) = Ok (y, outs) ->
  In s (storages_used x) -> step y x = UB DeadObject.
Proof.
  intros E HI. apply run_app in E as (y1 & z1 & z2 & _ & E). cbn [run step fst] in E. unfold quiet in E.
  destruct (s_destroy y1 s) as [y2| | | |] eqn:W; cbn [bind] in E; try discriminate.
  destruct (run y2 more) as [[y3 zs]| | | |] eqn:Em; cbn [bind] in E; try discriminate. injection E as E1 _. subst y3.
  assert (G : gone y s).
  { eapply run_gone; [|exact Em]. unfold gone. unfold s_destroy, get_obj in W.
    destruct (nth_error (objs y1) s) as [[o|]|] eqn:N; cbn [bind] in W; try discriminate.
    match type of W with bind ?a _ = _ => destruct a; cbn [bind] in W; try discriminate end. injection W as <-. cbn [objs].
    apply nth_error_upd_eq. apply nth_error_Some. congruence. }
  apply gone_get in G. destruct x as [| | |s0|s0|s0| | |s0|s0 n|d s0|d s0|d s0|s0 v|s0 i v|s0 i|s0 vs|s0]; cbn [storages_used] in HI; try contradiction;
    cbn [step]; unfold quiet, s_copy_ctor, s_move_ctor, s_conv_ctor, s_resize, s_copy_assign, s_move_assign, s_swap, s_fill, s_write,
      s_read, s_load, s_destroy;
    repeat (destruct HI as [HI|HI]; [|]); try contradiction; subst; rewrite ?G; try reflexivity;
    destruct (get_cases y d) as [[o V]|V]; rewrite V; cbn [bind]; rewrite ?G; reflexivity.
Qed.
End Dead.
Print Assumptions C01_destroyed_storage_is_gone.

Example C01_destroyed_nonvacuous :
  let p := [OSized 2; OFill 0 7%nat; OCopyCtor 0] ++ ODestroy 0 :: [OSized 3] in
  exists y outs, run (sys0 (T := nat)) p = Ok (y, outs) /\
    step y (ORead 0 1) = UB DeadObject /\ step y (ODestroy 0) = UB DeadObject /\ step y (OSwap 1 0) = UB DeadObject /\
    exists y2, step y (ORead 1 1) = Ok (y2, OVal (Some 7%nat)).
Proof.
  eexists _, _. split; [vm_compute; reflexivity|]. split; [reflexivity|]. split; [reflexivity|]. split; [reflexivity|].
  eexists. vm_compute. reflexivity.
Qed.
Print Assumptions C01_destroyed_nonvacuous.
