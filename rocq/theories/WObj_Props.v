(** C73: windows into matrices over whole programs: creation, copy, move,
    assignment, element access and traversal of windows interleaved with every
    life-cycle operation on the matrices they look into. *)
From Verif Require Import BaseLemmas Storage_Model Dense_Model Alias_Spec Alias_Proofs WObj_Model WObj_Spec WObj_Proofs WObj2_Proofs.

Section Props.
Context {T : Type} (dbg : bool).

(** Every program within the rules of WObj_Spec.v runs without undefined
    behaviour, reports what the specification says and leaves the memory the
    specification says, in debug and release builds. *)
Theorem C73_programs (ops : list (wop T)) x outs : xrun wst0 ops = Some (x, outs) ->
  exists m, wrun dbg wsys0 ops = Ok (m, outs) /\ memory_is (blocks (w_sys m)) (x_mem x).
Proof.
  intros E. destruct (xrun_sim dbg _ _ _ _ _ wrel0 E) as (m & H & R). exists m. split; auto.
  apply RB_memory. apply R.
Qed.

Lemma run_split (before : list (wop T)) s nr nc br bc (more : list (wop T)) x outs :
  xrun wst0 (before ++ VNew s nr nc br bc :: more) = Some (x, outs) ->
  forall t, holder (matrices before) s more = Some t -> forallb (keeps_window (windows before)) more = true ->
  exists m, wrun dbg wsys0 (before ++ VNew s nr nc br bc :: more) = Ok (m, outs) /\ WRel x m /\ views (x_mem x) /\
    onto x (windows before) t nr nc br bc.
Proof.
  intros E t H K. destruct (xrun_sim dbg _ _ _ _ _ wrel0 E) as (m & HM & R). exists m. split; auto. split; auto.
  split. { eapply xrun_views; [exact E|]. intros [|k] h Hh; discriminate. }
  rewrite xrun_app in E. destruct (xrun wst0 before) as [[x0 z0]|] eqn:E0; [|discriminate].
  cbn [xrun] in E. destruct (xstep x0 (VNew s nr nc br bc)) as [[x1 z1]|] eqn:E1; [|discriminate].
  destruct (xrun x1 more) as [[x2 z2]|] eqn:E2; [|discriminate]. injection E as -> _.
  destruct (xrun_counts _ _ _ _ E0) as (C1 & C2). cbn in C1, C2.
  destruct (xrun_sim dbg _ _ _ _ _ wrel0 E0) as (m0 & _ & R0). destruct (xstep_sim dbg _ _ _ _ _ R0 E1) as (m1 & _ & R1).
  pose proof (onto_new _ _ _ _ _ _ _ _ E1) as O. rewrite C2 in O.
  eapply (onto_run dbg); [exact R1|exact E2|exact O| |exact K].
  now rewrite (proj1 (xstep_counts _ _ _ _ E1)), C1.
Qed.

(** Make a window of matrix [s]; do anything that leaves the window alone; let [t]
    be the matrix that now holds the memory (it may have been moved or swapped
    around).  Then element (i,j) of the window is element (br+i, bc+j) of [t]:
    reading either gives the same value, writing either has the same effect. *)
Theorem C73_shared_elements (before : list (wop T)) s nr nc br bc (more : list (wop T)) x outs t :
  xrun wst0 (before ++ VNew s nr nc br bc :: more) = Some (x, outs) ->
  holder (matrices before) s more = Some t ->
  forallb (keeps_window (windows before)) more = true ->
  exists m, wrun dbg wsys0 (before ++ VNew s nr nc br bc :: more) = Ok (m, outs) /\
    let w := windows before in
    forall i j, i < nr -> j < nc ->
      (exists e : option T, wstep dbg m (VRead w i j) = Ok (m, WVal e) /\
                            wstep dbg m (WRead t (br + i) (bc + j)) = Ok (m, WVal e)) /\
      (forall v, exists m1,
         wstep dbg m (VWrite w i j v) = Ok (m1, WNone) /\
         wstep dbg m (WWrite t (br + i) (bc + j) v) = Ok (m1, WNone) /\
         wstep dbg m1 (VRead w i j) = Ok (m1, WVal (Some v)) /\
         wstep dbg m1 (WRead t (br + i) (bc + j)) = Ok (m1, WVal (Some v))).
Proof.
  intros E H K. destruct (run_split _ _ _ _ _ _ _ _ _ E t H K) as (m & HM & R & V & O). exists m. split; auto.
  cbn zeta. intros i j Hi Hj. destruct (onto_access dbg x m _ t nr nc br bc i j R O Hi Hj) as (A1 & A2).
  destruct (onto_read dbg x m _ t nr nc br bc i j R V O Hi Hj) as (e & Ee). split.
  - exists e. split; [now rewrite A1|exact Ee].
  - intros v. destruct (write_back dbg m t (br + i) (bc + j) e v Ee) as (m1 & W1 & W2 & _).
    exists m1. split; [now rewrite A2|]. split; [exact W1|]. split; [|exact W2].
    (* the window still looks at the same matrix *)
    assert (X : exists x1, WRel x1 m1 /\ onto x1 (windows before) t nr nc br bc).
    { pose proof O as (r & c & g & n & h & Hd & Hl & Hh & Hn & B1 & B2 & Hw).
      assert (exists x1, xstep x (VWrite (windows before) i j v) = Some (x1, WNone)) as (x1 & X1).
      { assert (exists x1 z, xstep x (VRead (windows before) i j) = Some (x1, z)) as (x1 & z1 & X1).
        { cbn [xstep]. rewrite Hw. unfold seen. cbn [v_region v_ldc v_rows v_cols].
          assert (P : exists k, nth_error (regions (x_mem x)) g = Some k /\ present (x_mem x) g = true).
          { pose proof (proj1 (live_nth _ _ _) Hl) as Hx. pose proof (wf_hok _ _ _ _ (rel_wf _ _ (wr_mem _ _ R)) Hx) as Kh.
            destruct Hh as [->| ->]; cbn in Kh.
            - destruct Kh as (k & Hk & Kk & Lk). exists k. split; auto. unfold present. rewrite Hk, Kk.
              apply existsb_owned. now exists t, n.
            - destruct Kh as (k & Hk & Lk). exists k. split; auto. unfold present. rewrite Hk.
              apply V in Hx. cbn in Hx. destruct Hx as (k' & Hk' & NK). rewrite Hk in Hk'. injection Hk' as <-. now destruct (r_kind k). }
          destruct P as (k & Hk & Pr). rewrite Hk, Pr.
          destruct (Nat.ltb_spec i nr); [|lia]. destruct (Nat.ltb_spec j nc); [|lia]. cbn [andb].
          destruct (nth_error (r_cells k) _) eqn:F; [eauto|].
          apply nth_error_None in F. pose proof (swin_get _ _ _ _ R Hw) as (_ & _ & WW).
          pose proof (place_lt _ _ _ i j WW Hk Hi Hj). lia. }
        cbn [xstep] in X1 |- *. rewrite Hw in *. destruct (seen x _); [|discriminate]. cbn [v_ldc v_rows v_cols] in *.
        destruct ((i <? nr) && (j <? nc)); [eauto|discriminate]. }
      destruct (xstep_sim dbg _ _ _ _ _ R X1) as (m2 & X2 & R2). rewrite A2, W1 in X2. injection X2 as <-.
      exists x1. split; auto. eapply onto_step; [exact R|exact X1|exact O|reflexivity|reflexivity]. }
    destruct X as (x1 & R1 & O1). now rewrite (proj1 (onto_access dbg x1 m1 _ t nr nc br bc i j R1 O1 Hi Hj)).
Qed.

(** If that matrix is responsible for its memory and gives it up (destruction,
    resize to another size, assignment from another matrix, move assignment),
    every later access through the window is a use after free. *)
Theorem C73_dangling (before : list (wop T)) s nr nc br bc (more : list (wop T)) x outs t g n o x1 z :
  xrun wst0 (before ++ VNew s nr nc br bc :: more) = Some (x, outs) ->
  holder (matrices before) s more = Some t ->
  forallb (keeps_window (windows before)) more = true ->
  live (x_mem x) t = Some (HOwn g n) -> releases x t o = true -> xstep x o = Some (x1, z) ->
  exists m m1, wrun dbg wsys0 (before ++ VNew s nr nc br bc :: more) = Ok (m, outs) /\
    wstep dbg m o = Ok (m1, z) /\
    let w := windows before in
    (forall i j, i < nr -> j < nc ->
       wstep dbg m1 (VRead w i j) = UB UseAfterFree /\
       forall v : T, wstep dbg m1 (VWrite w i j v) = UB UseAfterFree) /\
    (0 < nr -> 0 < nc -> (Z.of_nat n < 2 ^ 63)%Z ->
       (forall v : T, wstep dbg m1 (VAll w v) = UB UseAfterFree) /\
       (forall chk (v : T), wstep dbg m1 (VDense w chk v) = UB UseAfterFree)).
Proof.
  intros E H K Hl RL ST. destruct (run_split _ _ _ _ _ _ _ _ _ E t H K) as (m & HM & R & V & O).
  destruct (xstep_sim dbg _ _ _ _ _ R ST) as (m1 & S1 & R1). exists m, m1. split; auto. split; auto. cbn zeta.
  destruct O as (r & c & g' & n' & h & Hd & Hl' & Hh & Hn & B1 & B2 & Hw).
  rewrite Hl in Hl'. injection Hl' as <-. destruct Hh as [Hh|Hh]; [|discriminate]. injection Hh as <- <-.
  assert (P : present (x_mem x1) g = false).
  { eapply released; [exact R|exact ST|exact RL|exact Hl|]. intros r' c' Hd'. rewrite Hd in Hd'. now injection Hd' as <- <-. }
  assert (Hw1 : swin_of x1 (windows before) = Some (mkSwin g (br + bc * r) nr nc r (Some c))).
  { destruct o; cbn [releases] in RL; try discriminate; cbn [xstep] in ST;
      repeat match type of ST with
             | match nth_error ?l ?i with _ => _ end = _ => destruct (nth_error l i); [|discriminate ST]
             end; unfold on_mem in ST;
      (match type of ST with match astep ?a ?q with _ => _ end = _ => destruct (astep a q) as [[? ?]|]; [|discriminate ST] end);
      injection ST as <- _; exact Hw. }
  destruct (gone_access dbg x1 m1 _ _ R1 Hw1 P) as (A & B). cbn [v_rows v_cols] in A. split; [exact A|].
  intros Hr Hc L. apply B. unfold traversable. cbn [v_rows v_cols v_stride].
  destruct (Nat.leb_spec 1 nr); [|lia]. destruct (Nat.leb_spec 1 nc); [|lia]. cbn [andb]. apply Z.ltb_lt. subst n. nia.
Qed.

(** Refuted: a window constructed by move shows what the source showed.  The new
    window has the leading dimension 0: whatever the column, it reads the first
    one.  (Traversing it still visits the right elements: C73_programs.) *)
Theorem C73_moved_window_refuted (before : list (wop T)) s nr nc br bc (more : list (wop T)) x outs t :
  xrun wst0 (before ++ VNew s nr nc br bc :: more) = Some (x, outs) ->
  holder (matrices before) s more = Some t ->
  forallb (keeps_window (windows before)) more = true ->
  exists m m1, wrun dbg wsys0 (before ++ VNew s nr nc br bc :: more) = Ok (m, outs) /\
    let w := windows before in
    let w' := windows (before ++ VNew s nr nc br bc :: more) in
    @wstep T dbg m (VMove w) = Ok (m1, WNone) /\
    wstep dbg m1 (VLd w') = Ok (m1, WPair 0 0) /\
    forall i j, i < nr -> j < nc -> wstep dbg m1 (VRead w' i j) = wstep dbg m1 (WRead t (br + i) bc).
Proof.
  intros E H K. destruct (run_split _ _ _ _ _ _ _ _ _ E t H K) as (m & HM & R & V & O).
  pose proof O as (r & c & g & n & h & Hd & Hl & Hh & Hn & B1 & B2 & Hw).
  destruct (xrun_counts _ _ _ _ E) as (_ & C2). cbn in C2.
  assert (ST : exists x1, xstep x (VMove (windows before)) = Some (x1, WNone)) by (cbn [xstep]; rewrite Hw; eauto).
  destruct ST as (x1 & ST).
  destruct (moved_access dbg x m _ _ _ _ R Hw ltac:(discriminate) ST) as (m1 & M1 & R1 & A & L).
  exists m, m1. split; auto. cbn zeta. rewrite <- C2. split; [exact M1|]. split; [exact L|].
  intros i j Hi Hj. rewrite (A i j Hi Hj).
  assert (O1 : onto x1 (windows before) t nr nc br bc).
  { eapply onto_step; [exact R|exact ST|exact O|reflexivity|reflexivity]. }
  rewrite (proj1 (onto_access dbg x1 m1 _ t nr nc br bc i 0 R1 O1 Hi ltac:(lia))). now rewrite Nat.add_0_r.
Qed.

(** Refuted: assigning a window copies elements.  In every state, assignment (and
    move assignment) of windows changes no memory; the target shows from then on
    exactly what the source shows. *)
Theorem C73_assignment_rebinds m d w m1 z o : o = VAssign d w \/ o = VMoveAssign d w ->
  @wstep T dbg m o = Ok (m1, z) ->
  w_sys m1 = w_sys m /\ w_dims m1 = w_dims m /\
  forall i j, wstep dbg m1 (VRead d i j) = wstep dbg m1 (VRead w i j) /\
    forall v, wstep dbg m1 (VWrite d i j v) = wstep dbg m1 (VWrite w i j v).
Proof.
  intros Ho E.
  assert (E' : (do v <- win_of m w; do _ <- win_of m d; Ok (mkWsys (w_sys m) (w_dims m) (upd (w_wins m) d (Some v)), @WNone T)) = Ok (m1, z))
    by (destruct Ho as [->| ->]; exact E).
  destruct (win_of m w) as [v| | | |] eqn:Gw; try discriminate. destruct (win_of m d) as [u| | | |] eqn:Gd; try discriminate.
  cbn [bind] in E'. injection E' as <- _. cbn [w_sys w_dims]. split; auto. split; auto.
  unfold win_of in Gw, Gd. destruct (nth_error (w_wins m) w) as [[v'|]|] eqn:Hw; try discriminate. injection Gw as ->.
  destruct (nth_error (w_wins m) d) as [[u'|]|] eqn:Hd; try discriminate.
  assert (D1 : nth_error (upd (w_wins m) d (Some v)) d = Some (Some v)).
  { apply nth_error_upd_eq. apply nth_error_Some. congruence. }
  assert (D2 : nth_error (upd (w_wins m) d (Some v)) w = Some (Some v)).
  { destruct (Nat.eq_dec d w) as [->|N]; [exact D1|]. now rewrite nth_error_upd_ne by congruence. }
  intros i j. cbn [wstep]. unfold win_of. cbn [w_wins]. rewrite D1, D2. auto.
Qed.
End Props.

(** ** The hypotheses are met *)
Open Scope Z_scope.
Definition c73_before : list (wop Z) :=
  [WSized 3 3; WAll 0 0; WSized 2 2; WAll 1 7; VNew 1 1 1 0 0].
Definition c73_more : list (wop Z) :=
  [VWrite 1 0 1 5; WWrite 0 2 1 6; VCopy 1; WMoveCtor 0; WSwap 2 1; VAll 2 9; WWrite 1 1 2 4; VDense 1 (fun _ => true) 0;
   WResize 2 5 5].
Theorem C73_nonvacuous :
  (* window 1 = rows 1..2, columns 1..2 of matrix 0, whose memory ends up in matrix 1 *)
  holder (matrices c73_before) 0 c73_more = Some 1%nat /\
  forallb (keeps_window (windows c73_before)) c73_more = true /\
  (exists x outs, xrun wst0 (c73_before ++ VNew 0 2 2 1 1 :: c73_more) = Some (x, outs) /\
     (exists g n, live (x_mem x) 1 = Some (HOwn g n)) /\ releases x 1 (WMoveAssign 1 2) = true /\
     xstep x (WMoveAssign 1 2) <> None) /\
  (exists m outs, wrun true wsys0 (c73_before ++ VNew 0 2 2 1 1 :: c73_more ++
        [VRead 1 0 0; VRead 1 0 1; VRead 1 1 1; WRead 1 1 2; WRead 3 0 0; VMove 1; VRead 3 0 1; WRead 1 0 0]) = Ok (m, outs) /\
     skipn 15 outs = [WVal (Some 9); WVal (Some 4); WVal (Some 9); WVal (Some 4); WVal (Some 9); WNone; WVal (Some 9); WVal (Some 0)]) /\
  (exists m outs, wrun true wsys0 (c73_before ++ [VNew 0 2 2 1 1; VAssign 0 1]) = Ok (m, outs)).
Proof.
  split; [reflexivity|]. split; [reflexivity|]. split.
  - do 2 eexists. split; [vm_compute; reflexivity|]. split; [do 2 eexists; reflexivity|]. split; [reflexivity|]. vm_compute; discriminate.
  - split; do 2 eexists; [split|]; vm_compute; reflexivity.
Qed.
