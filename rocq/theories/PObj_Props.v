(** C74: run-time typed matrices and blocked matrices are shared handles.  Programs
    of arbitrary length that construct, copy, assign, combine, change and read
    them (PObj_Model.v), against the specification by values (PObj_Spec.v). *)
From Verif Require Import Base BaseLemmas Dense_Model Sparse_Model Mult_Model Dyn_Model PObj_Model PObj_Spec
  PObj_Proofs PObj2_Proofs PObj3_Proofs PObj4_Proofs PObj5_Proofs Dense_Props Sparse_Props Mult_Props Dyn_Props.

Section Props.
Context {F D : Type} (ar : arith F D) (ready : mty -> bool) (p : policy) (exc dbg : bool).
Let step := pstep ar ready p exc dbg.
Let run := prun ar ready p exc dbg.
Let reached := reachable ar ready p exc dbg.

(** As long as only matrices nothing else refers to are changed in place, a
    program reports exactly what it would report if every variable and every block
    were a value of its own: same numbers, same matrices, same exceptions, same
    assertion failures, same undefined behaviour. *)
Theorem C74_programs (ops : list (pop F D)) r : vrun ar ready p exc dbg vst0 ops = Some r ->
  rmap snd (run pst0 ops) = rmap snd r.
Proof.
  intros E. pose proof (run_sim ar ready p exc dbg ops _ _ r sim0 E) as H. fold run in H.
  destruct (run pst0 ops) as [[m zs]| | | |], r as [[s zs']| | | |]; cbn in H |- *; try contradiction; try congruence.
  destruct H as [_ H]. congruence.
Qed.

(** No program ever uses a handle of an object that does not exist: in every
    reachable state every variable and every block can be read. *)
Theorem C74_handles_valid m : reached m ->
  (forall v q, nth_error (p_var m) v = Some q -> exists x, load (p_heap m) q = Ok x) /\
  (forall b B, nth_error (p_blk m) b = Some B -> exists V, load_blocked (p_heap m) B = Ok V).
Proof.
  intros R. apply reach_inv in R. split; [intros v q; now apply var_loads|].
  destruct R as [s S]. intros b B E. destruct (blk_cases m s b S) as [[H _]|(B' & V & EB & _ & H)]; [congruence|].
  exists V. apply load_blocked_rel. congruence.
Qed.

(** Calls other than op= and element writes change no matrix: what could be read
    through a handle before reads the same after. *)
Theorem C74_reads_preserved m x m' out : reached m -> changes x = false -> step m x = Ok (m', out) ->
  (forall q v, load (p_heap m) q = Ok v -> load (p_heap m') q = Ok v) /\
  (forall v q, (forall s, x <> PAssign v s) -> nth_error (p_var m) v = Some q -> nth_error (p_var m') v = Some q) /\
  (forall b B, (forall i j v s, x <> BSet b i j v /\ x <> BAssign b s) -> nth_error (p_blk m) b = Some B -> nth_error (p_blk m') b = Some B).
Proof.
  intros R C E. apply reach_inv in R. split; [|split].
  - destruct (step_grows ar ready p exc dbg m x m' out R C E) as [l El]. rewrite El. intros q v. apply load_app.
  - intros v q H Ev. clear R. unfold step in E.
    destruct x; cbn [pstep changes] in E, C; try discriminate; repeat ok E; try apply catch_cases in E as [(z & Ez & E)|(_ & -> & _)];
      try (unfold add_var, add_blk in E; cbn [fst snd] in E); try (injection E as <- <-); cbn [p_var]; auto using nth_app1.
    rewrite nth_error_upd_ne; auto. intros ->. eapply H; reflexivity.
  - intros b B H Eb. clear R. unfold step in E.
    destruct x; cbn [pstep changes] in E, C; try discriminate; repeat ok E; try apply catch_cases in E as [(z & Ez & E)|(_ & -> & _)];
      try (unfold add_var, add_blk in E; cbn [fst snd] in E); try (injection E as <- <-); cbn [p_blk]; auto using nth_app1.
    + rewrite nth_error_upd_ne; auto. intros ->. edestruct H as [H1 _]. apply H1. reflexivity.
    + rewrite nth_error_upd_ne; auto. intros ->. edestruct H as [_ H1]. apply H1. reflexivity.
Unshelve. all: exact 0.
Qed.

(** A result of [new], of an operator or of the converter is a new matrix: no other
    variable, no block and no two-part matrix refers to it. *)
Theorem C74_results_fresh m x m' out : reached m ->
  (match x with PLeaf _ | POp _ _ _ | PConvert _ _ => True | _ => False end) ->
  step m x = Ok (m', out) -> out = PNone ->
  exists c, nth_error (p_var m') (length (p_var m)) = Some (Some c) /\
    (forall w, nth_error (p_var m') w = Some (Some c) -> w = length (p_var m)) /\
    (forall B, In B (p_blk m') -> ~ In (Some (Some c)) (d_buf (hb_mat B))) /\
    (forall a t1 t2 p1 p2, nth_error (p_heap m') a = Some (HM t1 t2 p1 p2) -> p1 <> Some c /\ p2 <> Some c).
Proof.
  intros R X E Eo. apply reach_inv in R as [s S].
  assert (V : exists r, vstep ar ready p exc dbg s x = Some r) by (destruct x; cbn [vstep] in *; try contradiction; eauto).
  destruct V as [r Er]. pose proof (step_sim ar ready p exc dbg m s x r S Er) as H. fold step in H. rewrite E in H.
  destruct r as [[s' z]| | | |]; cbn in H; try contradiction. destruct H as [S' Ez]. cbn in S', Ez. subst z out.
  pose proof (Forall2_len _ _ _ (sim_var _ _ S)) as Le.
  assert (K : exists d, nth_error (v_var s') (length (p_var m)) = Some (Some d, true)).
  { destruct x; cbn [vstep] in Er; try contradiction;
      apply (f_equal (fun o => match o with Some r => r | None => Diverge end)) in Er; cbv beta iota in Er.
    - injection Er as <-. cbn. rewrite Le, nth_last. eauto.
    - repeat ok Er. destruct (value_op ar ready p dbg k a0 a1) as [z| | | |] eqn:Ev; cbn in Er; try discriminate; injection Er as <-.
      assert (exists d, z = Some d) as [d ->].
      { destruct k; cbn [value_op] in Ev; unfold mul_ptr, add_ptr, sub_ptr in Ev; apply exec_dyn_result in Ev as (y1 & y2 & Ev); ok Ev; injection Ev as <-; eauto. }
      cbn. rewrite Le, nth_last. eauto.
    - destruct (convert ar exc dbg th m0) as [z| | | |]; cbn in Er; try discriminate; injection Er as <-.
      cbn. rewrite Le, nth_last. eauto. }
  destruct K as [d K]. destruct (var_cases m' s' (length (p_var m)) S') as [[_ H]|(q & y & w & Eq & Ey & L)]; [congruence|].
  rewrite K in Ey. injection Ey as <- <-. destruct q as [c|]; [|cbn in L; discriminate].
  exists c. split; auto. exact (sim_own _ _ S' _ _ _ Eq K).
Qed.

(** [a op= b], whatever the two refer to.  The variables and blocks keep their
    handles; if the call throws no matrix changes; if it returns at most the one
    matrix [a] refers to changes, it was dense and keeps its type.  So the change is
    seen through every other variable, block and two-part matrix that refers to
    it, and through nothing else. *)
Theorem C74_update m o a b m' out : reached m -> step m (PAsg o a b) = Ok (m', out) ->
  p_var m' = p_var m /\ p_blk m' = p_blk m /\ (out = PThrew -> p_heap m' = p_heap m) /\ (out = PThrew \/ out = PNone) /\
  (p_heap m' = p_heap m \/
   exists c d d', nth_error (p_var m) a = Some (Some c) /\ nth_error (p_heap m) c = Some (HL d) /\
     (leaf_ty d = TD EF \/ leaf_ty d = TD ED) /\ leaf_ty d' = leaf_ty d /\ p_heap m' = upd (p_heap m) c (HL d')).
Proof.
  intros R E. apply reach_inv in R.
  destruct (step_asg ar ready p exc dbg _ _ _ _ _ _ R E) as (x & y & q & E1 & E2 & Ed & Ev & Eb & Eo).
  split; auto. split; auto. split; [|split; [destruct Eo as [[_ ->]|[_ ->]]; auto|]].
  - intros ->. destruct Eo as [[_ Eo]|[-> _]]; [discriminate|].
    exact (dispatch_throw ar ready dbg o m (p_heap m') x y R (var_loads _ _ _ R E1) (var_loads _ _ _ R E2) Ed).
  - destruct (dispatch_cases ar ready dbg o m _ _ _ _ R (var_loads _ _ _ R E1) (var_loads _ _ _ R E2) Ed) as [H|(c & d & l' & -> & Ec & Hd & Eh & T)]; auto.
    right. exists c, d, l'. repeat split; auto. destruct d; cbn in *; auto; discriminate.
Qed.

(** A two-part, sparse or zero matrix is never changed by op=. *)
Theorem C74_only_dense_change m o a b m' out q v : reached m -> step m (PAsg o a b) = Ok (m', out) ->
  nth_error (p_var m) a = Some q -> load (p_heap m) q = Ok v ->
  (match v with Some (DL d) => leaf_ty d <> TD EF /\ leaf_ty d <> TD ED | _ => True end) -> p_heap m' = p_heap m.
Proof.
  intros R E Ea L Hv. destruct (C74_update _ _ _ _ _ _ R E) as (_ & _ & _ & _ & [H|(c & d & d' & Ea' & Ec & T & _)]); auto.
  exfalso. rewrite Ea in Ea'. injection Ea' as ->. cbn in L. rewrite Ec in L. injection L as <-. tauto.
Qed.

(** The new value is the one the specification by values gives, unless the target
    is itself a part of the right operand. *)
Theorem C74_update_value m o a b x y vx vy : reached m ->
  nth_error (p_var m) a = Some x -> nth_error (p_var m) b = Some y -> load (p_heap m) x = Ok vx -> load (p_heap m) y = Ok vy ->
  (forall c e t1 t2 p1 p2, x = Some c -> y = Some e -> nth_error (p_heap m) e = Some (HM t1 t2 p1 p2) -> p1 <> Some c /\ p2 <> Some c) ->
  (x = y -> windowless vx = true) ->
  match asg_ptr ar ready o dbg vx vy with
  | Ok z => exists m', step m (PAsg o a b) = Ok (m', PNone) /\ load (p_heap m') x = Ok z
  | Throw => step m (PAsg o a b) = Ok (m, PThrew)
  | AssertFail => step m (PAsg o a b) = AssertFail
  | UB u => step m (PAsg o a b) = UB u
  | Diverge => step m (PAsg o a b) = Diverge
  end.
Proof.
  intros R Ea Eb Lx Ly Hp Hw. apply reach_inv in R as [s S].
  unfold asg_ptr. rewrite (exec_split ready (fun a b => do c <- asg_dyn ar o dbg a b; Ok (Some c))).
  unfold step. cbn [pstep]. unfold var_of. rewrite Ea, Eb. cbn [bind]. unfold asg_dispatch. rewrite Lx, Ly. cbn [bind].
  destruct (exec_dyn_2dim ready (fun _ _ => Ok tt) vx vy) as [[]| | | |] eqn:Ex; cbn [bind catch]; auto; [|destruct m; reflexivity].
  destruct vx as [vx|]; [|cbn in Ex; discriminate]. destruct vy as [vy|]; [|cbn in Ex; discriminate].
  destruct x as [c|]; [|cbn in Lx; discriminate]. destruct y as [e|]; [|cbn in Ly; discriminate].
  destruct (in_place (Some vx)) eqn:Hi.
  - destruct vx as [l|]; [|discriminate].
    assert (Ec : nth_error (p_heap m) c = Some (HL l)) by (apply load_inv in Lx as [(l' & Ec & El)|(t1 & t2 & p1 & p2 & m1 & m2 & _ & _ & _ & El)]; congruence).
    pose proof (asg_heap_dense ar o dbg (p_heap m) c e l vy (sim_wf _ _ S) Ec) as AD.
    destruct (asg_heap ar o dbg (p_heap m) c e) as [h1 q].
    assert (K1 : dense_leaf l = true) by (destruct l; auto; discriminate).
    assert (K2 : c = e -> windowless (Some (DL l)) = true) by (intros ->; auto).
    specialize (AD K1 Ly K2 (fun t1 t2 p1 p2 => Hp c e t1 t2 p1 p2 eq_refl eq_refl)). destruct AD as [AR AT].
    destruct (asg_dyn ar o dbg (DL l) vy) as [d| | | |], q as [[]| | | |]; cbn in AR |- *; try contradiction; try congruence.
    + destruct AR as (x' & -> & T & ->). eexists. split; [reflexivity|]. cbn. rewrite nth_error_upd_eq; auto. apply nth_error_Some. congruence.
    + rewrite AT by auto. destruct m; reflexivity.
  - assert (T1 := exec_listed ready _ _ _ _ Ex). assert (T2 := exec_listed2 ready _ _ _ _ Ex).
    destruct (asg_heap_const ar o dbg (p_heap m) c e vx vy (sim_wf _ _ S) Lx Ly Hi T1 T2) as (q & -> & AR).
    destruct (asg_dyn ar o dbg vx vy) as [d| | | |], q as [[]| | | |]; cbn [rrel bind catch] in *; try contradiction; try congruence.
    + subst d. eexists. split; [reflexivity|]. exact Lx.
    + destruct m; reflexivity.
Qed.

(** A copy stays the same matrix for ever: after [DynamicMatrix w(v)], until one of
    the two is assigned to, whatever the program does, both read the same. *)
Definition not_assigned (v : nat) (x : pop F D) : bool := match x with PAssign d _ => negb (d =? v) | _ => true end.

Theorem C74_copy_is_alias m v ops m' outs : reached m -> v < length (p_var m) ->
  run m (PCopy v :: ops) = Ok (m', outs) ->
  forallb (fun x => not_assigned v x && not_assigned (length (p_var m)) x) ops = true ->
  rmap snd (step m' (PToDense v)) = rmap snd (step m' (PToDense (length (p_var m)))) /\
  rmap snd (step m' (PRows v)) = rmap snd (step m' (PRows (length (p_var m)))) /\
  rmap snd (step m' (PCols v)) = rmap snd (step m' (PCols (length (p_var m)))).
Proof.
  intros R Hv E Hn. set (n := length (p_var m)) in *.
  assert (Same : exists q, nth_error (p_var m') v = Some q /\ nth_error (p_var m') n = Some q).
  { unfold run in E. cbn [prun pstep] in E. unfold var_of in E. destruct (nth_error (p_var m) v) as [q|] eqn:Eq; [|cbn in E; discriminate]. cbn [bind] in E.
    set (m1 := mkPst (fst (p_heap m, q)) (p_var m ++ [snd (p_heap m, q)]) (p_blk m)) in E.
    change (add_var m (p_heap m, q)) with (m1, PNone : pout D) in E. cbn [bind] in E.
    destruct (prun ar ready p exc dbg m1 ops) as [[m2 zs]| | | |] eqn:Er; cbn [bind] in E; try discriminate. injection E as -> _.
    exists q. assert (G1 : nth_error (p_var m1) v = Some q) by (cbn; now apply nth_app1). assert (G2 : nth_error (p_var m1) n = Some q) by (cbn; apply nth_last).
    clearbody m1. clear Eq R. revert m1 zs Er G1 G2. induction ops as [|x ops IH]; cbn [prun]; intros m1 zs Er G1 G2; [injection Er as <- _; auto|].
    cbn [forallb] in Hn. apply andb_prop in Hn as [Hx Hn]. apply andb_prop in Hx as [X1 X2].
    destruct (pstep ar ready p exc dbg m1 x) as [[m3 z]| | | |] eqn:Es; cbn [bind] in Er; try discriminate.
    destruct (prun ar ready p exc dbg m3 ops) as [[m4 zs4]| | | |] eqn:Er4; cbn [bind] in Er; try discriminate. injection Er as -> _.
    eapply IH; eauto; eapply step_keeps_var; eauto. }
  destruct Same as (q & G1 & G2). unfold step. cbn [pstep]. unfold var_of. rewrite G1, G2. auto.
Qed.

(** The same for blocked matrices: [BlockedDenseMatrix c(b)] copies the handles. *)
Definition blk_not_assigned (b : nat) (x : pop F D) : bool :=
  match x with BSet d _ _ _ => negb (d =? b) | BAssign d _ => negb (d =? b) | _ => true end.
Lemma step_keeps_blk m x m' out b B : blk_not_assigned b x = true ->
  step m x = Ok (m', out) -> nth_error (p_blk m) b = Some B -> nth_error (p_blk m') b = Some B.
Proof.
  intros H E Ev. unfold step in E.
  destruct x; cbn [pstep blk_not_assigned] in E, H; repeat ok E;
    try (match type of E with context [asg_dispatch ?a ?b ?c ?d ?e ?f ?g] => destruct (asg_dispatch a b c d e f g) as [h1 r0] end);
    try (match type of E with context [match ?a with Some _ => _ | None => UB NullDeref end] => destruct a as [c0|]; [|discriminate] end);
    try (match type of E with context [nth_error (p_heap m) ?c] => destruct (nth_error (p_heap m) c) as [[[]|]|]; try discriminate end); repeat ok E;
    try apply catch_cases in E as [(z & Ez & E)|(_ & -> & _)];
    try (unfold add_var, add_blk in E; cbn [fst snd] in E); try (injection E as <- <-); cbn [p_blk]; auto using nth_app1;
    (rewrite nth_error_upd_ne; auto; match type of H with negb (?d =? ?b) = true => destruct (Nat.eqb_spec d b); auto; discriminate end).
Qed.
Theorem C74_blocked_copy_is_alias m b ops m' outs : reached m -> b < length (p_blk m) ->
  run m (BCopy b :: ops) = Ok (m', outs) ->
  forallb (fun x => blk_not_assigned b x && blk_not_assigned (length (p_blk m)) x) ops = true ->
  rmap snd (step m' (BToDense b)) = rmap snd (step m' (BToDense (length (p_blk m)))) /\
  (forall i j, step m' (BGet b i j) = step m' (BGet (length (p_blk m)) i j)).
Proof.
  intros R Hv E Hn. set (n := length (p_blk m)) in *.
  assert (Same : exists q, nth_error (p_blk m') b = Some q /\ nth_error (p_blk m') n = Some q).
  { unfold run in E. cbn [prun pstep] in E. unfold blk_of in E. destruct (nth_error (p_blk m) b) as [q|] eqn:Eq; [|cbn in E; discriminate]. cbn [bind] in E.
    set (m1 := mkPst (fst (p_heap m, q)) (p_var m) (p_blk m ++ [snd (p_heap m, q)])) in E.
    change (add_blk m (p_heap m, q)) with (m1, PNone : pout D) in E. cbn [bind] in E.
    destruct (prun ar ready p exc dbg m1 ops) as [[m2 zs]| | | |] eqn:Er; cbn [bind] in E; try discriminate. injection E as -> _.
    exists q. assert (G1 : nth_error (p_blk m1) b = Some q) by (cbn; now apply nth_app1). assert (G2 : nth_error (p_blk m1) n = Some q) by (cbn; apply nth_last).
    clearbody m1. clear Eq R. revert m1 zs Er G1 G2. induction ops as [|x ops IH]; cbn [prun]; intros m1 zs Er G1 G2; [injection Er as <- _; auto|].
    cbn [forallb] in Hn. apply andb_prop in Hn as [Hx Hn]. apply andb_prop in Hx as [X1 X2].
    destruct (pstep ar ready p exc dbg m1 x) as [[m3 z]| | | |] eqn:Es; cbn [bind] in Er; try discriminate.
    destruct (prun ar ready p exc dbg m3 ops) as [[m4 zs4]| | | |] eqn:Er4; cbn [bind] in Er; try discriminate. injection Er as -> _.
    eapply IH; eauto; eapply step_keeps_blk; eauto. }
  destruct Same as (q & G1 & G2). unfold step. cbn [pstep]. unfold blk_of. rewrite G1, G2. auto.
Qed.

(** [DynamicMatrix v(b(i,j))] is the block itself: until the block or the variable is
    assigned to, whatever the program does, [b(i,j)] gives the handle [v] has. *)
Theorem C74_block_is_alias m b i j ops m' outs : reached m -> 
  run m (BGet b i j :: ops) = Ok (m', outs) ->
  forallb (fun x => blk_not_assigned b x && not_assigned (length (p_var m)) x) ops = true ->
  exists q m'', nth_error (p_var m') (length (p_var m)) = Some q /\
    step m' (BGet b i j) = Ok (m'', PNone) /\ nth_error (p_var m'') (length (p_var m')) = Some q.
Proof.
  intros R E Hn. set (n := length (p_var m)) in *.
  assert (Same : exists B q, nth_error (p_blk m') b = Some B /\ nth_error (p_var m') n = Some q /\ dget dbg (hb_mat B) i j = Ok q).
  { unfold run in E. cbn [prun pstep] in E. unfold blk_of in E. destruct (nth_error (p_blk m) b) as [B|] eqn:Eq; [|cbn in E; discriminate]. cbn [bind] in E.
    destruct (dget dbg (hb_mat B) i j) as [q| | | |] eqn:Eg; cbn [bind] in E; try discriminate.
    set (m1 := mkPst (fst (p_heap m, q)) (p_var m ++ [snd (p_heap m, q)]) (p_blk m)) in E.
    change (add_var m (p_heap m, q)) with (m1, PNone : pout D) in E. cbn [bind] in E.
    destruct (prun ar ready p exc dbg m1 ops) as [[m2 zs]| | | |] eqn:Er; cbn [bind] in E; try discriminate. injection E as -> _.
    exists B, q. assert (G1 : nth_error (p_blk m1) b = Some B) by exact Eq. assert (G2 : nth_error (p_var m1) n = Some q) by (cbn; apply nth_last).
    clearbody m1. clear Eq R. revert m1 zs Er G1 G2. induction ops as [|x ops IH]; cbn [prun]; intros m1 zs Er G1 G2; [injection Er as <- _; auto|].
    cbn [forallb] in Hn. apply andb_prop in Hn as [Hx Hn]. apply andb_prop in Hx as [X1 X2].
    destruct (pstep ar ready p exc dbg m1 x) as [[m3 z]| | | |] eqn:Es; cbn [bind] in Er; try discriminate.
    destruct (prun ar ready p exc dbg m3 ops) as [[m4 zs4]| | | |] eqn:Er4; cbn [bind] in Er; try discriminate. injection Er as -> _.
    eapply IH; eauto; [eapply step_keeps_blk|eapply step_keeps_var]; eauto. }
  destruct Same as (B & q & G1 & G2 & G3). exists q. unfold step. cbn [pstep]. unfold blk_of. rewrite G1. cbn [bind]. rewrite G3. cbn [bind].
  eexists. split; auto. split; [reflexivity|]. cbn. apply nth_last.
Qed.

(** An element written through a handle is written into the one matrix it refers to. *)
Theorem C74_write m v i j w m' out : step m (PPut v i j w) = Ok (m', out) ->
  exists c d d', nth_error (p_var m) v = Some (Some c) /\ nth_error (p_heap m) c = Some (HL (LDd d)) /\ dset dbg d i j w = Ok d' /\
    m' = mkPst (upd (p_heap m) c (HL (LDd d'))) (p_var m) (p_blk m) /\ out = PNone.
Proof.
  intros E. unfold step in E. cbn [pstep] in E. unfold var_of in E. destruct (nth_error (p_var m) v) as [[c|]|] eqn:Ev; cbn [bind] in E; try discriminate.
  destruct (nth_error (p_heap m) c) as [[[z|z|z|z|d]|]|] eqn:Ec; try discriminate. ok E. injection E as <- <-. exists c, d. eexists. eauto.
Qed.
End Props.
Print Assumptions C74_programs.
Print Assumptions C74_handles_valid.
Print Assumptions C74_reads_preserved.
Print Assumptions C74_results_fresh.
Print Assumptions C74_update.
Print Assumptions C74_only_dense_change.
Print Assumptions C74_update_value.
Print Assumptions C74_copy_is_alias.
Print Assumptions C74_blocked_copy_is_alias.
Print Assumptions C74_block_is_alias.
Print Assumptions C74_write.

(** ** Programs *)
Definition all_ready (t : mty) : bool := true.
Notation zrun := (prun zar all_ready PNative true true pst0).
Definition d11 (x : Z) : dense Z := mkDense (own_shape ColMajor 1 1) 1 [Some x] true.
(** The element of a 1x1 matrix a call returned. *)
Definition shown (z : option (pout Z)) : res Z := match z with Some (PMat d) => dget true d 0 0 | _ => Throw end.
Definition s11 (x : Z) : sparse Z := mkSparse ColMajor 1 1 1 [Some x] [Some 0] [Some 0; Some 1].

(** A program that stays within the rules of PObj_Spec.v: it builds matrices, a
    two-part matrix and a blocked matrix, combines them, changes owners in place,
    catches an exception and reads everything. *)
Definition prog : list (pop Z Z) :=
  [ PLeaf (LDd demoC); PLeaf (LDd demoC); PAsg Plus 0 1; PPut 0 0 0 7%Z; PToDense 0; PToDense 1;
    PLeaf (LSd demoS); PLeaf (LDf demoC); PPair (TS ED) (TD EF) 2 3; POp OAdd 4 0; PAsg Minus 5 4; PToDense 5;
    PAsg Plus 2 0; PLeaf (LDd demoB); BNew 1 1 2 3; BSet 0 0 0 0; BNew 1 1 3 2; BSet 1 0 0 6; BMul 0 1; BToDense 2;
    BGet 2 0 0; PRows 7; PCols 7; PCopy 5; PToDense 8; PConvert zthr demoC; PToDense 9 ].
Example C74_programs_nonvacuous : exists r,
  vrun zar all_ready PNative true true vst0 prog = Some (Ok r) /\ length (snd r) = length prog /\ nth_error (snd r) 12 = Some PThrew.
Proof.
  destruct (vrun zar all_ready PNative true true vst0 prog) as [[r| | | |]|] eqn:E; vm_compute in E; try discriminate.
  exists r. split; [reflexivity|]. injection E as <-. split; reflexivity.
Qed.

(** A copy is not independent: after [B = A] (copy construction), [A += X] changes B. *)
Theorem C74_copies_independent_refuted : exists d,
  zrun [PLeaf (LDd (d11 1)); PLeaf (LDd (d11 5)); PCopy 0; PAsg Plus 0 1; PToDense 2] = Ok d /\
  shown (nth_error (snd d) 4) = Ok 6%Z.
Proof. eexists. split; vm_compute; reflexivity. Qed.

(** A copied blocked matrix shares its blocks: changing a block of the original
    changes the copy. *)
Theorem C74_blocked_copies_independent_refuted : exists d,
  zrun [PLeaf (LDd (d11 1)); PLeaf (LDd (d11 5)); BNew 1 1 1 1; BSet 0 0 0 0; BCopy 0; BToDense 1; BGet 0 0 0; PAsg Plus 2 1; BToDense 1] = Ok d /\
  shown (nth_error (snd d) 5) = Ok 1%Z /\ shown (nth_error (snd d) 8) = Ok 6%Z.
Proof. eexists. split; [|split]; vm_compute; reflexivity. Qed.

(** A two-part matrix shares its parts: changing a matrix after it was used as a
    part changes the two-part matrix. *)
Theorem C74_parts_independent_refuted : exists d,
  zrun [PLeaf (LSd (s11 2)); PLeaf (LDf (d11 1)); PPair (TS ED) (TD EF) 0 1; PToDense 2; PLeaf (LDf (d11 4)); PAsg Plus 1 3; PToDense 2] = Ok d /\
  shown (nth_error (snd d) 3) = Ok 3%Z /\ shown (nth_error (snd d) 6) = Ok 7%Z.
Proof. eexists. split; [|split]; vm_compute; reflexivity. Qed.

(** [A -= M] where M = S + A has A as second part: the parts are subtracted one
    after the other and A has already changed when it is subtracted from itself, so
    the result is always 0; subtracting a matrix with the same elements that does
    not share gives -S. *)
Theorem C74_minus_own_part_refuted : exists d e,
  zrun [PLeaf (LSd (s11 2)); PLeaf (LDf (d11 1)); PPair (TS ED) (TD EF) 0 1; PAsg Minus 1 2; PToDense 1] = Ok d /\
  shown (nth_error (snd d) 4) = Ok 0%Z /\
  zrun [PLeaf (LSd (s11 2)); PLeaf (LDf (d11 1)); PLeaf (LDf (d11 1)); PPair (TS ED) (TD EF) 0 2; PAsg Minus 1 3; PToDense 1] = Ok e /\
  shown (nth_error (snd e) 5) = Ok (-2)%Z.
Proof. do 2 eexists. split; [|split; [|split]]; vm_compute; reflexivity. Qed.

(** The hypotheses of C74_copy_is_alias and C74_update_value are met. *)
Example C74_alias_nonvacuous : exists m outs,
  zrun [PLeaf (LDd demoC); PLeaf (LDd demoC)] = Ok (m, outs) /\ reachable zar all_ready PNative true true m /\
  (exists m' outs', prun zar all_ready PNative true true m [PCopy 0; PAsg Plus 0 1; PPut 2 0 0 9%Z; PAssign 1 0] = Ok (m', outs') /\
     exists d, rmap snd (pstep zar all_ready PNative true true m' (PToDense 2)) = Ok (PMat d) /\ dget true d 0 0 = Ok 9%Z /\ dget true d 1 1 = Ok 10%Z) /\
  exists z, asg_ptr zar all_ready Minus true (Some (DL (LDd demoC))) (Some (DL (LDd demoC))) = Ok (Some (DL (LDd z))).
Proof.
  do 2 eexists. split; [vm_compute; reflexivity|]. split; [|split].
  - exists [PLeaf (LDd demoC); PLeaf (LDd demoC)]. eexists. vm_compute. reflexivity.
  - do 2 eexists. split; [vm_compute; reflexivity|]. eexists. split; [|split]; vm_compute; reflexivity.
  - eexists. vm_compute. reflexivity.
Qed.
