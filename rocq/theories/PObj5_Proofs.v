(** Every program: the heap stays well formed; which calls change which objects. *)
From Verif Require Import Base BaseLemmas Dense_Model Sparse_Model Mult_Model Dyn_Model PObj_Model PObj_Spec PObj_Proofs PObj2_Proofs PObj3_Proofs PObj4_Proofs.

Ltac ok E := match type of E with (do _ <- ?r; _) = Ok _ => let H := fresh "K" in destruct r eqn:H; cbn [bind] in E; try discriminate end.

Section P.
Context {F D : Type} (ar : arith F D) (ready : mty -> bool) (p : policy) (exc dbg : bool).
Implicit Types (h : heap F D) (m : pst F D) (s : vst F D).

(** All handles are valid. *)
Definition inv m : Prop := exists s, sim m s.

Definition loadv h (q : option nat) : option (dyn F D) := match load h q with Ok v => v | _ => None end.
Definition no_owner s : vst F D := mkVst (map (fun xw => (fst xw, false)) (v_var s)) (v_blk s).
Lemma sim_no_owner m s : sim m s -> sim m (no_owner s).
Proof.
  intros S. constructor; cbn.
  - apply (sim_wf _ _ S).
  - pose proof (sim_var _ _ S) as H. induction H; cbn; constructor; auto.
  - apply (sim_blk _ _ S).
  - intros v a x _ E. rewrite nth_error_map in E. destruct (nth_error (v_var s) v); discriminate.
Qed.

(** A change of one object keeps all handles valid. *)
Lemma load_change h a x x' q v : wf_heap h -> nth_error h a = Some (HL x) -> load h q = Ok v -> exists v', load (upd h a (HL x')) q = Ok v'.
Proof.
  intros W Ea L. assert (La : a < length h) by (apply nth_error_Some; congruence).
  assert (PP : forall q k, part h q = Ok k -> exists k', part (upd h a (HL x')) q = Ok k').
  { intros [c|] k; cbn [part]; eauto. destruct (Nat.eq_dec c a) as [->|Hn]; [rewrite nth_error_upd_eq by auto; eauto|rewrite nth_error_upd_ne by auto; eauto]. }
  destruct q as [c|]; [|cbn; eauto]. destruct (Nat.eq_dec c a) as [->|Hn]; cbn [load]; [rewrite nth_error_upd_eq by auto; eauto|].
  rewrite nth_error_upd_ne by auto. cbn [load] in L. destruct (nth_error h c) as [[l|t1 t2 p1 p2]|]; [eauto| |discriminate].
  destruct (part h p1) eqn:E1; cbn [bind] in L; try discriminate. destruct (part h p2) eqn:E2; cbn [bind] in L; try discriminate.
  destruct (PP _ _ E1) as [k1 ->]. destruct (PP _ _ E2) as [k2 ->]. cbn. eauto.
Qed.

Lemma inv_change m a x x' : inv m -> nth_error (p_heap m) a = Some (HL x) -> leaf_ty x' = leaf_ty x ->
  inv (mkPst (upd (p_heap m) a (HL x')) (p_var m) (p_blk m)).
Proof.
  intros [s S] Ea T. set (h := p_heap m) in *. set (h' := upd h a (HL x')).
  exists (mkVst (map (fun q => (loadv h' q, false)) (p_var m))
     (map (fun B => mkBlocked (mkDense (d_sh (hb_mat B)) (d_full (hb_mat B)) (map (option_map (loadv h')) (d_buf (hb_mat B))) (d_own (hb_mat B))) (hb_ubr B) (hb_ubc B)) (p_blk m))).
  pose proof (sim_wf _ _ S) as W. fold h in W.
  assert (LV : forall q v, load h q = Ok v -> load h' q = Ok (loadv h' q)).
  { intros q v L. destruct (load_change h a x x' q v W Ea L) as [v' E]. unfold loadv. fold h' in E. now rewrite E. }
  constructor; cbn.
  - eapply wf_upd; eauto.
  - pose proof (sim_var _ _ S) as H. fold h in H. induction H as [|q xw l k Hq H IH]; cbn; constructor; eauto.
  - pose proof (sim_blk _ _ S) as H. fold h in H. induction H as [|B V l k Hq H IH]; cbn; constructor; eauto.
    destruct Hq as ((_ & _ & _ & G) & _). repeat split; auto. cbn.
    induction G as [|c v l' k' Hc G IHG]; cbn; constructor; auto. destruct c as [q|], v as [v|]; cbn in *; try contradiction; eauto.
  - intros v c y _ E. rewrite nth_error_map in E. destruct (nth_error (p_var m) v); discriminate.
Qed.

(** What op= can do to the heap: nothing, or give object [a] a new value. *)
Lemma asg_self_ty o (x z : leaf F D) : asg_self ar o dbg x = Ok z -> leaf_ty z = leaf_ty x.
Proof.
  destruct x as [x|x|x|x|x]; cbn [asg_self]; unfold rmap; intros E; try discriminate;
    (match type of E with (do _ <- ?r; _) = _ => destruct r; cbn [bind] in E; try discriminate end); injection E as <-; reflexivity.
Qed.
Lemma asg_obj_heap o h a b h1 q x : nth_error h a = Some (HL x) -> asg_obj ar o dbg h a b = (h1, q) ->
  exists x', h1 = upd h a (HL x') /\ leaf_ty x' = leaf_ty x /\ (forall e, q = e -> e <> Ok tt -> x' = x).
Proof.
  intros Ea. unfold asg_obj. rewrite Ea.
  assert (Same : forall r : res unit, (h, r) = (h1, q) -> exists x', h1 = upd h a (HL x') /\ leaf_ty x' = leaf_ty x /\ (forall e, q = e -> e <> Ok tt -> x' = x)).
  { intros r E. injection E as <- <-. exists x. rewrite upd_same by auto. auto. }
  destruct (nth_error h b) as [[y|]|]; [|apply Same|apply Same].
  assert (T : forall z, (if a =? b then asg_self ar o dbg x else asg_leaf ar o dbg x y) = Ok z -> leaf_ty z = leaf_ty x).
  { intros z. destruct (a =? b); [apply asg_self_ty|apply asg_leaf_ty]. }
  destruct (if a =? b then _ else _) as [z| | | |]; cbn [set_leaf]; try apply Same.
  intros E. injection E as <- <-. exists z. split; auto. split; auto. intros e <- H. now destruct H.
Qed.

Lemma upd_upd_same {A} (l : list A) i x y : upd (upd l i x) i y = upd l i y.
Proof. revert i. induction l; intros [|i]; cbn; auto. now rewrite IHl. Qed.

Lemma asg_heap_change o h a b h1 q x : nth_error h a = Some (HL x) -> asg_heap ar o dbg h a b = (h1, q) ->
  exists x', h1 = upd h a (HL x') /\ leaf_ty x' = leaf_ty x.
Proof.
  intros Ea. assert (La : a < length h) by (apply nth_error_Some; congruence). unfold asg_heap. rewrite Ea.
  assert (Same : forall r : res unit, (h, r) = (h1, q) -> exists x', h1 = upd h a (HL x') /\ leaf_ty x' = leaf_ty x).
  { intros r E. injection E as <- <-. exists x. rewrite upd_same by auto. auto. }
  destruct (nth_error h b) as [[y|t1 t2 [b1|] [b2|]]|]; try apply Same.
  - intros E. destruct (asg_obj_heap _ _ _ _ _ _ _ Ea E) as (x' & H1 & H2 & _). eauto.
  - destruct o.
    + destruct (nth_error h b1) as [[y1|]|]; try apply Same. destruct (nth_error h b2) as [[y2|]|]; try apply Same.
      destruct (bin_leaf ar Plus dbg y1 y2) as [s| | | |]; try apply Same. unfold asg_tmp. rewrite Ea.
      pose proof (fun z => asg_leaf_ty ar Plus dbg x s z) as T.
      destruct (asg_leaf ar Plus dbg x s) as [z| | | |]; cbn [set_leaf]; try apply Same. intros E. injection E as <- <-. eauto.
    + destruct (asg_obj ar Minus dbg h a b1) as [h2 q2] eqn:E1. destruct (asg_obj_heap _ _ _ _ _ _ _ Ea E1) as (x1 & -> & T1 & _).
      unfold next. destruct q2; try (intros E; injection E as <- <-; eauto; fail). intros E2.
      assert (Ea2 : nth_error (upd h a (HL x1)) a = Some (HL x1)) by now apply nth_error_upd_eq.
      destruct (asg_obj_heap _ _ _ _ _ _ _ Ea2 E2) as (x2 & -> & T2 & _). exists x2. rewrite upd_upd_same. split; auto. congruence.
Qed.

(** op= through handles. *)
Lemma dispatch_cases o m h1 q x y : inv m -> (exists v, load (p_heap m) x = Ok v) -> (exists v, load (p_heap m) y = Ok v) ->
  asg_dispatch ar ready o dbg (p_heap m) x y = (h1, q) ->
  h1 = p_heap m \/ exists a d l', x = Some a /\ nth_error (p_heap m) a = Some (HL d) /\ dense_leaf d = true /\
                     h1 = upd (p_heap m) a (HL l') /\ leaf_ty l' = leaf_ty d.
Proof.
  intros [s S] [vx Lx] [vy Ly]. unfold asg_dispatch. rewrite Lx, Ly. cbn [bind].
  destruct (exec_dyn_2dim ready (fun _ _ => Ok tt) vx vy) as [[]| | | |] eqn:Ex; try (intros E; injection E as <- <-; auto; fail).
  destruct x as [a|]; [|intros E; injection E as <- <-; auto]. destruct y as [b|]; [|intros E; injection E as <- <-; auto].
  destruct vx as [vx|]; [|cbn in Ex; discriminate].
  destruct vy as [vy|]; [|cbn in Ex; discriminate].
  intros E. destruct (in_place (Some vx)) eqn:Hi.
  - right. destruct vx as [l|]; [|discriminate].
    apply load_inv in Lx as [(l' & Ea & El)|(t1 & t2 & p1 & p2 & m1 & m2 & _ & _ & _ & El)]; [|discriminate]. injection El as <-.
    destruct (asg_heap_change _ _ _ _ _ _ _ Ea E) as (x' & H1 & H2). exists a, l, x'. repeat split; auto.
  - left. assert (T1 := exec_listed ready _ _ _ _ Ex). assert (T2 := exec_listed2 ready _ _ _ _ Ex).
    destruct (asg_heap_const ar o dbg (p_heap m) a b vx vy (sim_wf _ _ S) Lx Ly Hi T1 T2) as (q' & E' & _). congruence.
Qed.

(** ** Calls that change nothing in place *)
Definition changes (x : pop F D) : bool := match x with PAsg _ _ _ | PPut _ _ _ _ => true | _ => false end.

Lemma store_app h d : exists l, fst (store h d) = h ++ l.
Proof.
  assert (NP : forall h k, exists l, fst (new_part h k) = h ++ l).
  { intros h0 [x|]; cbn; [eauto|]. exists []. now rewrite app_nil_r. }
  destruct d as [[l|t1 t2 m1 m2]|]; cbn [store]; [cbn; eauto| |exists []; cbn; now rewrite app_nil_r].
  pose proof (NP h m1) as [l1 E1]. destruct (new_part h m1) as [h1 q1]. cbn in E1. subst h1.
  pose proof (NP (h ++ l1) m2) as [l2 E2]. destruct (new_part (h ++ l1) m2) as [h2 q2]. cbn in E2. subst h2.
  cbn. exists (l1 ++ l2 ++ [HM t1 t2 q1 q2]). now rewrite !app_assoc.
Qed.

Lemma catch_cases {A} m (r : res A) f m' out : catch m r f = Ok (m', out) ->
  (exists a, r = Ok a /\ f a = (m', out)) \/ (r = Throw /\ m' = m /\ out = PThrew).
Proof. destruct r; cbn; intros E; try discriminate; [left; exists a; split; auto; congruence|right]. injection E as <- <-. auto. Qed.


Lemma step_grows m x m' out : inv m -> changes x = false -> pstep ar ready p exc dbg m x = Ok (m', out) ->
  exists l, p_heap m' = p_heap m ++ l.
Proof.
  intros [s S] C E. assert (Nil : forall h : heap F D, exists l, h = h ++ l) by (intros h; exists []; now rewrite app_nil_r).
  destruct x as [l| |t1 t2 v1 v2|v|d v|k a b|o a b|v i j w|v|v|v|th d|n c ur uc|b i j|b i j v|b|d b|a b|th d rl cl|b];
    cbn [pstep changes] in E, C; try discriminate; repeat ok E; try apply catch_cases in E as [(z & Ez & E)|(_ & -> & _)];
    try (unfold add_var, add_blk in E; cbn [fst snd] in E); try (injection E as <- <-); cbn [p_heap]; auto; eauto using store_app.
  - unfold hop in Ez. repeat ok Ez. injection Ez as <-. apply store_app.
  - exact (store_app (p_heap m) (Some z)).
  - unfold blk_of in *. destruct (nth_error (p_blk m) a) as [A|] eqn:EA; try discriminate. destruct (nth_error (p_blk m) b) as [B|] eqn:EB; try discriminate.
    destruct (blk_cases m s a S) as [[G1 G2]|(A' & VA & G1 & G2 & LA)]; [congruence|]. destruct (blk_cases m s b S) as [[G3 G4]|(B' & VB & G3 & G4 & LB)]; [congruence|].
    rewrite EA in G1. rewrite EB in G3. injection G1 as <-. injection G3 as <-. injection K as <-. injection K0 as <-.
    pose proof (hmul_rel ar ready p dbg (p_heap m) A B VA VB (sim_wf _ _ S) LA LB) as R. rewrite Ez in R.
    destruct (mul_blocked ar ready p dbg VA VB); cbn in R; try contradiction. destruct R as ((l & R & _) & _). eauto.
  - pose proof (hcut_rel ar exc dbg th (p_heap m) d rl cl (sim_wf _ _ S)) as R. rewrite Ez in R.
    destruct (cut ar exc dbg th d rl cl); cbn in R; try contradiction. destruct R as ((l & R & _) & _). eauto.
Qed.

Lemma var_loads m v q : inv m -> nth_error (p_var m) v = Some q -> exists x, load (p_heap m) q = Ok x.
Proof. intros [s S] E. destruct (var_cases m s v S) as [[H _]|(q' & x & w & Eq & _ & L)]; [congruence|]. exists x. congruence. Qed.

Lemma step_asg m o a b m' out : inv m -> pstep ar ready p exc dbg m (PAsg o a b) = Ok (m', out) ->
  exists x y q, nth_error (p_var m) a = Some x /\ nth_error (p_var m) b = Some y /\
    asg_dispatch ar ready o dbg (p_heap m) x y = (p_heap m', q) /\ p_var m' = p_var m /\ p_blk m' = p_blk m /\
    ((q = Ok tt /\ out = PNone) \/ (q = Throw /\ out = PThrew)).
Proof.
  intros I E. cbn [pstep] in E. unfold var_of in E.
  destruct (nth_error (p_var m) a) as [x|] eqn:Ex; cbn [bind] in E; [|discriminate].
  destruct (nth_error (p_var m) b) as [y|] eqn:Ey; cbn [bind] in E; [|discriminate].
  exists x, y. destruct (asg_dispatch ar ready o dbg (p_heap m) x y) as [h1 q]. exists q.
  destruct q as [[]| | | |]; cbn in E; try discriminate; injection E as <- <-; cbn; repeat split; auto.
Qed.

Lemma step_inv m x m' out : inv m -> pstep ar ready p exc dbg m x = Ok (m', out) -> inv m'.
Proof.
  intros I E. destruct (changes x) eqn:C.
  - destruct x as [| | | | | |o a b|v i j w| | | | | | | | | | | |]; try discriminate.
    + destruct (step_asg _ _ _ _ _ _ I E) as (q1 & q2 & q & E1 & E2 & Ed & Ev & Eb & _).
      destruct (dispatch_cases o m _ _ _ _ I (var_loads _ _ _ I E1) (var_loads _ _ _ I E2) Ed) as [H|(c & d & l' & _ & Ec & _ & Eh & T)].
      * destruct m', m. cbn in *. subst. exact I.
      * destruct m' as [h1 vs bs]. cbn in *. subst. now apply (inv_change m c d).
    + cbn [pstep] in E. unfold var_of in E. destruct (nth_error (p_var m) v) as [[c|]|] eqn:Ex; cbn [bind] in E; try discriminate.
      destruct (nth_error (p_heap m) c) as [[[z|z|z|z|d]|]|] eqn:Ec; try discriminate.
      destruct (dset dbg d i j w); cbn [bind] in E; try discriminate. injection E as <- <-. now apply (inv_change m c (LDd d)).
  - destruct I as [s S]. assert (V : exists r, vstep ar ready p exc dbg s x = Some r) by (destruct x; cbn [vstep] in *; try discriminate; eauto).
    destruct V as [r Er]. pose proof (step_sim ar ready p exc dbg m s x r S Er) as H. rewrite E in H. destruct r; cbn in H; try contradiction.
    destruct H as [H _]. now eexists; exact H.
Qed.

(** If op= throws nothing has changed. *)
Lemma asg_obj_quiet o h a b x : nth_error h a = Some (HL x) -> dense_leaf x = true -> snd (asg_obj ar o dbg h a b) <> Throw.
Proof.
  intros Ea Hx. unfold asg_obj. rewrite Ea. destruct (nth_error h b) as [[y|]|]; cbn; try discriminate.
  assert (Q : quiet (if a =? b then asg_self ar o dbg x else asg_leaf ar o dbg x y)).
  { destruct (a =? b); [|now apply quiet_asg]. destruct x as [z|z|z|d|d]; try discriminate; cbn [asg_self];
      (apply quiet_bind; [|intros; apply quiet_ok]); unfold d_assign_op_shared; (apply quiet_bind; [apply quiet_iter|intros]);
      (apply quiet_bind; [apply quiet_iter|intros]); apply quiet_foldM; intros [k q] s; (match goal with |- quiet (match ?n with Some _ => _ | None => _ end) => destruct n; [|discriminate] end);
      (apply quiet_bind; [apply quiet_rdz|intros]); (apply quiet_bind; [apply quiet_rdz|intros]); apply quiet_wrz. }
  destruct (if a =? b then _ else _); cbn; try discriminate. intros _. now apply Q.
Qed.
Lemma asg_heap_throw o h a b h1 x : nth_error h a = Some (HL x) -> dense_leaf x = true -> asg_heap ar o dbg h a b = (h1, Throw) -> h1 = h.
Proof.
  intros Ea Hx. assert (La : a < length h) by (apply nth_error_Some; congruence). unfold asg_heap. rewrite Ea.
  destruct (nth_error h b) as [[y|t1 t2 [b1|] [b2|]]|]; try (intros E; injection E; congruence).
  - intros E. exfalso. apply (asg_obj_quiet o h a b x Ea Hx). now rewrite E.
  - destruct o.
    + destruct (nth_error h b1) as [[y1|]|]; try (intros E; injection E; congruence). destruct (nth_error h b2) as [[y2|]|]; try (intros E; injection E; congruence).
      destruct (bin_leaf ar Plus dbg y1 y2) as [s| | | |]; try (intros E; injection E; congruence). unfold asg_tmp. rewrite Ea.
      pose proof (quiet_asg ar Plus dbg x s Hx) as Q.
      destruct (asg_leaf ar Plus dbg x s) as [z| | | |]; cbn [set_leaf]; try (intros E; injection E; congruence); intros E; injection E; congruence.
    + pose proof (asg_obj_quiet Minus h a b1 x Ea Hx) as Q1.
      destruct (asg_obj ar Minus dbg h a b1) as [h2 q2] eqn:E1. destruct (asg_obj_heap _ _ _ _ _ _ _ Ea E1) as (x1 & -> & T1 & _).
      cbn in Q1. unfold next. destruct q2; try (intros E; injection E; congruence). intros E2. exfalso.
      assert (Ea2 : nth_error (upd h a (HL x1)) a = Some (HL x1)) by now apply nth_error_upd_eq.
      assert (Hx1 : dense_leaf x1 = true) by (destruct x, x1; cbn in *; auto; discriminate).
      apply (asg_obj_quiet Minus _ a b2 x1 Ea2 Hx1). now rewrite E2.
Qed.
Lemma dispatch_throw o m h1 x y : inv m -> (exists v, load (p_heap m) x = Ok v) -> (exists v, load (p_heap m) y = Ok v) ->
  asg_dispatch ar ready o dbg (p_heap m) x y = (h1, Throw) -> h1 = p_heap m.
Proof.
  intros I Lx Ly E. destruct (dispatch_cases _ _ _ _ _ _ I Lx Ly E) as [H|(a & d & l' & -> & Ea & Hd & Eh & T)]; auto.
  destruct Lx as [vx Lx], Ly as [vy Ly]. unfold asg_dispatch in E. rewrite Lx, Ly in E. cbn [bind] in E.
  destruct (exec_dyn_2dim ready (fun _ _ => Ok tt) vx vy) as [[]| | | |]; try (injection E; congruence).
  destruct y as [b|]; [|injection E; congruence]. eapply asg_heap_throw; eauto.
Qed.

(** Variables keep their handle unless assigned to. *)
Lemma step_keeps_var m x m' out v q : (match x with PAssign d _ => negb (d =? v) | _ => true end) = true ->
  pstep ar ready p exc dbg m x = Ok (m', out) -> nth_error (p_var m) v = Some q -> nth_error (p_var m') v = Some q.
Proof.
  intros H E Ev.
  destruct x; cbn [pstep] in E, H; repeat ok E;
    try (match type of E with context [asg_dispatch ?a ?b ?c ?d ?e ?f ?g] => destruct (asg_dispatch a b c d e f g) as [h1 r0] end);
    try (match type of E with context [match ?a with Some _ => _ | None => UB NullDeref end] => destruct a as [c0|]; [|discriminate] end);
    try (match type of E with context [nth_error (p_heap m) ?c] => destruct (nth_error (p_heap m) c) as [[[]|]|]; try discriminate end); repeat ok E;
    try apply catch_cases in E as [(z & Ez & E)|(_ & -> & _)];
    try (unfold add_var, add_blk in E; cbn [fst snd] in E); try (injection E as <- <-); cbn [p_var]; auto using nth_app1.
  rewrite nth_error_upd_ne; auto. destruct (Nat.eqb_spec d v); auto; discriminate.
Qed.

Definition reachable m : Prop := exists ops outs, prun ar ready p exc dbg pst0 ops = Ok (m, outs).
Lemma prun_inv ops : forall m m' outs, inv m -> prun ar ready p exc dbg m ops = Ok (m', outs) -> inv m'.
Proof.
  induction ops as [|x ops IH]; cbn [prun]; intros m m' outs I E; [injection E as <- _; auto|].
  destruct (pstep ar ready p exc dbg m x) as [[m1 z]| | | |] eqn:E1; cbn [bind] in E; try discriminate.
  destruct (prun ar ready p exc dbg m1 ops) as [[m2 zs]| | | |] eqn:E2; cbn [bind] in E; try discriminate. injection E as <- _.
  eapply IH; [|exact E2]. eapply step_inv; eauto.
Qed.
Lemma reach_inv m : reachable m -> inv m.
Proof. intros (ops & outs & E). eapply prun_inv; [|exact E]. exists vst0. apply sim0. Qed.
End P.
