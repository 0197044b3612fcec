(** C67: sparse matrices as objects. *)
From Verif Require Import Base BaseLemmas Storage_Model Storage_Spec Storage_Proofs SObj_Model SObj_Spec SObj_Proofs.
Require Import ZifyBool.

Section P.
Context {T : Type}.
Implicit Types (ops : list (sop T)) (v : svals T).

Lemma view_gone {A} (f : sval T -> vobj A) (y : sys A) v : view y = map (option_map f) v ->
  (forall x, In x v -> x = None) -> all_destroyed y.
Proof.
  intros Hv HA q Hq.
  assert (Hin : In (option_map (fun o => {| v_vals := seen (blocks y) o; v_resizable := st_own o |}) q) (view y))
    by (unfold view; apply (in_map (option_map (fun o => {| v_vals := seen (blocks y) o; v_resizable := st_own o |}))); exact Hq).
  rewrite Hv in Hin. apply in_map_iff in Hin as (p & Ep & Hp). rewrite (HA p Hp) in Ep. destruct q; auto; discriminate.
Qed.

(** Any program over sparse matrices that is legal at the level of values runs
    without undefined behaviour, every call reports what the value-level
    specification says, and, if it copy-constructs from no moved-from matrix and
    destroys all matrices, values, keys and offsets are all released. *)
Theorem C67_programs :
  forall ops v zs, svrun [] ops = Some (v, zs) ->
    exists m, srun ssys0 ops = Ok (m, zs) /\
      (sclean [] ops = true -> (forall x, In x v -> x = None) ->
         all_freed (sy_val m) /\ all_freed (sy_key m) /\ all_freed (sy_off m)).
Proof.
  intros ops v zs H. destruct (srun_ok ssys0 [] ops v zs R0 H) as (m & E & HR & HN).
  exists m. split; auto. intros HC HA. destruct (HN HC NL0) as (N1 & N2 & N3).
  destruct HR as (_ & _ & _ & V1 & V2 & V3 & _).
  repeat split; apply noleak_all_freed; auto; eapply view_gone; eauto.
Qed.

(** What always holds of a live sparse matrix: as many keys as values; one more
    offset than columns, unless the matrix was default-constructed (no columns) or
    moved from; a matrix that can no longer be resized holds nothing at all. *)
Definition sgood (x : sval T) : Prop :=
  length (sv_val x) = length (sv_key x) /\
  (sv_res x = false -> sv_val x = [] /\ sv_key x = [] /\ sv_off x = []) /\
  (sv_res x = true -> length (sv_off x) = sv_cols x + 1 \/ sv_off x = [] /\ sv_val x = [] /\ sv_cols x = 0).

Lemma resized_length {A} (b : buf A) n : length (resized b n) = n.
Proof. unfold resized. destruct (Nat.eqb_spec (length b) n); auto. apply repeat_length. Qed.
Lemma sgood_moved x : sgood (sv_moved x).
Proof. repeat split; simpl; discriminate. Qed.

Lemma sgood_step v x v1 z : (forall s a, sget v s = Some a -> sgood a) -> svstep v x = Some (v1, z) ->
  forall s a, sget v1 s = Some a -> sgood a.
Proof.
  intros G E s a Ha.
  assert (Gu : forall s c, (forall y, c = Some y -> sgood y) -> forall t y, sget (upd v s c) t = Some y -> sgood y).
  { intros s0 c Hc t y Hy. apply sget_upd in Hy. destruct Hy as [(_ & Hy & _)|[_ Hy]]; eauto. }
  assert (Gu2 : forall s c s' c', (forall y, c = Some y -> sgood y) -> (forall y, c' = Some y -> sgood y) ->
            forall t y, sget (upd (upd v s c) s' c') t = Some y -> sgood y).
  { intros s0 c s' c' Hc Hc' t y Hy. apply sget_upd in Hy. destruct Hy as [(_ & Hy & _)|[_ Hy]]; eauto. }
  assert (Ga : forall y, sgood y -> forall t b, sget (v ++ [Some y]) t = Some b -> sgood b).
  { intros y Hy t b Hb. apply sget_app in Hb. destruct Hb as [[_ Hb]|[_ Hb]]; [injection Hb as <-; auto|eauto]. }
  destruct x; simpl in E;
    repeat match type of E with
    | match sget v ?t with _ => _ end = _ => let q := fresh "q" in let Q := fresh "Q" in destruct (sget v t) as [q|] eqn:Q; [|discriminate E]
    | match nth_error ?l ?i with _ => _ end = _ => destruct (nth_error l i); [|discriminate E]
    end;
    try (injection E as <- <-; solve [eauto]).
  - injection E as <- <-. eapply Ga; eauto. unfold sv_empty, sgood; simpl. intuition congruence.
  - injection E as <- <-. eapply Ga; eauto. unfold sv_new, sgood; simpl. rewrite !repeat_length. intuition congruence.
  - injection E as <- <-. apply sget_upd in Ha. destruct Ha as [(_ & Ha & _)|[_ Ha]].
    + injection Ha as <-. apply sgood_moved.
    + eapply Ga; [|exact Ha]. eauto.
  - injection E as <- <-. eapply (Gu d (Some q0)); [intros y Hy; injection Hy as <-; eauto|exact Ha].
  - injection E as <- <-. eapply (Gu2 d (Some q0) s0 (Some (sv_moved q0))); [intros y Hy; injection Hy as <-; eauto|intros y Hy; injection Hy as <-; apply sgood_moved|exact Ha].
  - injection E as <- <-. eapply Gu2; [| |exact Ha]; intros y Hy; injection Hy as <-; [apply (G _ _ Q0)|apply (G _ _ Q)].
  - pose proof (G _ _ Q) as (G1 & G2 & G3). destruct (sv_res q) eqn:Er; injection E as <- <-.
    + eapply Gu; [|exact Ha]. intros y Hy; injection Hy as <-. unfold sgood; simpl. rewrite !resized_length. intuition congruence.
    + eapply Gu; [|exact Ha]. intros y Hy; injection Hy as <-. unfold sgood; simpl. intuition congruence.
  - destruct (i <? length (sv_val q)); [|discriminate E]. injection E as <- <-.
    pose proof (G _ _ Q) as (G1 & G2 & G3).
    eapply Gu; [|exact Ha]. intros y Hy; injection Hy as <-. unfold sgood; simpl. rewrite upd_length. split; auto. split; auto.
    + intros Hr. destruct (G2 Hr) as (-> & -> & ->). destruct i; auto.
    + intros Hr. destruct (G3 Hr) as [|(E0 & E1 & ?)]; auto. right. rewrite E0, E1. destruct i; auto.
  - destruct (i <? length (sv_key q)); [|discriminate E]. injection E as <- <-.
    pose proof (G _ _ Q) as (G1 & G2 & G3).
    eapply Gu; [|exact Ha]. intros y Hy; injection Hy as <-. unfold sgood; simpl. rewrite upd_length. split; auto. split; auto.
    intros Hr. destruct (G2 Hr) as (-> & -> & ->). destruct i; auto.
  - destruct (i <? length (sv_off q)); [|discriminate E]. injection E as <- <-.
    pose proof (G _ _ Q) as (G1 & G2 & G3).
    eapply Gu; [|exact Ha]. intros y Hy; injection Hy as <-. unfold sgood; simpl. rewrite upd_length. split; auto. split.
    + intros Hr. destruct (G2 Hr) as (-> & -> & ->). destruct i; auto.
    + intros Hr. destruct (G3 Hr) as [|(E0 & E1 & ?)]; auto. right. rewrite E0, E1. destruct i; auto.
  - destruct (sv_size q); [|discriminate E]. injection E as <- <-. eauto.
  - injection E as <- <-. eapply Gu; [|exact Ha]. discriminate.
Qed.

Lemma sgood_run ops : forall v v1 zs, (forall s a, sget v s = Some a -> sgood a) -> svrun v ops = Some (v1, zs) ->
  forall s a, sget v1 s = Some a -> sgood a.
Proof.
  induction ops as [|x t IH]; simpl; intros v v1 zs G E.
  - injection E as <- <-. exact G.
  - destruct (svstep v x) as [[v2 z]|] eqn:Ex; [|discriminate]. destruct (svrun v2 t) as [[v3 z3]|] eqn:Et; [|discriminate].
    injection E as <- <-. exact (IH v2 v3 z3 (sgood_step _ _ _ _ G Ex) Et).
Qed.

Lemma srun_app ops ops' m : srun m (ops ++ ops') =
  (do r <- srun m ops; let '(m1, zs) := r in do r2 <- srun m1 ops'; let '(m2, ys) := r2 in Ok (m2, zs ++ ys)).
Proof.
  revert m. induction ops as [|x t IH]; intros m; simpl.
  - destruct (srun m ops') as [[m2 ys]| | | |]; reflexivity.
  - destruct (sstep m x) as [[m1 z]| | | |]; simpl; auto. rewrite IH.
    destruct (srun m1 t) as [[m2 zs]| | | |]; simpl; auto.
    destruct (srun m2 ops') as [[m3 ys]| | | |]; reflexivity.
Qed.
Lemma svrun_app ops ops' v v1 zs : svrun v ops = Some (v1, zs) ->
  svrun v (ops ++ ops') = match svrun v1 ops' with Some (v2, ys) => Some (v2, zs ++ ys) | None => None end.
Proof.
  revert v v1 zs. induction ops as [|x t IH]; intros v v1 zs; simpl.
  - intros E; injection E as <- <-. destruct (svrun v ops') as [[v2 ys]|]; reflexivity.
  - destruct (svstep v x) as [[v2 z]|]; [|discriminate]. destruct (svrun v2 t) as [[v3 z3]|] eqn:Et; [|discriminate].
    intros E; injection E as <- <-. rewrite (IH _ _ _ Et). destruct (svrun v3 ops') as [[v4 z4]|]; reflexivity.
Qed.

(** After any legal program a live sparse matrix reports consistent sizes: every
    index below nnz() can be read as a value and as a key, every index below
    sizeOffset() as an offset; sizeOffset() is the number of columns plus one, or
    zero, and zero only if the matrix holds no value. *)
Theorem C67_sizes_agree :
  forall ops v zs, svrun [] ops = Some (v, zs) -> forall s a, sget v s = Some a ->
    exists m r c n k, srun ssys0 (ops ++ [SDims s; SNnz s; SNoff s]) = Ok (m, zs ++ [SPair r c; SNat n; SNat k]) /\
      (k = c + 1 \/ k = 0 /\ n = 0) /\
      (forall i, i < n -> exists m x y, srun ssys0 (ops ++ [SGetVal s i; SGetKey s i]) = Ok (m, zs ++ [SVal x; SIdx y])) /\
      (forall i, i < k -> exists m y, srun ssys0 (ops ++ [SGetOff s i]) = Ok (m, zs ++ [SIdx y])).
Proof.
  intros ops v zs E s a Ha.
  assert (G : sgood a). { refine (sgood_run ops [] v zs _ E s a Ha). intros [|t] b; discriminate. }
  destruct G as (G1 & G2 & G3).
  assert (Run : forall xs ys v2, svrun v xs = Some (v2, ys) -> exists m, srun ssys0 (ops ++ xs) = Ok (m, zs ++ ys)).
  { intros xs ys v2 Ex. destruct (C67_programs (ops ++ xs) v2 (zs ++ ys)) as (m & Em & _); eauto.
    rewrite (svrun_app _ _ _ _ _ E), Ex. reflexivity. }
  destruct (Run [SDims s; SNnz s; SNoff s] [SPair (sv_rows a) (sv_cols a); SNat (length (sv_val a)); SNat (length (sv_off a))] v) as (m & Em).
  { simpl. rewrite Ha, Ha, Ha. reflexivity. }
  exists m, (sv_rows a), (sv_cols a), (length (sv_val a)), (length (sv_off a)). split; auto. split; [|split].
  - destruct (sv_res a).
    + destruct G3 as [?|(-> & -> & ?)]; auto.
    + destruct G2 as (-> & _ & ->); auto.
  - intros i Hi. destruct (nth_error (sv_val a) i) as [x|] eqn:Ex; [|apply nth_error_None in Ex; lia].
    destruct (nth_error (sv_key a) i) as [y|] eqn:Ey; [|apply nth_error_None in Ey; lia].
    destruct (Run [SGetVal s i; SGetKey s i] [SVal x; SIdx y] v) as (m' & Em'); eauto.
    simpl. rewrite Ha, Ex. rewrite Ha, Ey. reflexivity.
  - intros i Hi. destruct (nth_error (sv_off a) i) as [y|] eqn:Ey; [|apply nth_error_None in Ey; lia].
    destruct (Run [SGetOff s i] [SIdx y] v) as (m' & Em'); eauto.
    simpl. rewrite Ha, Ey. reflexivity.
Qed.

(** Copies are independent: whatever is done to the other objects, a matrix no
    call names keeps what it reports. *)
Definition names (x : sop T) (s : nat) : bool :=
  match x with
  | SDefault | SSized _ _ _ => false
  | SCopyCtor _ => false
  | SMoveCtor t => t =? s
  | SCopyAssign d _ => d =? s
  | SMoveAssign d t | SSwap d t => (d =? s) || (t =? s)
  | SResize t _ _ _ | SPutVal t _ _ | SPutKey t _ _ | SPutOff t _ _ | SDestroy t => t =? s
  | _ => false
  end.
Lemma sget_upd_ne v s c t : t <> s -> sget (upd v s c) t = sget v t.
Proof. intros H. unfold sget. rewrite nth_error_upd_ne; auto. Qed.
Lemma sget_app_old v c t a : sget v t = Some a -> sget (v ++ [c]) t = Some a.
Proof. intros H. pose proof (sget_lt _ _ _ H). unfold sget in *. rewrite nth_error_app1; auto. Qed.

Lemma frame_step v x v1 z s a : sget v s = Some a -> names x s = false -> svstep v x = Some (v1, z) -> sget v1 s = Some a.
Proof.
  intros Ha Hn E. pose proof (sget_lt _ _ _ Ha) as Hl.
  destruct x; simpl in E, Hn;
    repeat match type of E with
    | match sget v ?t with _ => _ end = _ => let q := fresh "q" in let Q := fresh "Q" in destruct (sget v t) as [q|] eqn:Q; [|discriminate E]
    | match nth_error ?l ?i with _ => _ end = _ => destruct (nth_error l i); [|discriminate E]
    | (if ?b then _ else _) = _ => destruct b; try discriminate E
    end;
    injection E as <- <-; auto;
    try (apply sget_app_old; assumption);
    repeat rewrite sget_upd_ne by lia; auto.
  apply sget_app_old; assumption.
Qed.
Lemma frame_run ops : forall v v1 zs s a, sget v s = Some a -> forallb (fun x => negb (names x s)) ops = true ->
  svrun v ops = Some (v1, zs) -> sget v1 s = Some a.
Proof.
  induction ops as [|x t IH]; simpl; intros v v1 zs s a Ha Hn E.
  - injection E as <- <-. exact Ha.
  - apply andb_prop in Hn as [N1 N2]. destruct (svstep v x) as [[v2 z]|] eqn:Ex; [|discriminate]. destruct (svrun v2 t) as [[v3 z3]|] eqn:Et; [|discriminate].
    injection E as <- <-. refine (IH v2 v3 z3 s a _ N2 Et). refine (frame_step _ _ _ _ _ _ Ha _ Ex). destruct (names x s); auto; discriminate.
Qed.

Definition query (x : sop T) (s : nat) : Prop :=
  (exists i, x = SGetVal s i \/ x = SGetKey s i \/ x = SGetOff s i) \/ x = SDims s \/ x = SSize s \/ x = SNnz s \/ x = SNoff s.

Theorem C67_independent :
  forall ops others v zs v2 zs2 s q w a,
    svrun [] ops = Some (v, zs) -> svrun v others = Some (v2, zs2) ->
    forallb (fun x => negb (names x s)) others = true -> query q s ->
    svstep v q = Some (w, a) ->
    exists m m', srun ssys0 (ops ++ [q]) = Ok (m, zs ++ [a]) /\ srun ssys0 (ops ++ others ++ [q]) = Ok (m', zs ++ zs2 ++ [a]).
Proof.
  intros ops others v zs v2 zs2 s q w a E1 E2 Hn Hq Eq.
  assert (exists x, sget v s = Some x) as (x & Hx).
  { destruct Hq as [(i & [->|[->| ->]])|[->|[->|[->| ->]]]]; simpl in Eq; destruct (sget v s); eauto; discriminate. }
  pose proof (frame_run _ _ _ _ _ _ Hx Hn E2) as Hx2.
  assert (Eq2 : exists w', svstep v2 q = Some (w', a)).
  { destruct Hq as [(i & [->|[->| ->]])|[->|[->|[->| ->]]]]; simpl in Eq |- *; rewrite Hx in Eq; rewrite Hx2;
      try (destruct (nth_error _ i); [|discriminate]); try (destruct (sv_size x); [|discriminate]); injection Eq as <- <-; eauto. }
  destruct Eq2 as (w' & Eq2).
  destruct (C67_programs (ops ++ [q]) w (zs ++ [a])) as (m & Em & _).
  { rewrite (svrun_app _ _ _ _ _ E1). simpl. rewrite Eq. reflexivity. }
  destruct (C67_programs (ops ++ others ++ [q]) w' (zs ++ zs2 ++ [a])) as (m' & Em' & _).
  { rewrite (svrun_app _ _ _ _ _ E1), (svrun_app _ _ _ _ _ E2). simpl. rewrite Eq2. reflexivity. }
  eauto.
Qed.

(** A moved-from matrix, or one a moved-from matrix was assigned to, can never be
    used again: every resize throws, and has changed the dimensions it reports. *)
Theorem C67_moved_from_resize_refuted :
  forall ops v zs s a r c n, svrun [] ops = Some (v, zs) -> sget v s = Some a ->
    (exists m, srun ssys0 (ops ++ [SMoveCtor s; SResize s r c n; SDims s]) = Ok (m, zs ++ [SNone; SThrew; SPair r c])).
Proof.
  intros ops v zs s a r c n E Ha.
  assert (Hl := sget_lt _ _ _ Ha).
  assert (H1 : sget (upd (v ++ [Some a]) s (Some (sv_moved a))) s = Some (sv_moved a))
    by (unfold sget; rewrite nth_error_upd_eq; auto; rewrite app_length; lia).
  edestruct (C67_programs (ops ++ [SMoveCtor s; SResize s r c n; SDims s])) as (m & Em & _); [|eauto].
  rewrite (svrun_app _ _ _ _ _ E). cbn [svrun svstep]. rewrite Ha. cbn [svrun svstep]. rewrite H1.
  cbn [sv_moved sv_res svrun svstep sv_val sv_key sv_off length sv_rows sv_cols sv_size].
  replace ((0 =? nnz_or_all r c n) && (0 =? nnz_or_all r c n) && (0 =? c + 1)) with false
    by lia.
  match goal with |- context [sget (upd ?l s ?q) s] => assert (H2 : sget (upd l s q) s = q) end.
  { unfold sget. rewrite nth_error_upd_eq; auto. rewrite upd_length, app_length. lia. }
  rewrite H2. cbn. reflexivity.
Qed.

End P.
Print Assumptions C67_programs. Print Assumptions C67_sizes_agree. Print Assumptions C67_independent.
Print Assumptions C67_moved_from_resize_refuted.

(** A legal program with all kinds of calls. *)
Definition sdemo : list (sop Z) :=
  [SSized 2 2 2; SPutVal 0 0 5%Z; SPutKey 0 0 1; SPutVal 0 1 7%Z; SPutKey 0 1 0; SPutOff 0 0 0; SPutOff 0 1 1; SPutOff 0 2 2;
   SCopyCtor 0; SPutVal 1 0 8%Z; SGetVal 0 0; SMoveCtor 0; SGetVal 2 0; SGetKey 2 1; SGetOff 2 2; SNnz 0; SNoff 0; SDims 0;
   SDefault; SMoveAssign 3 1; SGetVal 3 0; SSwap 2 3; SGetVal 2 0; SSize 2; SResize 3 1 3 0; SNnz 3; SNoff 3;
   SResize 0 4 4 1; SDims 0; SCopyAssign 1 2; SGetKey 1 0; SDestroy 0; SDestroy 1; SDestroy 2; SDestroy 3].
Example C67_nonvacuous : exists v, svrun [] sdemo =
  Some (v, [SNone; SNone; SNone; SNone; SNone; SNone; SNone; SNone;
    SNone; SNone; SVal (Some 5%Z); SNone; SVal (Some 5%Z); SIdx (Some 0); SIdx (Some 2); SNat 0; SNat 0; SPair 2 2;
    SNone; SNone; SVal (Some 8%Z); SNone; SVal (Some 8%Z); SNat 4; SNone; SNat 3; SNat 4;
    SThrew; SPair 4 4; SNone; SIdx (Some 1); SNone; SNone; SNone; SNone]) /\
  (forall x, In x v -> x = None) /\ sclean [] sdemo = true.
Proof.
  eexists. split; [vm_compute; reflexivity|]. split; [|vm_compute; reflexivity].
  simpl. intuition congruence.
Qed.

(** A moved-from matrix keeps its dimensions but has no offsets: walking its
    columns is undefined behaviour. *)
Theorem C67_moved_from_refuted : forall (T : Type) r c n,
  exists m, srun (T := T) ssys0 [SSized r c n; SMoveCtor 0; SDims 0; SNnz 0] = Ok (m, [SNone; SNone; SPair r c; SNat 0]) /\
    sstep m (SGetOff 0 0) = UB NullDeref.
Proof. intros. eexists. split; simpl; reflexivity. Qed.
(** A default-constructed matrix has no offsets either: even offset 0 is not there. *)
Theorem C67_default_refuted : forall (T : Type),
  exists m, srun (T := T) ssys0 [SDefault; SDims 0; SNoff 0] = Ok (m, [SNone; SPair 0 0; SNat 0]) /\
    exists k, sstep m (SGetOff 0 0) = UB k.
Proof. intros. eexists. split; [simpl; reflexivity|]. eexists. vm_compute. reflexivity. Qed.
(** Copy-constructing from a moved-from matrix loses memory. *)
Theorem C67_copy_moved_from_refuted :
  exists ops v zs m, svrun (T := Z) [] ops = Some (v, zs) /\ (forall x, In x v -> x = None) /\
    srun ssys0 ops = Ok (m, zs) /\ ~ all_freed (sy_val m).
Proof.
  exists [SSized 1 1 1; SMoveCtor 0; SCopyCtor 0; SDestroy 0; SDestroy 1; SDestroy 2].
  do 3 eexists. split; [vm_compute; reflexivity|]. split; [simpl; intuition congruence|].
  split; [vm_compute; reflexivity|]. intros H.
  specialize (H _ (or_intror (or_introl eq_refl)) eq_refl). discriminate.
Qed.
(** A swap does not exchange getSize(). *)
Theorem C67_swap_size_refuted : forall (T : Type) r c n r' c' n',
  exists m, srun (T := T) ssys0 [SSized r c n; SSized r' c' n'; SSwap 0 1; SDims 0; SSize 0]
    = Ok (m, [SNone; SNone; SNone; SPair r' c'; SNat (r * c)]).
Proof. intros. eexists. simpl. reflexivity. Qed.
(** Moving a matrix onto itself loses its contents. *)
Theorem C67_self_move_refuted : 
  exists m, srun ssys0 [SSized 1 1 1; SPutVal 0 0 5%Z; SNnz 0; SMoveAssign 0 0; SDims 0; SNnz 0] =
    Ok (m, [SNone; SNone; SNat 1; SNone; SPair 1 1; SNat 0]).
Proof. eexists. vm_compute. reflexivity. Qed.
Print Assumptions C67_moved_from_refuted. Print Assumptions C67_swap_size_refuted.
