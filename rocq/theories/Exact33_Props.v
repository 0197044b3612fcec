(** Wrong programs that had survived: memory that fails when none is needed (C81),
    const in the BLAS interface (C71), the storage lines of a matrix (C05). *)
From Verif Require Import Base BaseLemmas Storage_Model Alloc_Model AllocM_Model Obj_Model SObj_Model Dense_Model Dense_Spec Dense_Proofs BlasIf_Model.
Require Import String.
Local Open Scope nat_scope.

(** ** C81 *)
Lemma astep_unnoticed {T} (y y1 : sys T) o ok x : astep y (o, ok) = Ok (y1, AOut x) -> step y o = Ok (y1, x).
Proof.
  unfold astep. destruct ok.
  - destruct (step y o) as [[a b]| | | |]; cbn; try discriminate. intros [= <- <-]. reflexivity.
  - assert (U : forall r : res (sys T * out T), (do r <- r; fine r) = Ok (y1, AOut x) -> r = Ok (y1, x)).
    { intros [[a b]| | | |]; cbn; try discriminate. intros [= <- <-]. reflexivity. }
    destruct o; try (apply U); try discriminate; cbn [step].
    + destruct (get_obj y s) as [r| | | |]; cbn [bind]; discriminate.
    + destruct (get_obj y s) as [r| | | |]; cbn [bind]; discriminate.
    + unfold s_resize. destruct (get_obj y s) as [r| | | |]; cbn [bind]; try discriminate.
      destruct (st_size r =? n); [intros [= <- <-]; reflexivity|]. destruct (negb (st_own r)); [intros [= <- <-]; reflexivity|].
      destruct (match st_data r with None => Ok (blocks y) | Some _ => h_free (blocks y) (st_data r) end); discriminate.
    + unfold quiet, s_copy_assign. destruct (get_obj y d) as [l| | | |]; cbn [bind]; try discriminate.
      destruct (get_obj y s) as [r| | | |]; cbn [bind]; try discriminate. destruct (d =? s); [intros [= <- <-]; reflexivity|].
      destruct (st_own l); cbn [bind]; [destruct (h_free (blocks y) (st_data l)); cbn [bind]; try discriminate|];
        (destruct (st_own r) eqn:Or; [discriminate|]; intros [= <- <-]; rewrite ?Or; reflexivity).
    + destruct (get_obj y s) as [r| | | |]; cbn [bind]; discriminate.
Qed.

(** A failing memory is noticed only by an exception: if no call of a program
    reports std::bad_alloc, state and reports are those of the program with
    memory. *)
Theorem C81_unnoticed : forall (T : Type) (cs : list (op T * bool)) y y1 zs,
  arun y cs = Ok (y1, map AOut zs) -> run y (map fst cs) = Ok (y1, zs).
Proof.
  intros T. induction cs as [|[o ok] cs IH]; intros y y1 zs; cbn [arun run map fst].
  - intros [= <- E]. destruct zs; [reflexivity|discriminate].
  - destruct (astep y (o, ok)) as [[y2 x]| | | |] eqn:S; cbn [bind]; try discriminate.
    destruct (arun y2 cs) as [[y3 xs]| | | |] eqn:R; cbn [bind]; try discriminate. intros [= <- E].
    destruct zs as [|z zs]; [discriminate|]. cbn [map] in E. injection E as -> ->.
    rewrite (astep_unnoticed _ _ _ _ _ S). cbn [bind]. rewrite (IH _ _ _ R). reflexivity.
Qed.
Print Assumptions C81_unnoticed.

Section Dense.
Context {T N : Type} (o : orient) (dbg : bool) (norm_of : nat -> nat -> buf T -> res N) (eqv : T -> T -> bool).
Notation amstep := (amstep o dbg norm_of eqv).
Notation mstep := (mstep o dbg norm_of eqv).
Lemma failing_unnoticed (m m1 : msys T N) so hs hs1 x : failing m so hs hs1 = Ok (m1, AMOut x) -> with_storage m so hs1 = Ok (m1, x).
Proof.
  unfold failing, with_storage. destruct (astep (m_sys m) (so, false)) as [[y [z|]]| | | |] eqn:S; cbn [bind]; try discriminate.
  intros [= <- <-]. rewrite (astep_unnoticed _ _ _ _ _ S). reflexivity.
Qed.
Lemma amstep_unnoticed (m m1 : msys T N) c ok x : amstep m (c, ok) = Ok (m1, AMOut x) -> mstep m c = Ok (m1, x).
Proof.
  assert (U : forall r : res (msys T N * mout T N), (do r <- r; Ok (fst r, AMOut (snd r))) = Ok (m1, AMOut x) -> r = Ok (m1, x)).
  { intros [[a b]| | | |]; cbn; try discriminate. intros [= <- <-]. reflexivity. }
  unfold AllocM_Model.amstep. destruct ok; [apply U|]. destruct c; try (apply U); try discriminate; cbn [Obj_Model.mstep].
  - destruct (hdr_of m s); cbn [bind]; try discriminate. destruct (get_obj (m_sys m) s); discriminate.
  - destruct (hdr_of m s); cbn [bind]; try discriminate. destruct (hdr_of m d); cbn [bind]; try discriminate. apply failing_unnoticed.
  - destruct (hdr_of m s); cbn [bind]; try discriminate. apply failing_unnoticed.
  - destruct (hdr_of m s); cbn [bind]; try discriminate. apply failing_unnoticed.
Qed.
Theorem C81_dense_unnoticed : forall cs (m m1 : msys T N) zs,
  amrun o dbg norm_of eqv m cs = Ok (m1, map AMOut zs) -> mrun o dbg norm_of eqv m (map fst cs) = Ok (m1, zs).
Proof.
  induction cs as [|[c ok] cs IH]; intros m m1 zs; cbn [amrun mrun map fst].
  - intros [= <- E]. destruct zs; [reflexivity|discriminate].
  - destruct (amstep m (c, ok)) as [[m2 x]| | | |] eqn:S; cbn [bind]; try discriminate.
    destruct (amrun o dbg norm_of eqv m2 cs) as [[m3 xs]| | | |] eqn:R; cbn [bind]; try discriminate. intros [= <- E].
    destruct zs as [|z zs]; [discriminate|]. cbn [map] in E. injection E as -> ->.
    rewrite (amstep_unnoticed _ _ _ _ _ S). cbn [bind]. rewrite (IH _ _ _ R). reflexivity.
Qed.
End Dense.
Print Assumptions C81_dense_unnoticed.

Section Sparse.
Context {T : Type}.
Lemma change3_unnoticed (m m1 : ssys T) f ov ok oo hs x : change3 m f ov ok oo hs = Ok (m1, ASOut x) -> on3 m ov ok oo hs = Ok (m1, x).
Proof.
  unfold change3, on3. destruct (astep (sy_val m) (ov, fl_val f)) as [[y1 [x1|]]| | | |] eqn:S1; cbn [bind]; try discriminate.
  rewrite (astep_unnoticed _ _ _ _ _ S1). cbn [bind]. destruct x1; try (intros [= <- <-]; reflexivity).
  all: destruct (astep (sy_key m) (ok, fl_key f)) as [[y2 [x2|]]| | | |] eqn:S2; cbn [bind]; try discriminate;
    rewrite (astep_unnoticed _ _ _ _ _ S2); cbn [bind]; destruct x2; try (intros [= <- <-]; reflexivity);
    destruct (astep (sy_off m) (oo, fl_off f)) as [[y3 [x3|]]| | | |] eqn:S3; cbn [bind]; try discriminate;
    rewrite (astep_unnoticed _ _ _ _ _ S3); cbn [bind]; destruct x3; intros [= <- <-]; reflexivity.
Qed.
Lemma ctor3_unnoticed (m m1 : ssys T) f ov ok oo hs x : ctor3 m f ov ok oo hs = Ok (m1, ASOut x) -> on3 m ov ok oo hs = Ok (m1, x).
Proof.
  unfold ctor3. destruct (negb (fl_val f)); [discriminate|].
  destruct (negb (fl_key f)). { destruct (undone (sy_val m) ov); cbn [bind]; discriminate. }
  destruct (negb (fl_off f)). { destruct (undone (sy_val m) ov); cbn [bind]; try discriminate. destruct (undone (sy_key m) ok); discriminate. }
  destruct (on3 m ov ok oo hs) as [[a b]| | | |]; cbn; try discriminate. intros [= <- <-]. reflexivity.
Qed.
Theorem C81_sparse_unnoticed : forall cs (m m1 : ssys T) zs,
  asrun m cs = Ok (m1, map ASOut zs) -> srun m (map fst cs) = Ok (m1, zs).
Proof.
  induction cs as [|[c f] cs IH]; intros m m1 zs; cbn [asrun srun map fst].
  - intros [= <- E]. destruct zs; [reflexivity|discriminate].
  - destruct (asstep m (c, f)) as [[m2 x]| | | |] eqn:S; cbn [bind]; try discriminate.
    destruct (asrun m2 cs) as [[m3 xs]| | | |] eqn:R; cbn [bind]; try discriminate. intros [= <- E].
    destruct zs as [|z zs]; [discriminate|]. cbn [map] in E. injection E as -> ->.
    assert (Q : sstep m c = Ok (m2, z)).
    { assert (U : forall r : res (ssys T * sout T), (do r <- r; Ok (fst r, ASOut (snd r))) = Ok (m2, ASOut z) -> r = Ok (m2, z)).
      { intros [[a b]| | | |]; cbn; try discriminate. intros [= <- <-]. reflexivity. }
      destruct c; cbn [asstep] in S; try (now apply U in S); cbn [sstep].
      - now apply ctor3_unnoticed in S.
      - now apply ctor3_unnoticed in S.
      - destruct (shdr_of m s); cbn [bind] in *; try discriminate. destruct (get_obj (sy_val m) s); cbn [bind] in *; try discriminate. now apply ctor3_unnoticed in S.
      - destruct (shdr_of m s); cbn [bind] in *; try discriminate. destruct (shdr_of m d); cbn [bind] in *; try discriminate. now apply change3_unnoticed in S.
      - destruct (shdr_of m s); cbn [bind] in *; try discriminate. now apply change3_unnoticed in S. }
    rewrite Q. cbn [bind]. rewrite (IH _ _ _ R). reflexivity.
Qed.
End Sparse.
Print Assumptions C81_sparse_unnoticed.

(** A resize to the size a matrix has, and an assignment to itself, need no memory. *)
Example C81_unnoticed_nonvacuous :
  (exists m1 zs, amrun RowMajor true (fun _ _ _ => Ok 0) Nat.eqb (msys0 (T:=nat)) [(MSized 2 3, true); (MResize 0 3 2, false); (MCopyAssign 0 0, false); (MDims 0, false)]
     = Ok (m1, map AMOut zs) /\ nth_error zs 3 = Some (MPair 3 2)) /\
  (exists m1 zs, asrun (ssys0 (T:=nat)) [(SSized 2 3 0, mkFlags true true true); (SResize 0 3 3 6, mkFlags false false false); (SDims 0, mkFlags false false false)]
     = Ok (m1, map ASOut zs) /\ nth_error zs 2 = Some (SPair 3 3)).
Proof.
  split.
  - eexists. exists [MNone; MNone; MNone; MPair 3 2]. split; reflexivity.
  - eexists. exists [SNone; SNone; SPair 3 3]. split; reflexivity.
Qed.
Print Assumptions C81_unnoticed_nonvacuous.

(** ** C71 *)
(** A definition that compiles calls a declared routine with as many arguments as
    the routine has parameters, each a parameter of the definition, of the same
    type, or the local result; what the definition takes as const is const in the
    routine. *)
Theorem C71_const_is_kept :
  forall protos w, compiles protos w = true ->
    exists callee l p, In p protos /\ f_name p = callee /\ List.length l = List.length (f_args p) /\
      (w_body w = RetCall callee l \/ exists ty x r, w_body w = LocalCall ty x callee l r) /\
      forall k e c t, nth_error l k = Some e -> nth_error (f_args p) k = Some (c, t) ->
        match e with
        | Var x => exists c', In ((c', t), x) (w_params w) /\ (c' = true -> c = true)
        | AddrOf x => exists callee l r, w_body w = LocalCall t x callee l r
        end.
Proof.
  intros protos w H. unfold compiles in H. apply andb_prop in H as [_ H].
  assert (TE : forall a b, ctype_eqb a b = true -> a = b) by (intros [] []; try discriminate; reflexivity).
  assert (ARGS : forall local l ps, args_ok (w_params w) local l ps = true ->
    List.length l = List.length ps /\ forall k e c t, nth_error l k = Some e -> nth_error ps k = Some (c, t) ->
      match e with
      | Var x => exists c', In ((c', t), x) (w_params w) /\ (c' = true -> c = true)
      | AddrOf x => local = Some (x, t)
      end).
  { intros local. induction l as [|e l IH]; intros [|[c t] ps] A; cbn [args_ok] in A; try discriminate.
    - split; [reflexivity|]. intros [|k]; discriminate.
    - apply andb_prop in A as [A1 A2]. destruct (IH _ A2) as [L I]. split; [cbn; now rewrite L|].
      intros [|k] e' c0 t0 E1 E2; cbn in E1, E2; [|eapply I; eauto]. injection E1 as <-. injection E2 as <- <-.
      unfold arg_type in A1. destruct e as [x|x].
      + destruct (find (fun p => String.eqb x (snd p)) (w_params w)) as [[[c' t'] x']|] eqn:F; cbn in A1; [|discriminate].
        apply find_some in F as [F1 F2]. cbn in F2. apply String.eqb_eq in F2 as <-. unfold converts in A1. cbn [fst snd] in A1.
        apply andb_prop in A1 as [B1 B2]. apply TE in B1 as ->. exists c'. split; [exact F1|]. intros ->. exact B2.
      + destruct local as [[y t']|]; [|discriminate]. destruct (String.eqb_spec x y) as [<-|]; [|discriminate].
        unfold converts in A1. cbn [fst snd] in A1. apply andb_prop in A1 as [B1 _]. now apply TE in B1 as ->. }
  assert (FIND : forall callee p, find (fun p => String.eqb callee (f_name p)) protos = Some p -> In p protos /\ f_name p = callee).
  { intros callee p F. apply find_some in F as [F1 F2]. apply String.eqb_eq in F2. auto. }
  destruct (w_body w) as [callee l|ty x callee l r] eqn:B.
  - destruct (find _ protos) as [p|] eqn:F; [|discriminate]. apply FIND in F as [F1 F2]. apply andb_prop in H as [_ H].
    destruct (ARGS _ _ _ H) as [L I]. exists callee, l, p. split; [exact F1|]. split; [exact F2|]. split; [exact L|]. split; [now left|].
    intros k e c t E1 E2. pose proof (I k e c t E1 E2) as Q. destruct e; [exact Q|discriminate].
  - destruct (find _ protos) as [p|] eqn:F; [|discriminate]. apply FIND in F as [F1 F2]. apply andb_prop in H as [H _]. apply andb_prop in H as [H _].
    destruct (ARGS _ _ _ H) as [L I]. exists callee, l, p. split; [exact F1|]. split; [exact F2|]. split; [exact L|]. split; [right; eauto|].
    intros k e c t E1 E2. pose proof (I k e c t E1 E2) as Q. destruct e; [exact Q|]. injection Q as -> ->. eauto.
Qed.
Print Assumptions C71_const_is_kept.

(** A definition that drops const does not compile; one that adds it does. *)
Example C71_const_nonvacuous :
  compiles [mkFn Void "r_" [(false, F64)]] (mkW Void "r" [((true, F64), "v0"%string)] (RetCall "r_" [Var "v0"])) = false /\
  compiles [mkFn Void "r_" [(true, F64)]] (mkW Void "r" [((false, F64), "v0"%string)] (RetCall "r_" [Var "v0"])) = true.
Proof. split; reflexivity. Qed.
Print Assumptions C71_const_nonvacuous.

(** ** C05 *)
(** The elements of a matrix lie in getMinorDimension() lines of
    getMajorDimension() elements, one after the other: rows in a row-major, columns
    in a column-major matrix. *)
Theorem C05_lines :
  forall dbg o r c i j p, position dbg (own_shape o r c) i j = Ok p -> i < r -> j < c ->
    let sh := own_shape o r c in
    let line := match o with RowMajor => i | ColMajor => j end in
    let place := match o with RowMajor => j | ColMajor => i end in
    line < getMinorDimension sh /\ place < getMajorDimension sh /\
    getMinorDimension sh * getMajorDimension sh = r * c /\
    p / getMajorDimension sh = line /\ p mod getMajorDimension sh = place.
Proof.
  intros dbg o r c i j p P Hi Hj. unfold position in P. rewrite !(proj2 (Nat.ltb_lt _ _)) in P by (cbn; lia).
  replace (cassert dbg true) with (Ok tt) in P by (now destruct dbg). cbn [bind] in P.
  destruct o; cbn in *; injection P as <-; (split; [lia|]; split; [lia|]; split; [lia|]).
  - split; [rewrite Nat.div_add_l by lia; rewrite Nat.div_small by lia; lia|rewrite Nat.add_comm, Nat.mod_add by lia; now apply Nat.mod_small].
  - split; [rewrite Nat.div_add by lia; now rewrite Nat.div_small by lia|rewrite Nat.mod_add by lia; now apply Nat.mod_small].
Qed.
Print Assumptions C05_lines.
Example C05_lines_nonvacuous :
  position true (own_shape RowMajor 2 3) 1 2 = Ok 5 /\ getMinorDimension (own_shape RowMajor 2 3) = 2 /\ getMajorDimension (own_shape RowMajor 2 3) = 3 /\
  position true (own_shape ColMajor 2 3) 1 2 = Ok 5 /\ getMinorDimension (own_shape ColMajor 2 3) = 3 /\ getMajorDimension (own_shape ColMajor 2 3) = 2.
Proof. repeat split. Qed.
Print Assumptions C05_lines_nonvacuous.
