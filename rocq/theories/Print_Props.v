(** C80: matrices and numbers printed one after the other. *)
From Coq Require Import String Ascii.
From Verif Require Import Base BaseLemmas Dense_Model Dense_Spec Dense_Proofs Dense_Props Sparse_Model Dyn_Model Dyn2_Proofs
  Stream_Model Text_Model Text_Spec Text_Proofs Print_Model.
Local Open Scope string_scope.
Local Open Scope list_scope.

(** ** What is to be expected *)
Section Spec.
Context {F D S : Type} (style0 : S).
Context (rendF : S -> notation -> Z -> F -> string) (rendD : S -> notation -> Z -> D -> string) (rendI : S -> nat -> string).
#[local] Notation fmt := (@fmt S).

(** A matrix whose elements have all been set. *)
Definition readable_dense {T} (d : dense T) : Prop := legal d /\ exists r c f, view d r c f.
Definition readable_sparse {T} (s : sparse T) : Prop :=
  exists vs ks os, s_val s = map Some vs /\ s_key s = map Some ks /\ s_off s = map Some os.
Definition readable_leaf (l : leaf F D) : Prop :=
  match l with
  | LZ _ => True
  | LSf s => readable_sparse s | LSd s => readable_sparse s
  | LDf d => readable_dense d | LDd d => readable_dense d
  end.
Definition readable_dyn (p : option (dyn F D)) : Prop :=
  match p with
  | None => True
  | Some (DL l) => In (TL (leaf_ty l)) type_list /\ readable_leaf l
  | Some (DM t1 t2 m1 m2) => In (TM t1 t2) type_list /\ exists l1 l2, m1 = Some l1 /\ m2 = Some l2 /\ readable_leaf l1 /\ readable_leaf l2
  end.
Definition readable (i : @m_item F D S) : Prop :=
  match i with MLeaf l => readable_leaf l | MDyn p => readable_dyn p | _ => True end.

(** The settings after one matrix: a dense matrix that is printed leaves scientific
    notation with 10 digits; a width set before is used up, unless nothing but line
    ends is written. *)
Definition is_printed {T} (d : dense T) : bool := (d_rows d <=? 100)%nat && (d_cols d <=? 100)%nat.
Definition has_elements {T} (d : dense T) : bool := (0 <? d_rows d)%nat && (0 <? d_cols d)%nat.
Definition set_width (w : nat) (s : fmt) : fmt := mkFmt (f_not s) (f_prec s) w (f_left s) (f_fill s) (f_style s) (f_full s).
Definition after_dense {T} (d : dense T) (s : fmt) : fmt :=
  if is_printed d then
    mkFmt Scientific 10 (if f_full s || has_elements d then 0 else f_width s) (f_left s) (f_fill s) (f_style s) (f_full s)
  else set_width 0 s.
Definition after_leaf (l : leaf F D) (s : fmt) : fmt :=
  match l with LDf d => after_dense d s | LDd d => after_dense d s | _ => set_width 0 s end.
Definition after_dyn (p : option (dyn F D)) (s : fmt) : fmt :=
  match p with
  | Some (DL l) => after_leaf l s
  | Some (DM _ _ (Some l1) (Some l2)) => after_leaf l2 (after_leaf l1 s)
  | _ => set_width 0 s
  end.
Definition after (s : fmt) (i : @m_item F D S) : fmt :=
  match i with
  | MNotation n => mkFmt n (f_prec s) (f_width s) (f_left s) (f_fill s) (f_style s) (f_full s)
  | MPrecision p => mkFmt (f_not s) p (f_width s) (f_left s) (f_fill s) (f_style s) (f_full s)
  | MWidth w => set_width w s
  | MLeft b => mkFmt (f_not s) (f_prec s) (f_width s) b (f_fill s) (f_style s) (f_full s)
  | MFill c => mkFmt (f_not s) (f_prec s) (f_width s) (f_left s) c (f_style s) (f_full s)
  | MStyle y => mkFmt (f_not s) (f_prec s) (f_width s) (f_left s) (f_fill s) y (f_full s)
  | MFull b => mkFmt (f_not s) (f_prec s) (f_width s) (f_left s) (f_fill s) (f_style s) b
  | MText _ | MNumber _ => set_width 0 s
  | MLeaf l => after_leaf l s
  | MDyn p => after_dyn p s
  end.
(** The settings of stream [k] after a program. *)
Definition settings (k : nat) (s : fmt) (l : list (nat * @m_item F D S)) : fmt :=
  fold_left (fun s ki => if Nat.eqb (fst ki) k then after s (snd ki) else s) l s.

(** The text of a dense matrix with elements [f i j]: each column one wider than its
    longest element as a new stream shows it; [s] decides on which side which
    character fills up, and the sign and grouping of the numbers. *)
Definition column {T} (rend : S -> notation -> Z -> T -> string) (r : nat) (f : nat -> nat -> T) (j : nat) : nat :=
  1 + list_max (map (fun i => String.length (rend style0 Scientific 10%Z (f i j))) (seq 0 r)).
Definition dense_text {T} (rend : S -> notation -> Z -> T -> string) (name : string) (s : fmt) (r c : nat) (f : nat -> nat -> T) : string :=
  (if (r <=? 100)%nat && (c <=? 100)%nat then
    (if f_full s then pad_to s name ++ nl ++ "Dimension = " ++ rendI (f_style s) r ++ " x " ++ rendI (f_style s) c ++ nl else "") ++
    nl ++ cat (map (fun i =>
      cat (map (fun j => pad_to (set_width (column rend r f j) s) (rend (f_style s) Scientific 10%Z (f i j))) (seq 0 c)) ++ nl) (seq 0 r)) ++ nl
  else pad_to s "Matrix too large for printing." ++ nl)%string.
End Spec.

(** ** Proofs *)
Section Proofs.
Context {F D S : Type} (style0 : S).
Context (rendF : S -> notation -> Z -> F -> string) (rendD : S -> notation -> Z -> D -> string) (rendI : S -> nat -> string).
#[local] Notation fmt := (@fmt S).
#[local] Notation prim := (@prim F D).
#[local] Notation run := (run_prims rendF rendD rendI).
#[local] Notation ins := (m_insert style0 rendF rendD rendI).
#[local] Notation wr_to := (write_to style0 rendF rendD rendI).

Lemma run_app (l1 l2 : list prim) : forall s, run s (l1 ++ l2) =
  (fst (run (fst (run s l1)) l2), (snd (run s l1) ++ snd (run (fst (run s l1)) l2))%string).
Proof.
  induction l1 as [|p l1 IH]; intros s.
  - cbn. now destruct (run s l2).
  - cbn [app run_prims]. destruct (run_prim rendF rendD rendI s p) as [s1 t1]. rewrite IH.
    destruct (run s1 l1) as [s2 t2]. cbn [fst snd]. now rewrite app_s_assoc.
Qed.
Lemma run_flat {X} (g : X -> list prim) (t : X -> string) (s : fmt) l :
  (forall x, In x l -> run s (g x) = (s, t x)) -> run s (flat_map g l) = (s, cat (map t l)).
Proof.
  induction l as [|x l IH]; intros H; [reflexivity|]. cbn [flat_map map cat fold_right]. rewrite run_app, H by now left.
  cbn [fst snd]. rewrite IH by (intros; apply H; now right). reflexivity.
Qed.

Lemma foldM_list {X Y} (f : X -> list Y -> res (list Y)) (g : X -> list Y) l : forall out,
  (forall x out, In x l -> f x out = Ok (out ++ g x)) -> foldM f l out = Ok (out ++ flat_map g l).
Proof.
  induction l as [|x l IH]; intros out H; cbn [foldM flat_map].
  - now rewrite app_nil_r.
  - rewrite H by now left. cbn [bind]. rewrite IH by (intros; apply H; now right). now rewrite app_assoc.
Qed.

Section Dense.
Context {T : Type} (rend : S -> notation -> Z -> T -> string) (elem : T -> prim).
Hypothesis Helem : forall s x, run_prim rendF rendD rendI s (elem x) = out_text s (rend (f_style s) (f_not s) (f_prec s) x).

Lemma dense_prims_spec name full (d : dense T) r c f : view d r c f -> legal d ->
  dense_prims (rend style0 Scientific 10%Z) elem name full d =
  Ok (if (r <=? 100)%nat && (c <=? 100)%nat then
        (if full then [PText name; PNl; PText "Dimension = "; PInt r; PText " x "; PInt c; PNl] else []) ++ [PSci; PNl] ++
        flat_map (fun i => flat_map (fun j => [PWidth (column style0 rend r f j); elem (f i j)]) (seq 0 c) ++ [PNl]) (seq 0 r) ++ [PNl]
      else [PText "Matrix too large for printing."; PNl]).
Proof.
  intros Hv Hl. pose proof (legal_ok d Hl) as Hok. pose proof Hv as (Hr & Hc & _). unfold dense_prims.
  destruct (Nat.leb_spec r 100) as [H1|H1], (Nat.leb_spec c 100) as [H2|H2]; cbn [andb];
    rewrite Hr, Hc; destruct (Nat.ltb_spec 100 r), (Nat.ltb_spec 100 c); try lia; cbn [orb]; try reflexivity.
  pose proof (widths_spec (fun v => (rend style0 Scientific 10%Z v, "")) d r c f Hv Hok) as E.
  cbn [fst snd] in E. rewrite Hr, Hc in E.
  assert (E2 : forM r (fun i w => do ads <- cur_addrs (d_sh d) DRow DCol i;
      foldM (fun '(k, a) w => do v <- rd (d_buf d) a;
        match nth_error w k with None => UB OOBRead | Some x => Ok (upd w k (Nat.max x (String.length (rend style0 Scientific 10%Z v)))) end)
        (enum ads) w) (repeat 0 c) =
    Ok (map (wmax (fun i j => String.length (rend style0 Scientific 10%Z (f i j))) r) (seq 0 c))).
  { etransitivity; [|etransitivity; [exact E|]].
    - apply foldM_ext. intros i w _. apply bind_ext. intros ads _. apply foldM_ext. intros [k a] w' _. apply bind_ext. intros v _.
      now rewrite app_s_nil.
    - f_equal. apply map_ext. intros j. unfold wmax. f_equal. apply map_ext. intros i. unfold shown. cbn [fst snd]. now rewrite app_s_nil. }
  rewrite E2. cbn [bind]. clear E E2. destruct Hok as (Hld & _ & _). unfold forM.
  erewrite (foldM_list _ (fun i => flat_map (fun j => [PWidth (column style0 rend r f j); elem (f i j)]) (seq 0 c) ++ [PNl])).
  - cbn [bind]. now rewrite app_nil_l.
  - intros i o Hi. apply in_seq in Hi. rewrite cur_rc by (unfold d_rows in Hr; auto; lia). cbn [bind]. rewrite enum_map_seq, foldM_map.
    unfold d_cols in Hc. rewrite Hc. erewrite foldM_list.
    + cbn [bind]. now rewrite <- app_assoc.
    + intros j o' Hj. apply in_seq in Hj. pose proof (view_cell d r c f i j Hv ltac:(lia) ltac:(lia)) as E.
      apply rd_ok in E. rewrite E. cbn [bind]. rewrite !nth_error_map_eq, nth_error_seq.
      destruct (Nat.ltb_spec j c); [|lia]. reflexivity.
Qed.

(** One row on a printing stream. *)
Lemma run_row (s : fmt) r f i : forall l, f_not s = Scientific -> f_prec s = 10%Z ->
  run s (flat_map (fun j => [PWidth (column style0 rend r f j); elem (f i j)]) l) =
  (match l with [] => s | _ => set_width 0 s end,
   cat (map (fun j => pad_to (set_width (column style0 rend r f j) s) (rend (f_style s) Scientific 10%Z (f i j))) l)).
Proof.
  intros l Hn Hp. revert s Hn Hp. induction l as [|j l IH]; intros s Hn Hp; [reflexivity|].
  cbn [flat_map app run_prims run_prim map cat fold_right]. rewrite Helem. cbn [f_style f_not f_prec out_text].
  cbn [f_not f_prec f_width f_left f_fill f_style f_full]. rewrite IH by auto. unfold set_width, pad_to.
  cbn [f_not f_prec f_width f_left f_fill f_style f_full]. destruct s; cbn in Hn, Hp. subst. destruct l; reflexivity.
Qed.

Lemma run_rows r c f : forall l (s : fmt), f_not s = Scientific -> f_prec s = 10%Z ->
  run s (flat_map (fun i => flat_map (fun j => [PWidth (column style0 rend r f j); elem (f i j)]) (seq 0 c) ++ [PNl]) l) =
  (if (0 <? List.length l)%nat && (0 <? c)%nat then set_width 0 s else s,
   cat (map (fun i =>
      (cat (map (fun j => pad_to (set_width (column style0 rend r f j) s) (rend (f_style s) Scientific 10%Z (f i j))) (seq 0 c)) ++ nl)%string) l)).
Proof.
  induction l as [|i l IH]; intros s Hn Hp; [reflexivity|].
  cbn [flat_map map cat fold_right]. rewrite !run_app, run_row by auto. cbn [fst snd run_prims run_prim].
  rewrite IH by (destruct c; auto). destruct c as [|c].
  - cbn [seq map fst snd]. rewrite !andb_false_r. cbn. reflexivity.
  - change (seq 0 (Datatypes.S c)) with (0 :: seq 1 c) in *. cbn [fst snd List.length].
    replace ((0 <? Datatypes.S (List.length l))%nat && (0 <? Datatypes.S c)%nat) with true by reflexivity.
    rewrite app_s_nil. f_equal. destruct ((0 <? List.length l)%nat && _)%bool; reflexivity.
Qed.

Lemma dense_run name (s : fmt) (d : dense T) r c f : view d r c f -> legal d ->
  exists ps, dense_prims (rend style0 Scientific 10%Z) elem name (f_full s) d = Ok ps /\
    run s ps = (after_dense d s, dense_text style0 rendI rend name s r c f).
Proof.
  intros Hv Hl. eexists. split; [exact (dense_prims_spec name (f_full s) d r c f Hv Hl)|]. pose proof Hv as (Hr & Hc & _).
  unfold after_dense, is_printed, has_elements, dense_text. rewrite Hr, Hc.
  destruct ((r <=? 100)%nat && (c <=? 100)%nat) eqn:B.
  - rewrite !run_app.
    assert (Eh : run s (if f_full s then [PText name; PNl; PText "Dimension = "; PInt r; PText " x "; PInt c; PNl] else []) =
      (if f_full s then set_width 0 s else s,
       (if f_full s then pad_to s name ++ nl ++ "Dimension = " ++ rendI (f_style s) r ++ " x " ++ rendI (f_style s) c ++ nl else "")%string)).
    { destruct (f_full s) eqn:Ef; [|reflexivity]. cbn [run_prims run_prim out_text fst snd]. unfold set_width, out_text, pad_to.
      cbn [f_not f_prec f_width f_left f_fill f_style f_full]. cbn [Nat.sub filled].
      destruct (f_left s); cbn [fst snd]; rewrite ?Ef, ?app_s_nil; reflexivity. }
    rewrite Eh. cbn [fst snd].
    set (s1 := if f_full s then set_width 0 s else s). cbn [run_prims run_prim fst snd].
    set (s2 := mkFmt Scientific 10 _ _ _ _ _).
    rewrite run_rows by reflexivity. rewrite seq_length. cbn [fst snd].
    replace (f_style s2) with (f_style s) by (unfold s2, s1; destruct (f_full s); reflexivity).
    assert (Ew : forall w, pad_to (set_width w s2) = pad_to (set_width w s)) by (intros w; unfold s2, s1; destruct (f_full s); reflexivity).
    f_equal.
    + unfold s2, s1. destruct ((0 <? r)%nat && (0 <? c)%nat); destruct s as [sn sp sw sl sf sy [|]]; reflexivity.
    + f_equal. rewrite app_s_nil. cbn [append]. f_equal. f_equal. f_equal. apply map_ext. intros i. f_equal. f_equal. apply map_ext. intros j. now rewrite Ew.
  - reflexivity.
Qed.
End Dense.

Lemma width_prim (s : fmt) (p : prim) : f_width s = 0 -> (forall w, p <> PWidth w) -> p <> PSci -> fst (run_prim rendF rendD rendI s p) = s.
Proof. destruct s; cbn. intros -> Hw Hs. destruct p; try reflexivity; try congruence. Qed.
Lemma width_prims (ps : list prim) : forall s : fmt, f_width s = 0 -> Forall (fun p => (forall w, p <> PWidth w) /\ p <> PSci) ps -> fst (run s ps) = s.
Proof.
  induction ps as [|p ps IH]; intros s H0 HF; [reflexivity|]. inversion_clear HF as [|? ? [A B] C]. cbn [run_prims].
  pose proof (width_prim s p H0 A B) as E. destruct (run_prim rendF rendD rendI s p) as [s1 t1]. cbn in E. subst s1.
  specialize (IH s H0 C). destruct (run s ps). exact IH.
Qed.

Lemma text_first (t : string) (ps : list prim) (s : fmt) : Forall (fun p => (forall w, p <> PWidth w) /\ p <> PSci) ps ->
  fst (run s (PText t :: ps)) = set_width 0 s.
Proof.
  intros H. cbn [run_prims run_prim out_text]. pose proof (width_prims ps (set_width 0 s) eq_refl H) as E.
  unfold set_width in *. destruct (run _ ps). exact E.
Qed.

Definition plain (p : prim) : Prop := (forall w, p <> PWidth w) /\ p <> PSci.
Lemma plain_flat {X} (g : X -> prim) l : (forall x, plain (g x)) -> Forall plain (flat_map (fun v => [g v; PText " "]) l).
Proof. intros H. induction l as [|x l IH]; cbn; constructor; auto. constructor; auto. split; discriminate. Qed.

Lemma sparse_run {T} (elem : T -> prim) name (s : fmt) (m : sparse T) : (forall x, plain (elem x)) -> readable_sparse m ->
  exists ps, sparse_prims elem name m = Ok ps /\ fst (run s ps) = set_width 0 s.
Proof.
  intros He (vs & ks & os & Ev & Ek & Eo). unfold sparse_prims. rewrite Ev, Ek, Eo, !rd_all. cbn [bind].
  destruct (100 <? s_full m)%nat; eexists; (split; [reflexivity|]); apply text_first.
  - repeat constructor; try discriminate.
  - do 9 (constructor; [split; discriminate|]). constructor; [split; discriminate|]. rewrite !Forall_app.
    repeat split; try (apply plain_flat; auto; intros; split; discriminate).
    + constructor; [split; discriminate|]. constructor; [split; discriminate|]. constructor.
    + constructor; [split; discriminate|]. constructor; [split; discriminate|]. constructor.
Qed.

Lemma leaf_run (s : fmt) l : readable_leaf l -> exists ps, leaf_prims style0 rendF rendD (f_full s) l = Ok ps /\ fst (run s ps) = after_leaf l s.
Proof.
  destruct l as [z|m|m|d|d]; cbn [readable_leaf leaf_prims after_leaf].
  - intros _. eexists. split; [reflexivity|]. apply text_first. repeat constructor; discriminate.
  - apply sparse_run. split; discriminate.
  - apply sparse_run. split; discriminate.
  - intros (L & r & c & f & V). destruct (dense_run rendF PF (fun _ _ => eq_refl) "Matrix<Dense,float>" s d r c f V L) as (ps & E & R).
    exists ps. split; [exact E|]. now rewrite R.
  - intros (L & r & c & f & V). destruct (dense_run rendD PD (fun _ _ => eq_refl) "Matrix<Dense,double>" s d r c f V L) as (ps & E & R).
    exists ps. split; [exact E|]. now rewrite R.
Qed.

Lemma after_leaf_full (l : leaf F D) (s : fmt) : f_full (after_leaf l s) = f_full s.
Proof. destruct l; cbn; try reflexivity; unfold after_dense; destruct (is_printed d); reflexivity. Qed.

Lemma insert_after exc dbg (s : fmt) i : readable i -> exists t, ins exc dbg s i = Ok (after s i, t).
Proof.
  destruct i; cbn [readable m_insert after]; intros H; try (eexists; reflexivity).
  - destruct (leaf_run s l H) as (ps & E & R). rewrite E. cbn [bind]. exists (snd (run s ps)). rewrite <- R. now destruct (run s ps).
  - destruct p as [[l|t1 t2 m1 m2]|]; cbn [readable_dyn ptr_prims after_dyn] in *.
    + destruct H as [Hi H]. rewrite exec_member_ok by auto. cbn [dyn_prims].
      destruct (leaf_run s l H) as (ps & E & R). rewrite E. cbn [bind]. exists (snd (run s ps)). rewrite <- R. now destruct (run s ps).
    + destruct H as (Hi & l1 & l2 & -> & -> & H1 & H2). rewrite exec_member_ok by auto. cbn [dyn_prims deref bind].
      destruct (leaf_run s l1 H1) as (p1 & E1 & R1). rewrite E1. cbn [bind].
      destruct (leaf_run (after_leaf l1 s) l2 H2) as (p2 & E2 & R2). rewrite after_leaf_full in E2. rewrite E2. cbn [bind].
      rewrite run_app, R1, R2. eexists. reflexivity.
    + eexists. reflexivity.
Qed.

(** ** Any program *)
(** Writing readable matrices, numbers and texts to any streams in any order always
    succeeds; the settings of each stream are those of its own insertions alone. *)
Theorem C80_history :
  forall exc dbg l st, Forall (fun ki => readable (snd ki)) l ->
    exists st' ts, wr_to exc dbg st l = Ok (st', ts) /\ List.length ts = List.length l /\
      forall k, st' k = settings k (st k) l.
Proof.
  intros exc dbg l. induction l as [|[k i] l IH]; intros st H; [exists st, []; repeat split|].
  inversion_clear H as [|? ? Hi Hl]. cbn [snd] in Hi. destruct (insert_after exc dbg (st k) i Hi) as (t & E).
  destruct (IH (fun j => if Nat.eqb j k then after (st k) i else st j) Hl) as (st' & ts & E2 & L & Hs).
  exists st', (t :: ts). cbn [write_to]. rewrite E. cbn [bind fst snd]. rewrite E2. cbn [bind fst snd]. split; [reflexivity|].
  split; [cbn; now rewrite L|]. intros q. rewrite Hs. unfold settings. cbn [fold_left fst snd]. rewrite (Nat.eqb_sym q k).
  destruct (Nat.eqb_spec k q) as [-> |]; reflexivity.
Qed.

(** The text of one insertion. *)
Theorem C80_text :
  forall exc dbg pre k i post st, Forall (fun ki => readable (snd ki)) (pre ++ (k, i) :: post) ->
    exists st' ts t, wr_to exc dbg st (pre ++ (k, i) :: post) = Ok (st', ts) /\ nth_error ts (List.length pre) = Some t /\
      ins exc dbg (settings k (st k) pre) i = Ok (after (settings k (st k) pre) i, t).
Proof.
  intros exc dbg pre k i post. induction pre as [|[q j] pre IH]; intros st H; cbn [app] in *; inversion_clear H as [|? ? Hi Hl]; cbn [snd] in Hi.
  - destruct (insert_after exc dbg (st k) i Hi) as (t & E).
    destruct (C80_history exc dbg post (fun j => if Nat.eqb j k then after (st k) i else st j) Hl) as (st' & ts & E2 & _).
    exists st', (t :: ts), t. cbn [write_to]. rewrite E. cbn [bind fst snd]. rewrite E2. cbn. repeat split. exact E.
  - destruct (insert_after exc dbg (st q) j Hi) as (t & E).
    destruct (IH (fun x => if Nat.eqb x q then after (st q) j else st x) Hl) as (st' & ts & t' & E2 & N & T).
    exists st', (t :: ts), t'. cbn [write_to]. rewrite E. cbn [bind fst snd]. rewrite E2. cbn [bind fst snd]. repeat split; [exact N|].
    unfold settings in *. cbn [fold_left fst snd]. rewrite (Nat.eqb_sym k q) in T. destruct (Nat.eqb_spec q k) as [-> |]; exact T.
Qed.

(** ** Dense matrices *)
(** In any state of the stream a dense matrix is written as [dense_text] says: the
    notation and the precision in force do not matter. *)
Theorem C80_dense :
  forall exc dbg (s : fmt) (d : dense D) r c f, legal d -> view d r c f ->
    ins exc dbg s (MLeaf (LDd d)) = Ok (after_dense d s, dense_text style0 rendI rendD "Matrix<Dense,double>" s r c f).
Proof.
  intros exc dbg s d r c f L V. cbn [m_insert leaf_prims].
  destruct (dense_run rendD PD (fun _ _ => eq_refl) "Matrix<Dense,double>" s d r c f V L) as (ps & E & R). rewrite E. cbn [bind]. now rewrite R.
Qed.
Theorem C80_dense_single :
  forall exc dbg (s : fmt) (d : dense F) r c f, legal d -> view d r c f ->
    ins exc dbg s (MLeaf (LDf d)) = Ok (after_dense d s, dense_text style0 rendI rendF "Matrix<Dense,float>" s r c f).
Proof.
  intros exc dbg s d r c f L V. cbn [m_insert leaf_prims].
  destruct (dense_run rendF PF (fun _ _ => eq_refl) "Matrix<Dense,float>" s d r c f V L) as (ps & E & R). rewrite E. cbn [bind]. now rewrite R.
Qed.

(** Notation and precision, whatever left them behind, do not change the text of a
    dense matrix. *)
Theorem C80_dense_own_format :
  forall exc dbg (s : fmt) (d : dense D) n p, readable_dense d ->
    exists t, rmap snd (ins exc dbg s (MLeaf (LDd d))) = Ok t /\
      rmap snd (ins exc dbg (mkFmt n p (f_width s) (f_left s) (f_fill s) (f_style s) (f_full s)) (MLeaf (LDd d))) = Ok t.
Proof.
  intros exc dbg s d n p (L & r & c & f & V). eexists. rewrite !(C80_dense _ _ _ _ r c f L V). cbn. split; reflexivity.
Qed.

(** If nothing else was changed on the stream, the text is the one C58 describes. *)
Lemma setw_pad w t : setw w t = (filled " "%char (w - String.length t) ++ t)%string.
Proof. unfold setw. f_equal. induction (w - String.length t) as [|n IH]; cbn; [reflexivity|]. now rewrite IH. Qed.
Theorem C80_dense_default :
  forall exc dbg (s : fmt) (d : dense D), readable_dense d ->
    (forall n, rendI style0 n = num n) ->
    f_left s = false -> f_fill s = " "%char -> f_style s = style0 -> f_width s = 0 ->
    rmap snd (ins exc dbg s (MLeaf (LDd d))) =
    print_dense (fun v => (rendD style0 Scientific 10%Z v, "")) "Matrix<Dense,double>" (f_full s) d.
Proof.
  intros exc dbg s d (L & r & c & f & V) HI Hl Hf Hs Hw. rewrite (C80_dense _ _ _ _ r c f L V). cbn [rmap bind snd].
  pose proof V as (Hr & Hc & _). unfold dense_text. rewrite Hs.
  destruct (Nat.leb_spec r 100) as [H1|H1], (Nat.leb_spec c 100) as [H2|H2]; cbn [andb].
  - rewrite (print_spec _ "Matrix<Dense,double>" (f_full s) d r c f V (legal_ok d L) H1 H2). unfold rmap. cbn [bind snd]. f_equal.
    unfold pad_to at 1. rewrite Hl, Hf, Hw, !HI. cbn [Nat.sub filled append]. f_equal. f_equal. f_equal. f_equal. apply map_ext. intros i.
    f_equal. unfold line. f_equal. apply map_ext. intros j. rewrite setw_pad. unfold pad_to, set_width. cbn [f_left f_fill f_width].
    rewrite Hl, Hf. cbn [fst snd]. rewrite app_s_nil. f_equal. f_equal. unfold column, wmax. cbn [Nat.add]. f_equal. f_equal. f_equal. apply map_ext.
    intros q. unfold shown. cbn [fst snd]. now rewrite app_s_nil.
  - unfold print_dense. rewrite Hr, Hc. destruct (Nat.ltb_spec 100 r), (Nat.ltb_spec 100 c); try lia; cbn [orb].
    unfold pad_to. rewrite Hl, Hw. reflexivity.
  - unfold print_dense. rewrite Hr, Hc. destruct (Nat.ltb_spec 100 r), (Nat.ltb_spec 100 c); try lia; cbn [orb].
    unfold pad_to. rewrite Hl, Hw. reflexivity.
  - unfold print_dense. rewrite Hr, Hc. destruct (Nat.ltb_spec 100 r), (Nat.ltb_spec 100 c); try lia; cbn [orb].
    unfold pad_to. rewrite Hl, Hw. reflexivity.
Qed.

(** ** Sparse matrices and numbers use whatever is in force *)
Theorem C80_sparse_stream_format :
  forall exc dbg (s : fmt) (m : sparse D), readable_sparse m -> (forall n, rendI (f_style s) n = num n) -> f_width s = 0 ->
    rmap snd (ins exc dbg s (MLeaf (LSd m))) = print_sparse (rendD (f_style s) (f_not s) (f_prec s)) "Matrix<Sparse,double>" m.
Proof.
  intros exc dbg s m (vs & ks & os & Ev & Ek & Eo) HI Hw. cbn [m_insert leaf_prims]. unfold sparse_prims, print_sparse.
  rewrite Ev, Ek, Eo, !rd_all. cbn [bind].
  assert (PT : forall t, out_text s t = (s, t)).
  { intros t. unfold out_text, pad_to. rewrite Hw. cbn [Nat.sub filled append]. destruct s; cbn in *. subst. rewrite app_s_nil. now destruct f_left. }
  destruct (100 <? s_full m)%nat; cbn [bind rmap].
  - cbn [run_prims run_prim]. rewrite !PT. unfold rmap. cbn [bind snd]. now rewrite HI, app_s_nil.
  - unfold rmap. cbn [bind]. f_equal. rewrite !run_app. cbn [run_prims run_prim]. rewrite !PT. cbn [fst snd].
    assert (N : forall l : list nat, run s (flat_map (fun n => [PInt n; PText " "]) l) = (s, print_list num l)).
    { intros l. apply run_flat. intros x _. cbn [run_prims run_prim]. rewrite !PT. cbn [fst snd]. now rewrite HI, app_s_nil. }
    rewrite (run_flat (fun v => [PD v; PText " "]) (fun v => (rendD (f_style s) (f_not s) (f_prec s) v ++ " ")%string) s vs).
    2:{ intros x _. cbn [run_prims run_prim]. rewrite !PT. cbn [fst snd]. now rewrite app_s_nil. }
    repeat (first [rewrite N | rewrite PT]; cbn [fst snd run_prims run_prim]). rewrite !HI. unfold print_list.
    rewrite ?app_s_assoc. cbn [append]. rewrite ?app_s_assoc. reflexivity.
Qed.

(** A dynamic matrix is printed as what it holds; a two-part one as its first and
    then its second part; an empty pointer as a remark. *)
(** On a stream nobody has touched, elements of a sparse matrix have six digits in
    general notation, and the text is the one C58 describes. *)
Theorem C80_sparse_fresh_stream :
  forall exc dbg (m : sparse D), readable_sparse m -> (forall n, rendI style0 n = num n) ->
    rmap snd (ins exc dbg (fmt0 style0) (MLeaf (LSd m))) = print_sparse (rendD style0 General 6%Z) "Matrix<Sparse,double>" m.
Proof. intros exc dbg m R H. now rewrite C80_sparse_stream_format. Qed.

Theorem C80_null_pointer :
  forall exc dbg (s : fmt), ins exc dbg s (MDyn None) = Ok (set_width 0 s, pad_to s "No Matrix found.").
Proof. intros. cbn [m_insert ptr_prims bind run_prims run_prim out_text]. now rewrite app_s_nil. Qed.
Theorem C80_dynamic :
  forall exc dbg (s : fmt) l, In (TL (leaf_ty l)) type_list -> ins exc dbg s (MDyn (Some (DL l))) = ins exc dbg s (MLeaf l).
Proof. intros exc dbg s l H. cbn [m_insert ptr_prims]. rewrite exec_member_ok by exact H. reflexivity. Qed.
Theorem C80_two_parts :
  forall exc dbg (s : fmt) t1 t2 a b, In (TM t1 t2) type_list -> readable_leaf a -> readable_leaf b ->
    exists x y, ins exc dbg s (MLeaf a) = Ok (after_leaf a s, x) /\ ins exc dbg (after_leaf a s) (MLeaf b) = Ok (after_leaf b (after_leaf a s), y) /\
      ins exc dbg s (MDyn (Some (DM t1 t2 (Some a) (Some b)))) = Ok (after_leaf b (after_leaf a s), (x ++ y)%string).
Proof.
  intros exc dbg s t1 t2 a b H Ha Hb.
  destruct (leaf_run s a Ha) as (pa & Ea & Ra). destruct (leaf_run (after_leaf a s) b Hb) as (pb & Eb & Rb).
  exists (snd (run s pa)), (snd (run (after_leaf a s) pb)). cbn [m_insert ptr_prims].
  rewrite Ea, Eb. cbn [bind]. rewrite <- Ra at 1 2. split; [now destruct (run s pa)|]. rewrite Ra.
  split; [rewrite <- Rb at 1; now destruct (run (after_leaf a s) pb)|].
  rewrite exec_member_ok by exact H. cbn [dyn_prims deref bind]. rewrite Ea. cbn [bind].
  rewrite after_leaf_full in Eb. rewrite Eb. cbn [bind]. rewrite run_app, Ra, Rb. reflexivity.
Qed.
Theorem C80_zero :
  forall exc dbg (s : fmt) z, (forall n, rendI (f_style s) n = num n) -> f_width s = 0 ->
    ins exc dbg s (MLeaf (LZ z)) = Ok (s, ("Matrix<Zero>" ++ nl ++ "Size = " ++ num (z_full z) ++ nl ++
      "Dimension = " ++ num (z_rows z) ++ " x " ++ num (z_cols z) ++ nl)%string).
Proof.
  intros exc dbg s z HI Hw.
  assert (PT : forall t, out_text s t = (s, t)).
  { intros t. unfold out_text, pad_to. rewrite Hw. cbn [Nat.sub filled append]. destruct s; cbn in *. subst. rewrite app_s_nil. now destruct f_left. }
  cbn [m_insert leaf_prims bind]. unfold zero_prims. cbn [run_prims run_prim].
  rewrite !PT, !HI. repeat (cbn [run_prims run_prim]; rewrite ?PT, ?HI). now rewrite ?app_s_assoc, ?app_s_nil.
Qed.
End Proofs.
Print Assumptions C80_history. Print Assumptions C80_text. Print Assumptions C80_dense. Print Assumptions C80_dense_single.
Print Assumptions C80_null_pointer. Print Assumptions C80_sparse_fresh_stream. Print Assumptions C80_dynamic. Print Assumptions C80_two_parts. Print Assumptions C80_zero.
Print Assumptions C80_dense_own_format. Print Assumptions C80_dense_default. Print Assumptions C80_sparse_stream_format.

(** ** Consequences for whole programs *)
Section Programs.
Context {F D S : Type}.
#[local] Notation item := (@m_item F D S).

Lemma after_full (s : @fmt S) (i : item) : f_full (after s i) = match i with MFull b => b | _ => f_full s end.
Proof.
  destruct i; try reflexivity; cbn [after].
  - apply after_leaf_full.
  - destruct p as [[l|t1 t2 [l1|] [l2|]]|]; cbn [after_dyn]; rewrite ?after_leaf_full; reflexivity.
Qed.
(** Whether a stream shows names and dimensions is decided by the last fullprint or
    shortprint on that very stream. *)
Theorem C80_print_mode :
  forall k (s : @fmt S) (l : list (nat * item)),
    f_full (settings k s l) =
    fold_left (fun b ki => match ki with (q, MFull b') => if Nat.eqb q k then b' else b | _ => b end) l (f_full s).
Proof.
  intros k s l. revert s. induction l as [|[q i] l IH]; intros s; [reflexivity|]. unfold settings in *. cbn [fold_left fst snd].
  rewrite IH. f_equal. destruct (Nat.eqb q k) eqn:E; [rewrite after_full|]; destruct i; try reflexivity.
Qed.

(** Nothing written to other streams matters. *)
Theorem C80_streams_independent :
  forall k (s : @fmt S) (l : list (nat * item)),
    settings k s l = settings k s (filter (fun ki => Nat.eqb (fst ki) k) l).
Proof.
  intros k s l. revert s. induction l as [|[q i] l IH]; intros s; [reflexivity|]. unfold settings in *. cbn [fold_left filter fst snd].
  destruct (Nat.eqb q k) eqn:E; cbn [fold_left fst snd]; rewrite ?E; apply IH.
Qed.

(** After a dense matrix, numbers and sparse matrices on that stream appear in
    scientific notation with ten digits until the program says otherwise. *)
Lemma after_sci (s : @fmt S) (i : item) : f_not s = Scientific /\ f_prec s = 10%Z ->
  (forall n, i <> MNotation n) -> (forall p, i <> MPrecision p) -> f_not (after s i) = Scientific /\ f_prec (after s i) = 10%Z.
Proof.
  assert (L : forall (l : leaf F D) (s : @fmt S), f_not s = Scientific /\ f_prec s = 10%Z ->
    f_not (after_leaf l s) = Scientific /\ f_prec (after_leaf l s) = 10%Z).
  { intros l x H. destruct l; cbn; auto; unfold after_dense; destruct (is_printed d); auto. }
  intros H Hn Hp. destruct i as [n|q| | | | | | | |l|q]; cbn [after]; auto; try (exfalso; now apply (Hn n)); try (exfalso; now apply (Hp q)).
  destruct q as [[l|t1 t2 [l1|] [l2|]]|]; cbn [after_dyn]; auto.
Qed.
Theorem C80_dense_leaves_its_format :
  forall k (s : @fmt S) (pre post : list (nat * item)) d, is_printed d = true ->
    (forall i, In (k, i) post -> (forall n, i <> MNotation n) /\ (forall p, i <> MPrecision p)) ->
    f_not (settings k s (pre ++ (k, MLeaf (LDd d)) :: post)) = Scientific /\
    f_prec (settings k s (pre ++ (k, MLeaf (LDd d)) :: post)) = 10%Z.
Proof.
  intros k s pre post d Hd Hp. unfold settings. rewrite fold_left_app. cbn [fold_left fst snd]. rewrite Nat.eqb_refl.
  set (s1 := fold_left _ pre s). cbn [after after_leaf]. unfold after_dense. rewrite Hd.
  match goal with |- context [fold_left _ post ?x] => assert (H : f_not x = Scientific /\ f_prec x = 10%Z) by (split; reflexivity); generalize dependent x end.
  induction post as [|[q i] post IH]; intros x H; [exact H|]. cbn [fold_left fst snd].
  apply IH; [intros; apply Hp; now right|]. destruct (Nat.eqb_spec q k) as [-> |]; [|exact H].
  destruct (Hp i (or_introl eq_refl)). now apply after_sci.
Qed.
End Programs.
Print Assumptions C80_print_mode. Print Assumptions C80_streams_independent. Print Assumptions C80_dense_leaves_its_format.

(** ** Demonstration: the style is whether a plus sign is shown *)
Definition dshow (z : Z) : string := match z with Zneg _ => ("-" ++ num (Z.to_nat (- z)))%string | _ => num (Z.to_nat z) end.
Definition drend (plus : bool) (n : notation) (p : Z) (z : Z) : string :=
  ((if plus && (0 <=? z)%Z then "+" else "") ++ dshow z ++ match n with Scientific => "e" ++ dshow p | _ => "" end)%string.
Definition dint (plus : bool) (n : nat) : string := ((if plus then "+" else "") ++ num n)%string.
#[local] Notation dwrite := (write_to false drend drend dint true true (fun _ => fmt0 false)).
Definition d22 : dense Z := mkDense (own_shape ColMajor 2 2) 4 (map Some [1; 2; -3; 4]%Z) true.
Definition s22 : sparse Z := mkSparse ColMajor 2 2 4 (map Some [5; 6]%Z) (map Some [0; 1]) (map Some [0; 1; 2]).

(** A sparse matrix looks different after a dense one was printed. *)
Theorem C80_print_order_refuted :
  exists st ts t1 t2, dwrite [(0, MLeaf (LSd s22)); (0, MLeaf (LDd d22)); (0, MLeaf (LSd s22))] = Ok (st, ts) /\
    nth_error ts 0 = Some t1 /\ nth_error ts 2 = Some t2 /\ t1 <> t2.
Proof. do 4 eexists. split; [vm_compute; reflexivity|]. split; [reflexivity|]. split; [reflexivity|]. vm_compute. discriminate. Qed.
(** So does one and the same two-part matrix printed twice. *)
Theorem C80_printing_twice_refuted :
  exists st ts t1 t2, let m := MDyn (Some (DM (TS ED) (TD EF) (Some (LSd s22)) (Some (LDf d22)))) in
    readable m /\ dwrite [(0, m); (0, m)] = Ok (st, ts) /\ nth_error ts 0 = Some t1 /\ nth_error ts 1 = Some t2 /\ t1 <> t2.
Proof.
  do 4 eexists. cbv zeta. split.
  - split; [cbn; tauto|]. do 2 eexists. split; [reflexivity|]. split; [reflexivity|]. split.
    + exists [5; 6]%Z, [0; 1], [0; 1; 2]. repeat split.
    + split; [apply legal_own; repeat split|].
      exists 2, 2, (fun i j => nth (i + 2 * j) [1; 2; -3; 4]%Z 0%Z). repeat split. intros [|[|i]] [|[|j]] Hi Hj; try lia; reflexivity.
  - split; [vm_compute; reflexivity|]. split; [reflexivity|]. split; [reflexivity|]. vm_compute. discriminate.
Qed.
(** The widths are measured without the plus sign: with std::showpos the elements of
    a row run together. *)
Theorem C80_signs_refuted :
  exists st ts t, dwrite [(0, MStyle true); (0, MLeaf (LDd (mkDense (own_shape ColMajor 1 2) 2 (map Some [1; 2]%Z) true)))] = Ok (st, ts) /\
    nth_error ts 1 = Some t /\ map words_of (lines_of t) = [[]; ["+1e10+2e10"]; []].
Proof. do 3 eexists. split; [vm_compute; reflexivity|]. split; [reflexivity|]. vm_compute. reflexivity. Qed.

Example C80_nonvacuous :
  exists st ts, dwrite [(0, MNotation Fixed); (0, MFull true); (1, MNumber 7%Z); (0, MLeaf (LDd d22)); (0, MNumber 7%Z); (1, MLeaf (LDd d22))] = Ok (st, ts) /\
    map lines_of ts = [[]; []; ["7"]; ["Matrix<Dense,double>"; "Dimension = 2 x 2"; ""; " 1e10 -3e10"; " 2e10  4e10"; ""]; ["7e10"];
                       [""; " 1e10 -3e10"; " 2e10  4e10"; ""]].
Proof. do 2 eexists. split; vm_compute; reflexivity. Qed.
