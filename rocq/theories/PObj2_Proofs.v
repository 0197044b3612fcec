(** Handles simulate values, continued: changes in place and whole programs. *)
From Coq Require Import FinFun.
From Verif Require Import Base BaseLemmas Dense_Model Sparse_Model Mult_Model Dyn_Model PObj_Model PObj_Spec PObj_Proofs.

(** ** Computations that never throw *)
Definition quiet {A} (r : res A) : Prop := r <> Throw.
Lemma quiet_bind {A B} (x : res A) (f : A -> res B) : quiet x -> (forall a, quiet (f a)) -> quiet (bind x f).
Proof. unfold quiet. destruct x; cbn; auto; congruence. Qed.
Lemma quiet_ok {A} (a : A) : quiet (Ok a).
Proof. discriminate. Qed.
Lemma quiet_foldM {X S} (f : X -> S -> res S) l : (forall x s, quiet (f x s)) -> forall s, quiet (foldM f l s).
Proof. intros H. induction l; cbn [foldM]; intros s; [discriminate|]. apply quiet_bind; auto. Qed.
Lemma quiet_rmap {A B} (f : A -> B) (r : res A) : quiet r -> quiet (rmap f r).
Proof. destruct r; cbn; unfold quiet; congruence. Qed.
Lemma quiet_rd {T} (b : buf T) i : quiet (rd b i).
Proof. unfold quiet, rd. destruct (nth_error b i) as [[|]|]; congruence. Qed.
Lemma quiet_wr {T} (b : buf T) i v : quiet (wr b i v).
Proof. unfold quiet, wr. destruct (i <? length b); congruence. Qed.
Lemma quiet_rdz {T} (b : buf T) i : quiet (rdz b i).
Proof. unfold rdz. destruct (i <? 0)%Z; [discriminate|apply quiet_rd]. Qed.
Lemma quiet_wrz {T} (b : buf T) i v : quiet (wrz b i v).
Proof. unfold wrz. destruct (i <? 0)%Z; [discriminate|apply quiet_wr]. Qed.
Lemma quiet_cassert dbg b : quiet (cassert dbg b).
Proof. unfold quiet, cassert. destruct dbg, b; cbn; congruence. Qed.
Lemma quiet_si f s : forall it en, quiet (si_loop f s it en).
Proof. induction f; cbn [si_loop]; intros it en; [discriminate|]. destruct (_ =? _)%Z; [discriminate|]. apply quiet_bind; auto using quiet_ok. Qed.
Lemma quiet_ptr f : forall a e s, quiet (ptr_loop f a e s).
Proof. induction f; cbn [ptr_loop]; intros a e s; [discriminate|]. destruct (_ =? _); [discriminate|]. apply quiet_bind; auto using quiet_ok. Qed.
Lemma quiet_iter {T} (d : dense T) : quiet (iter_addrs d).
Proof. unfold iter_addrs. destruct (sh_sub (d_sh d)); [apply quiet_si|discriminate]. Qed.
Lemma quiet_position dbg sh i j : quiet (position dbg sh i j).
Proof. unfold position. repeat (apply quiet_bind; [apply quiet_cassert|intros _]). discriminate. Qed.
Lemma quiet_dget {T} dbg (d : dense T) i j : quiet (dget dbg d i j).
Proof. unfold dget. apply quiet_bind; auto using quiet_position, quiet_rd. Qed.
Lemma quiet_dset {T} dbg (d : dense T) i j v : quiet (dset dbg d i j v).
Proof. unfold dset. apply quiet_bind; auto using quiet_position. intros. apply quiet_bind; auto using quiet_wr, quiet_ok. Qed.

Lemma quiet_dd {A B} (op : A -> B -> A) a b : quiet (d_assign_op op a b).
Proof.
  unfold d_assign_op. apply quiet_bind; [apply quiet_iter|]. intros. apply quiet_bind; [apply quiet_iter|]. intros.
  apply quiet_foldM. intros [k p] s. destruct (nth_error _ _); [|discriminate].
  apply quiet_bind; [apply quiet_rdz|]; intros. apply quiet_bind; [apply quiet_rdz|]; intros. apply quiet_bind; [apply quiet_wrz|]; intros. discriminate.
Qed.
Lemma quiet_ds {A B} (op : A -> B -> A) dbg a b : quiet (ds_assign_op op dbg a b).
Proof.
  unfold ds_assign_op. repeat (apply quiet_bind; [apply quiet_cassert|intros _]).
  apply quiet_bind; [unfold s_nlines; destruct (length _); discriminate|]. intros n. unfold forM. apply quiet_foldM. intros l d.
  apply quiet_bind. { unfold s_range. apply quiet_bind; [apply quiet_rd|]; intros. apply quiet_bind; [apply quiet_rd|]; intros. apply quiet_ptr. }
  intros ks. apply quiet_foldM. intros p s. apply quiet_bind; [apply quiet_rd|]; intros. apply quiet_bind; [apply quiet_rd|]; intros.
  apply quiet_bind; [apply quiet_dget|]; intros. apply quiet_dset.
Qed.

(** ** [a op= a] is the same as with a copy *)
Lemma self_loop {A} (op : A -> A -> A) (a : dense A) ads : NoDup ads ->
  forall l pre m, ads = pre ++ l -> (forall p, In p l -> (0 <= p)%Z -> nth_error m (Z.to_nat p) = nth_error (d_buf a) (Z.to_nat p)) ->
  foldM (fun '(k, p) d =>
      match nth_error ads k with
      | None => UB OOBRead
      | Some q =>
          do x <- rdz (d_buf d) p;
          do y <- rdz (d_buf a) q;
          do m <- wrz (d_buf d) p (op x y);
          Ok (with_buf d m)
      end) (combine (seq (length pre) (length l)) l) (with_buf a m)
  = do m' <- foldM (fun '(k, p) m =>
      match nth_error ads k with
      | None => UB OOBRead
      | Some q =>
          do x <- rdz m p;
          do y <- rdz m q;
          wrz m p (op x y)
      end) (combine (seq (length pre) (length l)) l) m; Ok (with_buf a m').
Proof.
  intros ND l. induction l as [|p l IH]; intros pre m Eads H; cbn [length seq combine foldM bind]; [reflexivity|].
  assert (Ek : nth_error ads (length pre) = Some p) by (rewrite Eads, nth_error_app2, Nat.sub_diag by lia; reflexivity).
  rewrite Ek.
  change (d_buf (with_buf a m)) with m.
  destruct (rdz m p) as [x| | | |] eqn:Ex; cbn [bind]; auto.
  assert (Ey : rdz (d_buf a) p = Ok x).
  { unfold rdz in *. destruct (p <? 0)%Z eqn:Ep; [discriminate|]. apply Z.ltb_ge in Ep. unfold rd in *. rewrite <- H; auto. now left. }
  rewrite Ey. cbn [bind]. destruct (wrz m p (op x x)) as [m1| | | |] eqn:Em; cbn [bind]; auto.
  change (with_buf (with_buf a m) m1) with (with_buf a m1).
  assert (El : S (length pre) = length (pre ++ [p])) by (rewrite app_length; cbn; lia). rewrite El.
  apply IH; [now rewrite <- app_assoc|].
  intros q Hq Hq0. rewrite <- H; [|now right|auto].
  unfold wrz in Em. destruct (p <? 0)%Z eqn:Ep; [discriminate|]. apply Z.ltb_ge in Ep. unfold wr in Em.
  destruct (Z.to_nat p <? length m); [|discriminate]. injection Em as <-. apply nth_error_upd_ne.
  intros E. assert (p = q) by lia. subst q. rewrite Eads in ND. apply NoDup_remove_2 in ND. apply ND. apply in_or_app. now right.
Qed.

Lemma self_assign {A} (op : A -> A -> A) (a : dense A) : sh_sub (d_sh a) = false ->
  d_assign_op op a a = do m <- d_assign_op_shared op a a; Ok (with_buf a m).
Proof.
  intros Hs. unfold d_assign_op, d_assign_op_shared, iter_addrs. rewrite Hs. cbn [bind].
  set (ads := map _ _). assert (ND : NoDup ads).
  { unfold ads. apply Injective_map_NoDup; [|apply seq_NoDup]. intros x y E. lia. }
  transitivity (foldM (fun '(k, p) d =>
      match nth_error ads k with
      | None => UB OOBRead
      | Some q =>
          do x <- rdz (d_buf d) p;
          do y <- rdz (d_buf a) q;
          do m <- wrz (d_buf d) p (op x y);
          Ok (with_buf d m)
      end) (combine (seq (@length Z []) (length ads)) ads) (with_buf a (d_buf a))); [destruct a; reflexivity|].
  rewrite (self_loop op a ads ND ads [] (d_buf a)); auto.
Qed.

Section P.
Context {F D : Type} (ar : arith F D).
Implicit Types (h : heap F D).

Definition dense_leaf (x : leaf F D) : bool := match x with LDf _ | LDd _ => true | _ => false end.

Lemma asg_self_ok o dbg (x : leaf F D) : windowless (Some (DL x)) = true -> asg_self ar o dbg x = asg_leaf ar o dbg x x.
Proof.
  destruct x as [z|s|s|d|d]; cbn [windowless asg_self asg_leaf]; auto; intros H; apply negb_true_iff in H;
    rewrite self_assign by auto; destruct (d_assign_op_shared _ d d); reflexivity.
Qed.

(** op= keeps the type; dense targets never throw; other targets keep their value. *)
Lemma asg_leaf_ty o dbg (x y z : leaf F D) : asg_leaf ar o dbg x y = Ok z -> leaf_ty z = leaf_ty x.
Proof.
  destruct x as [x|x|x|x|x], y as [y|y|y|y|y]; cbn [asg_leaf]; unfold rmap, zm_assign_op, mz_assign_op; intros E;
    repeat match type of E with (do _ <- ?r; _) = _ => destruct r; cbn [bind] in E; try discriminate end;
    try discriminate; injection E as <-; reflexivity.
Qed.
Lemma quiet_asg o dbg (x y : leaf F D) : dense_leaf x = true -> quiet (asg_leaf ar o dbg x y).
Proof.
  destruct x as [x|x|x|x|x]; cbn [dense_leaf]; intros; try discriminate; destruct y as [y|y|y|y|y]; cbn [asg_leaf];
    try (apply quiet_rmap; first [apply quiet_dd|apply quiet_ds]);
    unfold mz_assign_op; repeat (apply quiet_bind; [apply quiet_cassert|intros _]); apply quiet_ok.
Qed.
Lemma mz_same {M} dbg (r c : M -> nat) (a b : M) z : mz_assign_op dbg r c a z = Ok b -> b = a.
Proof. unfold mz_assign_op. destruct (cassert _ _); cbn [bind]; try discriminate. destruct (cassert _ _); cbn [bind]; congruence. Qed.
Lemma asg_leaf_const o dbg (x y z : leaf F D) : dense_leaf x = false -> asg_leaf ar o dbg x y = Ok z -> z = x.
Proof.
  destruct x as [x|x|x|x|x]; cbn [dense_leaf]; intros Hx; try discriminate; destruct y as [y|y|y|y|y]; cbn [asg_leaf];
    unfold rmap, zm_assign_op; intros E; try discriminate; try (now apply mz_same in E).
  destruct (mz_assign_op _ _ _ _ _) eqn:Em; cbn [bind] in E; try discriminate. apply mz_same in Em. congruence.
Qed.
Lemma asg_self_const o dbg (x : leaf F D) : dense_leaf x = false -> asg_self ar o dbg x = asg_leaf ar o dbg x x.
Proof. intros H. apply asg_self_ok. destruct x; auto; discriminate. Qed.

Lemma upd_same {A} (l : list A) i x : nth_error l i = Some x -> upd l i x = l.
Proof. revert i. induction l; intros [|i]; cbn; intros E; try discriminate; [now injection E as ->|now rewrite IHl]. Qed.

(** Writing to an object others do not refer to. *)
Lemma part_upd h a l l' q : nth_error h a = Some (HL l) -> q <> Some a -> part (upd h a (HL l')) q = part h q.
Proof.
  intros E H. destruct q as [c|]; cbn [part]; auto. destruct (Nat.eq_dec c a) as [->|Hn]; [congruence|].
  now rewrite nth_error_upd_ne by auto.
Qed.
Lemma load_upd h a l l' q : nth_error h a = Some (HL l) -> not_part h a -> q <> Some a -> load (upd h a (HL l')) q = load h q.
Proof.
  intros E N H. destruct q as [c|]; cbn [load]; auto. destruct (Nat.eq_dec c a) as [->|Hn]; [congruence|].
  rewrite nth_error_upd_ne by auto. destruct (nth_error h c) as [[x|t1 t2 p1 p2]|] eqn:Ec; auto.
  destruct (N _ _ _ _ _ Ec). now rewrite !(part_upd h a l) by auto.
Qed.
Lemma nth_upd_hm h a l l' c t1 t2 p1 p2 : nth_error h a = Some (HL l) ->
  nth_error (upd h a (HL l')) c = Some (HM t1 t2 p1 p2) -> nth_error h c = Some (HM t1 t2 p1 p2).
Proof.
  intros E Ec. destruct (Nat.eq_dec c a) as [->|Hn]; [|now rewrite nth_error_upd_ne in Ec by auto].
  rewrite nth_error_upd_eq in Ec by (apply nth_error_Some; congruence). discriminate.
Qed.
Lemma wf_upd h a l l' : wf_heap h -> nth_error h a = Some (HL l) -> leaf_ty l' = leaf_ty l -> wf_heap (upd h a (HL l')).
Proof.
  intros W E T.
  assert (WP : forall t q, wf_part h t q -> wf_part (upd h a (HL l')) t q).
  { intros t [c|]; cbn; auto. intros (x & Ex & Tx). destruct (Nat.eq_dec c a) as [->|Hn].
    - exists l'. rewrite nth_error_upd_eq by (apply nth_error_Some; congruence). split; auto. congruence.
    - exists x. now rewrite nth_error_upd_ne by auto. }
  intros c t1 t2 p1 p2 Ec. eapply nth_upd_hm in Ec; eauto. apply W in Ec as [E1 E2]. auto.
Qed.
Lemma not_part_upd h a l l' c : nth_error h a = Some (HL l) -> not_part h c -> not_part (upd h a (HL l')) c.
Proof. intros E N d t1 t2 p1 p2 Ed. eapply nth_upd_hm in Ed; eauto. Qed.

(** ** Dispatch *)
Lemma exec_split {R} ready (op : dyn F D -> dyn F D -> res R) x y :
  exec_dyn_2dim ready op x y =
  do _ <- exec_dyn_2dim ready (fun _ _ => Ok tt) x y;
  match x, y with Some a, Some b => op a b | _, _ => UB NullDeref end.
Proof.
  unfold exec_dyn_2dim. destruct x as [x|]; cbn [deref bind]; auto. destruct y as [y|]; cbn [deref bind]; auto.
  unfold dyn_table. rewrite !nth_error_map. destruct (nth_error type_list (type_index x)) as [t1|]; cbn [option_map]; auto.
  rewrite !nth_error_map. destruct (nth_error type_list (type_index y)) as [t2|]; cbn [option_map]; auto.
  destruct (ready t1); auto. unfold functor. destruct (_ && _); auto.
Qed.
Lemma exec_listed {R} ready (op : dyn F D -> dyn F D -> res R) x y r : exec_dyn_2dim ready op (Some x) y = Ok r -> In (dyn_ty x) type_list.
Proof.
  unfold exec_dyn_2dim. cbn [deref bind]. destruct y as [y|]; cbn [deref bind]; [|discriminate].
  unfold dyn_table. rewrite nth_error_map. destruct (nth_error type_list (type_index x)) as [t1|] eqn:E1; cbn [option_map]; [|discriminate].
  rewrite nth_error_map. destruct (nth_error type_list (type_index y)) as [t2|]; cbn [option_map]; [|discriminate].
  destruct (ready t1); [|discriminate]. unfold functor. destruct (mty_eqb (dyn_ty x) t1) eqn:Em; cbn [andb]; [|discriminate].
  intros _. apply nth_error_In in E1.
  assert (dyn_ty x = t1); [|congruence]. revert Em. generalize (dyn_ty x). clear. intros t Em.
  destruct t as [[|[|]|[|]]|[|[|]|[|]] [|[|]|[|]]], t1 as [[|[|]|[|]]|[|[|]|[|]] [|[|]|[|]]]; cbn in Em; congruence.
Qed.
(** The first part of a listed two-part type is sparse. *)
Lemma listed_sparse t1 t2 : In (TM t1 t2) type_list -> t1 = TS ED /\ (t2 = TS EF \/ t2 = TD EF).
Proof. cbn. intros H. repeat destruct H as [H|H]; try discriminate; try contradiction; injection H as <- <-; auto. Qed.

(** ** op= on objects *)

Lemma set_leaf_ok h a r :
  let '(h1, q) := set_leaf h a r in
  rrel (fun (_ : unit) x => h1 = upd h a (HL x)) q r /\ (forall e, q = e -> (forall u, e <> Ok u) -> h1 = h).
Proof. destruct r; cbn; (split; [auto|]); intros e <- H; auto; exfalso; eapply H; eauto. Qed.

Lemma asg_obj_eq o dbg h a b x y : nth_error h a = Some (HL x) -> nth_error h b = Some (HL y) ->
  (a = b -> windowless (Some (DL x)) = true) -> asg_obj ar o dbg h a b = set_leaf h a (asg_leaf ar o dbg x y).
Proof.
  intros Ea Eb H. unfold asg_obj. rewrite Ea, Eb. destruct (Nat.eqb_spec a b) as [->|Hn]; auto.
  rewrite Ea in Eb. injection Eb as <-. now rewrite asg_self_ok by auto.
Qed.

Lemma part_inv h q l : part h q = Ok (Some l) -> exists a, q = Some a /\ nth_error h a = Some (HL l).
Proof.
  destruct q as [a|]; cbn [part]; [|discriminate]. destruct (nth_error h a) as [[x|]|] eqn:E; intros H; try discriminate.
  injection H as ->. eauto.
Qed.
Lemma part_none h q : part h q = Ok None -> q = None.
Proof. destruct q as [a|]; cbn [part]; auto. destruct (nth_error h a) as [[x|]|]; discriminate. Qed.
Lemma load_inv h a v : load h (Some a) = Ok v ->
  (exists l, nth_error h a = Some (HL l) /\ v = Some (DL l)) \/
  (exists t1 t2 p1 p2 m1 m2, nth_error h a = Some (HM t1 t2 p1 p2) /\ part h p1 = Ok m1 /\ part h p2 = Ok m2 /\ v = Some (DM t1 t2 m1 m2)).
Proof.
  cbn [load]. destruct (nth_error h a) as [[l|t1 t2 p1 p2]|] eqn:E; intros H; [left|right|discriminate].
  - injection H as <-. eauto.
  - destruct (part h p1) eqn:E1; cbn [bind] in H; try discriminate. destruct (part h p2) eqn:E2; cbn [bind] in H; try discriminate.
    injection H as <-. do 6 eexists. eauto.
Qed.
Lemma wf_part_ty h t q l : wf_part h t q -> part h q = Ok (Some l) -> leaf_ty l = t.
Proof. intros W E. apply part_inv in E as (a & -> & E). destruct W as (x & Ex & T). congruence. Qed.

Lemma asg_heap_dense o dbg h a b x vy : wf_heap h -> nth_error h a = Some (HL x) -> dense_leaf x = true ->
  load h (Some b) = Ok (Some vy) -> (a = b -> windowless (Some (DL x)) = true) ->
  (forall t1 t2 p1 p2, nth_error h b = Some (HM t1 t2 p1 p2) -> p1 <> Some a /\ p2 <> Some a) ->
  let '(h1, q) := asg_heap ar o dbg h a b in
  rrel (fun (_ : unit) d => exists x', d = DL x' /\ leaf_ty x' = leaf_ty x /\ h1 = upd h a (HL x')) q (asg_dyn ar o dbg (DL x) vy) /\
  (q = Throw -> h1 = h).
Proof.
  intros W Ea Hx Lb Hw Hp. pose proof (nth_error_Some h a) as La. rewrite Ea in La.
  assert (La' : a < length h) by (apply La; discriminate). clear La.
  unfold asg_heap. rewrite Ea. apply load_inv in Lb as [(y & Eb & E)|(t1 & t2 & p1 & p2 & m1 & m2 & Eb & E1 & E2 & E)].
  - injection E as ->. rewrite Eb, (asg_obj_eq o dbg h a b x y) by auto. cbn [asg_dyn].
    pose proof (fun z => asg_leaf_ty o dbg x y z) as T. destruct (asg_leaf ar o dbg x y) as [z| | | |]; cbn; (split; [auto|intros; auto; discriminate]). eauto.
  - injection E as ->. rewrite Eb. destruct (Hp _ _ _ _ Eb) as [P1 P2]. cbn [asg_dyn].
    destruct m1 as [y1|]; [apply part_inv in E1 as (b1 & -> & E1)|apply part_none in E1 as ->; cbn; split; [auto|discriminate]].
    destruct m2 as [y2|]; [apply part_inv in E2 as (b2 & -> & E2)|apply part_none in E2 as ->; cbn; split; [auto|discriminate]].
    cbn [deref bind]. destruct o.
    + rewrite E1, E2. destruct (bin_leaf ar Plus dbg y1 y2) as [s| | | |]; cbn [bind]; try (cbn; split; [auto|now auto]).
      unfold asg_tmp. rewrite Ea.
      pose proof (fun z => asg_leaf_ty Plus dbg x s z) as T. destruct (asg_leaf ar Plus dbg x s) as [z| | | |]; cbn; (split; [auto|intros; auto; discriminate]). eauto.
    + rewrite (asg_obj_eq Minus dbg h a b1 x y1) by (auto; congruence).
      pose proof (fun z => asg_leaf_ty Minus dbg x y1 z) as T1. destruct (asg_leaf ar Minus dbg x y1) as [z1| | | |] eqn:Ez; cbn [set_leaf next bind];
        try (cbn; split; [auto|now auto]).
      specialize (T1 _ eq_refl).
      assert (Hz : dense_leaf z1 = true) by (destruct x, z1; cbn in *; auto; discriminate).
      rewrite (asg_obj_eq Minus dbg _ a b2 z1 y2).
      * pose proof (fun z => asg_leaf_ty Minus dbg z1 y2 z) as T. pose proof (quiet_asg Minus dbg z1 y2 Hz) as Q.
        destruct (asg_leaf ar Minus dbg z1 y2) as [z| | | |]; cbn; (split; [auto|intros; auto; try discriminate]).
        -- exists z. split; auto. split; [rewrite T; auto|]. apply nth_error_ext. intros i. destruct (Nat.eq_dec i a) as [->|Hn].
           ++ rewrite !nth_error_upd_eq; auto. now rewrite upd_length.
           ++ now rewrite !nth_error_upd_ne by auto.
        -- exfalso. now apply Q.
      * now apply nth_error_upd_eq.
      * rewrite nth_error_upd_ne; auto.
      * congruence.
Qed.

Lemma set_same h a x r : nth_error h a = Some (HL x) -> (forall z, r = Ok z -> z = x) ->
  set_leaf h a r = (h, rmap (fun _ => tt) r).
Proof. intros E H. destruct r; cbn; auto. rewrite (H _ eq_refl). now rewrite upd_same. Qed.

Lemma asg_heap_const o dbg h a b vx vy : wf_heap h -> load h (Some a) = Ok (Some vx) -> load h (Some b) = Ok (Some vy) ->
  in_place (Some vx) = false -> In (dyn_ty vx) type_list -> In (dyn_ty vy) type_list ->
  exists q, asg_heap ar o dbg h a b = (h, q) /\ rrel (fun (_ : unit) d => d = vx) q (asg_dyn ar o dbg vx vy).
Proof.
  intros W Lx Ly Hi Tx Ty.
  apply load_inv in Lx as [(x & Ea & E)|(t1 & t2 & p1 & p2 & m1 & m2 & Ea & E1 & E2 & E)]; injection E as ->;
  apply load_inv in Ly as [(y & Eb & E)|(s1 & s2 & q1 & q2 & n1 & n2 & Eb & G1 & G2 & E)]; injection E as ->;
  unfold asg_heap; rewrite Ea, Eb; cbn [asg_dyn].
  - assert (Hd : dense_leaf x = false) by (destruct x; auto).
    rewrite (asg_obj_eq o dbg h a b x y), (set_same h a x) by (auto; first [intros z; now apply asg_leaf_const|destruct x; cbn; auto; discriminate]).
    eexists; split; [reflexivity|]. pose proof (fun z => asg_leaf_const o dbg x y z Hd) as C. destruct (asg_leaf ar o dbg x y); cbn; auto. now rewrite (C _ eq_refl).
  - assert (Hd : dense_leaf x = false) by (destruct x; auto).
    assert (Hw : windowless (Some (DL x)) = true) by (destruct x; auto; discriminate).
    destruct n1 as [y1|]; [apply part_inv in G1 as (b1 & -> & G1)|apply part_none in G1 as ->; cbn; eexists; split; reflexivity].
    destruct n2 as [y2|]; [apply part_inv in G2 as (b2 & -> & G2)|apply part_none in G2 as ->; cbn; eexists; split; reflexivity].
    cbn [deref bind]. destruct o.
    + rewrite G1, G2. destruct (bin_leaf ar Plus dbg y1 y2) as [s| | | |]; cbn [bind]; try (cbn; eexists; split; [reflexivity|]; now cbn).
      unfold asg_tmp. rewrite Ea, (set_same h a x) by (auto; intros z; now apply asg_leaf_const).
      eexists; split; [reflexivity|]. pose proof (fun z => asg_leaf_const Plus dbg x s z Hd) as C. destruct (asg_leaf ar Plus dbg x s); cbn; auto. now rewrite (C _ eq_refl).
    + rewrite (asg_obj_eq Minus dbg h a b1 x y1), (set_same h a x) by (auto; intros z; now apply asg_leaf_const).
      pose proof (fun z => asg_leaf_const Minus dbg x y1 z Hd) as C1. destruct (asg_leaf ar Minus dbg x y1) as [z1| | | |]; cbn [rmap next bind];
        try (eexists; split; [reflexivity|]; now cbn).
      rewrite (C1 _ eq_refl). clear C1.
      rewrite (asg_obj_eq Minus dbg h a b2 x y2), (set_same h a x) by (auto; intros z; now apply asg_leaf_const).
      eexists; split; [reflexivity|]. pose proof (fun z => asg_leaf_const Minus dbg x y2 z Hd) as C. destruct (asg_leaf ar Minus dbg x y2); cbn; auto. now rewrite (C _ eq_refl).
  - cbn [dyn_ty] in Tx. apply listed_sparse in Tx as [-> T2]. destruct (W _ _ _ _ _ Ea) as [W1 W2].
    destruct m1 as [x1|]; [pose proof (wf_part_ty _ _ _ _ W1 E1) as X1; apply part_inv in E1 as (a1 & -> & E1)|apply part_none in E1 as ->; cbn; eexists; split; reflexivity].
    destruct m2 as [x2|]; [pose proof (wf_part_ty _ _ _ _ W2 E2) as X2; apply part_inv in E2 as (a2 & -> & E2)|apply part_none in E2 as ->; cbn; eexists; split; reflexivity].
    cbn [deref bind]. destruct x1 as [z|z|x1|z|z]; cbn in X1; try discriminate.
    rewrite (asg_obj_eq o dbg h a1 b (LSd x1) y), (set_same h a1 (LSd x1)) by (auto; intros z; now apply asg_leaf_const).
    pose proof (fun z => asg_leaf_const o dbg (LSd x1) y z eq_refl) as C1.
    destruct y as [y|y|y|y|y]; cbn [asg_leaf rmap next bind]; try (eexists; split; [reflexivity|]; now cbn).
    cbn [asg_leaf] in C1. destruct (mz_assign_op dbg l_rows l_cols (LSd x1) y) as [z1| | | |]; cbn [rmap next bind]; try (eexists; split; [reflexivity|]; now cbn).
    rewrite (C1 _ eq_refl). clear C1.
    assert (Hab : a2 <> b). { intros ->. rewrite Eb in E2. injection E2 as <-. cbn in X2. destruct T2; congruence. }
    assert (C2 : forall z, asg_leaf ar o dbg x2 (LZ y) = Ok z -> z = x2).
    { intros z Ez. destruct x2; cbn [asg_leaf] in Ez; try (now apply mz_same in Ez). cbn in X2. destruct T2; congruence. }
    rewrite (asg_obj_eq o dbg h a2 b x2 (LZ y)), (set_same h a2 x2) by (auto; congruence).
    eexists; split; [reflexivity|]. destruct (asg_leaf ar o dbg x2 (LZ y)); cbn; auto. now rewrite (C2 _ eq_refl).
  - cbn [dyn_ty] in Tx, Ty. apply listed_sparse in Tx as [-> T2]. apply listed_sparse in Ty as [-> S2].
    destruct (W _ _ _ _ _ Ea) as [W1 W2]. destruct (W _ _ _ _ _ Eb) as [V1 V2].
    destruct m1 as [x1|]; [pose proof (wf_part_ty _ _ _ _ W1 E1) as X1; apply part_inv in E1 as (a1 & -> & E1)|apply part_none in E1 as ->; cbn; eexists; split; reflexivity].
    destruct m2 as [x2|]; [pose proof (wf_part_ty _ _ _ _ W2 E2) as X2; apply part_inv in E2 as (a2 & -> & E2)|apply part_none in E2 as ->; cbn; eexists; split; reflexivity].
    destruct n1 as [y1|]; [pose proof (wf_part_ty _ _ _ _ V1 G1) as Y1; apply part_inv in G1 as (b1 & -> & G1)|apply part_none in G1 as ->; cbn; eexists; split; reflexivity].
    destruct n2 as [y2|]; [pose proof (wf_part_ty _ _ _ _ V2 G2) as Y2; apply part_inv in G2 as (b2 & -> & G2)|apply part_none in G2 as ->; cbn; eexists; split; reflexivity].
    cbn [deref bind]. destruct x1 as [z|z|x1|z|z]; cbn in X1; try discriminate. destruct y1 as [z|z|y1|z|z]; cbn in Y1; try discriminate.
    rewrite (asg_obj_eq o dbg h a1 b1 (LSd x1) (LSd y1)) by auto. cbn. eexists; split; reflexivity.
Qed.
End P.
