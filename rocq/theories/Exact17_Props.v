(** C35, C36 for every program, disciplined or not: from which contents each
    reported norm and count comes.  (Check_Model.v models NormPolicy.h 16-54 and
    OccupationPolicy.h 15-58.) *)
From Verif Require Import Base BaseLemmas Dyn_Model Check_Model Check_Spec Check_Props Exact8_Props.

(** The same kind of range with the same limits. *)
Definition same_range {F D} (ar : arith F D) (k k' : checker D) : bool :=
  let eqD x y := negb (ltD ar x y) && negb (ltD ar y x) in
  match ck_k k, ck_k k' with
  | ExclNo, ExclNo => eqD (ck_lo k) (ck_lo k')
  | ExclIncl, ExclIncl | InclIncl, InclIncl | ExclExcl, ExclExcl => eqD (ck_lo k) (ck_lo k') && eqD (ck_hi k) (ck_hi k')
  | _, _ => false
  end.

Section Recall.
Context {F D : Type} (ar : arith F D) {C N : Type} (norm_of : C -> N) (count_of : (D -> bool) -> C -> nat) (moved : C -> C).

(** What a variable has: contents, and what it had when its norm was first asked,
    and when each range was first asked. *)
Record memo := mkMemo { m_c : C; m_norm : option C; m_cnt : list (checker D * C) }.
Definition fresh (c : C) : memo := mkMemo c None [].
(** New contents, old memories. *)
Definition refill (c : C) (m : memo) : memo := mkMemo c (m_norm m) (m_cnt m).
Definition recall (k : checker D) (m : memo) : option C :=
  option_map snd (find (fun kc => same_range ar k (fst kc)) (m_cnt m)).

(** A copy has the memories of the original; a newly moved one has none; a change
    of the contents in any other way, move assignment and swap included, leaves
    the memories where they were; the first question after that stays answered. *)
Fixpoint recalled (e : nat -> memo) (l : list (op D C)) : list (out D C N) :=
  match l with
  | [] => []
  | New v c :: r => recalled (put e v (fresh c)) r
  | Modify v f :: r => recalled (put e v (refill (f (m_c (e v))) (e v))) r
  | Copy v s :: r => recalled (put e v (e s)) r
  | MoveNew v s :: r => recalled (put (put e s (refill (moved (m_c (e s))) (e s))) v (fresh (m_c (e s)))) r
  | MoveAssign v s :: r => recalled (put (put e s (refill (moved (m_c (e s))) (e s))) v (refill (m_c (e s)) (e v))) r
  | Swap v w :: r => recalled (put (put e v (refill (m_c (e w)) (e v))) w (refill (m_c (e v)) (e w))) r
  | GetNorm v :: r =>
      let c0 := match m_norm (e v) with Some c0 => c0 | None => m_c (e v) end in
      ONorm (norm_of c0) (m_c (e v)) :: recalled (put e v (mkMemo (m_c (e v)) (Some c0) (m_cnt (e v)))) r
  | GetCount v k :: r =>
      match recall k (e v) with
      | Some c0 => OCount (count_of (ck_ok ar k) c0) k (m_c (e v)) :: recalled e r
      | None => OCount (count_of (ck_ok ar k) (m_c (e v))) k (m_c (e v)) ::
                recalled (put e v (mkMemo (m_c (e v)) (m_norm (e v)) ((k, m_c (e v)) :: m_cnt (e v)))) r
      end
  | Reset v :: r => recalled (put e v (mkMemo (m_c (e v)) (m_norm (e v)) [])) r
  end.

Hypothesis L : linear ar.
Hypothesis count_ext : forall p q c, (forall x, p x = q x) -> count_of p c = count_of q c.

Lemma eqD_iff x y : negb (ltD ar x y) && negb (ltD ar y x) = true <-> x = y.
Proof.
  rewrite andb_true_iff, !negb_true_iff. split.
  - intros [H1 H2]. destruct (ln_total ar L x y) as [H|[H|H]]; congruence.
  - intros ->. rewrite (ln_irrefl ar L). auto.
Qed.
Lemma equiv_range k k' : ck_t k = TTdouble -> ck_t k' = TTdouble -> ck_equiv ar k k' = Ok (same_range ar k k').
Proof.
  intros Hk Hk'. unfold ck_equiv.
  assert (R : same_range ar k k' = true <-> ck_id k = ck_id k' /\ ck_lo k = ck_lo k' /\ hi' ar k = hi' ar k').
  { unfold same_range, ck_id, hi'. cbv zeta. rewrite Hk, Hk'.
    destruct (ck_k k), (ck_k k'); try (split; [discriminate|intros (H & _); discriminate]);
      [rewrite eqD_iff|rewrite (andb_true_iff (_ && _) (_ && _)), !eqD_iff..]; intuition. }
  destruct (ck_lt_spec ar L k k' Hk Hk') as [[E1 T1]|[E1 T1]]; rewrite E1; cbn [bind].
  - destruct (same_range ar k k') eqn:S; [|reflexivity]. exfalso. apply proj1 in R. destruct (R eq_refl) as (R1 & R2 & R3).
    unfold LT in T1. unfold lt in T1. rewrite R1, R2, R3 in T1. rewrite !(ln_irrefl ar L) in T1. destruct T1 as [T1|(_ & [T1|(_ & T1)])]; [lia|discriminate|discriminate].
  - destruct (ck_lt_spec ar L k' k Hk' Hk) as [[E2 T2]|[E2 T2]]; rewrite E2; cbn [bind negb].
    + destruct (same_range ar k k') eqn:S; [|reflexivity]. exfalso. apply proj1 in R. destruct (R eq_refl) as (R1 & R2 & R3).
      unfold LT in T2. unfold lt in T2. rewrite R1, R2, R3 in T2. rewrite !(ln_irrefl ar L) in T2. destruct T2 as [T2|(_ & [T2|(_ & T2)])]; [lia|discriminate|discriminate].
    + f_equal. symmetry. apply R. destruct (LT_total ar L k k') as [T|[T|T]]; [contradiction|contradiction|exact T].
Qed.
Lemma same_pred k k' : ck_t k = TTdouble -> ck_t k' = TTdouble -> same_range ar k k' = true -> forall x, ck_ok ar k x = ck_ok ar k' x.
Proof.
  intros Hk Hk' H. pose proof (equiv_range k k' Hk Hk') as E. rewrite H in E. unfold ck_equiv in E.
  destruct (ck_lt_spec ar L k k' Hk Hk') as [[E1 _]|[E1 _]]; rewrite E1 in E; cbn [bind] in E; [discriminate|].
  destruct (ck_lt_spec ar L k' k Hk' Hk) as [[E2 _]|[E2 _]]; rewrite E2 in E; cbn [bind] in E; [discriminate|].
  exact (equiv_same ar L k k' Hk Hk' E1 E2).
Qed.

(** The object has the memories of the variable. *)
Definition sim (o : obj D C N) (m : memo) : Prop :=
  o_c o = m_c m /\ o_norm o = option_map norm_of (m_norm m) /\
  Forall2 (fun kn kc => fst kn = fst kc /\ ck_t (fst kc) = TTdouble /\ snd kn = count_of (ck_ok ar (fst kc)) (snd kc)) (o_occ o) (m_cnt m).

Lemma find_sim k o m : ck_t k = TTdouble -> sim o m ->
  map_find ar k (o_occ o) = Ok (option_map (fun c0 => count_of (ck_ok ar k) c0) (recall k m)).
Proof.
  intros Hk (_ & _ & H). unfold recall. induction H as [|[k1 n] [k2 c0] lo lm (H1 & H2 & H3) H IH]; [reflexivity|].
  cbn [fst snd] in *. subst k2. cbn [map_find find fst]. rewrite equiv_range by auto. cbn [bind].
  destruct (same_range ar k k1) eqn:S; [|exact IH]. cbn [option_map snd]. rewrite H3. do 2 f_equal.
  apply count_ext. intros x. symmetry. now apply same_pred.
Qed.

Lemma recalled_run l : forall e m, Forall listed_op l -> (forall v, sim (e v) (m v)) ->
  exists e', run ar norm_of count_of moved e l = Ok (e', recalled m l) /\ forall v, exists m', sim (e' v) m'.
Proof.
  assert (PUT : forall (e : env (D:=D) (C:=C) (N:=N)) m v o x, (forall w, sim (e w) (m w)) -> sim o x -> forall w, sim (eset e v o w) (put m v x w)).
  { intros e m v o x H Hx w. unfold eset, put. destruct (w =? v); auto. }
  induction l as [|x l IH]; intros e m Hl I0; cbn [run Check_Model.run recalled].
  { exists e. split; [reflexivity|]. intros v. exists (m v). auto. }
  inversion Hl as [|? ? Hx Hl']; subst.
  assert (G : forall e1 o1 m1, step ar norm_of count_of moved e x = Ok (e1, o1) -> (forall v, sim (e1 v) (m1 v)) ->
     exists e', (do s <- step ar norm_of count_of moved e x; let '(e, o) := s in do t <- run ar norm_of count_of moved e l; let '(e, o') := t in Ok (e, o ++ o')) =
       Ok (e', o1 ++ recalled m1 l) /\ forall v, exists m', sim (e' v) m').
  { intros e1 o1 m1 E1 I1. rewrite E1. cbn [bind]. destruct (IH e1 m1 Hl' I1) as (e2 & E2 & I2). rewrite E2. cbn [bind]. eauto. }
  destruct x as [v c|v f|v s|v s|v s|v w|v|v k|v].
  - apply (G _ [] _ eq_refl). apply PUT; auto. split; [reflexivity|]. split; [reflexivity|constructor].
  - apply (G _ [] _ eq_refl). apply PUT; auto. destruct (I0 v) as (H1 & H2 & H3). split; [cbn; now rewrite H1|]. auto.
  - apply (G _ [] _ eq_refl). apply PUT; auto. unfold o_copy. apply I0.
  - apply (G _ [] _ eq_refl). destruct (I0 s) as (H1 & H2 & H3). apply PUT; [apply PUT|]; auto.
    + split; [cbn; now rewrite H1|]. auto.
    + split; [exact H1|]. split; [reflexivity|constructor].
  - apply (G _ [] _ eq_refl). destruct (I0 s) as (H1 & H2 & H3). destruct (I0 v) as (K1 & K2 & K3). apply PUT; [apply PUT|]; auto.
    + split; [cbn; now rewrite H1|]. auto.
    + split; [exact H1|]. auto.
  - apply (G _ [] _ eq_refl). destruct (I0 w) as (H1 & H2 & H3). destruct (I0 v) as (K1 & K2 & K3). apply PUT; [apply PUT|]; auto.
    + split; [exact H1|]. auto.
    + split; [exact K1|]. auto.
  - destruct (I0 v) as (H1 & H2 & H3). cbv zeta.
    destruct (m_norm (m v)) as [c0|] eqn:M; cbn [option_map] in H2.
    + apply (G (eset e v (e v)) [ONorm (norm_of c0) (m_c (m v))]).
      * cbn [step Check_Model.step]. unfold o_getNorm. rewrite H2, H1. reflexivity.
      * apply PUT; auto. split; [exact H1|]. split; [exact H2|exact H3].
    + apply (G (eset e v (mkObj (m_c (m v)) (Some (norm_of (m_c (m v)))) (o_occ (e v)))) [ONorm (norm_of (m_c (m v))) (m_c (m v))]).
      * cbn [step Check_Model.step]. unfold o_getNorm. rewrite H2, H1. reflexivity.
      * apply PUT; auto. split; [reflexivity|]. split; [reflexivity|exact H3].
  - destruct (I0 v) as (H1 & H2 & H3). pose proof (find_sim k _ _ Hx (I0 v)) as FS.
    destruct (recall k (m v)) as [c0|] eqn:M; cbn [option_map] in FS.
    + apply (G (eset e v (e v)) [OCount (count_of (ck_ok ar k) c0) k (m_c (m v))]).
      * cbn [step Check_Model.step]. unfold o_getCount. rewrite FS. cbn [bind]. rewrite H1. reflexivity.
      * intros w. unfold eset. destruct (Nat.eqb_spec w v) as [-> |]; auto.
    + apply (G (eset e v (mkObj (o_c (e v)) (o_norm (e v)) ((k, count_of (ck_ok ar k) (o_c (e v))) :: o_occ (e v))))
               [OCount (count_of (ck_ok ar k) (m_c (m v))) k (m_c (m v))]).
      * cbn [step Check_Model.step]. unfold o_getCount. rewrite FS. cbn [bind]. rewrite H1. reflexivity.
      * apply PUT; auto. split; [exact H1|]. split; [exact H2|]. cbn. constructor; [|exact H3]. cbn. rewrite H1. auto.
  - apply (G _ [] _ eq_refl). apply PUT; auto. destruct (I0 v) as (H1 & H2 & H3). split; [exact H1|]. split; [exact H2|constructor].
Qed.
End Recall.
Arguments memo : clear implicits.

(** Every program runs to its end and reports, for each norm and each count asked,
    that of the contents the variable - or the one it was copied from - had when
    it was first asked: for counts, the same range and since the last reset(). *)
Theorem C35_every_program :
  forall (F D : Type) (ar : arith F D), linear ar ->
  forall (C N : Type) (norm_of : C -> N) count_of moved (empty : C) (l : list (op D C)),
    (forall p q c, (forall x, p x = q x) -> count_of p c = count_of q c) -> Forall listed_op l ->
    exists e, run ar norm_of count_of moved (start empty) l =
      Ok (e, recalled ar norm_of count_of moved (fun _ => fresh empty) l).
Proof.
  intros F D ar L C N norm_of count_of moved empty l Hext Hl.
  destruct (recalled_run ar norm_of count_of moved L Hext l (start empty) (fun _ => fresh empty) Hl) as (e & E & _); [|eauto].
  intros v. split; [reflexivity|]. split; [reflexivity|constructor].
Qed.
Print Assumptions C35_every_program.

(** The same range: the same elements are counted. *)
Theorem C36_same_range :
  forall (F D : Type) (ar : arith F D), linear ar -> forall k k', ck_t k = TTdouble -> ck_t k' = TTdouble ->
    ck_equiv ar k k' = Ok (same_range ar k k') /\
    (same_range ar k k' = true <-> ck_k k = ck_k k' /\ ck_lo k = ck_lo k' /\ (ck_k k <> ExclNo -> ck_hi k = ck_hi k')) /\
    (same_range ar k k' = true -> forall x, ck_ok ar k x = ck_ok ar k' x).
Proof.
  intros F D ar L k k' Hk Hk'. split; [now apply equiv_range|]. split; [|now apply same_pred].
  unfold same_range. cbv zeta. destruct (ck_k k), (ck_k k'); try (split; [discriminate|intros (H & _); discriminate]);
    [rewrite (eqD_iff ar L)|rewrite (andb_true_iff (_ && _) (_ && _)), !(eqD_iff ar L)..]; intuition; try congruence; apply H2; discriminate.
Qed.
Print Assumptions C36_same_range.

Example C35_every_program_nonvacuous :
  let p := [New 0 [1; -2]%Z; GetNorm 0; GetCount 0 (zgt 1); Modify 0 (fun c => 5%Z :: c); GetNorm 0; GetCount 0 (zgt 1); GetCount 0 (zgt 0);
            Copy 1 0; Modify 1 (fun _ => []); GetNorm 1; New 2 [9]%Z; Swap 1 2; GetNorm 1; GetNorm 2; Reset 1; GetCount 1 (zgt 1); MoveNew 3 0; GetNorm 3; GetNorm 0]
           : list (op Z (list Z)) in
  Forall listed_op p /\
  exists e, zrun p = Ok (e, [ONorm 3 [1; -2]; OCount 1 (zgt 1) [1; -2]; ONorm 3 [5; 1; -2]; OCount 1 (zgt 1) [5; 1; -2]; OCount 3 (zgt 0) [5; 1; -2];
     ONorm 3 []; ONorm 3 [9]; ONorm 0 []; OCount 1 (zgt 1) [9]; ONorm 8 [5; 1; -2]; ONorm 3 []]%Z).
Proof. cbv zeta. split; [repeat constructor|]. eexists. vm_compute. reflexivity. Qed.
