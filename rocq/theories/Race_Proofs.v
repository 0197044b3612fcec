From Verif Require Import BaseLemmas Race_Spec Check_Props.

Section P.
Context {F D : Type} (ar : arith F D) (L : linear ar) {C N : Type}.
Context (norm_of : C -> N) (count_of : (D -> bool) -> C -> nat).
Hypothesis count_ext : forall p q c, (forall x, p x = q x) -> count_of p c = count_of q c.
Notation right := (right ar norm_of count_of).
Notation consistent := (consistent ar norm_of count_of).
Notation micro := (micro ar norm_of count_of).
Notation rstep := (rstep ar norm_of count_of).
Notation rrun := (rrun ar norm_of count_of).
Notation cached := (cached ar).
Implicit Types (s : shared D C N) (y : rsys D C N) (k : checker D) (m : list (checker D * nat)).

(** ** The map *)
Definition mapok (c : C) m := forall k n, In (k, n) m -> ck_t k = TTdouble /\ n = count_of (ck_ok ar k) c.

Lemma equiv_def k k' : ck_t k = TTdouble -> ck_t k' = TTdouble ->
  (ck_equiv ar k k' = Ok false) \/ (ck_equiv ar k k' = Ok true /\ forall c, count_of (ck_ok ar k) c = count_of (ck_ok ar k') c).
Proof.
  intros Hk H1. unfold ck_equiv.
  destruct (ck_lt_spec ar L k k' Hk H1) as [[E1 _]|[E1 _]]; rewrite E1; cbn [bind]; [left; reflexivity|].
  destruct (ck_lt_spec ar L k' k H1 Hk) as [[E2 _]|[E2 _]]; rewrite E2; cbn [bind negb]; [left; reflexivity|].
  right. split; [reflexivity|]. intros c. apply count_ext. intros x. now apply (equiv_same ar L k k').
Qed.
Lemma equiv_refl k : ck_t k = TTdouble -> ck_equiv ar k k = Ok true.
Proof.
  intros H. unfold ck_equiv. destruct (ck_lt_spec ar L k k H H) as [[_ B]|[E1 _]]; [exfalso; exact (LT_irrefl ar L k B)|].
  rewrite E1. reflexivity.
Qed.

Lemma find_spec c k m : ck_t k = TTdouble -> mapok c m ->
  (map_find ar k m = Ok None /\ ~ cached k m) \/ (map_find ar k m = Ok (Some (count_of (ck_ok ar k) c)) /\ cached k m).
Proof.
  intros Hk. induction m as [|[k' n] m IH]; intros M.
  - left. split; [reflexivity|]. intros (k' & n & [] & _).
  - destruct (M k' n (or_introl eq_refl)) as [H1 H2]. cbn [map_find].
    destruct (equiv_def k k' Hk H1) as [E|[E Q]]; rewrite E; cbn [bind].
    + destruct IH as [[A B]|[A B]]; [intros a b HI; apply M; now right| |].
      * left. split; [exact A|]. intros (a & b & [HI|HI] & E2); [injection HI as <- <-; congruence|]. apply B. exists a, b. auto.
      * right. split; [exact A|]. destruct B as (a & b & HI & E2). exists a, b. split; [now right|exact E2].
    + right. split; [now rewrite H2, Q|]. exists k', n. split; [now left|exact E].
Qed.

Lemma put_spec c k m : ck_t k = TTdouble -> mapok c m ->
  exists m', map_put ar k (count_of (ck_ok ar k) c) m = Ok m' /\ mapok c m' /\ cached k m' /\
    forall j, ck_t j = TTdouble -> cached j m -> cached j m'.
Proof.
  intros Hk. induction m as [|[k' n] m IH]; intros M.
  - eexists. split; [reflexivity|]. split.
    + intros a b [E|[]]. injection E as <- <-. auto.
    + split; [exists k, (count_of (ck_ok ar k) c); split; [now left|now apply equiv_refl]|]. intros j _ (a & b & [] & _).
  - destruct (M k' n (or_introl eq_refl)) as [H1 H2]. cbn [map_put].
    destruct (equiv_def k k' Hk H1) as [E|[E Q]]; rewrite E; cbn [bind].
    + destruct IH as (m' & P & M' & K & J); [intros a b HI; apply M; now right|]. rewrite P. cbn [bind].
      eexists. split; [reflexivity|]. split; [intros a b [X|X]; [injection X as <- <-; auto|now apply M']|]. split.
      * destruct K as (a & b & HI & E2). exists a, b. split; [now right|exact E2].
      * intros j Hj (a & b & [HI|HI] & E2); [injection HI as <- <-; exists k', n; split; [now left|exact E2]|].
        destruct (J j Hj) as (a' & b' & HI' & E3); [exists a, b; auto|]. exists a', b'. split; [now right|exact E3].
    + eexists. split; [reflexivity|]. split; [intros a b [X|X]; [injection X as <- <-; rewrite <- Q; auto|apply M; now right]|]. split.
      * exists k', (count_of (ck_ok ar k) c). split; [now left|exact E].
      * intros j Hj (a & b & [HI|HI] & E2).
        -- injection HI as <- <-. eexists k', _. split; [now left|exact E2].
        -- exists a, b. split; [now right|exact E2].
Qed.

(** ** One step *)
(** What holds of a thread answering [q] at [p]; [f0], [m0]: the caches at the beginning. *)
Definition at_ok (f0 : bool) m0 s (q : ask D) (p : pc D) : Prop :=
  match q, p with
  | AskNorm, PNorm1 => True
  | AskNorm, PNorm2 => f0 = false
  | AskNorm, PNorm3 => f0 = false
  | AskNorm, PNorm4 => f0 = false /\ sh_norm s = norm_of (sh_c s)
  | AskNorm, PNorm5 => sh_flag s = true
  | AskCount k, PCount1 k' => k' = k
  | AskCount k, PCount2 k' => k' = k /\ cached k (sh_map s)
  | AskCount k, PCount3 k' => k' = k /\ ~ cached k m0
  | AskElems, PElems => True
  | _, _ => False
  end.
(** Caches only grow and never get worse. *)
Definition grows s s' : Prop :=
  sh_c s' = sh_c s /\ (sh_flag s = true -> sh_flag s' = true) /\
  (sh_norm s = norm_of (sh_c s) -> sh_norm s' = norm_of (sh_c s')) /\
  (forall j, ck_t j = TTdouble -> cached j (sh_map s) -> cached j (sh_map s')).
Lemma grows_refl s : grows s s.
Proof. repeat split; auto. Qed.
Lemma grows_trans a b c : grows a b -> grows b c -> grows a c.
Proof.
  intros (A1 & A2 & A3 & A4) (B1 & B2 & B3 & B4). split; [congruence|]. split; [auto|]. split; [auto|]. intros j Hj X. apply B4; auto.
Qed.

Definition weight (p : pc D) : nat :=
  match p with PNorm1 => 5 | PNorm2 => 4 | PNorm3 => 3 | PNorm4 => 2 | PNorm5 => 1
             | PCount1 _ => 2 | PCount2 _ => 1 | PCount3 _ => 1 | PElems => 1 end.

Lemma at_ok_grows f0 m0 s s' q p : listed q -> grows s s' -> at_ok f0 m0 s q p -> at_ok f0 m0 s' q p.
Proof.
  intros LQ (G1 & G2 & G3 & G4). destruct q, p; cbn in *; auto; intros [A B]; split; auto.
Qed.

Lemma micro_ok s0 s q p : consistent s -> listed q -> grows s0 s -> at_ok (sh_flag s0) (sh_map s0) s q p ->
  exists s' r, micro s p = Ok (s', r) /\ consistent s' /\ grows s s' /\
    match r with
    | inl p' => at_ok (sh_flag s0) (sh_map s0) s' q p' /\ weight p' < weight p
    | inr a => a = right (sh_c s) q
    end /\
    (q <> AskNorm -> sh_flag s' = sh_flag s) /\
    (match q with AskCount k => cached k (sh_map s) | _ => True end -> sh_map s' = sh_map s).
Proof.
  intros [CF CM] LQ (G1 & G2 & G3 & G4) A. destruct q as [|k|], p as [| | | | |k'|k'|k'|]; cbn [at_ok] in A; try contradiction; cbn [micro].
  - do 2 eexists. split; [reflexivity|]. split; [split; assumption|]. split; [apply grows_refl|]. split; [|split; auto]. cbn.
    destruct (sh_flag s) eqn:E; cbn; [split; [first [exact E|reflexivity]|lia]|]. split; [|lia]. destruct (sh_flag s0); [|reflexivity]. exfalso; (discriminate (G2 eq_refl) || (rewrite G2 in E; discriminate)).
  - do 2 eexists. split; [reflexivity|]. split; [split; assumption|]. split; [apply grows_refl|]. split; [|split; auto]. cbn.
    destruct (sh_flag s) eqn:E; cbn; [split; [first [exact E|reflexivity]|lia]|]. split; [exact A|lia].
  - do 2 eexists. split; [reflexivity|]. split; [split; cbn; auto|]. split; [repeat split; cbn; auto|]. split; [|split; auto]. cbn. split; [auto|lia].
  - destruct A as [A B]. do 2 eexists. split; [reflexivity|]. split; [split; cbn; auto|]. split; [repeat split; cbn; auto|]. split; [|split; auto; congruence]. cbn. split; [reflexivity|lia].
  - do 2 eexists. split; [reflexivity|]. split; [split; cbn; auto|]. split; [repeat split; cbn; auto|]. split; [|split; auto]. cbn. now rewrite CF.
  - subst k'. cbn in LQ. destruct (find_spec (sh_c s) k (sh_map s) LQ CM) as [[E NC]|[E NC]]; rewrite E; cbn [bind];
      (do 2 eexists; split; [reflexivity|]; split; [split; assumption|]; split; [apply grows_refl|]; split; [|split; auto]); cbn; (split; [split; [reflexivity|]|lia]); [intros X; apply NC; apply G4; auto|exact NC].
  - destruct A as [-> A]. cbn in LQ. destruct (find_spec (sh_c s) k (sh_map s) LQ CM) as [[E NC]|[E NC]]; [contradiction|]. rewrite E. cbn [bind].
    do 2 eexists. split; [reflexivity|]. split; [split; assumption|]. split; [apply grows_refl|]. split; [reflexivity|split; auto].
  - destruct A as [-> A]. cbn in LQ. destruct (put_spec (sh_c s) k (sh_map s) LQ CM) as (m' & P & M' & K & J). rewrite P. cbn [bind].
    do 2 eexists. split; [reflexivity|]. split; [split; cbn; auto|]. split; [repeat split; cbn; auto|]. split; [reflexivity|]. split; [auto|].
    (* cached already: the entry is overwritten with what is there *)
    cbn. intros X. clear - X P CM LQ L count_ext. revert m' P X CM. generalize (sh_map s) as m. induction m as [|[k1 n1] m IH]; intros m' P X CM.
    + destruct X as (a & b & [] & _).
    + destruct (CM k1 n1 (or_introl eq_refl)) as [H1 H2]. cbn [map_put] in P.
      destruct (equiv_def k k1 LQ H1) as [E|[E Q]]; rewrite E in P; cbn [bind] in P.
      * destruct (map_put ar k _ m) as [m1| | | |] eqn:P1; try discriminate. cbn [bind] in P. injection P as <-. f_equal.
        apply IH; [reflexivity| |intros a b HI; apply CM; now right].
        destruct X as (a & b & [HI|HI] & E2); [injection HI as <- <-; congruence|]. exists a, b. auto.
      * injection P as <-. rewrite H2, Q. reflexivity.
  - do 2 eexists. split; [reflexivity|]. split; [split; cbn; auto|]. split; [apply grows_refl|]. split; [reflexivity|split; auto].
Qed.

(** ** Threads *)
Definition code_ok (f0 : bool) m0 s (rest : list (ask D)) (code : list (pc D)) : Prop :=
  match rest with
  | [] => code = []
  | q :: r => exists p, code = p :: map enter r /\ at_ok f0 m0 s q p
  end.
Fixpoint wsum (l : list (pc D)) : nat := match l with [] => 0 | p :: r => weight p + wsum r end.

(** Thread [t] has got the answers to [fst (sp t)]; [snd (sp t)] is open. *)
Record RInv s0 (qs : nat -> list (ask D)) (sp : nat -> list (ask D) * list (ask D)) y : Prop := {
  ri_con : consistent (r_sh y);
  ri_grow : grows s0 (r_sh y);
  ri_split : forall t, qs t = fst (sp t) ++ snd (sp t);
  ri_got : forall t, th_got (r_th y t) = map (right (sh_c s0)) (fst (sp t));
  ri_code : forall t, code_ok (sh_flag s0) (sh_map s0) (r_sh y) (snd (sp t)) (th_code (r_th y t))
}.

Lemma rstep_ok s0 qs sp y t : (forall u, Forall listed (qs u)) -> RInv s0 qs sp y ->
  exists y1 sp1, rstep y t = Ok y1 /\ RInv s0 qs sp1 y1 /\
    (forall u, u <> t -> sp1 u = sp u /\ r_th y1 u = r_th y u) /\
    (th_code (r_th y t) <> [] -> wsum (th_code (r_th y1 t)) < wsum (th_code (r_th y t))) /\
    (th_code (r_th y t) = [] -> y1 = y /\ sp1 t = sp t) /\
    (forall q r, snd (sp t) = q :: r ->
       (q <> AskNorm -> sh_flag (r_sh y1) = sh_flag (r_sh y)) /\
       (match q with AskCount k => cached k (sh_map (r_sh y)) | _ => True end -> sh_map (r_sh y1) = sh_map (r_sh y)) /\
       (snd (sp1 t) = q :: r \/ (snd (sp1 t) = r /\ th_code (r_th y1 t) = map enter r))).
Proof.
  intros LQ [C1 C2 C3 C4 C5]. pose proof (C5 t) as Ct. unfold Race_Model.rstep.
  destruct (snd (sp t)) as [|q r] eqn:R; cbn in Ct.
  - rewrite Ct. exists y, sp. split; [reflexivity|]. split; [split; auto|]. split; [auto|]. split; [congruence|]. split; [auto|]. congruence.
  - destruct Ct as (p & E & A). rewrite E.
    assert (LQt : listed q). { pose proof (LQ t) as X. rewrite (C3 t), R, Forall_app in X. destruct X as [_ X]. now inversion X. }
    destruct (micro_ok s0 (r_sh y) q p C1 LQt C2 A) as (s' & x & M & K1 & K2 & K3 & K4 & K5). rewrite M. cbn [bind fst snd].
    assert (OTH : forall u, u <> t -> code_ok (sh_flag s0) (sh_map s0) s' (snd (sp u)) (th_code (r_th y u))).
    { intros u Nu. specialize (C5 u). destruct (snd (sp u)) as [|q' r'] eqn:Ru; [exact C5|]. destruct C5 as (p' & E' & A'). exists p'. split; [exact E'|].
      eapply at_ok_grows; [|exact K2|exact A']. pose proof (LQ u) as X. rewrite (C3 u), Ru, Forall_app in X. destruct X as [_ X]. now inversion X. }
    set (th := match x with inl p' => mkThread (p' :: map enter r) (th_got (r_th y t)) | inr a => mkThread (map enter r) (th_got (r_th y t) ++ [a]) end).
    exists (mkRsys s' (fun u => if u =? t then th else r_th y u)).
    exists (match x with inl _ => sp | inr _ => fun u => if u =? t then (fst (sp t) ++ [q], r) else sp u end).
    split; [reflexivity|]. split; [|split; [|split; [|split; [congruence|]]]].
    + split; cbn [r_sh r_th]; auto.
      * eapply grows_trans; eauto.
      * intros u. destruct x; [apply C3|]. destruct (Nat.eqb_spec u t) as [->|Nu]; [|apply C3]. cbn. rewrite C3, R, <- app_assoc. reflexivity.
      * intros u. destruct (Nat.eqb_spec u t) as [->|Nu]; [|destruct x; auto]. 
        2:{ apply Nat.eqb_neq in Nu. rewrite Nu. apply C4. }
        unfold th. destruct x as [p'|a]; cbn [th_got]; [apply C4|]. rewrite Nat.eqb_refl. cbn [fst]. rewrite map_app, C4. cbn. rewrite K3. do 2 f_equal.
        destruct C2 as (G & _). now rewrite G.
      * intros u. destruct (Nat.eqb_spec u t) as [->|Nu].
        -- unfold th. destruct x as [p'|a]; cbn [th_code].
           ++ rewrite R. exists p'. split; [reflexivity|]. apply K3.
           ++ rewrite Nat.eqb_refl. cbn [snd]. destruct r as [|q' r']; cbn; [reflexivity|]. exists (enter q'). split; [reflexivity|]. destruct q'; cbn; auto.
        -- replace (snd (match x with inl _ => sp | inr _ => fun u => if u =? t then (fst (sp t) ++ [q], r) else sp u end u)) with (snd (sp u)); [now apply OTH|].
           apply Nat.eqb_neq in Nu. destruct x; [reflexivity|]. now rewrite Nu.
    + intros u Nu. apply Nat.eqb_neq in Nu. cbn [r_th]. rewrite Nu. split; [destruct x; cbn; rewrite ?Nu; reflexivity|reflexivity].
    + intros _. cbn [r_th]. rewrite Nat.eqb_refl. unfold th. destruct x as [p'|a]; cbn [th_code wsum]; [destruct K3; lia|]. destruct p; cbn; lia.
    + intros q' r' E'. injection E' as <- <-. cbn [r_sh r_th]. rewrite Nat.eqb_refl. split; [exact K4|]. split; [exact K5|].
      destruct x as [p'|a]; [left; exact R|right]. rewrite Nat.eqb_refl. split; reflexivity.
Qed.

Lemma rrun_ok s0 qs : (forall u, Forall listed (qs u)) -> forall l sp y, RInv s0 qs sp y ->
  exists y1 sp1, rrun y l = Ok y1 /\ RInv s0 qs sp1 y1 /\
    forall t, wsum (th_code (r_th y1 t)) <= wsum (th_code (r_th y t)) - count_occ Nat.eq_dec l t.
Proof.
  intros LQ. induction l as [|u l IH]; intros sp y I0.
  - exists y, sp. split; [reflexivity|]. split; [exact I0|]. cbn. intros t. lia.
  - destruct (rstep_ok s0 qs sp y u LQ I0) as (y1 & sp1 & S & I1 & OT & W & Z & _). cbn [Race_Model.rrun]. rewrite S. cbn [bind].
    destruct (IH sp1 y1 I1) as (y2 & sp2 & S2 & I2 & W2). exists y2, sp2. split; [exact S2|]. split; [exact I2|].
    intros t. specialize (W2 t). cbn [count_occ]. destruct (Nat.eq_dec u t) as [->|Nt].
    + destruct (th_code (r_th y t)) as [|p r] eqn:E.
      * destruct (Z eq_refl) as [-> _]. rewrite E in W2. cbn in *. lia.
      * assert (W' : wsum (th_code (r_th y1 t)) < wsum (p :: r)) by (apply W; discriminate). lia.
    + destruct (OT t) as [_ E]; [auto|]. rewrite E in W2. lia.
Qed.

Lemma wsum_enter qs : wsum (map enter qs) <= 5 * length qs.
Proof. induction qs as [|q qs IH]; cbn [map wsum length]; [lia|]. destruct q; cbn [enter weight]; lia. Qed.
Lemma wsum_zero l : wsum l = 0 -> l = [].
Proof. destruct l as [|p l]; [reflexivity|]. cbn. destruct p; cbn; lia. Qed.

Lemma RInv0 s qs : consistent s -> RInv s qs (fun t => ([], qs t)) (rinit s qs).
Proof.
  intros C0. split; cbn; auto.
  - apply grows_refl.
  - intros t. destruct (qs t) as [|q r]; cbn; [reflexivity|]. exists (enter q). split; [reflexivity|]. destruct q; cbn; auto.
Qed.

(** ** Races: only if *)
Lemma at_norm f0 m0 s q p : at_ok f0 m0 s q p -> (p = PNorm1 \/ p = PNorm2 \/ p = PNorm3 \/ p = PNorm4 \/ p = PNorm5) -> q = AskNorm.
Proof. intros A [-> | [-> | [-> | [-> | ->]]]]; destruct q; cbn in A; try contradiction; reflexivity. Qed.

Lemma head_open s0 qs sp y t p : RInv s0 qs sp y -> hd_error (th_code (r_th y t)) = Some p ->
  exists q, In q (qs t) /\ at_ok (sh_flag s0) (sh_map s0) (r_sh y) q p.
Proof.
  intros I0 H. pose proof (ri_code _ _ _ _ I0 t) as K. destruct (snd (sp t)) as [|q r] eqn:R; cbn in K; [rewrite K in H; discriminate|].
  destruct K as (p' & E & A). rewrite E in H. cbn in H. injection H as <-. exists q. split; [|exact A].
  rewrite (ri_split _ _ _ _ I0 t), R. apply in_or_app. right. now left.
Qed.

Lemma race_only_if std s0 qs sp y : (forall u, Forall listed (qs u)) -> RInv s0 qs sp y -> race ar std y ->
  (sh_flag s0 = false /\ exists t u, t <> u /\ In AskNorm (qs t) /\ In AskNorm (qs u)) \/
  (exists t u k k', t <> u /\ In (AskCount k) (qs t) /\ In (AskCount k') (qs u) /\ (std = true \/ ~ cached k (sh_map s0))).
Proof.
  intros LQ I0 (t & u & p & q & x & w & w' & N0 & Hp & Hq & Ap & Aq & W).
  destruct (head_open _ _ _ _ _ _ I0 Hp) as (a & Ia & Oa). destruct (head_open _ _ _ _ _ _ I0 Hq) as (b & Ib & Ob).
  assert (NC : forall k, ck_t k = TTdouble -> cached k (sh_map (r_sh y)) ->
     match map_find ar k (sh_map (r_sh y)) with Ok (Some _) => false | _ => true end = false).
  { clear - I0 L count_ext. intros k LK O.
    destruct (find_spec (sh_c (r_sh y)) k (sh_map (r_sh y)) LK (proj2 (ri_con _ _ _ _ I0))) as [[_ B]|[E _]]; [contradiction|]. now rewrite E. }
  assert (La : listed a) by (pose proof (LQ t) as X; rewrite Forall_forall in X; auto).
  assert (Lb : listed b) by (pose proof (LQ u) as X; rewrite Forall_forall in X; auto).
  destruct p as [| | | | |k|k|k|]; cbn [accesses In] in Ap; repeat (destruct Ap as [Ap|Ap]; [injection Ap as <- <-|]); try contradiction;
  (destruct q as [| | | | |k2|k2|k2|]; cbn [accesses In] in Aq; repeat (destruct Aq as [Aq|Aq]; [try discriminate Aq; injection Aq as <-|]); try contradiction; try discriminate W);
  (destruct a as [|ka|]; cbn [at_ok] in Oa; try contradiction); (destruct b as [|kb|]; cbn [at_ok] in Ob; try contradiction).
  all: try (left; split; [tauto|]; exists t, u; auto; fail).
  all: right.
  all: repeat match goal with H : _ /\ _ |- _ => destruct H end; subst.
  all: try (rewrite (NC ka) in W by assumption).
  all: try (rewrite (NC kb) in W by assumption).
  all: rewrite ?orb_false_r, ?orb_false_l in W; try discriminate W.
  all: try (exists t, u, ka, kb; split; [exact N0|]; split; [assumption|]; split; [assumption|]; tauto).
  all: try (exists u, t, kb, ka; split; [auto|]; split; [assumption|]; split; [assumption|]; tauto).
  all: exists t, u, ka, kb; split; [exact N0|]; split; [assumption|]; split; [assumption|]; left; destruct std; [reflexivity|discriminate W].
Qed.

(** ** Races: if *)
Lemma rrun_app l1 l2 : forall y, rrun y (l1 ++ l2) = do y1 <- rrun y l1; rrun y1 l2.
Proof.
  induction l1 as [|t l1 IH]; intros y; [reflexivity|]. cbn [app Race_Model.rrun]. destruct (rstep y t); cbn [bind]; auto.
Qed.

Definition free_norm (l : list (ask D)) := ~ In AskNorm l.
Definition free_count m (l : list (ask D)) := forall k, In (AskCount k) l -> cached k m.

(** A thread alone answers its present question. *)
Lemma one_alone s0 qs t q r : (forall u, Forall listed (qs u)) -> forall w sp y, RInv s0 qs sp y ->
  snd (sp t) = q :: r -> wsum (th_code (r_th y t)) <= w ->
  exists l y1 sp1, rrun y l = Ok y1 /\ RInv s0 qs sp1 y1 /\ (forall u, u <> t -> sp1 u = sp u /\ r_th y1 u = r_th y u) /\
    snd (sp1 t) = r /\ th_code (r_th y1 t) = map enter r /\
    (q <> AskNorm -> sh_flag (r_sh y1) = sh_flag (r_sh y)) /\
    (match q with AskCount k => cached k (sh_map (r_sh y)) | _ => True end -> sh_map (r_sh y1) = sh_map (r_sh y)).
Proof.
  intros LQ. induction w as [|w IH]; intros sp y I0 R W; pose proof (ri_code _ _ _ _ I0 t) as K; rewrite R in K; destruct K as (p & E & A).
  - rewrite E in W. cbn in W. destruct p; cbn in W; lia.
  - destruct (rstep_ok s0 qs sp y t LQ I0) as (y1 & sp1 & S & I1 & OT & W1 & _ & G). destruct (G q r R) as (G1 & G2 & G3).
    assert (NE : th_code (r_th y t) <> []) by (rewrite E; discriminate). specialize (W1 NE).
    destruct G3 as [R1|[R1 E1]].
    + destruct (IH sp1 y1 I1 R1) as (l & y2 & sp2 & S2 & I2 & OT2 & R2 & E2 & F2 & M2); [lia|].
      exists (t :: l), y2, sp2. split; [cbn [Race_Model.rrun]; rewrite S; exact S2|]. split; [exact I2|]. split.
      { intros u Nu. destruct (OT u Nu) as [X1 X2], (OT2 u Nu) as [X3 X4]. split; congruence. }
      split; [exact R2|]. split; [exact E2|]. split.
      * intros Nq. rewrite F2 by exact Nq. auto.
      * intros X. specialize (G2 X). rewrite M2; [exact G2|]. rewrite G2. exact X.
    + exists [t], y1, sp1. split; [cbn [Race_Model.rrun]; rewrite S; reflexivity|]. auto 10.
Qed.

(** A thread alone gets as far as one of its questions. *)
Lemma alone s0 qs t q post : (forall u, Forall listed (qs u)) -> forall pre sp y, RInv s0 qs sp y ->
  snd (sp t) = pre ++ q :: post -> th_code (r_th y t) = map enter (pre ++ q :: post) ->
  exists l y1 sp1, rrun y l = Ok y1 /\ RInv s0 qs sp1 y1 /\ (forall u, u <> t -> sp1 u = sp u /\ r_th y1 u = r_th y u) /\
    snd (sp1 t) = q :: post /\ th_code (r_th y1 t) = map enter (q :: post) /\
    (free_norm pre -> sh_flag (r_sh y1) = sh_flag (r_sh y)) /\
    (free_count (sh_map (r_sh y)) pre -> sh_map (r_sh y1) = sh_map (r_sh y)).
Proof.
  intros LQ. induction pre as [|a pre IH]; intros sp y I0 R E.
  - exists [], y, sp. split; [reflexivity|]. auto 10.
  - destruct (one_alone s0 qs t a (pre ++ q :: post) LQ _ sp y I0 R (le_n _)) as (l & y1 & sp1 & S & I1 & OT & R1 & E1 & F1 & M1).
    destruct (IH sp1 y1 I1 R1 E1) as (l2 & y2 & sp2 & S2 & I2 & OT2 & R2 & E2 & F2 & M2).
    exists (l ++ l2), y2, sp2. split; [rewrite rrun_app, S; exact S2|]. split; [exact I2|]. split.
    { intros u Nu. destruct (OT u Nu) as [X1 X2], (OT2 u Nu) as [X3 X4]. split; congruence. }
    split; [exact R2|]. split; [exact E2|]. split.
    + intros FN. rewrite F2; [apply F1|]; intros X; apply FN; [left; auto|right; auto].
    + intros FC. assert (X : sh_map (r_sh y1) = sh_map (r_sh y)).
      { apply M1. destruct a; auto. apply FC. now left. }
      rewrite M2; [exact X|]. rewrite X. intros k HI. apply FC. now right.
Qed.

Lemma first_such (P : ask D -> bool) l : (exists q, In q l /\ P q = true) ->
  exists pre q post, l = pre ++ q :: post /\ P q = true /\ forall a, In a pre -> P a = false.
Proof.
  induction l as [|a l IH]; intros (q & HI & Hq); [destruct HI|]. destruct (P a) eqn:Pa.
  - exists [], a, l. split; [reflexivity|]. split; [exact Pa|]. intros b [].
  - destruct IH as (pre & q' & post & -> & H1 & H2).
    { exists q. split; [|exact Hq]. destruct HI as [->|HI]; [congruence|exact HI]. }
    exists (a :: pre), q', post. split; [reflexivity|]. split; [exact H1|]. intros b [<-|HI']; auto.
Qed.

Definition is_norm (q : ask D) : bool := match q with AskNorm => true | _ => false end.
Definition is_count (q : ask D) : bool := match q with AskCount _ => true | _ => false end.
(** Decides [cached] for listed questions. *)
Definition is_new m (q : ask D) : bool := match q with AskCount k => match map_find ar k m with Ok (Some _) => false | _ => true end | _ => false end.

Lemma is_new_spec c m k : ck_t k = TTdouble -> mapok c m -> (is_new m (AskCount k) = true <-> ~ cached k m).
Proof.
  intros Hk M. cbn. destruct (find_spec c k m Hk M) as [[E X]|[E X]]; rewrite E; split; auto; try discriminate; contradiction.
Qed.

Lemma race_if_norm std s qs t u : consistent s -> (forall u, Forall listed (qs u)) -> sh_flag s = false ->
  t <> u -> In AskNorm (qs t) -> In AskNorm (qs u) -> race_reachable ar norm_of count_of std s qs.
Proof.
  intros C0 LQ F0 N0 It Iu.
  destruct (first_such is_norm (qs t)) as (p1 & q1 & r1 & Q1 & H1 & B1); [exists AskNorm; auto|].
  destruct (first_such is_norm (qs u)) as (p2 & q2 & r2 & Q2 & H2 & B2); [exists AskNorm; auto|].
  destruct q1; try discriminate H1. destruct q2; try discriminate H2.
  destruct (alone s qs t AskNorm r1 LQ p1 _ _ (RInv0 s qs C0) Q1) as (l1 & y1 & sp1 & S1 & I1 & OT1 & R1 & E1 & F1 & _).
  { cbn. now rewrite Q1. }
  destruct (OT1 u) as [X1 X2]; [auto|].
  destruct (alone s qs u AskNorm r2 LQ p2 sp1 y1 I1) as (l2 & y2 & sp2 & S2 & I2 & OT2 & R2 & E2 & F2 & _).
  { now rewrite X1. } { rewrite X2. cbn. now rewrite Q2. }
  destruct (OT2 t) as [X3 X4]; [auto|].
  assert (Fl : sh_flag (r_sh y2) = false).
  { rewrite F2; [rewrite F1; [exact F0|]|]; intros X; [specialize (B1 _ X)|specialize (B2 _ X)]; discriminate. }
  assert (Et : th_code (r_th y2 t) = PNorm1 :: map enter r1) by (rewrite X4, E1; reflexivity).
  assert (Eu : th_code (r_th y2 u) = PNorm1 :: map enter r2) by exact E2.
  assert (Nut : (u =? t) = false) by (apply Nat.eqb_neq; auto).
  exists (l1 ++ l2 ++ [t; t; t]). eexists. split.
  - rewrite rrun_app, S1. cbn [bind]. rewrite rrun_app, S2. cbn [bind Race_Model.rrun]. unfold Race_Model.rstep at 1. rewrite Et.
    cbn [Race_Model.micro bind fst snd]. rewrite Fl. unfold Race_Model.rstep at 1. cbn [r_th r_sh]. rewrite Nat.eqb_refl.
    cbn [th_code Race_Model.micro bind fst snd]. rewrite Fl. unfold Race_Model.rstep at 1. cbn [r_th r_sh]. rewrite Nat.eqb_refl.
    cbn [th_code Race_Model.micro bind fst snd]. reflexivity.
  - exists t, u, PNorm4, PNorm1, LFlag, true, false. split; [exact N0|]. cbn [r_th r_sh]. rewrite Nat.eqb_refl, Nut.
    split; [reflexivity|]. split; [rewrite Eu; reflexivity|]. cbn. auto.
Qed.

Lemma race_if_count std s qs t u k k' : consistent s -> (forall u, Forall listed (qs u)) ->
  t <> u -> In (AskCount k) (qs t) -> In (AskCount k') (qs u) -> (std = true \/ ~ cached k (sh_map s)) ->
  race_reachable ar norm_of count_of std s qs.
Proof.
  intros C0 LQ N0 It Iu H. destruct C0 as [CF CM].
  assert (LK : forall v j, In (AskCount j) (qs v) -> ck_t j = TTdouble).
  { intros v j HI. pose proof (LQ v) as X. rewrite Forall_forall in X. exact (X _ HI). }
  assert (HU : exists p2 k2 r2, qs u = p2 ++ AskCount k2 :: r2 /\ free_count (sh_map s) p2).
  { destruct (first_such is_count (qs u)) as (p2 & q2 & r2 & Q2 & H2 & B2); [exists (AskCount k'); auto|].
    destruct q2 as [|k2|]; try discriminate H2. exists p2, k2, r2. split; [exact Q2|]. intros j HI. specialize (B2 _ HI). discriminate. }
  assert (HT : exists p1 k1 r1, qs t = p1 ++ AskCount k1 :: r1 /\ free_count (sh_map s) p1 /\ (std = true \/ ~ cached k1 (sh_map s))).
  { destruct H as [Hs|Hn].
    - destruct (first_such is_count (qs t)) as (p2 & q2 & r2 & Q2 & H2 & B2); [exists (AskCount k); auto|].
      destruct q2 as [|k2|]; try discriminate H2. exists p2, k2, r2. split; [exact Q2|]. split; [|auto]. intros j HI. specialize (B2 _ HI). discriminate.
    - destruct (first_such (is_new (sh_map s)) (qs t)) as (p2 & q2 & r2 & Q2 & H2 & B2).
      { exists (AskCount k). split; [exact It|]. apply (is_new_spec (sh_c s)); auto. eapply LK; eauto. }
      destruct q2 as [|k2|]; try discriminate H2. exists p2, k2, r2. split; [exact Q2|]. split.
      + intros j HI. specialize (B2 _ HI). destruct (find_spec (sh_c s) j (sh_map s)) as [[E X]|[E X]]; auto.
        * apply (LK t). rewrite Q2. apply in_or_app. now left.
        * cbn in B2. rewrite E in B2. discriminate.
      + right. apply (is_new_spec (sh_c s)); auto. apply (LK t). rewrite Q2. apply in_or_app. right. now left. }
  destruct HU as (p2 & k2 & r2 & Q2 & B2). destruct HT as (p1 & k1 & r1 & Q1 & B1 & H1).
  destruct (alone s qs t (AskCount k1) r1 LQ p1 _ _ (RInv0 s qs (conj CF CM)) Q1) as (l1 & y1 & sp1 & S1 & I1 & OT1 & R1 & E1 & _ & M1).
  { cbn. now rewrite Q1. }
  destruct (OT1 u) as [X1 X2]; [auto|]. specialize (M1 B1). cbn in M1.
  destruct (alone s qs u (AskCount k2) r2 LQ p2 sp1 y1 I1) as (l2 & y2 & sp2 & S2 & I2 & OT2 & R2 & E2 & _ & M2).
  { now rewrite X1. } { rewrite X2. cbn. now rewrite Q2. }
  destruct (OT2 t) as [X3 X4]; [auto|]. rewrite M1 in M2. specialize (M2 B2).
  assert (Et : th_code (r_th y2 t) = PCount1 k1 :: map enter r1) by (rewrite X4, E1; reflexivity).
  assert (Eu : th_code (r_th y2 u) = PCount1 k2 :: map enter r2) by exact E2.
  assert (Nut : (u =? t) = false) by (apply Nat.eqb_neq; auto).
  assert (K1 : ck_t k1 = TTdouble) by (apply (LK t); rewrite Q1; apply in_or_app; right; now left).
  destruct (find_spec (sh_c s) k1 (sh_map s) K1 CM) as [[E X]|[E X]];
    (exists (l1 ++ l2 ++ [t]); eexists; split;
     [rewrite rrun_app, S1; cbn [bind]; rewrite rrun_app, S2; cbn [bind Race_Model.rrun]; unfold Race_Model.rstep at 1; rewrite Et;
      cbn [Race_Model.micro bind fst snd]; rewrite M2, E; cbn [bind fst snd]; reflexivity|]).
  - exists t, u, (PCount3 k1), (PCount1 k2), LMap, true, false. split; [exact N0|]. cbn [r_th r_sh]. rewrite Nat.eqb_refl, Nut.
    split; [reflexivity|]. split; [rewrite Eu; reflexivity|]. cbn. auto.
  - destruct H1 as [-> | H1]; [|contradiction].
    exists t, u, (PCount2 k1), (PCount1 k2), LMap, true, false. split; [exact N0|]. cbn [r_th r_sh]. rewrite Nat.eqb_refl, Nut.
    split; [reflexivity|]. split; [rewrite Eu; reflexivity|]. cbn. auto.
Qed.
End P.
