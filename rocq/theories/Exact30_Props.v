(** Property C83 over IEEE doubles: threads that share a const matrix whose
    occupations are asked with checkers that name no NaN.  Every run over the
    doubles is, access for access, a run over the real numbers at which the
    doubles lie ([place], [rar] of Exact27_Props.v), to which the theorems about
    linear orders apply. *)
From Coq Require Import ZArith Reals FunctionalExtensionality.
From Verif Require Import Base BaseLemmas Dyn_Model Check_Model Check_Spec Check_Props Race_Model Race_Spec Race_Proofs Thr_Props
  Exact16_Props Fp_Ieee Exact7_Props Exact27_Props.
From Flocq Require Import Core BinarySingleNaN.

#[local] Open Scope nat_scope.
(** A question whose checker, if it has one, is of double and names no NaN. *)
Definition usable_ask (q : ask f64) : Prop := match q with AskCount k => usable k | _ => True end.
(** The counts asked so far, if any, were asked with such checkers. *)
Definition usable_map {C N} (s : shared f64 C N) : Prop := forall k n, In (k, n) (sh_map s) -> usable k.

Section Sim.
Context {C N : Type} (norm_of : C -> N) (count_of : (f64 -> bool) -> C -> nat).
Hypothesis count_ext : forall p q c, (forall x, p x = q x) -> count_of p c = count_of q c.

Definition count_R (p : R -> bool) (c : C) : nat := count_of (fun x => negb (is_nan x) && p (place x)) c.
Lemma count_R_ext p q c : (forall x, p x = q x) -> count_R p c = count_R q c.
Proof. intros H. apply count_ext. intros x. now rewrite H. Qed.
Definition mmap (l : list (checker f64 * nat)) : list (checker R * nat) := map (fun kn => (at_place (fst kn), snd kn)) l.
Definition msh (s : shared f64 C N) : shared R C N := mkShared (sh_c s) (sh_norm s) (sh_flag s) (mmap (sh_map s)).
Definition mask (q : ask f64) : ask R :=
  match q with AskNorm => AskNorm | AskCount k => AskCount (at_place k) | AskElems => AskElems end.
Definition mpc (p : pc f64) : pc R :=
  match p with
  | PNorm1 => PNorm1 | PNorm2 => PNorm2 | PNorm3 => PNorm3 | PNorm4 => PNorm4 | PNorm5 => PNorm5
  | PCount1 k => PCount1 (at_place k) | PCount2 k => PCount2 (at_place k) | PCount3 k => PCount3 (at_place k) | PElems => PElems
  end.
Definition mth (th : thread f64 C N) : thread R C N := mkThread (map mpc (th_code th)) (th_got th).
Definition mr (y : rsys f64 C N) : rsys R C N := mkRsys (msh (r_sh y)) (fun t => mth (r_th y t)).
Definition upc (p : pc f64) : Prop := match p with PCount1 k | PCount2 k | PCount3 k => usable k | _ => True end.
Definition uy (y : rsys f64 C N) : Prop := usable_map (r_sh y) /\ forall t, Forall upc (th_code (r_th y t)).

Lemma equiv_place a b : usable a -> usable b -> ck_equiv ieee a b = ck_equiv rar (at_place a) (at_place b).
Proof. intros [_ Ba] [_ Bb]. unfold ck_equiv. rewrite !ck_lt_place by assumption. reflexivity. Qed.
Lemma mfind k l : usable k -> (forall k' n, In (k', n) l -> usable k') -> map_find rar (at_place k) (mmap l) = map_find ieee k l.
Proof.
  intros Hk. induction l as [|[k' n] l IH]; intros Hl; [reflexivity|]. cbn [mmap map map_find fst snd].
  rewrite equiv_place by (eauto using in_eq). apply bind_ext. intros []; [reflexivity|]. intros _. apply IH. intros k1 n1 H1. apply (Hl k1 n1). now right.
Qed.
Lemma mput k n l : usable k -> (forall k' n, In (k', n) l -> usable k') ->
  map_put rar (at_place k) n (mmap l) = rmap mmap (map_put ieee k n l) /\
  forall l', map_put ieee k n l = Ok l' -> forall k' n', In (k', n') l' -> usable k'.
Proof.
  intros Hk. induction l as [|[k' n'] l IH]; intros Hl; cbn [mmap map map_put fst snd].
  - split; [reflexivity|]. intros l' [= <-] k1 n1 [[= <- <-]|[]]. exact Hk.
  - destruct IH as [I1 I2]; [intros k1 n1 H1; apply (Hl k1 n1); now right|].
    assert (Hk' : usable k') by (apply (Hl k' n'); now left). rewrite equiv_place by assumption.
    fold (mmap l). rewrite I1. destruct (ck_equiv rar (at_place k) (at_place k')) as [[]| | | |]; cbn [bind rmap]; (split; [|try discriminate]).
    + reflexivity.
    + intros l' [= <-] k1 n1 [[= <- <-]|H1]; [exact Hk'|]. apply (Hl k1 n1). now right.
    + destruct (map_put ieee k n l); reflexivity.
    + destruct (map_put ieee k n l) as [r'| | | |]; try discriminate. cbn [bind].
      intros l' [= <-] k1 n1 [[= <- <-]|H1]; [exact Hk'|]. exact (I2 r' eq_refl k1 n1 H1).
    + reflexivity.
    + reflexivity.
    + reflexivity.
    + reflexivity.
Qed.
Lemma mcount k c : usable k -> count_R (ck_ok rar (at_place k)) c = count_of (ck_ok ieee k) c.
Proof. intros [_ B]. apply count_ext. intros x. symmetry. now apply ck_ok_place. Qed.

Definition mout (a : shared f64 C N * (pc f64 + answer C N)) : shared R C N * (pc R + answer C N) :=
  (msh (fst a), match snd a with inl p => inl (mpc p) | inr x => inr x end).
Lemma mmicro s p : usable_map s -> upc p ->
  micro rar norm_of count_R (msh s) (mpc p) = rmap mout (micro ieee norm_of count_of s p) /\
  forall a, micro ieee norm_of count_of s p = Ok a -> usable_map (fst a) /\ match snd a with inl p' => upc p' | inr _ => True end.
Proof.
  intros US UP. destruct p as [| | | | |k|k|k|]; cbn [mpc micro msh sh_c sh_norm sh_flag sh_map upc] in *.
  - split; [now destruct (sh_flag s)|]. intros a [= <-]. split; [exact US|]. now destruct (sh_flag s).
  - split; [now destruct (sh_flag s)|]. intros a [= <-]. split; [exact US|]. now destruct (sh_flag s).
  - split; [reflexivity|]. intros a [= <-]. split; [exact US|exact I].
  - split; [reflexivity|]. intros a [= <-]. split; [exact US|exact I].
  - split; [reflexivity|]. intros a [= <-]. split; [exact US|exact I].
  - rewrite (mfind k _ UP US). destruct (map_find ieee k (sh_map s)) as [r| | | |]; cbn [bind rmap]; (split; [|try discriminate]); try reflexivity.
    + now destruct r.
    + intros a [= <-]. split; [exact US|]. now destruct r.
  - rewrite (mfind k _ UP US). destruct (map_find ieee k (sh_map s)) as [[n|]| | | |]; cbn [bind rmap]; (split; [|try discriminate]); try reflexivity.
    + intros a [= <-]. split; [exact US|exact I].
    + rewrite (proj1 (mput k 0 _ UP US)). destruct (map_put ieee k 0 (sh_map s)); reflexivity.
    + destruct (map_put ieee k 0 (sh_map s)) as [m| | | |] eqn:E; try discriminate. cbn [bind]. intros a [= <-]. split; [|exact I].
      intros k1 n1. exact (proj2 (mput k 0 _ UP US) m E k1 n1).
  - rewrite (mcount k _ UP). set (n := count_of (ck_ok ieee k) (sh_c s)). rewrite (proj1 (mput k n _ UP US)). split.
    + destruct (map_put ieee k n (sh_map s)); reflexivity.
    + destruct (map_put ieee k n (sh_map s)) as [m| | | |] eqn:E; try discriminate. cbn [bind]. intros a [= <-]. split; [|exact I].
      intros k1 n1. exact (proj2 (mput k n _ UP US) m E k1 n1).
  - split; [reflexivity|]. intros a [= <-]. split; [exact US|exact I].
Qed.
Lemma mstep y t : uy y ->
  rstep rar norm_of count_R (mr y) t = rmap mr (rstep ieee norm_of count_of y t) /\
  forall y', rstep ieee norm_of count_of y t = Ok y' -> uy y'.
Proof.
  intros [US UC]. unfold rstep. cbn [mr r_th mth th_code th_got r_sh]. pose proof (UC t) as U.
  destruct (th_code (r_th y t)) as [|p r] eqn:E; cbn [map].
  - split; [reflexivity|]. intros y' [= <-]. split; assumption.
  - inversion U as [|? ? Up Ur]; subst. destruct (mmicro (r_sh y) p US Up) as [M1 M2]. rewrite M1.
    destruct (micro ieee norm_of count_of (r_sh y) p) as [a| | | |] eqn:Ea; cbn [bind rmap]; (split; [|try discriminate]); try reflexivity.
    + f_equal. unfold mr. cbn [r_sh r_th]. f_equal. extensionality u. destruct (u =? t); [|reflexivity].
      destruct a as [s' [p'|x]]; reflexivity.
    + destruct (M2 a eq_refl) as [U1 U2]. intros y' [= <-]. split; [exact U1|]. cbn [r_th]. intros u. destruct (u =? t); [|apply UC].
      destruct (snd a); cbn [th_code]; [constructor; assumption|assumption].
Qed.
Lemma mrun l : forall y, uy y ->
  rrun rar norm_of count_R (mr y) l = rmap mr (rrun ieee norm_of count_of y l) /\
  forall y', rrun ieee norm_of count_of y l = Ok y' -> uy y'.
Proof.
  induction l as [|t l IH]; intros y U; cbn [rrun].
  - split; [reflexivity|]. intros y' [= <-]. exact U.
  - destruct (mstep y t U) as [S1 S2]. rewrite S1. destruct (rstep ieee norm_of count_of y t) as [y1| | | |]; cbn [bind rmap]; try (split; [reflexivity|discriminate]).
    exact (IH y1 (S2 y1 eq_refl)).
Qed.
Lemma mr_init s (qs : nat -> list (ask f64)) : mr (rinit s qs) = rinit (msh s) (fun t => map mask (qs t)).
Proof.
  unfold mr, rinit. cbn [r_sh r_th]. f_equal. extensionality t. unfold mth; cbn [th_code th_got]. f_equal.
  rewrite !map_map. apply map_ext. intros []; reflexivity.
Qed.
Lemma uy_init s (qs : nat -> list (ask f64)) : usable_map s -> (forall t, Forall usable_ask (qs t)) -> uy (rinit s qs).
Proof.
  intros US UQ. split; [exact US|]. intros t. cbn. apply Forall_map. eapply Forall_impl; [|apply UQ]. intros []; cbn; auto.
Qed.
Lemma listed_mask (qs : nat -> list (ask f64)) : (forall t, Forall usable_ask (qs t)) -> forall t, Forall listed (map mask (qs t)).
Proof. intros UQ t. apply Forall_map. eapply Forall_impl; [|apply UQ]. intros [|k|]; cbn; auto. now intros [H _]. Qed.
Lemma right_mask c q : usable_ask q -> right rar norm_of count_R c (mask q) = right ieee norm_of count_of c q.
Proof. destruct q; cbn; auto. intros H. now rewrite mcount. Qed.
Lemma cons_mask s : usable_map s -> consistent ieee norm_of count_of s -> consistent rar norm_of count_R (msh s).
Proof.
  intros US [C1 C2]. split; [exact C1|]. cbn [msh sh_map sh_c]. intros k n H. apply in_map_iff in H. destruct H as ([k' n'] & [= <- <-] & H).
  destruct (C2 _ _ H) as [T E]. split; [exact T|]. now rewrite mcount by exact (US _ _ H).
Qed.
Lemma cached_mask k s : usable k -> usable_map s -> cached rar (at_place k) (sh_map (msh s)) <-> cached ieee k (sh_map s).
Proof.
  intros Hk US. unfold cached. cbn [msh sh_map]. split.
  - intros (k' & n & H & E). apply in_map_iff in H. destruct H as ([k1 n1] & [= <- <-] & H). exists k1, n1. split; [exact H|].
    rewrite equiv_place; eauto.
  - intros (k' & n & H & E). exists (at_place k'), n. split; [apply in_map_iff; exists (k', n); auto|]. rewrite <- equiv_place; eauto.
Qed.
Lemma in_mask_norm (qs : nat -> list (ask f64)) (t : nat) : In AskNorm (map mask (qs t)) <-> In AskNorm (qs t).
Proof.
  split; [|intros H; apply (in_map mask) in H; exact H]. intros H. apply in_map_iff in H. destruct H as ([] & E & H); try discriminate. exact H.
Qed.
Lemma in_mask_count (qs : nat -> list (ask f64)) (t : nat) k' : In (AskCount k') (map mask (qs t)) -> exists k, k' = at_place k /\ In (AskCount k) (qs t).
Proof. intros H. apply in_map_iff in H. destruct H as ([|k|] & E & H); try discriminate. injection E as <-. eauto. Qed.

Lemma acc_mask std s p : usable_map s -> upc p -> accesses rar std (msh s) (mpc p) = accesses ieee std s p.
Proof. intros US UP. destruct p; try reflexivity. cbn [accesses mpc upc msh sh_map] in *. now rewrite mfind. Qed.
Lemma hd_mask y t p : hd_error (th_code (r_th (mr y) t)) = Some p <->
  exists p0, p = mpc p0 /\ hd_error (th_code (r_th y t)) = Some p0.
Proof.
  cbn [mr r_th mth th_code]. destruct (th_code (r_th y t)) as [|p1 r]; cbn.
  - split; [discriminate|]. intros (p0 & _ & H). discriminate.
  - split; [intros [= <-]; eauto|]. intros (p0 & -> & [= <-]). reflexivity.
Qed.
Lemma hd_upc y t p : uy y -> hd_error (th_code (r_th y t)) = Some p -> upc p.
Proof. intros [_ U] H. specialize (U t). destruct (th_code (r_th y t)); [discriminate|]. injection H as ->. now inversion U. Qed.
Lemma race_at_mask std y x : uy y -> race_at rar std (mr y) x <-> race_at ieee std y x.
Proof.
  intros U. pose proof (proj1 U) as US. split.
  - intros (t & u & p & q & w & w' & N0 & Hp & Hq & A1 & A2 & W).
    apply hd_mask in Hp. destruct Hp as (p0 & -> & Hp). apply hd_mask in Hq. destruct Hq as (q0 & -> & Hq).
    change (r_sh (mr y)) with (msh (r_sh y)) in *. rewrite acc_mask in A1, A2 by (eauto using hd_upc).
    exists t, u, p0, q0, w, w'. auto 10.
  - intros (t & u & p & q & w & w' & N0 & Hp & Hq & A1 & A2 & W).
    exists t, u, (mpc p), (mpc q), w, w'. split; [exact N0|]. split; [apply hd_mask; eauto|]. split; [apply hd_mask; eauto|].
    change (r_sh (mr y)) with (msh (r_sh y)). rewrite !acc_mask by (eauto using hd_upc). auto.
Qed.
Lemma reach_mask std s (qs : nat -> list (ask f64)) x : usable_map s -> (forall t, Forall usable_ask (qs t)) ->
  reachable_at rar norm_of count_R std (msh s) (fun t => map mask (qs t)) x <-> reachable_at ieee norm_of count_of std s qs x.
Proof.
  intros US UQ. pose proof (uy_init s qs US UQ) as U0. unfold reachable_at. split.
  - intros (l & y & R & RC). destruct (mrun l _ U0) as [M1 M2]. rewrite mr_init in M1. rewrite M1 in R.
    destruct (rrun ieee norm_of count_of (rinit s qs) l) as [y1| | | |] eqn:E; try discriminate. injection R as <-.
    exists l, y1. split; [exact E|]. apply race_at_mask; auto.
  - intros (l & y & R & RC). destruct (mrun l _ U0) as [M1 M2]. rewrite mr_init, R in M1.
    exists l, (mr y). split; [exact M1|]. apply race_at_mask; auto.
Qed.
End Sim.

(** Under every schedule, every thread gets the right answers: a count it gets is
    that of the elements its checker accepts. *)
Theorem C83_ieee_answers :
  forall (C N : Type) (norm_of : C -> N) (count_of : (f64 -> bool) -> C -> nat),
    (forall p q c, (forall x, p x = q x) -> count_of p c = count_of q c) ->
  forall (s : shared f64 C N) (qs : nat -> list (ask f64)) (l : list nat),
    consistent ieee norm_of count_of s -> usable_map s -> (forall t, Forall usable_ask (qs t)) ->
    exists y, rrun ieee norm_of count_of (rinit s qs) l = Ok y /\
      forall t, let got := th_got (r_th y t) in
        got = map (right ieee norm_of count_of (sh_c s)) (firstn (length got) (qs t)) /\
        (5 * length (qs t) <= count_occ Nat.eq_dec l t -> got = map (right ieee norm_of count_of (sh_c s)) (qs t)).
Proof.
  intros C N norm_of count_of EX s qs l C0 US UQ.
  destruct (C83_shared_answers R R rar rar_linear C N norm_of (count_R count_of) (count_R_ext count_of EX) (msh s) (fun t => map mask (qs t)) l
    (cons_mask norm_of count_of EX s US C0) (listed_mask qs UQ)) as (y & R & H).
  destruct (mrun norm_of count_of EX l _ (uy_init s qs US UQ)) as [M1 _]. rewrite mr_init, R in M1.
  destruct (rrun ieee norm_of count_of (rinit s qs) l) as [y1| | | |]; try discriminate. injection M1 as ->.
  exists y1. split; [reflexivity|]. intros t got. specialize (H t). cbn [mr r_th mth th_got msh sh_c] in H. fold got in H.
  assert (M : forall qs', Forall usable_ask qs' -> map (right rar norm_of (count_R count_of) (sh_c s)) (map mask qs') = map (right ieee norm_of count_of (sh_c s)) qs').
  { intros qs' F. rewrite map_map. apply map_ext_in. intros q Hq. rewrite Forall_forall in F. apply right_mask; auto. }
  rewrite firstn_map, map_length, !M in H; [exact H|apply UQ|].
  pose proof (UQ t) as F. rewrite <- (firstn_skipn (length got) (qs t)) in F. apply Forall_app in F. tauto.
Qed.
Print Assumptions C83_ieee_answers.

(** When, and on what, threads collide, exactly. *)
Theorem C83_ieee_races :
  forall (C N : Type) (norm_of : C -> N) (count_of : (f64 -> bool) -> C -> nat),
    (forall p q c, (forall x, p x = q x) -> count_of p c = count_of q c) ->
  forall (std : bool) (s : shared f64 C N) (qs : nat -> list (ask f64)),
    consistent ieee norm_of count_of s -> usable_map s -> (forall t, Forall usable_ask (qs t)) ->
    let reach := reachable_at ieee norm_of count_of std s qs in
    let two_norms := sh_flag s = false /\ exists t u, t <> u /\ In AskNorm (qs t) /\ In AskNorm (qs u) in
    let two_counts := exists t u k k', t <> u /\ In (AskCount k) (qs t) /\ In (AskCount k') (qs u) /\
                        (std = true \/ ~ cached ieee k (sh_map s)) in
    ~ reach LElems /\ (reach LNorm <-> two_norms) /\ (reach LFlag <-> two_norms) /\ (reach LMap <-> two_counts) /\
    (race_reachable ieee norm_of count_of std s qs <-> two_norms \/ two_counts).
Proof.
  intros C N norm_of count_of EX std s qs C0 US UQ reach tn tc.
  destruct (C83_race_exact R R rar rar_linear C N norm_of (count_R count_of) (count_R_ext count_of EX) std (msh s) (fun t => map mask (qs t))
    (cons_mask norm_of count_of EX s US C0) (listed_mask qs UQ)) as (H1 & H2 & H3 & H4).
  assert (RM := fun x => reach_mask norm_of count_of EX std s qs x US UQ). fold reach in RM.
  rewrite RM in H1, H2, H3, H4.
  assert (TN : (sh_flag (msh s) = false /\ exists t u, t <> u /\ In AskNorm (map mask (qs t)) /\ In AskNorm (map mask (qs u))) <-> tn).
  { unfold tn. cbn [msh sh_flag]. split; intros (F & t & u & N0 & A & B); (split; [exact F|]); exists t, u; rewrite !in_mask_norm in *; auto. }
  assert (TC : (exists t u k k', t <> u /\ In (AskCount k) (map mask (qs t)) /\ In (AskCount k') (map mask (qs u)) /\
                                     (std = true \/ ~ cached rar k (sh_map (msh s)))) <-> tc).
  { unfold tc. split.
    - intros (t & u & k & k' & N0 & A & B & K). apply in_mask_count in A. destruct A as (k0 & -> & A).
      apply in_mask_count in B. destruct B as (k1 & -> & B). exists t, u, k0, k1.
      pose proof (UQ t) as F. rewrite Forall_forall in F. specialize (F _ A). cbn in F.
      rewrite cached_mask in K by assumption. auto.
    - intros (t & u & k & k' & N0 & A & B & K). exists t, u, (at_place k), (at_place k').
      pose proof (UQ t) as F. rewrite Forall_forall in F. specialize (F _ A). cbn in F.
      rewrite cached_mask by assumption. split; [exact N0|]. split; [exact (in_map mask _ _ A)|]. split; [exact (in_map mask _ _ B)|exact K]. }
  rewrite TN in H2, H3. rewrite TC in H4.
  split; [exact H1|]. split; [exact H2|]. split; [exact H3|]. split; [exact H4|].
  rewrite <- H2 at 1. rewrite <- H4. unfold reach, race_reachable, reachable_at. split.
  - intros (l & y & R & t & u & p & q & x & w & w' & H).
    assert (X : reach x) by (exists l, y; split; [exact R|]; exists t, u, p, q, w, w'; exact H).
    destruct x; [contradiction|left; exact X|left; apply H2, H3; exact X|right; exact X].
  - intros [(l & y & R & t & u & p & q & w & w' & H)|(l & y & R & t & u & p & q & w & w' & H)];
      exists l, y; (split; [exact R|]); exists t, u, p, q; eexists _, w, w'; exact H.
Qed.
Print Assumptions C83_ieee_races.

(** Without the condition: one question with a NaN threshold spoils the cache.
    Every later count with a range of that kind, of whatever bounds, is answered
    0 - what [count_of (fun _ => false)] is - until the matrix is reset, and a
    thread that shares the matrix gets that answer too. *)
Theorem C36_nan_spoils_counts_refuted :
  forall (C N : Type) (norm_of : C -> N) (count_of : (f64 -> bool) -> C -> nat) moved (empty c : C) (v : nat) (k : checker f64),
    (forall p q c, (forall x, p x = q x) -> count_of p c = count_of q c) -> ck_t k = TTdouble ->
    let kn := mkChecker TTdouble (ck_k k) B754_nan B754_nan : checker f64 in
    let none := count_of (fun _ => false) c in
    ck_new ieee TTdouble (ck_k k) B754_nan B754_nan = Ok kn /\
    (exists e, run ieee norm_of count_of moved (start empty) (New v c :: GetCount v kn :: GetCount v k :: GetCount v k :: nil) =
       Ok (e, OCount none kn c :: OCount none k c :: OCount none k c :: nil)) /\
    (forall n0, exists y, rrun ieee norm_of count_of
        (rinit (mkShared c n0 false nil) (fun t => if t =? 0 then AskCount kn :: nil else AskCount k :: nil)) (0 :: 0 :: 1 :: 1 :: nil) = Ok y /\
      th_got (r_th y 1) = GotCount none :: nil).
Proof.
  intros C N norm_of count_of moved empty c v k EX Tk kn none.
  assert (B : forall x : f64, Bltb x B754_nan = false /\ Bltb B754_nan x = false).
  { intros x. split; [apply nan_lt_r|apply nan_lt_l]; reflexivity. }
  assert (NOK : forall x, ck_ok ieee kn x = false).
  { intros x. unfold ck_ok, kn; cbn [ck_k ck_lo ck_hi ieee ltD leD].
    destruct (nan_lt_l B754_nan (absD ieee x) eq_refl) as [-> ->]. destruct (ck_k k); reflexivity. }
  assert (CN : count_of (ck_ok ieee kn) c = none) by (now apply EX).
  assert (LT : forall k', ck_t k' = TTdouble -> ck_k k' = ck_k k -> ck_lt ieee k' kn = Ok false /\ ck_lt ieee kn k' = Ok false).
  { intros k' T' K'. unfold ck_lt, ck_id, kn. cbn [ck_t ck_k ck_lo ck_hi]. rewrite T', K', Nat.ltb_irrefl.
    unfold lex2. cbn [ieee ltD]. destruct (B (ck_lo k')) as [E1 E2], (B (ck_hi k')) as [E3 E4]. rewrite E1, E2.
    destruct (ck_k k); rewrite ?E3, ?E4; split; reflexivity. }
  assert (EQ : ck_equiv ieee k kn = Ok true).
  { unfold ck_equiv. destruct (LT k Tk eq_refl) as [-> ->]. reflexivity. }
  split; [|split].
  - subst kn. destruct (ck_k k); reflexivity.
  - cbn [Check_Model.run step bind]. unfold o_getCount, eset. repeat (rewrite ?Nat.eqb_refl, ?EQ; cbn [o_new o_occ o_c o_norm map_find bind app]).
    rewrite CN. eexists. reflexivity.
  - intros n0. unfold rinit. cbn [rrun]. unfold rstep at 1. cbn [r_th r_sh Nat.eqb th_code map enter micro sh_map map_find bind fst snd].
    unfold rstep at 1. cbn [bind r_th r_sh Nat.eqb th_code map enter micro sh_map sh_c sh_norm sh_flag map_find map_put fst snd].
    unfold rstep at 1. cbn [bind r_th r_sh Nat.eqb th_code map enter micro sh_map sh_c sh_norm sh_flag map_find map_put fst snd]. rewrite EQ. cbn [bind].
    unfold rstep at 1. cbn [bind r_th r_sh Nat.eqb th_code map enter micro sh_map sh_c sh_norm sh_flag map_find map_put fst snd]. rewrite EQ. cbn [bind].
    rewrite CN. eexists. split; reflexivity.
Qed.
Print Assumptions C36_nan_spoils_counts_refuted.

(** Two threads, a matrix with the elements 1.5, NaN and 0, the range "above 1". *)
Definition one_d : f64 := Bone.
Definition above1 : checker f64 := mkChecker TTdouble ExclNo one_d one_d.
Example C83_ieee_nonvacuous :
  let s : shared f64 (list f64) nat := mkShared (Bplus mode_NE one_d one_d :: B754_nan :: B754_zero true :: nil) 0 false nil in
  let qs := fun t => if t <? 2 then AskNorm :: AskCount above1 :: nil else nil in
  let count := fun p c => length (List.filter p c) in
  consistent ieee (@length f64) count s /\ usable_map s /\ (forall t, Forall usable_ask (qs t)) /\
  (forall p q c, (forall x, p x = q x) -> count p c = count q c) /\
  (exists y, rrun ieee (@length f64) count (rinit s qs) (List.concat (List.repeat (0 :: 1 :: nil) 10)) = Ok y /\
     th_got (r_th y 0) = GotNorm 3 :: GotCount 1 :: nil /\ th_got (r_th y 1) = GotNorm 3 :: GotCount 1 :: nil) /\
  count (ck_ok ieee (mkChecker TTdouble ExclNo B754_nan B754_nan)) (sh_c s) = 0.
Proof.
  intros s qs count.
  assert (C0 : consistent ieee (@length f64) count s) by (split; cbn; [discriminate|intros k n []]).
  assert (US : usable_map s) by (intros k n []).
  assert (UQ : forall t, Forall usable_ask (qs t)).
  { intros t. unfold qs. destruct (t <? 2); repeat constructor; cbn; try reflexivity; intros E; now contradict E. }
  assert (EX : forall p q c, (forall x, p x = q x) -> count p c = count q c).
  { intros p q c H. unfold count. f_equal. induction c as [|x c IH]; cbn; [reflexivity|]. now rewrite H, IH. }
  split; [exact C0|]. split; [exact US|]. split; [exact UQ|]. split; [exact EX|]. split; [|reflexivity].
  destruct (C83_ieee_answers _ _ (@length f64) count EX s qs (List.concat (List.repeat (0 :: 1 :: nil) 10)) C0 US UQ) as (y & R & H).
  exists y. split; [exact R|].
  assert (V : forall t, t < 2 -> map (right ieee (@length f64) count (sh_c s)) (qs t) = GotNorm 3 :: GotCount 1 :: nil).
  { intros [|[|t]] Ht; [..|lia]; (cbn [qs Nat.ltb Nat.leb map right]; assert (E : count (ck_ok ieee above1) (sh_c s) = 1) by (vm_compute; reflexivity); rewrite E; reflexivity). }
  destruct (H 0) as [_ A0], (H 1) as [_ A1]. split; [rewrite A0|rewrite A1]; try (apply V; lia); vm_compute; lia.
Qed.
Print Assumptions C83_ieee_nonvacuous.
