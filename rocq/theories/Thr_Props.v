(** C82-C84: several threads.  Vocabulary: Storage_Spec.v, Thr_Model.v,
    Race_Spec.v, Trk_Spec.v. *)
From Verif Require Import BaseLemmas Storage_Spec Storage_Proofs Thr_Model Thr_Proofs.
From Verif Require Race_Spec Race_Proofs Trk_Spec Trk_Proofs Check_Props.

(** C82.  Threads that use storages of their own, in any order of their calls: if
    every thread's own program is legal at the level of values, then nothing goes
    wrong, every thread gets the reports and ends with the contents its program
    gives when it runs alone, and if the programs are clean and destroy all their
    storages, every block has been released. *)
Theorem C82_own_storages :
  forall (T : Type) (l : list (nat * op T)) (v : nat -> vsys T) (xs : nat -> list (out T)),
    (forall t, vrun [] (part t l) = Some (v t, xs t)) ->
    exists z rs, trun tsys0 l = Ok (z, rs) /\
      (forall t, part t rs = xs t /\ view (of_thread z t) = v t) /\
      ((forall t, clean [] (part t l) = true) -> (forall t x, In x (v t) -> x = None) ->
       forall b k, nth_error (t_heap z) b = Some k -> b_ext k = false -> b_live k = false).
Proof.
  intros T l v xs H. destruct (trun_ok l tsys0 _ v xs Sep0 H) as (z & rs & R & SP & P & NL).
  exists z, rs. split; [exact R|]. split; [intros t; split; [apply P|apply (sp_view _ _ SP)]|].
  intros CL AD b k K X. destruct (b_live k) eqn:L; [|reflexivity]. exfalso.
  destruct (NL TNoLeak0 CL b k K L X) as (t & s & o & A & _).
  assert (HI : In (Some {| v_vals := seen (t_heap z) o; v_resizable := st_own o |}) (v t)).
  { rewrite <- (sp_view _ _ SP t). unfold view. apply in_map_iff. exists (Some o). split; [reflexivity|]. apply nth_error_In with s. exact A. }
  discriminate (AD t _ HI).
Qed.
Print Assumptions C82_own_storages.

(** The same programs one after another give the same: the order of the calls of
    different threads is invisible. *)
Theorem C82_order_invisible :
  forall (T : Type) (l l' : list (nat * op T)) (v : nat -> vsys T) (xs : nat -> list (out T)),
    (forall t, vrun [] (part t l) = Some (v t, xs t)) -> (forall t, part t l' = part t l) ->
    exists z rs z' rs', trun tsys0 l = Ok (z, rs) /\ trun tsys0 l' = Ok (z', rs') /\
      forall t, part t rs' = part t rs /\ view (of_thread z' t) = view (of_thread z t).
Proof.
  intros T l l' v xs H E. destruct (C82_own_storages T l v xs H) as (z & rs & R & P & _).
  destruct (C82_own_storages T l' v xs) as (z' & rs' & R' & P' & _); [intros t; rewrite E; apply H|].
  exists z, rs, z', rs'. split; [exact R|]. split; [exact R'|]. intros t. destruct (P t) as [A B], (P' t) as [A' B']. split; congruence.
Qed.
Print Assumptions C82_order_invisible.

Definition two_threads : list (nat * op nat) :=
  [(0, OList [1; 2]); (1, OList [7; 8; 9]); (0, OCopyCtor 0); (1, OResize 0 1); (0, OWrite 0 1 5); (1, OFill 0 4);
   (0, ORead 1 1); (1, OCopyCtor 0); (0, OMoveAssign 1 0); (1, ODestroy 0); (0, ORead 1 1); (0, ODestroy 0); (1, ORead 1 0); (0, ODestroy 1); (1, ODestroy 1)].
Example C82_nonvacuous :
  exists v xs, (forall t, vrun [] (part t two_threads) = Some (v t, xs t)) /\ (forall t, clean [] (part t two_threads) = true) /\
    (forall t x, In x (v t) -> x = None) /\ In (OVal (Some 2)) (xs 0) /\ In (OVal (Some 5)) (xs 0) /\ In (OVal (Some 4)) (xs 1).
Proof.
  exists (fun t => match t with 0 | 1 => [None; None] | _ => [] end).
  exists (fun t => match t with 0 => [ONone; ONone; ONone; OVal (Some 2); ONone; OVal (Some 5); ONone; ONone]
                           | 1 => [ONone; ONone; ONone; ONone; ONone; OVal (Some 4); ONone] | _ => [] end).
  repeat match goal with |- _ /\ _ => split end; try (cbn; tauto).
  - intros [|[|t]]; reflexivity.
  - intros [|[|t]]; reflexivity.
  - intros [|[|t]] x; cbn; intuition.
Qed.

(** ** C83: sharing a const matrix *)
Import Race_Spec Race_Proofs Check_Props.

(** Under every schedule, every thread gets the right answers, in order: the
    answers it has are those to its first questions, and when it has had five
    steps per question it has them all; no thread waits for another.  (What C++
    guarantees of that is the subject of the next theorem.) *)
Theorem C83_shared_answers :
  forall (F D : Type) (ar : arith F D), linear ar ->
  forall (C N : Type) (norm_of : C -> N) (count_of : (D -> bool) -> C -> nat),
    (forall p q c, (forall x, p x = q x) -> count_of p c = count_of q c) ->
  forall (s : shared D C N) (qs : nat -> list (ask D)) (l : list nat),
    consistent ar norm_of count_of s -> (forall t, Forall listed (qs t)) ->
    exists y, rrun ar norm_of count_of (rinit s qs) l = Ok y /\
      forall t, let got := th_got (r_th y t) in
        got = map (right ar norm_of count_of (sh_c s)) (firstn (length got) (qs t)) /\
        (5 * length (qs t) <= count_occ Nat.eq_dec l t -> got = map (right ar norm_of count_of (sh_c s)) (qs t)).
Proof.
  intros F D ar L C N norm_of count_of EX s qs l C0 LQ.
  destruct (rrun_ok ar L norm_of count_of EX s qs LQ l _ _ (RInv0 ar norm_of count_of s qs C0)) as (y & sp & R & I0 & W).
  exists y. split; [exact R|]. intros t got. specialize (W t).
  assert (E : got = map (right ar norm_of count_of (sh_c s)) (fst (sp t))) by apply (ri_got _ _ _ _ _ _ _ I0 t).
  pose proof (ri_split _ _ _ _ _ _ _ I0 t) as SP. split.
  - rewrite E at 1. f_equal. rewrite SP, E, map_length. now rewrite firstn_app, Nat.sub_diag, firstn_all, app_nil_r.
  - intros H. rewrite E. f_equal. cbn in W. pose proof (wsum_enter (qs t)) as WE.
    assert (Z : th_code (r_th y t) = []) by (apply wsum_zero; lia).
    pose proof (ri_code _ _ _ _ _ _ _ I0 t) as K. rewrite Z in K. destruct (snd (sp t)) as [|q r]; [now rewrite SP, app_nil_r|].
    destruct K as (p & X & _). discriminate.
Qed.
Print Assumptions C83_shared_answers.

(** When a data race can happen, exactly: the norm has not been asked before and
    two threads ask it; or two threads ask for occupations and - for a library
    that takes operator[] of a map for a modification, as the standard allows -
    nothing more, or else one of them asks a range that has not been asked before.
    In particular a matrix whose norm and occupations are not asked can be used by
    any number of threads. *)
Theorem C83_race_iff :
  forall (F D : Type) (ar : arith F D), linear ar ->
  forall (C N : Type) (norm_of : C -> N) (count_of : (D -> bool) -> C -> nat),
    (forall p q c, (forall x, p x = q x) -> count_of p c = count_of q c) ->
  forall (std : bool) (s : shared D C N) (qs : nat -> list (ask D)),
    consistent ar norm_of count_of s -> (forall t, Forall listed (qs t)) ->
    (race_reachable ar norm_of count_of std s qs <->
     (sh_flag s = false /\ exists t u, t <> u /\ In AskNorm (qs t) /\ In AskNorm (qs u)) \/
     (exists t u k k', t <> u /\ In (AskCount k) (qs t) /\ In (AskCount k') (qs u) /\ (std = true \/ ~ cached ar k (sh_map s)))).
Proof.
  intros F D ar L C N norm_of count_of EX std s qs C0 LQ. split.
  - intros (l & y & R & RC).
    destruct (rrun_ok ar L norm_of count_of EX s qs LQ l _ _ (RInv0 ar norm_of count_of s qs C0)) as (y1 & sp & R1 & I0 & _).
    rewrite R in R1. injection R1 as <-. exact (race_only_if ar L norm_of count_of EX std s qs sp y LQ I0 RC).
  - intros [(F0 & t & u & N0 & H1 & H2)|(t & u & k & k' & N0 & H1 & H2 & H3)].
    + exact (race_if_norm ar L norm_of count_of EX std s qs t u C0 LQ F0 N0 H1 H2).
    + exact (race_if_count ar L norm_of count_of EX std s qs t u k k' C0 LQ N0 H1 H2 H3).
Qed.
Print Assumptions C83_race_iff.

Definition fresh_matrix : shared Z (list Z) Z := mkShared [1; -2; 0]%Z 0%Z false [].
Definition zcount (p : Z -> bool) (c : list Z) : nat := length (filter p c).
Example C83_nonvacuous :
  linear zchk /\ (forall p q c, (forall x, p x = q x) -> zcount p c = zcount q c) /\
  consistent zchk l1 zcount fresh_matrix /\
  (exists y, rrun zchk l1 zcount (rinit fresh_matrix (fun t => if t <? 2 then [AskNorm; AskCount (zgt 1)] else []))
     [0; 1; 0; 1; 0; 0; 0; 1; 1; 1; 0; 1; 1; 0] = Ok y /\
   th_got (r_th y 0) = [GotNorm 3%Z; GotCount 1] /\ th_got (r_th y 1) = [GotNorm 3%Z; GotCount 1]) /\
  ck_t (zgt 1) = TTdouble.
Proof.
  split; [exact zchk_linear|]. split.
  { intros p q c H. unfold zcount. f_equal. induction c as [|x c IH]; cbn; [reflexivity|]. now rewrite H, IH. }
  split; [split; cbn; [discriminate|intros k n []]|]. split; [|reflexivity].
  eexists. split; [vm_compute; reflexivity|]. split; reflexivity.
Qed.

(** Hence a const matrix may not be shared like a const std::vector: two threads
    that ask a new matrix for its norm, or convert it to a sparse one, race. *)
Theorem C83_const_matrix_race_refuted :
  forall (F D : Type) (ar : arith F D), linear ar ->
  forall (C N : Type) (norm_of : C -> N) (count_of : (D -> bool) -> C -> nat),
    (forall p q c, (forall x, p x = q x) -> count_of p c = count_of q c) ->
  forall (c : C) (n : N) (q : ask D) (std : bool), q = AskNorm \/ (exists k, q = AskCount k /\ ck_t k = TTdouble) ->
    race_reachable ar norm_of count_of std (mkShared c n false []) (fun t => if t <? 2 then [q] else []).
Proof.
  intros F D ar L C N norm_of count_of EX c n q std H.
  assert (LQ : forall t, Forall listed ((fun t => if t <? 2 then [q] else []) t)).
  { intros t. cbn beta. destruct (t <? 2); constructor; [|constructor]. destruct H as [->|(k & -> & K)]; cbn; auto. }
  apply (C83_race_iff F D ar L C N norm_of count_of EX); [split; cbn; [discriminate|intros k m []]|exact LQ|].
  destruct H as [->|(k & -> & K)].
  - left. split; [reflexivity|]. exists 0, 1. cbn. auto.
  - right. exists 0, 1, k, k. cbn. split; [auto|]. split; [auto|]. split; [auto|]. right. intros (k' & m & [] & _).
Qed.
Print Assumptions C83_const_matrix_race_refuted.

(** ** C84: tracked scopes in several threads *)
Import Trk_Spec Trk_Proofs.
Local Open Scope Z_scope.

(** The time and the count of an identifier never exceed what was due, whatever the
    schedule, and never fall below where they started; a thread that has had four
    steps per scope is through. *)
Theorem C84_bounds :
  forall (c0 : tloc -> Z) (prog : nat -> list (nat * Z)) (ts : list nat) (l : list nat),
    NoDup ts -> (forall t, ~ In t ts -> prog t = []) -> (forall t e, In e (prog t) -> 0 <= snd e) ->
    let y := krun (kinit c0 prog) l in
    (forall x, c0 x <= k_cell y x <= c0 x + due_all x prog ts) /\
    (forall t, (4 * length (prog t) <= count_occ Nat.eq_dec l t)%nat -> k_code y t = []).
Proof.
  intros c0 prog ts l ND O P y. split.
  - intros x. pose proof (krun_inv c0 _ ts l ND _ (KInv0 c0 prog ts P O)) as I0. fold y in I0. split; [apply (ki_lo _ _ _ _ I0)|].
    pose proof (ki_hi _ _ _ _ I0 x) as H. cbn beta in H. pose proof (call_pos x (k_code y) ts (ki_pos _ _ _ _ I0)). lia.
  - intros t H. apply kws_zero. unfold y. rewrite krun_done. cbn [kinit k_code]. rewrite kws_prog. lia.
Qed.
Print Assumptions C84_bounds.

(** An identifier that only one thread uses is accounted for exactly, whatever the
    others do. *)
Theorem C84_exact_alone :
  forall (c0 : tloc -> Z) (prog : nat -> list (nat * Z)) (l : list nat) t0 id,
    (forall u, u <> t0 -> ~ uses prog u id) ->
    (4 * length (prog t0) <= count_occ Nat.eq_dec l t0)%nat ->
    let y := krun (kinit c0 prog) l in
    k_cell y (LTime id) = c0 (LTime id) + due (LTime id) (prog t0) /\
    k_cell y (LCount id) = c0 (LCount id) + due (LCount id) (prog t0).
Proof.
  intros c0 prog l t0 id U H y.
  assert (Z : k_code y t0 = []) by (apply kws_zero; unfold y; rewrite krun_done; cbn [kinit k_code]; rewrite kws_prog; lia).
  split; [pose proof (krun_one c0 (LTime id) _ t0 l _ (OInv0 c0 (LTime id) prog t0 U)) as I0|pose proof (krun_one c0 (LCount id) _ t0 l _ (OInv0 c0 (LCount id) prog t0 U)) as I0];
    pose proof (oi_sum _ _ _ _ _ I0) as S; fold y in S; rewrite Z in S; cbn [cdue] in S; lia.
Qed.
Print Assumptions C84_exact_alone.

(** Race: exactly if two threads leave scopes of the same identifier - for example,
    two threads that multiply entirely separate matrices. *)
Theorem C84_race_iff :
  forall (c0 : tloc -> Z) (prog : nat -> list (nat * Z)),
    (exists l, krace (krun (kinit c0 prog) l)) <-> (exists t u id, t <> u /\ uses prog t id /\ uses prog u id).
Proof.
  intros c0 prog. split.
  - intros (l & t & u & p & q & N0 & Hp & Hq & E & _). pose proof (krun_locs prog l _ (locs0 prog c0)) as LC.
    exists t, u, (the_id (kloc p)). split; [exact N0|]. split.
    + apply LC. destruct (k_code _ t); [discriminate|]. injection Hp as ->. now left.
    + rewrite E. apply LC. destruct (k_code _ u); [discriminate|]. injection Hq as ->. now left.
  - intros (t & u & id & N0 & (d & H1) & (d' & H2)).
    apply in_split in H1, H2. destruct H1 as (p1 & r1 & Q1), H2 as (p2 & r2 & Q2).
    destruct (k_alone t (flat_map add_code ((id, d) :: r1)) p1 (kinit c0 prog)) as (l1 & E1 & O1).
    { cbn [kinit k_code]. rewrite Q1. apply flat_map_app. }
    destruct (k_alone u (flat_map add_code ((id, d') :: r2)) p2 (krun (kinit c0 prog) l1)) as (l2 & E2 & O2).
    { rewrite O1 by auto. cbn [kinit k_code]. rewrite Q2. apply flat_map_app. }
    exists (l1 ++ l2 ++ [t]). rewrite !krun_app. set (y := krun (krun (kinit c0 prog) l1) l2) in *.
    assert (Et : k_code y t = flat_map add_code ((id, d) :: r1)) by (rewrite O2; auto).
    assert (Q : (u =? t)%nat = false) by (apply Nat.eqb_neq; auto).
    exists t, u, (TWrite (LTime id) d (k_cell y (LTime id))), (TRead (LTime id) d'). split; [exact N0|].
    cbn [krun fold_left]. unfold kstep. rewrite Et. cbn [flat_map add_code app fst snd k_code]. rewrite Nat.eqb_refl, Q.
    split; [reflexivity|]. split; [rewrite E2; reflexivity|]. split; reflexivity.
Qed.
Print Assumptions C84_race_iff.

Example C84_nonvacuous :
  let prog := fun t => match t with 0%nat => [(16%nat, 5); (3%nat, 2)] | 1%nat => [(16%nat, 7)] | _ => [] end in
  let c0 := fun _ => 0 in
  (forall t, ~ In t [0; 1]%nat -> prog t = []) /\ uses prog 0 16 /\ uses prog 1 16 /\ (forall u, u <> 0%nat -> ~ uses prog u 3) /\
  (let y := krun (kinit c0 prog) [0; 0; 0; 0; 1; 1; 1; 1; 0; 0; 0; 0]%nat in k_cell y (LTime 16) = 12 /\ k_cell y (LCount 16) = 2) /\
  (let y := krun (kinit c0 prog) [0; 1; 1; 1; 0; 0; 0; 1; 0; 0; 0; 0]%nat in k_cell y (LTime 16) = 5 /\ k_cell y (LCount 16) = 1 /\ k_cell y (LTime 3) = 2).
Proof.
  cbn zeta. split; [intros [|[|t]] H; [exfalso; apply H; cbn; auto|exfalso; apply H; cbn; auto|reflexivity]|].
  split; [exists 5; cbn; auto|]. split; [exists 7; cbn; auto|]. split; [|vm_compute; auto 10].
  intros [|[|u]] N0 (d & H); [congruence| |destruct H]. destruct H as [H|[]]. discriminate.
Qed.

(** And then any number of scopes may go uncounted: thread 0 leaves [n] scopes
    while thread 1 is in the middle of the end of one; one is counted. *)
Theorem C84_lost_counts_refuted :
  forall (c0 : tloc -> Z) id d d' (n : nat),
    let prog := fun t => match t with 0%nat => repeat (id, d) n | 1%nat => [(id, d')] | _ => [] end in
    due_all (LCount id) prog [0; 1]%nat = Z.of_nat n + 1 /\
    exists l, let y := krun (kinit c0 prog) l in
      k_code y 0%nat = [] /\ k_code y 1%nat = [] /\ k_cell y (LCount id) = c0 (LCount id) + 1.
Proof.
  intros c0 id d d' n prog. split.
  { cbn [due_all]. unfold prog at 2. cbn [due due1 fst snd]. rewrite Nat.eqb_refl. unfold prog.
    assert (E : due (LCount id) (repeat (id, d) n) = Z.of_nat n).
    { induction n as [|n IH]; [reflexivity|]. cbn [repeat due due1 fst]. rewrite IH, Nat.eqb_refl. lia. }
    rewrite E. cbn. lia. }
  set (y1 := krun (kinit c0 prog) [1; 1; 1]%nat).
  assert (E0 : k_code y1 0%nat = flat_map add_code (repeat (id, d) n) ++ []) by (rewrite app_nil_r; reflexivity).
  assert (E1 : k_code y1 1%nat = [TWrite (LCount id) 1 (c0 (LCount id))]) by reflexivity.
  destruct (k_alone 0 [] (repeat (id, d) n) y1 E0) as (l & A & B).
  exists ([1; 1; 1]%nat ++ l ++ [1%nat]). rewrite !krun_app. fold y1. cbn [krun fold_left]. fold (krun y1 l).
  specialize (B 1%nat ltac:(discriminate)). rewrite E1 in B. unfold kstep. rewrite B. cbn [k_code k_cell Nat.eqb]. 
  split; [exact A|]. split; [reflexivity|]. rewrite tloc_refl. lia.
Qed.
Print Assumptions C84_lost_counts_refuted.
