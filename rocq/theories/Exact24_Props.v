(** C66: every run of the benchmark, whatever its actions, the difference and the norms
    do: which rows and files there are and how the program ends. *)
From Coq Require Import String List Lia.
Import ListNotations.
#[local] Open Scope list_scope.
From Verif Require Import Base BaseLemmas Dense_Model Dense_Spec Dense_Proofs Dense2_Proofs Sparse_Model
  Mult_Model Mult_Spec Mult_Proofs Dyn_Model Norm_Model Tools_Model Bench_Model Bench_Spec Bench_Proofs Table_Props.

Section Every.
Context {D A : Type} (zero : D) (exec : A -> dense D -> dense D -> res (dense D))
  (diff : dense D -> dense D -> res (dense D)) (norms : dense D -> res (D * D)) (write_diff : bool).
Context (la lb : list (dense D)) (acts : list A).

(** What stands in the row of action k on pair i and the difference behind it: the
    first action is only run; every other one is compared with what the first one
    gives on the same pair. *)
Definition cell (p : nat * nat) : res (option (dense D) * (D * D)) :=
  let '(i, k) := p in
  match nth_error la i, nth_error lb i, nth_error acts k, nth_error acts 0 with
  | Some a, Some b, Some x, Some x0 =>
      if k =? 0 then do _ <- exec x0 a b; Ok (None, (zero, zero))
      else do c <- exec x a b; do ref <- exec x0 a b; do d <- diff c ref; do n <- norms d; Ok (Some d, n)
  | _, _, _, _ => UB OOBRead
  end.
(** A failure, whatever would have been returned. *)
Definition failure {U} (x : res U) : option (res unit) :=
  match x with Ok _ => None | Throw => Some Throw | AssertFail => Some AssertFail | UB k => Some (UB k) | Diverge => Some Diverge end.
(** The last of the first n positions that belongs to pair i and left a difference. *)
Definition last_of (ps : list (nat * nat)) (i : nat) : option (nat * nat) :=
  fold_left (fun o p => if (fst p =? i) && negb (snd p =? 0) then Some p else o) ps None.

Definition put_cell (i k : nat) (d : option (dense D)) (m t : D) (o : @output D) : @output D :=
  mkOutput (o_rows o ++ [mkRow i k m t])
    (match d with Some d => if write_diff then put_file i (d_buf d) (o_files o) else o_files o | None => o_files o end).
Fixpoint walk (ps : list (nat * nat)) (o : @output D) : @output D * res unit :=
  match ps with
  | [] => (o, Ok tt)
  | (i, k) :: ps =>
      match cell (i, k) with
      | Ok (d, (m, t)) => walk ps (put_cell i k d m t o)
      | Throw => (o, Throw) | AssertFail => (o, AssertFail) | UB u => (o, UB u) | Diverge => (o, Diverge)
      end
  end.
Lemma walk_app ps qs o : walk (ps ++ qs) o = match walk ps o with (o, Ok _) => walk qs o | r => r end.
Proof.
  revert o. induction ps as [|(i, k) ps IH]; intros o; [reflexivity|]. cbn [app walk].
  destruct (cell (i, k)) as [(d, (m, t))| | | |]; auto.
Qed.

Lemma rest_walk i a b x0 refC : nth_error la i = Some a -> nth_error lb i = Some b -> nth_error acts 0 = Some x0 ->
  exec x0 a b = Ok refC -> forall post pre o, acts = pre ++ post -> 1 <= length pre ->
  rest exec diff norms write_diff i (length pre) post a b refC o = walk (map (fun k => (i, k)) (seq (length pre) (length post))) o.
Proof.
  intros Ha Hb H0 E. induction post as [|x post IH]; intros pre o HA HL; [reflexivity|].
  cbn [length seq map walk rest].
  assert (Hx : nth_error acts (length pre) = Some x) by (rewrite HA, nth_error_app2, Nat.sub_diag by lia; reflexivity).
  unfold cell at 1. rewrite Ha, Hb, Hx, H0. destruct (Nat.eqb_spec (length pre) 0); [lia|].
  destruct (exec x a b) as [c| | | |]; cbn [bind]; try reflexivity. rewrite E. cbn [bind].
  destruct (diff c refC) as [d| | | |]; cbn [bind]; try reflexivity.
  destruct (norms d) as [(m, t)| | | |]; cbn [bind]; try reflexivity.
  specialize (IH (pre ++ [x]) (put_cell i (length pre) (Some d) m t o)).
  rewrite app_length, Nat.add_1_r in IH. cbn [put_cell] in IH |- *. rewrite <- IH; [reflexivity| |lia].
  rewrite <- app_assoc. exact HA.
Qed.

Lemma table_walk first others : acts = first :: others -> forall pa pb i o, length pa = length pb ->
  (forall j, nth_error la (i + j) = nth_error pa j) -> (forall j, nth_error lb (i + j) = nth_error pb j) ->
  table_from zero exec diff norms write_diff i first others (combine pa pb) o =
  walk (flat_map (fun i => map (fun k => (i, k)) (seq 0 (length acts))) (seq i (length pa))) o.
Proof.
  intros HA. induction pa as [|a pa IH]; intros [|b pb] i o HL Ha Hb; try discriminate; [reflexivity|].
  cbn [combine table_from length seq flat_map]. rewrite walk_app.
  pose proof (Ha 0) as Ha0. pose proof (Hb 0) as Hb0. cbn [nth_error] in Ha0, Hb0. rewrite Nat.add_0_r in Ha0, Hb0.
  rewrite HA at 1. cbn [length seq map walk].
  unfold cell at 1. rewrite Ha0, Hb0, HA. cbn [nth_error Nat.eqb].
  destruct (exec first a b) as [refC| | | |] eqn:E; cbn [bind]; try reflexivity.
  change (mkOutput (o_rows o ++ [mkRow i 0 zero zero]) (o_files o)) with (put_cell i 0 None zero zero o).
  pose proof (rest_walk i a b first refC Ha0 Hb0 ltac:(now rewrite HA) E others [first] (put_cell i 0 None zero zero o) HA (le_n 1)) as R.
  cbn [length] in R. rewrite R.
  destruct (walk _ (put_cell i 0 None zero zero o)) as (o2, [ []| | | |]); try reflexivity.
  rewrite IH; [rewrite HA; reflexivity|injection HL; auto| |]; intros j.
  - specialize (Ha (S j)). rewrite Nat.add_succ_r in Ha. exact Ha.
  - specialize (Hb (S j)). rewrite Nat.add_succ_r in Hb. exact Hb.
Qed.

Lemma contents_put_file n m (b : buf D) fs : contents (put_file n b fs) m = if m =? n then Some b else contents fs m.
Proof.
  unfold contents, put_file. cbn [find fst]. rewrite (Nat.eqb_sym m n). destruct (Nat.eqb_spec n m) as [->|Hn]; [reflexivity|].
  f_equal. induction fs as [|(p, c) fs IH]; [reflexivity|]. cbn [filter fst]. destruct (Nat.eqb_spec p n) as [->|Hp]; cbn [negb].
  - cbn [find fst]. destruct (Nat.eqb_spec n m); [contradiction|]. exact IH.
  - cbn [find fst]. destruct (p =? m); [reflexivity|]. exact IH.
Qed.

Definition goes_on (ps : list (nat * nat)) (n : nat) : Prop :=
  forall p, In p (firstn n ps) -> exists r, cell p = Ok r.
Definition shown (ps : list (nat * nat)) (o o' : @output D) : Prop :=
  exists rows, o_rows o' = o_rows o ++ rows /\ length rows = length ps /\
    forall q i k, nth_error ps q = Some (i, k) -> exists d m t, cell (i, k) = Ok (d, (m, t)) /\ nth_error rows q = Some (mkRow i k m t).
Definition filed (ps : list (nat * nat)) (o o' : @output D) : Prop :=
  forall i, if write_diff then
    match last_of ps i with
    | None => contents (o_files o') i = contents (o_files o) i
    | Some p => exists d n, cell p = Ok (Some d, n) /\ contents (o_files o') i = Some (d_buf d)
    end else contents (o_files o') i = contents (o_files o) i.

Lemma last_of_cons p ps i : last_of (p :: ps) i =
  match last_of ps i with Some q => Some q | None => if (fst p =? i) && negb (snd p =? 0) then Some p else None end.
Proof.
  unfold last_of. cbn [fold_left].
  set (step := fun (o : option (nat * nat)) (p : nat * nat) => _).
  assert (G : forall ps o, fold_left step ps o = match fold_left step ps None with Some q => Some q | None => o end).
  { clear. induction ps as [|p ps IH]; intros o; [reflexivity|]. cbn [fold_left]. rewrite IH, (IH (step None p)).
    destruct (fold_left step ps None); [reflexivity|]. unfold step. now destruct (_ && _). }
  apply G.
Qed.

Lemma cell_none_first i k d n : cell (i, k) = Ok (d, n) -> d = None <-> k = 0.
Proof.
  unfold cell. destruct (nth_error la i), (nth_error lb i), (nth_error acts k), (nth_error acts 0); try discriminate.
  destruct (Nat.eqb_spec k 0) as [->|Hk].
  - destruct (exec _ _ _); try discriminate. cbn [bind]. intros [= <- <-]. tauto.
  - repeat (match goal with |- context [exec ?x ?a ?b] => destruct (exec x a b) end; try discriminate; cbn [bind]).
    destruct (diff _ _); try discriminate. cbn [bind]. destruct (norms _); try discriminate. cbn [bind]. intros [= <- <-].
    split; [discriminate|contradiction].
Qed.

Lemma walk_spec ps o : exists n o' v, walk ps o = (o', v) /\ n <= length ps /\
  shown (firstn n ps) o o' /\ filed (firstn n ps) o o' /\
  (n = length ps /\ v = Ok tt \/ exists p, nth_error ps n = Some p /\ failure (cell p) = Some v).
Proof.
  revert o. induction ps as [|(i, k) ps IH]; intros o.
  - exists 0, o, (Ok tt). split; [reflexivity|]. split; [cbn; lia|]. split; [|split; [|left; auto]].
    + exists []. rewrite app_nil_r. repeat split. intros [|q] i k; discriminate.
    + intros i. cbn. now destruct write_diff.
  - cbn [walk]. destruct (cell (i, k)) as [(d, (m, t))| | | |] eqn:E.
    2-5: exists 0, o; eexists; (split; [reflexivity|]); (split; [cbn; lia|]); (split; [|split]);
      [exists []; rewrite app_nil_r; repeat split; intros [|q] i' k'; discriminate
      |intros i'; cbn; now destruct write_diff
      |right; exists (i, k); split; [reflexivity|]; now rewrite E].
    destruct (IH (put_cell i k d m t o)) as (n & o' & v & EW & HN & (rows & HR & HL & HC) & HF & HV).
    exists (S n), o', v. split; [exact EW|]. split; [cbn; lia|]. split; [|split].
    + exists (mkRow i k m t :: rows). cbn [firstn length]. split; [rewrite HR; cbn [put_cell o_rows]; now rewrite <- app_assoc|].
      split; [now rewrite HL|]. intros [|q] i' k' Hq.
      * injection Hq as <- <-. exists d, m, t. auto.
      * cbn [nth_error] in *. exact (HC q i' k' Hq).
    + intros i'. specialize (HF i'). cbn [firstn]. rewrite last_of_cons. cbn [fst snd].
      destruct write_diff eqn:EWD; [|destruct d; cbn [put_cell o_files] in HF; try rewrite EWD in HF; exact HF].
      destruct (last_of (firstn n ps) i') as [p|]; [exact HF|]. rewrite HF. unfold put_cell. cbn [o_files].
      rewrite (Nat.eqb_sym i i'). pose proof (cell_none_first i k d _ E) as CN.
      destruct d as [d|].
      * rewrite EWD, contents_put_file. destruct (Nat.eqb_spec k 0) as [HK|HK].
        { apply CN in HK. discriminate. }
        destruct (Nat.eqb_spec i' i) as [->|Hi]; cbn [negb andb]; [|reflexivity]. exists d, (m, t). auto.
      * destruct (Nat.eqb_spec k 0) as [HK|HK]; [now rewrite Bool.andb_false_r|]. exfalso. apply HK. now apply CN.
    + destruct HV as [[-> ->]|(p & Hp & Hv)]; [left; auto|right; exists p; auto].
Qed.
End Every.

(** C66, every run with matrices and actions in place: the table shows the cells of
    the positions (pair, action), pair by pair, up to the first one that fails, which
    decides how the program ends; the file of pair i holds the difference of the last
    of these positions of pair i behind the first action. *)
Theorem C66_every_run :
  forall (D A : Type) (zero : D) exec diff norms write_diff (m : mset D) la lb (acts : list A),
    settings m la lb -> la <> [] -> acts <> [] ->
    let ps := positions (length la) (length acts) in
    let cell := cell zero exec diff norms la lb acts in
    exists n o v, bench_table zero exec diff norms write_diff m acts = (o, v) /\ n <= length ps /\
      (n = length ps /\ v = Ok tt \/ exists p, nth_error ps n = Some p /\ failure (cell p) = Some v) /\
      length (o_rows o) = n /\
      (forall q i k, q < n -> nth_error ps q = Some (i, k) ->
         exists d mx two, cell (i, k) = Ok (d, (mx, two)) /\ nth_error (o_rows o) q = Some (mkRow i k mx two)) /\
      forall i, match (if write_diff then last_of (firstn n ps) i else None) with
                | None => contents (o_files o) i = None
                | Some p => exists d nm, cell p = Ok (Some d, nm) /\ contents (o_files o) i = Some (d_buf d)
                end.
Proof.
  intros D A zero exec diff norms wd m la lb acts HS Ha Hx ps cl.
  unfold bench_table. rewrite (bench_setup_ok m la lb acts HS Ha Hx). destruct HS as (_ & _ & HL).
  destruct acts as [|first others]; [contradiction|].
  assert (TW := table_walk zero exec diff norms wd la lb (first :: others) first others eq_refl la lb 0 (mkOutput [] []) HL (fun j => eq_refl) (fun j => eq_refl)).
  destruct (walk_spec zero exec diff norms wd la lb (first :: others) ps (mkOutput [] [])) as (n & o & v & EW & HN & (rows & HR & HLn & HC) & HF & HV).
  exists n, o, v. split; [rewrite TW; exact EW|]. split; [exact HN|]. split; [exact HV|].
  cbn [o_rows app] in HR. rewrite firstn_length_le in HLn by exact HN. split; [now rewrite HR|]. split.
  - intros q i k Hq Hp. rewrite HR. apply HC. rewrite <- Hp.
    rewrite <- (firstn_skipn n ps) at 2. rewrite nth_error_app1; [reflexivity|]. rewrite firstn_length_le; lia.
  - intros i. specialize (HF i). cbn zeta in HF. destruct wd; exact HF.
Qed.
Print Assumptions C66_every_run.

(** Without matrices, with an unequal number of them or without actions nothing is
    printed or written; missing lists are read although they do not exist. *)
Theorem C66_rejected_settings :
  forall (D A : Type) (zero : D) exec diff norms write_diff (m : mset D) (acts : list A),
    (forall la lb, mp_get m "A"%string = Ok la -> mp_get m "B"%string = Ok lb ->
       la = [] \/ length la <> length lb \/ acts = [] ->
       bench_table zero exec diff norms write_diff m acts = (mkOutput [] [], Throw)) /\
    (ms_find m "A"%string = None \/ ms_find m "B"%string = None ->
       exists k, bench_table zero exec diff norms write_diff m acts = (mkOutput [] [], UB k)).
Proof.
  intros D A zero exec diff norms wd m acts. split.
  - intros la lb EA EB H. unfold bench_table, bench_setup. rewrite EA, EB. cbn [bind].
    destruct (Nat.eqb_spec (length la) 0) as [L|L]; [reflexivity|].
    destruct (Nat.eqb_spec (length la) (length lb)) as [Q|Q]; cbn [negb]; [|reflexivity].
    destruct H as [->|[H| ->]]; [contradiction L; reflexivity|contradiction|reflexivity].
  - intros H. unfold bench_table, bench_setup, mp_get.
    destruct (ms_find m "A"%string) as [la|] eqn:EA.
    + destruct H as [H|H]; [discriminate|]. rewrite H. cbn [bind]. eexists; reflexivity.
    + cbn [bind]. eexists; reflexivity.
Qed.
Print Assumptions C66_rejected_settings.

(** Two pairs and three actions on numbers; the norms of the second pair's second
    difference fail: four rows, the first pair's file holds its last difference, the
    second pair's none, and the program ends with the assertion. *)
Example C66_every_run_nonvacuous :
  let one (x : Z) := mkDense (own_shape ColMajor 1 1) 1 [Some x] true in
  let val (d : dense Z) := match d_buf d with [Some x] => x | _ => 0%Z end in
  let exec (x : Z) (a b : dense Z) := Ok (one (x + val a * val b)%Z) in
  let diff (c r : dense Z) := Ok (one (val c - val r)%Z) in
  let norms (d : dense Z) := if (val d =? 5)%Z then AssertFail else Ok (val d, val d) in
  let exec' (x : Z) (a b : dense Z) := if (val a =? 7)%Z && (x =? 3)%Z then exec 6%Z a b else exec x a b in
  let m := [("A"%string, [one 2; one 7]%Z); ("B"%string, [one 4; one 1]%Z)] in
  settings m [one 2; one 7]%Z [one 4; one 1]%Z /\
  bench_table 0%Z exec' diff norms true m [1; 2; 3]%Z =
    (mkOutput [mkRow 0 0 0 0; mkRow 0 1 1 1; mkRow 0 2 2 2; mkRow 1 0 0 0; mkRow 1 1 1 1]%Z
       [(1, [Some 1%Z]); (0, [Some 2%Z])], AssertFail).
Proof. cbn zeta. split; [repeat split|]. vm_compute. reflexivity. Qed.
