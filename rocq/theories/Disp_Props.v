(** * C72: the generic run-time dispatch helpers *)
From Coq Require Import List Arith Bool Lia.
From Verif Require Import Base BaseLemmas Dyn_Model Disp_Model Disp_Spec.
Import ListNotations.

Section P.
Context {T W R : Type}.
Implicit Types (p : @pred T W) (l : list T) (w : W).

(** Every run of the predicate over a list either finds the first yes, or says no
    throughout, or stops inside the predicate. *)
Lemma first_or_none p l w :
  (exists t w', first_yes p l w t w') \/ (exists w', all_no p l w w') \/
  (exists pre t post w1, l = pre ++ t :: post /\ all_no p pre w w1 /\ forall b w', p t w1 <> Ok (b, w')).
Proof.
  revert w. induction l as [|t l IH]; intro w.
  - right. left. exists w. constructor.
  - destruct (p t w) as [[[] w1]| | | |] eqn:E.
    1: left; exists t, w1, [], l, w; repeat split; auto; constructor.
    1: destruct (IH w1) as [[t' [w' [pre [post [w2 [-> [A B]]]]]]]|[[w' A]|[pre [t' [post [w2 [-> [A B]]]]]]]].
    + left. exists t', w', (t :: pre), post, w2. repeat split; auto. econstructor; eauto.
    + right. left. exists w'. econstructor; eauto.
    + right. right. exists (t :: pre), t', post, w2. repeat split; auto. econstructor; eauto.
    + right; right; exists [], t, l, w; repeat split; [constructor|]; intros; rewrite E; discriminate.
    + right; right; exists [], t, l, w; repeat split; [constructor|]; intros; rewrite E; discriminate.
    + right; right; exists [], t, l, w; repeat split; [constructor|]; intros; rewrite E; discriminate.
    + right; right; exists [], t, l, w; repeat split; [constructor|]; intros; rewrite E; discriminate.
Qed.

Lemma exec_if_first exc dbg p (e : @act T W R) l w t w' :
  first_yes p l w t w' -> w_exec_if exc dbg p e l w = e t w'.
Proof.
  intros [pre [post [w1 [-> [A B]]]]]. induction A as [w|x pre w w1 w2 N A IH].
  - cbn [app]. destruct post as [|y post]; cbn [w_exec_if]; rewrite B; reflexivity.
  - cbn [app]. specialize (IH B).
    destruct (pre ++ t :: post) as [|y r] eqn:Q; [destruct pre; discriminate|].
    change (w_exec_if exc dbg p e (x :: y :: r) w) with
      (do r0 <- p x w; let (b, w3) := r0 in if b then e x w3 else w_exec_if exc dbg p e (y :: r) w3).
    rewrite N. exact IH.
Qed.

Lemma exec_if_none exc dbg p (e : @act T W R) l t w w' :
  all_no p (l ++ [t]) w w' ->
  w_exec_if exc dbg p e (l ++ [t]) w = do _ <- core_failure exc dbg; e t w'.
Proof.
  revert w. induction l as [|x l IH]; intros w A; cbn [app] in *.
  - inversion A as [|? ? ? w1 ? N A']; subst. inversion A'; subst. cbn [w_exec_if]. rewrite N. reflexivity.
  - inversion A as [|? ? ? w1 ? N A']; subst. specialize (IH _ A').
    destruct (l ++ [t]) as [|y r] eqn:Q; [destruct l; discriminate|].
    change (w_exec_if exc dbg p e (x :: y :: r) w) with
      (do r0 <- p x w; let (b, w3) := r0 in if b then e x w3 else w_exec_if exc dbg p e (y :: r) w3).
    rewrite N. exact IH.
Qed.

Lemma exec_1dim_first exc dbg t1 p (e : @act2 T W R) l w t w' :
  first_yes p l w t w' -> w_exec_if_1dim exc dbg t1 p e l w = e t1 t w'.
Proof.
  intros [pre [post [w1 [-> [A B]]]]]. induction A as [w|x pre w w1 w2 N A IH].
  - cbn [app]. destruct post as [|y post]; cbn [w_exec_if_1dim]; rewrite B; reflexivity.
  - cbn [app]. specialize (IH B).
    destruct (pre ++ t :: post) as [|y r] eqn:Q; [destruct pre; discriminate|].
    change (w_exec_if_1dim exc dbg t1 p e (x :: y :: r) w) with
      (do r0 <- p x w; let (b, w3) := r0 in if b then e t1 x w3 else w_exec_if_1dim exc dbg t1 p e (y :: r) w3).
    rewrite N. exact IH.
Qed.

Lemma exec_1dim_none exc dbg t1 p (e : @act2 T W R) l w w' :
  l <> [] -> all_no p l w w' ->
  w_exec_if_1dim exc dbg t1 p e l w = do _ <- core_failure exc dbg; UB DeadObject.
Proof.
  intros NE A. induction A as [w|x l w w1 w2 N A IH]; [congruence|].
  destruct l as [|y r].
  - cbn [w_exec_if_1dim]. rewrite N. reflexivity.
  - change (w_exec_if_1dim exc dbg t1 p e (x :: y :: r) w) with
      (do r0 <- p x w; let (b, w3) := r0 in if b then e t1 x w3 else w_exec_if_1dim exc dbg t1 p e (y :: r) w3).
    rewrite N. apply IH. discriminate.
Qed.

Lemma exec_2dim_first exc dbg p1 p2 (e : @act2 T W R) l2 l w t w' :
  first_yes p1 l w t w' ->
  w_exec_if_2dim_impl exc dbg p1 p2 e l2 l w = w_exec_if_1dim exc dbg t p2 e l2 w'.
Proof.
  intros [pre [post [w1 [-> [A B]]]]]. induction A as [w|x pre w w1 w2 N A IH].
  - cbn [app]. destruct post as [|y post]; cbn [w_exec_if_2dim_impl]; rewrite B; reflexivity.
  - cbn [app]. specialize (IH B).
    destruct (pre ++ t :: post) as [|y r] eqn:Q; [destruct pre; discriminate|].
    change (w_exec_if_2dim_impl exc dbg p1 p2 e l2 (x :: y :: r) w) with
      (do r0 <- p1 x w; let (b, w3) := r0 in if b then w_exec_if_1dim exc dbg x p2 e l2 w3
       else w_exec_if_2dim_impl exc dbg p1 p2 e l2 (y :: r) w3).
    rewrite N. exact IH.
Qed.

Lemma exec_2dim_none exc dbg p1 p2 (e : @act2 T W R) l2 l w w' :
  l <> [] -> all_no p1 l w w' ->
  w_exec_if_2dim_impl exc dbg p1 p2 e l2 l w = do _ <- core_failure exc dbg; UB DeadObject.
Proof.
  intros NE A. induction A as [w|x l w w1 w2 N A IH]; [congruence|].
  destruct l as [|y r].
  - cbn [w_exec_if_2dim_impl]. rewrite N. reflexivity.
  - change (w_exec_if_2dim_impl exc dbg p1 p2 e l2 (x :: y :: r) w) with
      (do r0 <- p1 x w; let (b, w3) := r0 in if b then w_exec_if_1dim exc dbg x p2 e l2 w3
       else w_exec_if_2dim_impl exc dbg p1 p2 e l2 (y :: r) w3).
    rewrite N. apply IH. discriminate.
Qed.

Variable eqb : T -> T -> bool.
Hypothesis eqb_eq : forall a b, eqb a b = true <-> a = b.

Lemma w_index_in t l : In t l -> nth_error l (w_index eqb t l) = Some t.
Proof.
  induction l as [|x l IH]; [easy|]. cbn. destruct (eqb t x) eqn:E.
  - apply eqb_eq in E. now subst.
  - intros [->|H]; [|exact (IH H)]. assert (eqb t t = true) by now apply eqb_eq. congruence.
Qed.

Lemma w_index_inj t u l : In t l -> w_index eqb u l = w_index eqb t l -> u = t.
Proof.
  induction l as [|x l IH]; [easy|]. cbn. intros H. destruct (eqb u x) eqn:E1, (eqb t x) eqn:E2; try discriminate.
  - apply eqb_eq in E1, E2. now subst.
  - intros [= Q]. destruct H as [->|H]; [|exact (IH H Q)].
    assert (eqb t t = true) by now apply eqb_eq. congruence.
Qed.

Lemma w_index_out t l : ~ In t l -> w_index eqb t l = length l.
Proof.
  induction l as [|x l IH]; [easy|]. cbn. intros H. destruct (eqb t x) eqn:E.
  - apply eqb_eq in E. subst. tauto.
  - rewrite IH; tauto.
Qed.

Lemma checker_first l t w : In t l -> first_yes (checker eqb l (w_index eqb t l)) l w t w.
Proof.
  intro H.
  assert (G : forall m, In t m -> first_yes (checker eqb l (w_index eqb t l)) m w t w).
  { induction m as [|x m IH]; [easy|]. intro Hm.
    destruct (eqb x t) eqn:E.
    - apply eqb_eq in E. subst x. exists [], m, w. repeat split; [constructor|].
      unfold checker. now rewrite Nat.eqb_refl.
    - assert (NE : x <> t) by (intros ->; assert (eqb t t = true) by (now apply eqb_eq); congruence).
      destruct Hm as [->|Hm]; [congruence|].
      destruct (IH Hm) as [pre [post [w1 [-> [A B]]]]].
      exists (x :: pre), post, w1. repeat split; auto.
      econstructor; [|exact A]. unfold checker.
      destruct (w_index eqb x l =? w_index eqb t l) eqn:Q; [|reflexivity].
      apply Nat.eqb_eq in Q. apply w_index_inj in Q; congruence. }
  exact (G l H).
Qed.

End P.

(** exec_if: for every list of types, predicate and functor (with whatever effects
    they have), the types are asked in order, each once, up to the first yes, and
    the functor then runs once, on that type. *)
Theorem C72_first_match : forall (T W R : Type) exc dbg (p : @pred T W) (e : @act T W R) l w t w',
  first_yes p l w t w' -> w_exec_if exc dbg p e l w = e t w'.
Proof. intros. now apply exec_if_first. Qed.

(** exec_if_2dim: the same for the first argument, then for the second one. *)
Theorem C72_first_pair : forall (T W R : Type) exc dbg (p1 p2 : @pred T W) (e : @act2 T W R) l w t1 w1 t2 w2,
  first_yes p1 l w t1 w1 -> first_yes p2 l w1 t2 w2 ->
  w_exec_if_2dim exc dbg p1 p2 e l w = e t1 t2 w2.
Proof.
  intros T W R exc dbg p1 p2 e l w t1 w1 t2 w2 A B. unfold w_exec_if_2dim.
  rewrite (exec_2dim_first exc dbg p1 p2 e l l w t1 w1 A). now apply exec_1dim_first.
Qed.

(** No type matches: an exception where failures are exceptions, a failed
    assertion in a debug build; the functor does not run. *)
Theorem C72_no_match_reported : forall (T W R : Type) exc dbg (p : @pred T W) (e : @act T W R) l w w',
  exc || dbg = true -> l <> [] -> all_no p l w w' ->
  w_exec_if exc dbg p e l w = if exc then Throw else AssertFail.
Proof.
  intros T W R exc dbg p e l w w' H NE A.
  destruct (exists_last NE) as [l0 [t ->]].
  rewrite (exec_if_none exc dbg p e l0 t w w' A).
  destruct exc, dbg; cbn in *; try discriminate; reflexivity.
Qed.

Theorem C72_no_pair_reported : forall (T W R : Type) exc dbg (p1 p2 : @pred T W) (e : @act2 T W R) l w w',
  exc || dbg = true -> l <> [] ->
  all_no p1 l w w' \/ (exists t1 w1, first_yes p1 l w t1 w1 /\ all_no p2 l w1 w') ->
  w_exec_if_2dim exc dbg p1 p2 e l w = if exc then Throw else AssertFail.
Proof.
  intros T W R exc dbg p1 p2 e l w w' H NE [A|[t1 [w1 [F A]]]]; unfold w_exec_if_2dim.
  - rewrite (exec_2dim_none exc dbg p1 p2 e l l w w' NE A).
    destruct exc, dbg; cbn in *; try discriminate; reflexivity.
  - rewrite (exec_2dim_first exc dbg p1 p2 e l l w t1 w1 F).
    rewrite (exec_1dim_none exc dbg t1 p2 e l w1 w' NE A).
    destruct exc, dbg; cbn in *; try discriminate; reflexivity.
Qed.

(** The two ways of dispatching on a run-time type index agree: search and table
    both run the functor of the object's own type, for one and for two objects. *)
Theorem C72_search_and_table : forall (T W R : Type) (eqb : T -> T -> bool),
  (forall a b, eqb a b = true <-> a = b) ->
  forall exc dbg (e : @act T W R) (e2 : @act2 T W R) l t u w, In t l -> In u l ->
    let i := w_index eqb t l in let j := w_index eqb u l in
    w_exec_if exc dbg (checker eqb l i) e l w = e t w /\
    w_exec_dyn e l i w = e t w /\
    w_exec_if_2dim exc dbg (checker eqb l i) (checker eqb l j) e2 l w = e2 t u w /\
    w_exec_dyn_2dim e2 l i j w = e2 t u w.
Proof.
  intros T W R eqb Q exc dbg e e2 l t u w Ht Hu i j. repeat split.
  - apply exec_if_first. now apply checker_first.
  - unfold w_exec_dyn. rewrite nth_error_map. unfold i. now rewrite (w_index_in eqb Q t l Ht).
  - apply C72_first_pair with (w1 := w); now apply checker_first.
  - unfold w_exec_dyn_2dim. rewrite nth_error_map. unfold i. rewrite (w_index_in eqb Q t l Ht).
    cbn. rewrite nth_error_map. unfold j. now rewrite (w_index_in eqb Q u l Hu).
Qed.

(** An object of a type that is not in the list: search reports it, the table is
    indexed out of bounds. *)
Theorem C72_unlisted_object : forall (T W R : Type) (eqb : T -> T -> bool),
  (forall a b, eqb a b = true <-> a = b) ->
  forall exc dbg (e : @act T W R) l t w, ~ In t l -> l <> [] -> exc || dbg = true ->
    w_exec_if exc dbg (checker eqb l (w_index eqb t l)) e l w = (if exc then Throw else AssertFail) /\
    w_exec_dyn e l (w_index eqb t l) w = UB OOBRead.
Proof.
  intros T W R eqb Q exc dbg e l t w Ht NE H. split.
  - apply C72_no_match_reported with (w' := w); auto.
    assert (G : forall m, incl m l -> all_no (checker eqb l (w_index eqb t l)) m w w).
    { induction m as [|x m IH]; intro I1; [constructor|].
      econstructor; [|apply IH; intros y Hy; apply I1; now right].
      unfold checker. rewrite (w_index_out eqb Q t l Ht).
      assert (In x l) by (apply I1; now left).
      assert (w_index eqb x l < length l).
      { apply nth_error_Some. rewrite (w_index_in eqb Q x l); congruence. }
      destruct (w_index eqb x l =? length l) eqn:B; [|reflexivity]. apply Nat.eqb_eq in B. lia. }
    apply G. apply incl_refl.
  - unfold w_exec_dyn. rewrite (w_index_out eqb Q t l Ht), nth_error_map.
    replace (nth_error l (length l)) with (@None T); [reflexivity|]. symmetry. now apply nth_error_None.
Qed.

(** In a release build without exceptions the search does not notice: exec_if runs
    the functor of the last type on an object of another type, exec_if_2dim flows
    off the end of a function. *)
Theorem C72_release_wrong_type_refuted :
  exists (l : list nat) (t : nat), ~ In t l /\
    w_exec_if false false (checker Nat.eqb l (w_index Nat.eqb t l)) (fun t (w : list nat) => Ok (t, t :: w)) l [] = Ok (2, [2]) /\
    w_exec_if_2dim false false (checker Nat.eqb l 0) (checker Nat.eqb l (w_index Nat.eqb t l))
      (fun t u (w : list nat) => Ok (t + u, w)) l [] = UB DeadObject.
Proof. exists [1; 2], 7. repeat split; [cbn; lia]. Qed.

(** Printing a vector: the size and then every element, in order, one per line. *)
Theorem C72_print_vector : forall (A : Type) (v : list A) out,
  print_vector v out = out ++ TSizeLabel :: TNum (length v) :: TEndl :: flat_map (fun a => [TEl a; TEndl]) v.
Proof.
  intros A v out. unfold print_vector.
  assert (G : forall (v : list A) out, print_loop v out = out ++ flat_map (fun a => [TEl a; TEndl]) v).
  { clear. induction v as [|a v IH]; intro out; cbn [print_loop flat_map]; [now rewrite app_nil_r|].
    rewrite IH, <- app_assoc. reflexivity. }
  rewrite G, <- app_assoc. reflexivity.
Qed.

(** A case with effects: the predicate counts how often it is asked. *)
Theorem C72_nonvacuous :
  let p := fun t (w : list nat) => Ok (Nat.even t, w ++ [t]) in
  first_yes p [3; 5; 4; 6] [] 4 [3; 5; 4] /\
  w_exec_if true true p (fun t w => Ok (10 * t, w)) [3; 5; 4; 6] [] = Ok (40, [3; 5; 4]) /\
  all_no p [3; 5] [] [3; 5] /\
  w_exec_if true true p (fun t w => Ok (10 * t, w)) [3; 5] [] = Throw /\
  w_exec_if_2dim true true p p (fun t u w => Ok (10 * t + u, w)) [3; 6; 5] [] = Ok (66, [3; 6; 3; 6]).
Proof.
  repeat split.
  - exists [3; 5], [6], [3; 5]. repeat split. do 2 (econstructor; [reflexivity|]). constructor.
  - do 2 (econstructor; [reflexivity|]). constructor.
Qed.

(** The cases treated above are all there are, unless the predicate itself fails. *)
Theorem C72_cases_exhaustive : forall (T W : Type) (p : @pred T W) l w,
  (exists t w', first_yes p l w t w') \/ (exists w', all_no p l w w') \/
  (exists pre t post w1, l = pre ++ t :: post /\ all_no p pre w w1 /\ forall b w', p t w1 <> Ok (b, w')).
Proof. intros. apply first_or_none. Qed.

Print Assumptions C72_search_and_table.
