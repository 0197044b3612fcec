(** C72: what the dispatch helpers do, in every case: also in release builds, and
    when asking the question itself fails. *)
From Coq Require Import List Arith Bool Lia.
From Verif Require Import Base BaseLemmas Dyn_Model Disp_Model Disp_Spec Disp_Props.
Import ListNotations.

(** The program [y] stops in the way [x] does. *)
Definition stops_as {A B} (x : res A) (y : res B) : Prop :=
  match x with Ok _ => False | Throw => y = Throw | AssertFail => y = AssertFail | UB k => y = UB k | Diverge => y = Diverge end.
(** [p] says no to the types before some type of [l], and asking about that one stops the program. *)
Definition asks_in_vain {T W} (p : T -> W -> res (bool * W)) (l : list T) (w : W) (x : res (bool * W)) : Prop :=
  exists pre t post w1, l = pre ++ t :: post /\ all_no p pre w w1 /\ p t w1 = x /\ (forall r, x <> Ok r).



Section P.
Context {T W R : Type}.
Implicit Types (p : @pred T W).

Lemma exec_if_vain exc dbg p (e : @act T W R) l w x : asks_in_vain p l w x -> stops_as x (w_exec_if exc dbg p e l w).
Proof.
  intros (pre & t & post & w1 & -> & A & Q & B). induction A as [w|y pre w w1 w2 N A IH].
  - cbn [app]. destruct post as [|z post]; cbn [w_exec_if]; rewrite Q; destruct x; cbn; auto; exact (B a eq_refl).
  - cbn [app]. specialize (IH Q).
    destruct (pre ++ t :: post) as [|z r] eqn:E; [destruct pre; discriminate|].
    change (w_exec_if exc dbg p e (y :: z :: r) w) with
      (do r0 <- p y w; let (b, w3) := r0 in if b then e y w3 else w_exec_if exc dbg p e (z :: r) w3).
    rewrite N. exact IH.
Qed.
Lemma exec_1dim_vain exc dbg t1 p (e : @act2 T W R) l w x : asks_in_vain p l w x -> stops_as x (w_exec_if_1dim exc dbg t1 p e l w).
Proof.
  intros (pre & t & post & w1 & -> & A & Q & B). induction A as [w|y pre w w1 w2 N A IH].
  - cbn [app]. destruct post as [|z post]; cbn [w_exec_if_1dim]; rewrite Q; destruct x; cbn; auto; exact (B a eq_refl).
  - cbn [app]. specialize (IH Q).
    destruct (pre ++ t :: post) as [|z r] eqn:E; [destruct pre; discriminate|].
    change (w_exec_if_1dim exc dbg t1 p e (y :: z :: r) w) with
      (do r0 <- p y w; let (b, w3) := r0 in if b then e t1 y w3 else w_exec_if_1dim exc dbg t1 p e (z :: r) w3).
    rewrite N. exact IH.
Qed.
Lemma exec_2dim_vain exc dbg p1 p2 (e : @act2 T W R) l2 l w x :
  asks_in_vain p1 l w x -> stops_as x (w_exec_if_2dim_impl exc dbg p1 p2 e l2 l w).
Proof.
  intros (pre & t & post & w1 & -> & A & Q & B). induction A as [w|y pre w w1 w2 N A IH].
  - cbn [app]. destruct post as [|z post]; cbn [w_exec_if_2dim_impl]; rewrite Q; destruct x; cbn; auto; exact (B a eq_refl).
  - cbn [app]. specialize (IH Q).
    destruct (pre ++ t :: post) as [|z r] eqn:E; [destruct pre; discriminate|].
    change (w_exec_if_2dim_impl exc dbg p1 p2 e l2 (y :: z :: r) w) with
      (do r0 <- p1 y w; let (b, w3) := r0 in if b then w_exec_if_1dim exc dbg y p2 e l2 w3
       else w_exec_if_2dim_impl exc dbg p1 p2 e l2 (z :: r) w3).
    rewrite N. exact IH.
Qed.

Lemma asked p l w : (exists t w', first_yes p l w t w') \/ (exists w', all_no p l w w') \/ (exists x, asks_in_vain p l w x).
Proof.
  destruct (first_or_none p l w) as [H|[H|(pre & t & post & w1 & E & A & B)]]; auto.
  right. right. exists (p t w1), pre, t, post, w1. repeat split; auto. intros [b w'] Q. exact (B b w' Q).
Qed.
End P.

(** exec_if, all of it.  For every list that is not empty, question and functor:
    - the functor runs, once, on the first type that is answered yes;
    - if there is none: an exception or a failed assertion where the build has them;
      else the functor runs on the LAST type of the list;
    - if asking fails, the program stops the same way and the functor does not run. *)
Theorem C72_search_exact : forall (T W R : Type) exc dbg (p : @pred T W) (e : @act T W R) l w, l <> [] ->
  let out := w_exec_if exc dbg p e l w in
  (exists t w', first_yes p l w t w' /\ out = e t w') \/
  (exists w' front t, all_no p l w w' /\ l = front ++ [t] /\
     out = if exc then Throw else if dbg then AssertFail else e t w') \/
  (exists x, asks_in_vain p l w x /\ stops_as x out).
Proof.
  intros T W R exc dbg p e l w NE out. unfold out. destruct (asked p l w) as [(t & w' & H)|[(w' & H)|(x & H)]].
  - left. exists t, w'. split; [exact H|]. now apply exec_if_first.
  - right. left. destruct (exists_last NE) as (front & t & ->). exists w', front, t. split; [exact H|]. split; [reflexivity|].
    rewrite (exec_if_none exc dbg p e front t w w' H). destruct exc, dbg; reflexivity.
  - right. right. exists x. split; [exact H|]. now apply exec_if_vain.
Qed.
Print Assumptions C72_search_exact.

(** exec_if_2dim, all of it: if either search finds nothing, an exception, a failed
    assertion, or - with neither - a function that ends without returning a value. *)
Theorem C72_search_pair_exact : forall (T W R : Type) exc dbg (p1 p2 : @pred T W) (e : @act2 T W R) l w, l <> [] ->
  let out := w_exec_if_2dim exc dbg p1 p2 e l w in
  let nothing := out = if exc then Throw else if dbg then AssertFail else UB DeadObject in
  (exists t1 w1 t2 w2, first_yes p1 l w t1 w1 /\ first_yes p2 l w1 t2 w2 /\ out = e t1 t2 w2) \/
  (exists w1, all_no p1 l w w1 /\ nothing) \/
  (exists t1 w1 w2, first_yes p1 l w t1 w1 /\ all_no p2 l w1 w2 /\ nothing) \/
  (exists x, asks_in_vain p1 l w x /\ stops_as x out) \/
  (exists t1 w1 x, first_yes p1 l w t1 w1 /\ asks_in_vain p2 l w1 x /\ stops_as x out).
Proof.
  intros T W R exc dbg p1 p2 e l w NE out nothing. unfold nothing, out, w_exec_if_2dim.
  destruct (asked p1 l w) as [(t1 & w1 & H1)|[(w1 & H1)|(x & H1)]].
  - rewrite (exec_2dim_first exc dbg p1 p2 e l l w t1 w1 H1).
    destruct (asked p2 l w1) as [(t2 & w2 & H2)|[(w2 & H2)|(x & H2)]].
    + left. exists t1, w1, t2, w2. repeat split; auto. now apply exec_1dim_first.
    + right. right. left. exists t1, w1, w2. repeat split; auto.
      rewrite (exec_1dim_none exc dbg t1 p2 e l w1 w2 NE H2). destruct exc, dbg; reflexivity.
    + right. right. right. right. exists t1, w1, x. repeat split; auto. now apply exec_1dim_vain.
  - right. left. exists w1. split; auto.
    rewrite (exec_2dim_none exc dbg p1 p2 e l l w w1 NE H1). destruct exc, dbg; reflexivity.
  - right. right. right. left. exists x. split; auto. now apply exec_2dim_vain.
Qed.
Print Assumptions C72_search_pair_exact.

(** The tables: an index is in range exactly when it is the place of a type, and then
    that type's functor runs; else the table is read outside. *)
Theorem C72_table_exact : forall (T W R : Type) (e : @act T W R) (e2 : @act2 T W R) l i j w,
  w_exec_dyn e l i w = match nth_error l i with Some t => e t w | None => UB OOBRead end /\
  w_exec_dyn_2dim e2 l i j w =
    match nth_error l i, nth_error l j with Some t, Some u => e2 t u w | _, _ => UB OOBRead end.
Proof.
  intros. unfold w_exec_dyn, w_exec_dyn_2dim. rewrite !nth_error_map.
  destruct (nth_error l i) as [t|]; cbn; [|auto]. rewrite nth_error_map. destruct (nth_error l j); auto.
Qed.
Print Assumptions C72_table_exact.

(** The question throws on the second type: nothing runs. *)
Example C72_exact_nonvacuous :
  let p := fun (t : nat) (w : list nat) => if t =? 0 then Throw else Ok (Nat.even t, w ++ [t]) in
  asks_in_vain p [3; 0; 4] [] Throw /\
  w_exec_if true true p (fun t w => Ok (10 * t, w)) [3; 0; 4] [] = Throw /\
  w_exec_if_2dim false false p p (fun t u w => Ok (10 * t + u, w)) [3; 6; 0] [] = Ok (66, [3; 6; 3; 6]) /\
  w_exec_if false false p (fun t w => Ok (10 * t, w)) [3; 5] [] = Ok (50, [3; 5]).
Proof.
  repeat split. exists [3], 0, [4], [3]. repeat split; [|discriminate]. econstructor; [reflexivity|constructor].
Qed.
