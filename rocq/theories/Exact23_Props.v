(** Type selection and conversion for arbitrary settings: C33 and C34 without
    conditions on the thresholds. *)
From Verif Require Import Base BaseLemmas Dense_Model Dense_Spec Dense_Proofs Dense2_Proofs Sparse_Model Sparse_Spec
  Sparse_Proofs Sparse2_Proofs Sparse3_Proofs Sparse4_Proofs SparseT_Proofs SparseP_Proofs
  Mult_Model Mult_Spec Mult_Proofs Mult2_Proofs Mult3_Proofs Dyn_Model Dyn_Spec Dyn_Proofs Dyn2_Proofs Block_Proofs
  Conv_Spec Conv_Proofs Dense_Props Sparse_Props Mult_Props Dyn_Props.

Section Spec.
Context {F D : Type} (ar : arith F D).

(** The settings as the converter takes them: for Matrix<Zero> both limits are
    the double precision one. *)
Definition as_taken (th : threshold D) : threshold D :=
  mkThreshold (sigF th) (sigD th) (fun t e => occ_set th t (match t with TL TZ => ED | _ => e end)).

(** What becomes of a block: it gets a type, the settings are rejected, or there is
    no type. *)
Inductive verdict := Takes (t : mty) | Rejected | NoType.
Definition verdict_on (th : threshold D) (r c : nat) (f : nat -> nat -> D) : verdict :=
  let within (t : mty) := leD ar (fraction_above ar (sigD th) r c f) (occ_set th t ED) in
  if ltD ar (sigD th) (d0 ar) then Rejected
  else if ltD ar (sigF th) (d0 ar) && existsb within type_list then Rejected
  else match find (respects ar (as_taken th) r c f) type_list with
       | None => NoType
       | Some t => if needs_range t && leD ar (sigF th) (sigD th) then Rejected else Takes t
       end.
End Spec.

Lemma find_first (p : mty -> bool) l t : find p l = Some t -> first_of p l t.
Proof.
  induction l as [|u l IH]; [discriminate|]. cbn [find]. destruct (p u) eqn:E.
  - intros [= ->]. exists [], l. split; [reflexivity|]. split; [exact E|]. intros ? [].
  - intros H. destruct (IH H) as (pre & post & -> & Ht & Hp). exists (u :: pre), post.
    split; [reflexivity|]. split; [exact Ht|]. intros w [<-|Hw]; auto.
Qed.

Lemma as_taken_same {F D} (ar : arith F D) exc dbg th m : convert ar exc dbg th m = convert ar exc dbg (as_taken th) m.
Proof.
  assert (H : forall t, is_convertible ar th m t = is_convertible ar (as_taken th) m t).
  { intros t. unfold is_convertible. replace (occ_thr (as_taken th) t ED) with (occ_thr th t ED) by now destruct t as [[]|].
    replace (occ_thr (as_taken th) t EF) with (occ_thr th t EF) by now destruct t as [[]|]. reflexivity. }
  unfold convert. induction type_list as [|t l IH]; [reflexivity|]. cbn [convert_first]. rewrite H.
  destruct l as [|v l]; [reflexivity|]. rewrite IH. reflexivity.
Qed.

(** Whatever the thresholds and limits are. *)
Theorem C33_every_setting :
  forall (F D : Type) (ar : arith F D) exc dbg th (m : dense D) r c f,
    col_source m -> view m r c f -> full_ok m -> ltD ar (d0 ar) (d0 ar) = false ->
    let gets t := exists d, convert ar exc dbg th m = Ok d /\ dyn_ty d = t /\
      rep ar d r c (fun i j => stored_as ar th (sh_sub (d_sh m)) t (f i j)) in
    match verdict_on ar th r c f with
    | Takes t => gets t
    | Rejected => convert ar exc dbg th m = Throw
    | NoType => if exc then convert ar exc dbg th m = Throw
                else if dbg then convert ar exc dbg th m = AssertFail
                else gets (TL (TD ED))
    end.
Proof.
  intros F D ar exc dbg th m r c f HS HV HF H0 gets. destruct (col_source_ok m HS) as (SH & IT & OM).
  unfold verdict_on. destruct (ltD ar (sigD th) (d0 ar)) eqn:E1.
  { unfold convert; apply convert_negative_double; [exact E1|discriminate]. }
  assert (ZA : zero_limits_agree (as_taken th)) by reflexivity.
  set (th' := as_taken th) in *.
  assert (ST : forall t x, stored_as ar th' (sh_sub (d_sh m)) t x = stored_as ar th (sh_sub (d_sh m)) t x) by reflexivity.
  assert (FA : last type_list (TL TZ) = TL (TD ED)) by reflexivity.
  assert (DD : exists d, convert_to ar false false th' m (TL (TD ED)) = Ok d /\ dyn_ty d = TL (TD ED) /\
      rep ar d r c (fun i j => stored_as ar th (sh_sub (d_sh m)) (TL (TD ED)) (f i j))).
  { cbn [convert_to]. unfold gt_new. rewrite H0. cbn [bind].
    destruct (leaf_chk_spec ar m r c f HV SH IT OM HF (TD ED) (fun x => ltD ar (d0 ar) (absD ar x))) as (l & E & T & R).
    rewrite E. eexists. split; [reflexivity|]. cbn. split; [now rewrite T|exact R]. }
  destruct (ltD ar (sigF th) (d0 ar)) eqn:E2; cbn [andb].
  - destruct (existsb _ type_list) eqn:EX.
    + apply existsb_exists in EX. destruct EX as (t & HI & HL). unfold convert.
      apply (convert_negative_single ar m r c f HV IT HF exc dbg th type_list t E1 E2 HI).
      destruct t as [[]|]; exact HL.
    + assert (NL : forall t, In t type_list -> leD ar (fraction_above ar (sigD th) r c f) (occ_set th t ED) = false).
      { intros t Ht. destruct (leD ar _ (occ_set th t ED)) eqn:E; [|reflexivity].
        rewrite <- EX. symmetry. apply existsb_exists. eauto. }
      assert (FN : find (respects ar th' r c f) type_list = None).
      { destruct (find _ _) as [t|] eqn:E; [|reflexivity]. apply find_some in E. destruct E as (HI & HR).
        unfold respects in HR. apply andb_prop in HR. destruct HR as [HR _].
        assert (X : occ_set th' t ED = occ_set th t ED) by now destruct t as [[]|]. rewrite X in HR.
        change (sigD th') with (sigD th) in HR. rewrite (NL t HI) in HR. discriminate. }
      rewrite FN.
      assert (C : forall l, l <> [] -> (forall t, In t l -> leD ar (fraction_above ar (sigD th) r c f) (occ_set th t ED) = false) ->
        convert_first ar exc dbg th' m l = (do _ <- core_failure exc dbg; convert_to ar exc dbg th' m (last l (TL TZ)))).
      { induction l as [|u l IH]; [congruence|]. intros _ Hl.
        assert (Q : is_convertible ar th' m u = Ok false).
        { unfold is_convertible, gt_new. change (sigD th') with (sigD th). rewrite E1. cbn [bind].
          rewrite (occupation_spec ar m r c f HV IT HF). cbn [bind].
          replace (occ_thr th' u ED) with (occ_set th u ED) by now destruct u as [[]|].
          now rewrite (Hl u (or_introl eq_refl)). }
        destruct l as [|v l]; cbn [convert_first last]; rewrite Q; cbn [bind]; [reflexivity|].
        etransitivity; [exact (IH ltac:(discriminate) (fun w Hw => Hl w (or_intror Hw)))|reflexivity]. }
      subst gets. rewrite as_taken_same. change (as_taken th) with th'. unfold convert.
      rewrite (C type_list ltac:(discriminate) NL).
      destruct exc; [reflexivity|]. destruct dbg; [reflexivity|]. exact DD.
  - assert (NN : nonneg_thr ar th') by (split; assumption).
    subst gets. rewrite as_taken_same. change (as_taken th) with th'. unfold convert.
    destruct (find (respects ar th' r c f) type_list) as [t|] eqn:E.
    + rewrite (convert_first_spec' ar m r c f HV IT HF exc dbg th' type_list t NN ZA (find_first _ _ _ E)).
      destruct (leD ar (sigF th) (sigD th)) eqn:E3.
      * pose proof (convert_to_reversed ar m r c f HV SH IT OM HF exc dbg th' t NN H0 E3) as H.
        destruct (needs_range t); exact H.
      * rewrite andb_false_r. apply (convert_to_spec ar m r c f HV SH IT OM HF exc dbg th' t).
        repeat split; assumption.
    + rewrite (convert_none_spec' ar m r c f HV IT HF exc dbg th' type_list NN ZA (find_none _ _ E) ltac:(discriminate)).
      destruct exc; [reflexivity|]. destruct dbg; [reflexivity|]. exact DD.
Qed.
Print Assumptions C33_every_setting.

(** The six outcomes on the 2 x 3 matrix demoC: the zero type although its float
    limit is exceeded; equal thresholds; negative ones, with and without a type
    that asks for the second; no type. *)
Example C33_every_setting_nonvacuous :
  let v a b l := verdict_on zar (mkThreshold a b l) 2 3 demoC_f in
  let all := fun _ _ => 1000%Z in
  let none := fun _ _ => (-1)%Z in
  col_source demoC /\ is_mat demoC 2 3 demoC_f /\ full_ok demoC /\
  v 2%Z 0%Z (fun t e => match t, e with TL TZ, EF => 0 | _, _ => 1000 end)%Z = Takes (TL TZ) /\
  v 1%Z 1%Z (fun t e => match t with TL TZ => -1 | _ => 1000 end)%Z = Rejected /\
  v 1%Z 1%Z (fun t e => match t with TL (TD ED) => 1000 | _ => -1 end)%Z = Takes (TL (TD ED)) /\
  v 2%Z (-1)%Z none = Rejected /\ v (-1)%Z 2%Z all = Rejected /\ v (-1)%Z 2%Z none = NoType.
Proof.
  cbn zeta. split; [apply src_mat; [apply demoC_mat|reflexivity]|]. split; [exact demoC_mat|]. split; [reflexivity|].
  repeat split; vm_compute; reflexivity.
Qed.
