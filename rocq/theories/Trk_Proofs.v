From Verif Require Import BaseLemmas Trk_Spec.
Local Open Scope Z_scope.

Definition pdue (x : tloc) (p : tpc) : Z :=
  match p with TRead z d | TWrite z d _ => if tloc_eqb x z then d else 0 end.
Fixpoint cdue (x : tloc) (l : list tpc) : Z := match l with [] => 0 | p :: r => pdue x p + cdue x r end.
Fixpoint call (x : tloc) (code : nat -> list tpc) (ts : list nat) : Z :=
  match ts with [] => 0 | t :: r => cdue x (code t) + call x code r end.
Definition dpos (p : tpc) : Prop := match p with TRead _ d | TWrite _ d _ => 0 <= d end.

Lemma tloc_eqb_eq a b : tloc_eqb a b = true <-> a = b.
Proof.
  destruct a, b; cbn; try (split; discriminate); rewrite Nat.eqb_eq; split; [intros ->|intros E; injection E|intros ->|intros E; injection E]; auto.
Qed.
Lemma tloc_refl a : tloc_eqb a a = true.
Proof. now apply tloc_eqb_eq. Qed.

Lemma cdue_app x a b : cdue x (a ++ b) = cdue x a + cdue x b.
Proof. induction a as [|p a IH]; cbn [cdue app]; lia. Qed.
Lemma cdue_prog x l : cdue x (flat_map add_code l) = due x l.
Proof.
  induction l as [|e l IH]; [reflexivity|]. cbn [flat_map due]. rewrite cdue_app, IH. destruct x; cbn; destruct (Nat.eqb _ _); lia.
Qed.
Lemma cdue_pos x l : Forall dpos l -> 0 <= cdue x l.
Proof. induction 1 as [|p l H _ IH]; [cbn; lia|]. cbn [cdue]. destruct p; cbn in *; destruct (tloc_eqb x x0); lia. Qed.
Lemma call_pos x code ts : (forall t, Forall dpos (code t)) -> 0 <= call x code ts.
Proof. intros H. induction ts as [|t ts IH]; cbn [call]; [lia|]. pose proof (cdue_pos x _ (H t)). lia. Qed.

Lemma call_ext x c c' ts : (forall t, In t ts -> c' t = c t) -> call x c' ts = call x c ts.
Proof. induction ts as [|t ts IH]; intros H; cbn [call]; [reflexivity|]. rewrite (H t) by now left. rewrite IH; [reflexivity|]. intros u Hu. apply H. now right. Qed.

(** Changing the code of one thread changes the sum by that much. *)
Lemma call_set x (c : nat -> list tpc) ts t r : NoDup ts -> In t ts ->
  call x (fun u => if (u =? t)%nat then r else c u) ts = call x c ts - cdue x (c t) + cdue x r.
Proof.
  induction ts as [|a ts IH]; intros ND HI; [destruct HI|]. inversion ND; subst. cbn [call].
  destruct (Nat.eqb_spec a t) as [->|Na].
  - rewrite (call_ext x c); [lia|]. intros u Hu. destruct (Nat.eqb_spec u t) as [->|]; [contradiction|reflexivity].
  - destruct HI as [|HI]; [contradiction|]. rewrite IH by assumption. lia.
Qed.

(** ** Bounds *)
Record KInv (c0 : tloc -> Z) (tot : tloc -> Z) ts y : Prop := {
  ki_pos : forall t, Forall dpos (k_code y t);
  ki_out : forall t, ~ In t ts -> k_code y t = [];
  ki_lo : forall x, c0 x <= k_cell y x;
  ki_hi : forall x, k_cell y x <= c0 x + tot x - call x (k_code y) ts;
  ki_tmp : forall t x d tmp, In (TWrite x d tmp) (k_code y t) -> c0 x <= tmp <= c0 x + tot x - call x (k_code y) ts
}.

Lemma kstep_inv c0 tot ts y t : NoDup ts -> KInv c0 tot ts y -> KInv c0 tot ts (kstep y t).
Proof.
  intros ND [P O Lo Hi Tm]. unfold kstep. destruct (k_code y t) as [|[x d|x d tmp] r] eqn:E; [split; auto| |].
  - assert (HT : In t ts). { destruct (in_dec Nat.eq_dec t ts) as [H|H]; [exact H|]. rewrite (O t H) in E. discriminate. }
    pose proof (P t) as Pt. rewrite E in Pt. inversion Pt; subst.
    assert (CS : forall z, call z (fun u => if (u =? t)%nat then TWrite x d (k_cell y x) :: r else k_code y u) ts = call z (k_code y) ts).
    { intros z. rewrite call_set by assumption. rewrite E. cbn [cdue pdue]. lia. }
    split; cbn [k_code k_cell]; auto.
    + intros u. destruct (Nat.eqb_spec u t) as [->|]; [constructor; auto|apply P].
    + intros u Hu. destruct (Nat.eqb_spec u t) as [->|]; [contradiction|auto].
    + intros z. rewrite CS. apply Hi.
    + intros u z d' tmp HI. rewrite CS. destruct (Nat.eqb_spec u t) as [->|]; [|eapply Tm; exact HI].
      destruct HI as [HI|HI]; [injection HI as <- <- <-; split; [apply Lo|apply Hi]|]. apply (Tm t z d'). rewrite E. now right.
  - assert (HT : In t ts). { destruct (in_dec Nat.eq_dec t ts) as [H|H]; [exact H|]. rewrite (O t H) in E. discriminate. }
    pose proof (P t) as Pt. rewrite E in Pt. inversion Pt as [|? ? D0 Pr]; subst. cbn in D0.
    assert (CS : forall z, call z (fun u => if (u =? t)%nat then r else k_code y u) ts = call z (k_code y) ts - (if tloc_eqb z x then d else 0)).
    { intros z. rewrite call_set by assumption. rewrite E. cbn [cdue pdue]. lia. }
    destruct (Tm t x d tmp) as [T1 T2]; [rewrite E; now left|].
    split; cbn [k_code k_cell]; auto.
    + intros u. destruct (Nat.eqb_spec u t) as [->|]; [exact Pr|apply P].
    + intros u Hu. destruct (Nat.eqb_spec u t) as [->|]; [contradiction|auto].
    + intros z. destruct (tloc_eqb z x) eqn:Z; [apply tloc_eqb_eq in Z; subst; lia|apply Lo].
    + intros z. rewrite CS. destruct (tloc_eqb z x) eqn:Z; [apply tloc_eqb_eq in Z; subst; lia|specialize (Hi z); lia].
    + intros u z d' tmp' HI. rewrite CS.
      assert (B : c0 z <= tmp' <= c0 z + tot z - call z (k_code y) ts).
      { destruct (Nat.eqb_spec u t) as [->|]; [apply (Tm t z d'); rewrite E; now right|eapply Tm; exact HI]. }
      destruct (tloc_eqb z x); lia.
Qed.
Lemma krun_inv c0 tot ts l : NoDup ts -> forall y, KInv c0 tot ts y -> KInv c0 tot ts (krun y l).
Proof. intros ND. induction l as [|t l IH]; intros y H; [exact H|]. cbn. apply IH. now apply kstep_inv. Qed.

Lemma call_init x prog ts : call x (fun t => flat_map add_code (prog t)) ts = due_all x prog ts.
Proof. induction ts as [|t ts IH]; [reflexivity|]. cbn [call due_all]. now rewrite cdue_prog, IH. Qed.

Lemma KInv0 c0 prog ts : (forall t e, In e (prog t) -> 0 <= snd e) -> (forall t, ~ In t ts -> prog t = []) ->
  KInv c0 (fun x => due_all x prog ts) ts (kinit c0 prog).
Proof.
  intros P O. split; cbn [kinit k_code k_cell].
  - intros t. apply Forall_flat_map, Forall_forall. intros e He. specialize (P t e He). repeat constructor; cbn; auto. lia.
  - intros t H. now rewrite (O t H).
  - intros x. lia.
  - intros x. rewrite call_init. lia.
  - intros t x d tmp HI. exfalso. apply in_flat_map in HI. destruct HI as (e & _ & [HI|[HI|[]]]); discriminate.
Qed.

(** ** One thread only *)
Record OInv (c0 : tloc -> Z) (x : tloc) (tot : Z) t0 y : Prop := {
  oi_other : forall u, u <> t0 -> forall p, In p (k_code y u) -> kloc p <> x;
  oi_sum : k_cell y x + cdue x (k_code y t0) = c0 x + tot;
  oi_tmp : forall d tmp r, k_code y t0 = TWrite x d tmp :: r -> tmp = k_cell y x;
  oi_tl : forall p q r, k_code y t0 = p :: r -> In q r -> kwrites q = false
}.
Lemma kstep_one c0 x tot t0 y t : OInv c0 x tot t0 y -> OInv c0 x tot t0 (kstep y t).
Proof.
  intros [O S Tm Tl]. unfold kstep. destruct (k_code y t) as [|[z d|z d tmp] r] eqn:E; [split; auto| |].
  - split; cbn [k_code k_cell].
    + intros u Nu p HI. destruct (Nat.eqb_spec u t) as [->|]; [|exact (O u Nu p HI)]. destruct HI as [<-|HI].
      * apply (O t Nu (TRead z d)). rewrite E. now left.
      * apply (O t Nu p). rewrite E. now right.
    + destruct (Nat.eqb_spec t0 t) as [->|]; [|exact S]. rewrite E in S. cbn [cdue pdue] in *. lia.
    + intros d' tmp r'. destruct (Nat.eqb_spec t0 t) as [->|]; [|apply Tm]. intros X. now injection X as -> _ <- _.
    + intros p q r'. destruct (Nat.eqb_spec t0 t) as [->|]; [|apply Tl]. intros X HI. injection X as _ <-. eapply Tl; eauto.
  - split; cbn [k_code k_cell].
    + intros u Nu p HI. destruct (Nat.eqb_spec u t) as [->|]; [|exact (O u Nu p HI)]. apply (O t Nu p). rewrite E. now right.
    + destruct (Nat.eqb_spec t0 t) as [->|Nt].
      * rewrite E in S. cbn [cdue pdue] in S. destruct (tloc_eqb x z) eqn:Z; [|lia]. apply tloc_eqb_eq in Z. subst z. rewrite <- (Tm d tmp r E) in S. lia.
      * destruct (tloc_eqb x z) eqn:Z; [|exact S]. exfalso. apply tloc_eqb_eq in Z. subst z. apply (O t) with (TWrite x d tmp); auto. rewrite E. now left.
    + intros d' tmp' r'. destruct (Nat.eqb_spec t0 t) as [->|Nt].
      * intros X. subst r. exfalso. assert (W : kwrites (TWrite x d' tmp') = false) by (eapply Tl; [exact E|now left]). discriminate.
      * intros X. rewrite (Tm _ _ _ X). destruct (tloc_eqb x z) eqn:Z; [|reflexivity]. exfalso. apply tloc_eqb_eq in Z. subst z.
        apply (O t) with (TWrite x d tmp); auto. rewrite E. now left.
    + intros p q r'. destruct (Nat.eqb_spec t0 t) as [->|]; [|apply Tl]. intros X HI. subst r. eapply Tl; [exact E|now right].
Qed.
Lemma krun_one c0 x tot t0 l : forall y, OInv c0 x tot t0 y -> OInv c0 x tot t0 (krun y l).
Proof. induction l as [|t l IH]; intros y H; [exact H|]. cbn. apply IH. now apply kstep_one. Qed.

Lemma code_reads l p : In p (flat_map add_code l) -> kwrites p = false /\ exists d, In (the_id (kloc p), d) l.
Proof.
  intros HI. apply in_flat_map in HI. destruct HI as ([i d] & He & [<-|[<-|[]]]); cbn; split; eauto.
Qed.
Lemma OInv0 c0 x prog t0 : (forall u, u <> t0 -> ~ uses prog u (the_id x)) ->
  OInv c0 x (due x (prog t0)) t0 (kinit c0 prog).
Proof.
  intros U. split; cbn [kinit k_code k_cell].
  - intros u Nu p HI <-. apply code_reads in HI. destruct HI as (_ & d & HI). apply (U u Nu). now exists d.
  - now rewrite cdue_prog.
  - intros d tmp r E. exfalso. assert (W : kwrites (TWrite x d tmp) = false) by (apply (code_reads (prog t0)); rewrite E; now left). discriminate.
  - intros p q r E HI. apply (code_reads (prog t0)). rewrite E. now right.
Qed.

(** ** Progress: every scope end takes four steps *)
Local Open Scope nat_scope.
Definition kw (p : tpc) : nat := match p with TRead _ _ => 2 | TWrite _ _ _ => 1 end.
Fixpoint kws (l : list tpc) : nat := match l with [] => 0 | p :: r => kw p + kws r end.
Lemma krun_done t l : forall y, kws (k_code (krun y l) t) = kws (k_code y t) - count_occ Nat.eq_dec l t.
Proof.
  induction l as [|u l IH]; intros y; [cbn; lia|]. change (krun y (u :: l)) with (krun (kstep y u) l). rewrite IH. cbn [count_occ].
  assert (S : kws (k_code (kstep y u) t) = kws (k_code y t) - (if Nat.eq_dec u t then 1 else 0)).
  { unfold kstep. destruct (k_code y u) as [|[x d|x d tmp] r] eqn:E; cbn [k_code]; destruct (Nat.eq_dec u t) as [->|N0];
      rewrite ?Nat.eqb_refl, ?E; cbn [kws kw]; try lia; assert (Q : (t =? u) = false) by (apply Nat.eqb_neq; auto); rewrite Q; lia. }
  rewrite S. destruct (Nat.eq_dec u t); lia.
Qed.
Lemma kws_prog l : kws (flat_map add_code l) = 4 * length l.
Proof. induction l as [|e l IH]; [reflexivity|]. cbn [flat_map add_code app kws kw length]. lia. Qed.
Lemma kws_zero l : kws l = 0 -> l = [].
Proof. destruct l as [|p l]; [reflexivity|]. cbn. destruct p; cbn; lia. Qed.

(** ** Races *)
Definition locs (prog : nat -> list (nat * Z)) (y : ksys) : Prop := forall t p, In p (k_code y t) -> uses prog t (the_id (kloc p)).
Lemma kstep_locs prog y t : locs prog y -> locs prog (kstep y t).
Proof.
  intros H. unfold kstep. destruct (k_code y t) as [|[z d|z d tmp] r] eqn:E; [exact H| |]; intros u p; cbn [k_code];
    destruct (Nat.eqb_spec u t) as [->|]; try apply H.
  - intros [<-|HI]; [apply (H t (TRead z d))|apply H]; rewrite E; [now left|now right].
  - intros HI. apply H. rewrite E. now right.
Qed.
Lemma krun_locs prog l : forall y, locs prog y -> locs prog (krun y l).
Proof. induction l as [|t l IH]; intros y H; [exact H|]. cbn. apply IH. now apply kstep_locs. Qed.
Lemma locs0 prog c : locs prog (kinit c prog).
Proof. intros t p HI. cbn in HI. apply code_reads in HI. apply HI. Qed.

Lemma krun_app l1 l2 y : krun y (l1 ++ l2) = krun (krun y l1) l2.
Proof. apply fold_left_app. Qed.
Lemma k_alone t r pre : forall y, k_code y t = flat_map add_code pre ++ r ->
  exists l, k_code (krun y l) t = r /\ forall u, u <> t -> k_code (krun y l) u = k_code y u.
Proof.
  induction pre as [|e pre IH]; intros y E; [exists []; auto|].
  destruct (IH (krun y [t; t; t; t])) as (l & E1 & O1).
  { cbn [krun fold_left]. unfold kstep at 4. rewrite E. cbn [flat_map add_code app]. unfold kstep at 3. cbn [k_code]. rewrite Nat.eqb_refl.
    unfold kstep at 2. cbn [k_code]. rewrite Nat.eqb_refl. unfold kstep at 1. cbn [k_code]. rewrite !Nat.eqb_refl. cbn [k_code]. now rewrite Nat.eqb_refl. }
  exists ([t; t; t; t] ++ l). rewrite krun_app. split; [exact E1|]. intros u Nu. rewrite O1 by exact Nu.
  assert (Q : (u =? t) = false) by (now apply Nat.eqb_neq).
  assert (G : forall z, k_code (kstep z t) u = k_code z u).
  { intros z. unfold kstep. destruct (k_code z t) as [|[a b|a b c] s]; cbn [k_code]; rewrite ?Q; reflexivity. }
  cbn [krun fold_left]. now rewrite !G.
Qed.
