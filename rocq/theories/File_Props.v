(** C70: settings files over every history of reads and writes. *)
From Verif Require Import Base BaseLemmas File_Model.
Require Import String.
Local Open Scope list_scope.

(** What is relied on of the archive library: reading what was written under the same name
    gives the object back. *)
Definition round_trip {T} (ar : archive T) : Prop :=
  forall f n v b, a_body ar f n v = Some b -> a_read ar f n (a_head ar f ++ b ++ a_tail ar f) = Some v.

(** ** What a history says about a file. *)
Section Spec.
Context {T : Type}.
Inductive content := Missing | Holds (f : format) (name : string) (v : T) | Unknown.

(** The content of [p] after one operation and its outcome, given the content before: a
    complete write that returned decides it, a write that failed under way leaves it unknown,
    a refused write and everything else leave it as it was. *)
Definition after (p : path) (c : content) (o : @op T) (r : outcome) : content :=
  match o with
  | ORead _ _ _ => c
  | OWrite f n v q ow ft =>
      if String.eqb p q then
        match ow, c with
        | false, Missing | true, _ => match ft, r with Complete, Returned => Holds f n v | _, _ => Unknown end
        | false, _ => c
        end
      else c
  end.
Fixpoint story (p : path) (c : content) (l : list (@op T)) (rs : list outcome) : content :=
  match l, rs with o :: l, r :: rs => story p (after p c o r) l rs | _, _ => c end.
End Spec.
Arguments content : clear implicits.

(** [c] is true of the file. *)
Definition describes {T} (ar : archive T) (fs : files) (p : path) (c : content T) : Prop :=
  match c with
  | Missing => fs p = None
  | Holds f n v => exists b, a_body ar f n v = Some b /\ fs p = Some (a_head ar f ++ b ++ a_tail ar f)
  | Unknown => fs p <> None
  end.
(** Any file system is described by some starting content. *)
Definition initial {T} (fs : files) (p : path) : content T := match fs p with None => Missing | Some _ => Unknown end.

Section Histories.
Context {T : Type} (ar : archive T).

Lemma step_describes fs p c o r fs' : describes ar fs p c -> step ar fs o = (r, fs') -> describes ar fs' p (after p c o r).
Proof.
  intros D E. destruct o as [f n q|f n v q ow ft]; cbn in E.
  - injection E as <- <-. exact D.
  - unfold write_file in E. cbn [after]. destruct (String.eqb_spec p q) as [-> | Ne].
    + assert (P : forall x, put fs q x q = Some x) by (intros x; unfold put; now rewrite String.eqb_refl).
      destruct c as [|f' n' v'|]; cbn in D.
      * rewrite D in E. rewrite andb_comm in E. cbn in E.
        assert (G : describes ar fs' q (match ft, r with Complete, Returned => Holds f n v | _, _ => Unknown end)).
        { destruct (a_body ar f n v) as [b|] eqn:Eb; [destruct ft as [|k []|k]|]; injection E as <- <-; cbn; rewrite ?P; try congruence.
          - exists b. auto.
          - destruct ft; cbn; rewrite P; congruence. }
        destruct ow; exact G.
      * destruct D as (b' & Eb' & D). rewrite D in E. destruct ow; cbn in E.
        -- destruct (a_body ar f n v) as [b|] eqn:Eb; [destruct ft as [|k []|k]|]; injection E as <- <-; cbn; rewrite ?P; try congruence.
           ++ exists b. auto.
           ++ destruct ft; cbn; rewrite P; congruence.
        -- injection E as <- <-. exists b'. auto.
      * destruct (fs q) as [y|] eqn:Ey; [|congruence]. destruct ow; cbn in E.
        -- destruct (a_body ar f n v) as [b|] eqn:Eb; [destruct ft as [|k []|k]|]; injection E as <- <-; cbn; rewrite ?P; try congruence.
           ++ exists b. auto.
           ++ destruct ft; cbn; rewrite P; congruence.
        -- injection E as <- <-. cbn. congruence.
    + assert (S : fs' p = fs p).
      { assert (Q : forall x, put fs q x p = fs p) by (intros x; unfold put; destruct (String.eqb_spec p q); congruence).
        destruct (negb ow && _); [now injection E as _ <-|].
        destruct (a_body ar f n v) as [b|]; [destruct ft as [|k []|k]|]; injection E as _ <-; apply Q. }
      unfold describes in *. now rewrite S.
Qed.
Lemma run_describes l : forall fs p c rs fs', describes ar fs p c -> run ar fs l = (rs, fs') -> describes ar fs' p (story p c l rs).
Proof.
  induction l as [|o l IH]; intros fs p c rs fs' D E; cbn in E.
  - injection E as <- <-. exact D.
  - destruct (step ar fs o) as [r fs1] eqn:E1. destruct (run ar fs1 l) as [rs2 fs2] eqn:E2. injection E as <- <-. cbn.
    eapply IH; [|exact E2]. eapply step_describes; eauto.
Qed.

(** After any history of reads and writes, complete, refused, failing or interrupted, on
    any files: reading a file gives the object of the last write to it that was carried out
    and reported success, unless that write or a later one failed under way; a file that
    does not exist is reported by an exception; no read changes a file. *)
Theorem C70_histories :
  round_trip ar ->
  forall fs l rs fs' p f n, run ar fs l = (rs, fs') ->
    match story p (initial fs p) l rs with
    | Missing => read_file ar f fs' n p = Throw /\ step ar fs' (ORead f n p) = (Threw, fs')
    | Holds f' n' v => f' = f -> n' = n -> read_file ar f fs' n p = Ok v /\ step ar fs' (ORead f n p) = (Returned, fs')
    | Unknown => True
    end /\ snd (step ar fs' (ORead f n p)) = fs'.
Proof.
  intros RT fs l rs fs' p f n E. split; [|reflexivity].
  assert (D : describes ar fs' p (story p (initial fs p) l rs)).
  { eapply run_describes; [|exact E]. unfold initial, describes. destruct (fs p); [discriminate|reflexivity]. }
  destruct (story p (initial fs p) l rs) as [|f' n' v|]; cbn in D; [| |exact I].
  - cbn [step]. unfold read_file. rewrite D. auto.
  - intros -> ->. destruct D as (b & Eb & D). cbn [step]. unfold read_file. rewrite D, (RT f n v b Eb). auto.
Qed.

(** A write that is not refused and that the archive and the device accept reports success;
    a refused one, and one whose object the archive does not accept, throws. *)
Theorem C70_reports :
  forall fs f n v p ow ft,
    fst (step ar fs (OWrite f n v p ow ft)) =
      match ow, fs p with
      | false, Some _ => Threw
      | _, _ => match a_body ar f n v, ft with
                | None, _ => Threw
                | _, Complete | _, Short _ false => Returned
                | _, Short _ true => Threw
                | _, Dies _ => Died
                end
      end.
Proof.
  intros fs f n v p ow ft. cbn [step]. unfold write_file. destruct ow, (fs p); cbn; try reflexivity; destruct (a_body ar f n v), ft as [|? []|]; reflexivity.
Qed.

(** Without permission to overwrite, no existing file is ever changed: the write throws. *)
Theorem C70_no_overwrite :
  forall fs f n v p ft, fs p <> None -> write_file ar f fs n v p false ft = (Threw, fs).
Proof. intros fs f n v p ft H. unfold write_file. destruct (fs p); [reflexivity|congruence]. Qed.
Corollary C70_histories_keep_files :
  forall l fs rs fs', (forall o, In o l -> match o with OWrite _ _ _ _ ow _ => ow = false | _ => True end) ->
    run ar fs l = (rs, fs') -> forall p c, fs p = Some c -> fs' p = Some c.
Proof.
  induction l as [|o l IH]; intros fs rs fs' Ho E p c Hp; cbn in E; [now injection E as _ <-|].
  destruct (step ar fs o) as [r fs1] eqn:E1. destruct (run ar fs1 l) as [rs2 fs2] eqn:E2. injection E as _ <-.
  eapply IH; [intros o' H'; apply Ho; now right|exact E2|].
  specialize (Ho o (or_introl eq_refl)). destruct o as [f n q|f n v q ow ft]; cbn in E1; [now injection E1 as _ <-|]. subst ow.
  destruct (String.eqb_spec p q) as [-> | Ne].
  - rewrite C70_no_overwrite in E1 by congruence. now injection E1 as _ <-.
  - assert (Q : forall x, put fs q x p = fs p) by (intros x; unfold put; destruct (String.eqb_spec p q); congruence).
    unfold write_file in E1. destruct (negb false && _); [now injection E1 as _ <-|].
    destruct (a_body ar f n v) as [b|]; [destruct ft as [|k []|k]|]; injection E1 as _ <-; now rewrite Q.
Qed.

(** A write touches its own file only, whatever happens; if it is cut short, the file
    holds the beginning of the new contents, never part of the old. *)
Theorem C70_own_file_only :
  forall fs f n v p ow ft r fs', write_file ar f fs n v p ow ft = (r, fs') ->
    (forall q, q <> p -> fs' q = fs q) /\
    (fs' p = fs p \/ (forall b, a_body ar f n v = Some b -> exists k, fs' p = Some (firstn k (a_head ar f ++ b ++ a_tail ar f)))).
Proof.
  intros fs f n v p ow ft r fs' E. unfold write_file in E.
  assert (Q : forall x q, q <> p -> put fs p x q = fs q) by (intros x q H; unfold put; destruct (String.eqb_spec q p); congruence).
  assert (P : forall x, put fs p x p = Some x) by (intros x; unfold put; now rewrite String.eqb_refl).
  destruct (negb ow && _); [injection E as _ <-; auto|].
  destruct (a_body ar f n v) as [b|]; [destruct ft as [|k []|k]|]; injection E as _ <-; (split; [intros; now apply Q|right; rewrite P]).
  - intros ? [= <-]. eexists. now rewrite firstn_all.
  - intros ? [= <-]. eauto.
  - intros ? [= <-]. eauto.
  - intros ? [= <-]. eauto.
  - discriminate.
Qed.
End Histories.
Print Assumptions C70_histories. Print Assumptions C70_reports. Print Assumptions C70_no_overwrite. Print Assumptions C70_histories_keep_files. Print Assumptions C70_own_file_only.

(** A small archive: names are the letters XML allows in tags (here: the non-empty ones);
    an object is a number. *)
Definition demo_ar : archive nat := {|
  a_head := fun f => match f with XML => [60; 62] | Binary => [22] end;
  a_body := fun f n v => match f, n with XML, EmptyString => None | _, _ => Some [String.length n; v] end;
  a_tail := fun f => match f with XML => [60; 47; 62] | Binary => [] end;
  a_read := fun f n c =>
    match f, c with
    | XML, 60 :: 62 :: l :: v :: _ => if l =? String.length n then Some v else None
    | Binary, 22 :: l :: v :: _ => Some v
    | _, _ => None
    end |}.
Local Open Scope string_scope.
Example C70_nonvacuous :
  round_trip demo_ar /\
  exists rs fs, run demo_ar (fun _ => None) [OWrite XML "thr" 7 "a" true Complete; OWrite XML "thr" 9 "a" false Complete;
      OWrite Binary "thr" 8 "b" true (Dies 1); ORead XML "thr" "a"] = (rs, fs) /\
    rs = ([Returned; Threw; Died; Returned])%list /\
    story "a" (initial (fun _ => None) "a") [OWrite XML "thr" 7 "a" true Complete; OWrite XML "thr" 9 "a" false Complete;
      OWrite Binary "thr" 8 "b" true (Dies 1); ORead XML "thr" "a"] rs = Holds XML "thr" 7 /\
    read_file demo_ar XML fs "thr" "a" = Ok 7.
Proof.
  split.
  - intros [] n v b; cbn; [destruct n as [|c n]; [discriminate|]|]; intros [= <-]; cbn; [now rewrite Nat.eqb_refl|reflexivity].
  - eexists; eexists. split; [reflexivity|]. repeat split; vm_compute; reflexivity.
Qed.

(** Known violations.  A write is not atomic: a crash, a full device or a name the archive
    does not accept destroys the object stored before. *)
Definition loses (ow : fate) (name : string) : Prop :=
  exists fs, read_file demo_ar XML fs "thr" "a" = Ok 7 /\
    let (r, fs') := write_file demo_ar XML fs name 9 "a" true ow in
    r <> Returned /\ read_file demo_ar XML fs' "thr" "a" = Throw.
Theorem C70_not_atomic_refuted : loses (Dies 2) "thr" /\ loses (Short 3 true) "thr" /\ loses Complete "".
Proof.
  repeat split; exists (fun p => if String.eqb p "a" then Some [60; 62; 3; 7; 60; 47; 62]%list else None); (split; [reflexivity|]); vm_compute; split; congruence.
Qed.
(** A write can report success although the object is not in the file. *)
Theorem C70_silent_failure_refuted :
  exists fs, let (r, fs') := write_file demo_ar XML fs "thr" 9 "a" true (Short 3 false) in
    r = Returned /\ read_file demo_ar XML fs' "thr" "a" = Throw.
Proof. exists (fun _ => None). vm_compute. split; reflexivity. Qed.
Print Assumptions C70_not_atomic_refuted. Print Assumptions C70_silent_failure_refuted.
