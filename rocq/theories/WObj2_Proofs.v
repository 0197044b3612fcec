(** Which matrix a window shows: proofs for WObj_Props.v. *)
From Verif Require Import BaseLemmas Storage_Model Dense_Model Alias_Spec Alias_Proofs WObj_Model WObj_Spec WObj_Proofs.

Section P.
Context {T : Type} (dbg : bool).
Implicit Types (a : astate T) (x : wst T) (m : wsys T).

(** ** Proxies refer to memory that is never released *)
Definition kinds (r1 r2 : list (region T)) : Prop :=
  forall i g, nth_error r1 i = Some g -> exists g', nth_error r2 i = Some g' /\ r_kind g' = r_kind g.
Lemma kinds_refl r : kinds r r. Proof. intros i g H. eauto. Qed.
Lemma kinds_app r l : kinds r (r ++ l).
Proof. intros i g H. exists g. split; auto. rewrite nth_error_app1; auto. apply nth_error_Some. congruence. Qed.
Lemma kinds_upd r i g c : nth_error r i = Some g -> kinds r (upd r i (mkRegion (r_kind g) c)).
Proof.
  intros H j g' Hj. destruct (Nat.eq_dec j i) as [->|N].
  - eexists. split; [apply nth_error_upd_eq; apply nth_error_Some; congruence|]. cbn. congruence.
  - exists g'. now rewrite nth_error_upd_ne by congruence.
Qed.
Lemma kinds_write a h f : kinds (regions a) (regions (write a h f)).
Proof.
  destruct h as [b|r n|r n]; cbn; try apply kinds_refl;
    (destruct (nth_error (regions a) r) as [g|] eqn:E; [|apply kinds_refl]; cbn [regions]; now apply kinds_upd).
Qed.

Definition vok (regs : list (region T)) (h : option handle) : Prop :=
  match h with Some (HView r _) => exists g, nth_error regs r = Some g /\ r_kind g <> Obtained | _ => True end.
Definition views a : Prop := forall s h, nth_error (handles a) s = Some h -> vok (regions a) h.
Lemma vok_kinds r1 r2 h : kinds r1 r2 -> vok r1 h -> vok r2 h.
Proof.
  intros K. destruct h as [[b|r n|r n]|]; cbn; auto. intros (g & Hg & N). destruct (K _ _ Hg) as (g' & Hg' & E).
  exists g'. rewrite E. auto.
Qed.

Definition plain (o : op T) : Prop := match o with OLoad _ _ | OProxyOf _ => False | _ => True end.

Lemma astep_views a o a1 z : plain o -> astep a o = Some (a1, z) -> views a -> views a1 /\ kinds (regions a) (regions a1).
Proof.
  intros PL E V. destruct o as [|n|vs|s|s|s|vs|r n|s|s n|d s|d s|u w|s v|s i v|s i|s vs|s]; cbn [astep plain] in E, PL;
  try contradiction;
  repeat match type of E with
  | match live a ?s with _ => _ end = _ => let H := fresh "L" in destruct (live a s) eqn:H; [|discriminate E]
  | match contents a ?h with _ => _ end = _ => let H := fresh "C" in destruct (contents a h) eqn:H; [|discriminate E]
  | match nth_error ?l ?i with _ => _ end = _ => let H := fresh "N" in destruct (nth_error l i) eqn:H; try discriminate E
  | match r_kind ?g with _ => _ end = _ => let H := fresh "K" in destruct (r_kind g) eqn:H; try discriminate E
  | (if ?b then _ else _) = _ => let H := fresh "B" in destruct b eqn:H; try discriminate E
  end; apply (f_equal (option_map fst)) in E; cbn [option_map fst] in E; injection E as E; subst a1; cbn [add put region_new fresh regions handles].
  all: repeat match goal with
       | H : live ?a ?s = Some ?h |- _ =>
           let Q := fresh "Q" in
           assert (Q : nth_error (handles a) s = Some (Some h)) by
             (unfold live in H; destruct (nth_error (handles a) s) as [[?|]|]; congruence);
           apply V in Q; clear H
       end.
  all: split; [intros t h' Ht; cbn [add put region_new fresh regions handles] in Ht |- *
              |try apply kinds_refl; try apply kinds_app; try apply kinds_write].
  all: rewrite ?write_handles in Ht.
  all: repeat (first [apply upd_cases in Ht | apply snoc_cases in Ht];
               destruct Ht as [[_ ->]|[_ Ht]]; [try exact I|]);
       try (eapply vok_kinds; [|first [eassumption | eapply V; eassumption]];
            first [apply kinds_refl | apply kinds_app | apply kinds_write]);
       auto.
  - cbn. eexists. split; [apply snoc_last|]. discriminate.
  - cbn. exists r0. split; auto. congruence.
Qed.

(** ** The window shows part of matrix [t] *)
Definition onto x (w t nr nc br bc : nat) : Prop :=
  exists r c g n h, nth_error (x_dims x) t = Some (r, c) /\ live (x_mem x) t = Some h /\
    (h = HOwn g n \/ h = HView g n) /\ n = r * c /\ br + nr <= r /\ bc + nc <= c /\
    swin_of x w = Some (mkSwin g (br + bc * r) nr nc r (Some c)).

Lemma live_nth a s h : live a s = Some h <-> nth_error (handles a) s = Some (Some h).
Proof. unfold live. destruct (nth_error (handles a) s) as [[k|]|]; split; intros H; congruence. Qed.

(** What an operation on the memories leaves of the handle of another matrix. *)
Definition touches (o : op T) (t : nat) : bool :=
  match o with
  | OResize s _ | OMoveCtor s | ODestroy s | OLoad s _ => s =? t
  | OCopyAssign d s => (d =? t) && negb (s =? t)
  | OMoveAssign d s => (d =? t) || (s =? t)
  | OSwap u w => (u =? t) || (w =? t)
  | _ => false
  end.
Lemma astep_untouched a o a1 z t h : astep a o = Some (a1, z) -> touches o t = false ->
  nth_error (handles a) t = Some h -> nth_error (handles a1) t = Some h.
Proof.
  intros E TO H. destruct o as [|n|vs|s|s|s|vs|r n|s|s n|d s|d s|u w|s v|s i v|s i|s vs|s]; cbn [astep touches] in E, TO;
  repeat match type of E with
  | match live a ?s with _ => _ end = _ => let H := fresh "L" in destruct (live a s) eqn:H; [|discriminate E]
  | match contents a ?h with _ => _ end = _ => let H := fresh "C" in destruct (contents a h) eqn:H; [|discriminate E]
  | match nth_error ?l ?i with _ => _ end = _ => let H := fresh "N" in destruct (nth_error l i) eqn:H; try discriminate E
  | match r_kind ?g with _ => _ end = _ => let H := fresh "K" in destruct (r_kind g) eqn:H; try discriminate E
  | (if ?b then _ else _) = _ => let H := fresh "B" in destruct b eqn:H; try discriminate E
  end; apply (f_equal (option_map fst)) in E; cbn [option_map fst] in E; injection E as E; subst a1;
  cbn [add put region_new fresh regions handles]; rewrite ?write_handles; auto;
  repeat match goal with
  | H : _ || _ = false |- _ => apply orb_false_elim in H; destruct H
  | H : (_ =? _) = false |- _ => apply Nat.eqb_neq in H
  end;
  try (rewrite ?nth_error_upd_ne by congruence; auto; now apply snoc_old).
  all: try (apply andb_false_elim in TO; destruct TO as [TO|TO];
    [apply Nat.eqb_neq in TO|apply negb_false_iff in TO; apply Nat.eqb_eq in TO; subst s]).
  all: try (rewrite nth_error_upd_ne by congruence; exact H).
  all: rewrite nth_error_upd_ne by congruence; exact H.
Qed.

Lemma onto_mem x so ds x1 z w t nr nc br bc : on_mem x so ds = Some (x1, z) -> touches so t = false ->
  (forall d, nth_error (x_dims x) t = Some d -> nth_error ds t = Some d) ->
  onto x w t nr nc br bc -> onto x1 w t nr nc br bc.
Proof.
  intros E TO D (r & c & g & n & h & Hd & Hl & O). unfold on_mem in E.
  destruct (astep (x_mem x) so) as [[a1 o]|] eqn:S; [|discriminate]. injection E as <- _.
  exists r, c, g, n, h. cbn [x_dims x_mem]. split; [auto|]. split; [|exact O].
  apply live_nth. apply live_nth in Hl. eapply astep_untouched; eauto.
Qed.

Lemma snoc_dims {A} (l : list A) e t d : nth_error l t = Some d -> nth_error (l ++ [e]) t = Some d.
Proof. apply snoc_old. Qed.
Lemma upd_dims {A} (l : list A) s e t d : s <> t -> nth_error l t = Some d -> nth_error (upd l s e) t = Some d.
Proof. intros N H. now rewrite nth_error_upd_ne by congruence. Qed.

Lemma set_onto x r f w t nr nc br bc : onto x w t nr nc br bc -> onto (set_region x r f) w t nr nc br bc.
Proof.
  intros H. unfold set_region. destruct (nth_error (regions (x_mem x)) r) as [k|]; [|exact H].
  destruct H as (r' & c & g & n & h & Hd & Hl & O). exists r', c, g, n, h. split; [exact Hd|]. split; [|exact O].
  apply live_nth. apply live_nth in Hl. exact Hl.
Qed.
Lemma wins_onto x ws w t nr nc br bc : (forall v, swin_of x w = Some v -> swin_of (mkWst (x_mem x) (x_dims x) ws) w = Some v) ->
  onto x w t nr nc br bc -> onto (mkWst (x_mem x) (x_dims x) ws) w t nr nc br bc.
Proof.
  intros E (r & c & g & n & h & Hd & Hl & O1 & O2 & O3 & O4 & O5). exists r, c, g, n, h. cbn [x_mem x_dims]. repeat (split; auto).
Qed.
Lemma swin_nth x w v : swin_of x w = Some v <-> nth_error (x_wins x) w = Some (Some v).
Proof. unfold swin_of. destruct (nth_error (x_wins x) w) as [[k|]|]; split; intros H; congruence. Qed.
Lemma wins_app x l w t nr nc br bc : onto x w t nr nc br bc -> onto (mkWst (x_mem x) (x_dims x) (x_wins x ++ [l])) w t nr nc br bc.
Proof. apply wins_onto. intros v. rewrite !swin_nth. apply snoc_old. Qed.
Lemma wins_upd x d l w t nr nc br bc : d <> w -> onto x w t nr nc br bc -> onto (mkWst (x_mem x) (x_dims x) (upd (x_wins x) d l)) w t nr nc br bc.
Proof. intros N. apply wins_onto. intros v. rewrite !swin_nth. cbn [x_wins]. intros H. now rewrite nth_error_upd_ne by congruence. Qed.

Ltac split_x E :=
  repeat match type of E with
  | match nth_error ?l ?i with _ => _ end = _ => let H := fresh "N" in destruct (nth_error l i) eqn:H; try discriminate E
  | match swin_of ?x ?w with _ => _ end = _ => let H := fresh "V" in destruct (swin_of x w) eqn:H; try discriminate E
  | match seen ?x ?w with _ => _ end = _ => let H := fresh "Sn" in destruct (seen x w) eqn:H; try discriminate E
  | match v_ldc ?w with _ => _ end = _ => let H := fresh "Ld" in destruct (v_ldc w) eqn:H; try discriminate E
  | match window_values ?b ?w with _ => _ end = _ => let H := fresh "Wv" in destruct (window_values b w) eqn:H; try discriminate E
  | (let (_, _) := ?p in _) = _ => destruct p
  | match live ?x ?w with _ => _ end = _ => let H := fresh "Lv" in destruct (live x w) as [[?|? ?|? ?]|] eqn:H; try discriminate E
  | (if ?b then _ else _) = _ => let H := fresh "B" in destruct b eqn:H; try discriminate E
  end.

Lemma onto_step x m o x1 z w s t nr nc br bc : WRel x m -> xstep x o = Some (x1, z) ->
  onto x w s nr nc br bc -> holder1 (length (x_dims x)) s o = Some t -> keeps_window w o = true ->
  onto x1 w t nr nc br bc.
Proof.
  intros R E O H K. pose proof (wr_len _ _ R) as LN.
  destruct o as [r c|vs|b r c|s0|s0|d s0|d s0|u w0|s0 r c|s0 v|s0 i j v|s0 i j|s0|s0 nr' nc' br' bc'|w0|w0|d w0|d w0|w0 v|w0 i j v|w0 i j|w0|w0|w0 chk zz|w0];
    cbn [xstep] in E; cbn [holder1] in H; cbn [keeps_window] in K; split_x E;
    try (injection H as <-);
    try (eapply onto_mem; [exact E|reflexivity|intros ? ?; auto; now apply snoc_dims|exact O]; fail).
  - (* move construction *)
    destruct (Nat.eqb_spec s0 s) as [->|NE].
    + injection H as <-. destruct O as (r & c & g & n & h & Hd & Hl & O). unfold on_mem in E. cbn [astep] in E.
      rewrite Hl in E. injection E as <- <-. exists r, c, g, n, h. cbn [x_dims x_mem].
      rewrite Hd in N. injection N as <-. split; [apply snoc_last|]. split; [|exact O].
      apply live_nth. cbn [put add handles]. apply live_nth in Hl. pose proof (nth_lt _ _ _ Hl).
      rewrite nth_error_upd_ne by lia. rewrite LN. apply snoc_last.
    + injection H as <-. eapply onto_mem; [exact E|cbn; now apply Nat.eqb_neq|intros ? ?; now apply snoc_dims|exact O].
  - (* copy assignment *)
    destruct ((d =? s) && negb (s0 =? s)) eqn:B; [discriminate|]. injection H as <-.
    eapply onto_mem; [exact E|exact B| |exact O]. intros e He.
    destruct (Nat.eq_dec d s) as [->|NE]; [|now apply upd_dims].
    rewrite Nat.eqb_refl in B. cbn in B. apply negb_false_iff in B. apply Nat.eqb_eq in B. subst s0.
    rewrite N in He. injection He as ->. apply nth_error_upd_eq. eapply nth_lt; eassumption.
  - (* move assignment *)
    destruct (Nat.eqb_spec s0 s) as [->|NE].
    + destruct (Nat.eqb_spec d s) as [->|NE]; [discriminate|]. injection H as <-.
      destruct O as (r & c & g & n & h & Hd & Hl & O). unfold on_mem in E. cbn [astep] in E.
      destruct (live (x_mem x) d) as [k|] eqn:Ld; [|discriminate]. rewrite Hl in E. injection E as <- <-.
      exists r, c, g, n, h. cbn [x_dims x_mem]. rewrite Hd in N. injection N as <-.
      split; [apply nth_error_upd_eq; eapply nth_lt; eassumption|]. split; [|exact O].
      apply live_nth. cbn [put handles]. apply live_nth in Ld. rewrite nth_error_upd_ne by congruence.
      apply nth_error_upd_eq. eapply nth_lt; eassumption.
    + destruct (Nat.eqb_spec d s) as [->|NE']; [discriminate|]. injection H as <-.
      eapply onto_mem; [exact E| |intros e He; now apply upd_dims|exact O].
      cbn. apply Nat.eqb_neq in NE, NE'. now rewrite NE, NE'.
  - (* swap *)
    destruct O as (r & c & g & n & h & Hd & Hl & O). pose proof E as E'. unfold on_mem in E. cbn [astep] in E.
    destruct (live (x_mem x) u) as [hu|] eqn:Lu; [|discriminate]. destruct (live (x_mem x) w0) as [hw|] eqn:Lw; [|discriminate].
    injection E as <- <-. apply live_nth in Lu, Lw.
    pose proof (nth_lt _ _ _ Lu) as Bu. pose proof (nth_lt _ _ _ Lw) as Bw.
    pose proof (nth_lt _ _ _ N) as Cu. pose proof (nth_lt _ _ _ N0) as Cw.
    exists r, c, g, n, h. cbn [x_dims x_mem put handles].
    destruct (Nat.eqb_spec u s) as [->|NE].
    + injection H as <-. rewrite Hd in N. injection N as <-.
      split; [apply nth_error_upd_eq; now rewrite upd_length|]. split; [|exact O].
      apply live_nth. cbn [put handles]. rewrite (proj1 (live_nth _ _ _) Hl) in Lu. injection Lu as ->.
      apply nth_error_upd_eq. now rewrite upd_length.
    + destruct (Nat.eqb_spec w0 s) as [->|NE'].
      * injection H as <-. rewrite Hd in N0. injection N0 as <-.
        split; [rewrite nth_error_upd_ne by congruence; now apply nth_error_upd_eq|]. split; [|exact O].
        apply live_nth. cbn [put handles]. rewrite (proj1 (live_nth _ _ _) Hl) in Lw. injection Lw as ->.
        rewrite nth_error_upd_ne by congruence. now apply nth_error_upd_eq.
      * injection H as <-. rewrite !nth_error_upd_ne by congruence. split; [exact Hd|]. split; [|exact O].
        apply live_nth. cbn [put handles]. rewrite !nth_error_upd_ne by congruence. now apply live_nth.
  - destruct (Nat.eqb_spec s0 s) as [->|NE]; [discriminate|]. injection H as <-.
    eapply onto_mem; [exact E|cbn; now apply Nat.eqb_neq|intros e He; now apply upd_dims|exact O].
  - destruct (Nat.eqb_spec s0 s) as [->|NE]; [discriminate|]. injection H as <-.
    eapply onto_mem; [exact E|cbn; now apply Nat.eqb_neq|intros e He; exact He|exact O].
  - injection E as <- _. now apply wins_app.
  - injection E as <- _. now apply wins_app.
  - injection E as <- _. now apply wins_app.
  - injection E as <- _. now apply wins_app.
  - injection E as <- _. apply wins_upd; auto. apply negb_true_iff, Nat.eqb_neq in K. exact K.
  - injection E as <- _. apply wins_upd; auto. apply negb_true_iff, Nat.eqb_neq in K. exact K.
  - injection E as <- _. now apply set_onto.
  - injection E as <- _. now apply set_onto.
  - injection E as <- _. exact O.
  - injection E as <- _. exact O.
  - injection E as <- _. exact O.
  - injection E as <- _. apply wins_upd; auto. apply negb_true_iff, Nat.eqb_neq in K. exact K.
Qed.

Lemma set_region_dims x r f : x_dims (set_region x r f) = x_dims x /\ x_wins (set_region x r f) = x_wins x.
Proof. unfold set_region. destruct (nth_error (regions (x_mem x)) r); auto. Qed.

Lemma xstep_counts x o x1 z : xstep x o = Some (x1, z) ->
  length (x_dims x1) = (if makes_matrix o then S (length (x_dims x)) else length (x_dims x)) /\
  length (x_wins x1) = (if makes_window o then S (length (x_wins x)) else length (x_wins x)).
Proof.
  intros E.
  destruct o as [r c|vs|b r c|s0|s0|d s0|d s0|u w0|s0 r c|s0 v|s0 i j v|s0 i j|s0|s0 nr' nc' br' bc'|w0|w0|d w0|d w0|w0 v|w0 i j v|w0 i j|w0|w0|w0 chk zz|w0];
    cbn [xstep] in E; split_x E; cbn [makes_matrix makes_window];
    try (unfold on_mem in E; match type of E with match astep ?a ?o with _ => _ end = _ => destruct (astep a o) as [[? ?]|] end; [|discriminate E]);
    injection E as <- _; cbn [x_dims x_wins];
    rewrite ?(proj1 (set_region_dims _ _ _)), ?(proj2 (set_region_dims _ _ _)), ?app_length, ?upd_length; cbn [length];
    rewrite ?upd_length; lia.
Qed.

Lemma xrun_app o1 : forall x o2, xrun x (o1 ++ o2) =
  match xrun x o1 with
  | Some (x1, z1) => match xrun x1 o2 with Some (x2, z2) => Some (x2, z1 ++ z2) | None => None end
  | None => None
  end.
Proof.
  induction o1 as [|o o1 IH]; intros x o2; cbn [app xrun].
  - destruct (xrun x o2) as [[? ?]|]; reflexivity.
  - destruct (xstep x o) as [[x1 z]|]; [|reflexivity]. rewrite IH. destruct (xrun x1 o1) as [[x2 z2]|]; [|reflexivity].
    destruct (xrun x2 o2) as [[? ?]|]; reflexivity.
Qed.

Lemma xrun_counts ops : forall x x1 zs, xrun x ops = Some (x1, zs) ->
  length (x_dims x1) = length (x_dims x) + matrices ops /\ length (x_wins x1) = length (x_wins x) + windows ops.
Proof.
  unfold matrices, windows. induction ops as [|o ops IH]; intros x x1 zs E; cbn [xrun] in E.
  - injection E as <- _. cbn. lia.
  - destruct (xstep x o) as [[x2 z]|] eqn:S; [|discriminate]. destruct (xrun x2 ops) as [[x3 z3]|] eqn:S3; [|discriminate].
    injection E as <- _. destruct (xstep_counts _ _ _ _ S) as (C1 & C2). destruct (IH _ _ _ S3) as (D1 & D2).
    cbn [filter]. destruct (makes_matrix o), (makes_window o); cbn [length]; lia.
Qed.

Lemma onto_run ops : forall x m x1 zs w s t nr nc br bc, WRel x m -> xrun x ops = Some (x1, zs) ->
  onto x w s nr nc br bc -> holder (length (x_dims x)) s ops = Some t -> forallb (keeps_window w) ops = true ->
  onto x1 w t nr nc br bc.
Proof.
  induction ops as [|o ops IH]; intros x m x1 zs w s t nr nc br bc R E O H K; cbn [xrun holder forallb] in *.
  - injection E as <- _. now injection H as <-.
  - destruct (xstep x o) as [[x2 z]|] eqn:S; [|discriminate]. destruct (xrun x2 ops) as [[x3 z3]|] eqn:S3; [|discriminate].
    injection E as <- _. apply andb_prop in K. destruct K as (K1 & K2).
    destruct (holder1 (length (x_dims x)) s o) as [s1|] eqn:H1; [|discriminate].
    destruct (xstep_sim dbg _ _ _ _ _ R S) as (m2 & _ & R2).
    rewrite <- (proj1 (xstep_counts _ _ _ _ S)) in H.
    eapply IH; [exact R2|exact S3| |exact H|exact K2]. eapply onto_step; [exact R|exact S|exact O|exact H1|exact K1].
Qed.

(** A fresh window shows its parent. *)
Lemma onto_new x s nr nc br bc x1 z : xstep x (VNew s nr nc br bc) = Some (x1, z) -> onto x1 (length (x_wins x)) s nr nc br bc.
Proof.
  intros E. cbn [xstep] in E. split_x E; injection E as <- _; apply andb_prop in B; destruct B as (B & B3);
    apply andb_prop in B; destruct B as (B1 & B2); apply Nat.leb_le in B1, B2; apply Nat.eqb_eq in B3;
    (do 5 eexists; cbn [x_dims x_mem]; split; [exact N|]; split; [exact Lv|]; split; [eauto|]; split; [exact B3|];
     split; [exact B1|]; split; [exact B2|]; apply swin_nth; cbn [x_wins]; apply snoc_last).
Qed.

(** Then element access through the window is element access to the matrix. *)
Lemma onto_access x m w t nr nc br bc i j : WRel x m -> onto x w t nr nc br bc -> i < nr -> j < nc ->
  wstep dbg m (VRead w i j) = wstep dbg m (WRead t (br + i) (bc + j)) /\
  forall v, wstep dbg m (VWrite w i j v) = wstep dbg m (WWrite t (br + i) (bc + j) v).
Proof.
  intros R (r & c & g & n & h & Hd & Hl & Hh & -> & B1 & B2 & Hw) Hi Hj.
  destruct (swin_get _ _ _ _ R Hw) as (_ & Gw & _). destruct (live_get _ _ _ _ (wr_mem _ _ R) Hl) as (_ & Go).
  assert (P : position dbg (own_shape ColMajor r c) (br + i) (bc + j) = Ok (br + i + (bc + j) * r)).
  { rewrite pos_ok by (cbn; auto; lia). reflexivity. }
  assert (Q : position dbg (w_shape (wconc (mkSwin g (br + bc * r) nr nc r (Some c)))) i j = Ok (i + j * r)).
  { rewrite pos_ok by (cbn; auto; lia). reflexivity. }
  assert (A : br + bc * r + (i + j * r) = br + i + (bc + j) * r) by lia.
  assert (D : st_data (conc h) = Some g) by (destruct Hh as [->| ->]; reflexivity).
  assert (WC : w_cell dbg m (wconc (mkSwin g (br + bc * r) nr nc r (Some c))) i j =
    do kb <- h_cell (blocks (w_sys m)) (Some g) (br + i + (bc + j) * r); Ok (kb, br + i + (bc + j) * r)).
  { unfold w_cell. rewrite Q. cbn [bind]. cbn [wconc w_data w_off v_region v_first]. now rewrite A. }
  split; [|intros v]; cbn [wstep]; rewrite Gw, (dims_get _ _ _ _ R Hd); cbn [bind fst snd]; rewrite P; cbn [bind];
    rewrite WC; unfold w_storage; cbn [step]; unfold s_read, s_write, quiet; rewrite Go; cbn [bind]; rewrite D;
    destruct (h_cell (blocks (w_sys m)) (Some g) (br + i + (bc + j) * r)) as [[k b]| | | |]; cbn [bind fst snd]; try reflexivity.
  destruct (rdc (b_cells b) (br + i + (bc + j) * r)); cbn [bind]; try reflexivity.
  destruct m; reflexivity.
Qed.

(** ** Memory that is there *)
Lemma xstep_views x o x1 z : xstep x o = Some (x1, z) -> views (x_mem x) -> views (x_mem x1).
Proof.
  intros E V.
  assert (M : forall so ds, plain so -> on_mem x so ds = Some (x1, z) -> views (x_mem x1)).
  { intros so ds PL F. unfold on_mem in F. destruct (astep (x_mem x) so) as [[a1 q]|] eqn:S; [|discriminate].
    injection F as <- _. cbn [x_mem]. eapply astep_views; eauto. }
  assert (SR : forall r f, views (x_mem (set_region x r f))).
  { intros r f. unfold set_region. destruct (nth_error (regions (x_mem x)) r) as [g|] eqn:Hg; [|exact V].
    intros t h Ht. cbn [x_mem regions handles] in *. eapply vok_kinds; [now apply kinds_upd|eapply V; eauto]. }
  destruct o as [r c|vs|b r c|s0|s0|d s0|d s0|u w0|s0 r c|s0 v|s0 i j v|s0 i j|s0|s0 nr' nc' br' bc'|w0|w0|d w0|d w0|w0 v|w0 i j v|w0 i j|w0|w0|w0 chk zz|w0];
    cbn [xstep] in E; split_x E; try (eapply M; [|exact E]; exact I);
    injection E as <- _; cbn [x_mem]; auto.
Qed.
Lemma xrun_views ops : forall x x1 zs, xrun x ops = Some (x1, zs) -> views (x_mem x) -> views (x_mem x1).
Proof.
  induction ops as [|o ops IH]; intros x x1 zs E V; cbn [xrun] in E; [now injection E as <- _|].
  destruct (xstep x o) as [[x2 z]|] eqn:S; [|discriminate]. destruct (xrun x2 ops) as [[x3 z3]|] eqn:S3; [|discriminate].
  injection E as <- _. eapply IH; eauto. eapply xstep_views; eauto.
Qed.

Lemma onto_read x m w t nr nc br bc i j : WRel x m -> views (x_mem x) -> onto x w t nr nc br bc -> i < nr -> j < nc ->
  exists e, wstep dbg m (WRead t (br + i) (bc + j)) = Ok (m, WVal e).
Proof.
  intros R V (r & c & g & n & h & Hd & Hl & Hh & -> & B1 & B2 & Hw) Hi Hj.
  assert (P : exists k, nth_error (regions (x_mem x)) g = Some k /\ present (x_mem x) g = true /\ r * c <= length (r_cells k)).
  { pose proof (proj1 (live_nth _ _ _) Hl) as Hn. pose proof (wf_hok _ _ _ _ (rel_wf _ _ (wr_mem _ _ R)) Hn) as K.
    destruct Hh as [->| ->]; cbn in K.
    - destruct K as (k & Hk & Kk & Lk). exists k. split; auto. split; [|lia]. unfold present. rewrite Hk, Kk.
      apply existsb_owned. now exists t, (r * c).
    - destruct K as (k & Hk & Lk). exists k. split; auto. split; [|lia]. unfold present. rewrite Hk.
      apply V in Hn. cbn in Hn. destruct Hn as (k' & Hk' & NK). rewrite Hk in Hk'. injection Hk' as <-. now destruct (r_kind k). }
  destruct P as (k & Hk & Pr & Lk).
  assert (C : contents (x_mem x) h = Some (firstn (r * c) (r_cells k))).
  { destruct Hh as [->| ->]; cbn; now rewrite Hk, Pr. }
  destruct (nth_error (firstn (r * c) (r_cells k)) (br + i + (bc + j) * r)) as [e|] eqn:E.
  - exists e. assert (X : xstep x (WRead t (br + i) (bc + j)) = Some (x, WVal e)).
    { cbn [xstep]. rewrite Hd. destruct (Nat.ltb_spec (br + i) r); [|lia]. destruct (Nat.ltb_spec (bc + j) c); [|lia].
      cbn [andb]. unfold on_mem. cbn [astep]. rewrite Hl, C, E. cbn [wof]. now destruct x. }
    destruct (xstep_sim dbg _ _ _ _ _ R X) as (m1 & E1 & _).
    assert (m1 = m); [|now subst m1].
    cbn [wstep] in E1. rewrite (dims_get _ _ _ _ R Hd) in E1. cbn [bind] in E1. apply bind_ok in E1. destruct E1 as (p & _ & E1).
    unfold w_storage in E1. cbn [step] in E1. apply bind_ok in E1. destruct E1 as ([y q] & E1 & E2).
    apply bind_ok in E1. destruct E1 as (e' & _ & E1). injection E1 as <- <-. injection E2 as <- _. now destruct m.
  - apply nth_error_None in E. rewrite firstn_length in E. nia.
Qed.

(** ** Memory that is gone *)
Lemma released x m o x1 z t g n : WRel x m -> xstep x o = Some (x1, z) -> releases x t o = true ->
  live (x_mem x) t = Some (HOwn g n) -> (forall r c, nth_error (x_dims x) t = Some (r, c) -> n = r * c) ->
  present (x_mem x1) g = false.
Proof.
  intros R E RL Hl Hn. pose proof (rel_wf _ _ (wr_mem _ _ R)) as W. apply live_nth in Hl.
  pose proof (wf_own _ _ W _ _ _ Hl) as (k & Hk & Kk & _).
  assert (U : forall s' n', nth_error (handles (x_mem x)) s' = Some (Some (HOwn g n')) -> s' = t).
  { intros s' n' H. eapply (wf_uniq _ _ W); eassumption. }
  assert (G : forall a1, (exists k', nth_error (regions a1) g = Some k' /\ r_kind k' = Obtained) ->
     (forall s' n', nth_error (handles a1) s' <> Some (Some (HOwn g n'))) -> present a1 g = false).
  { intros a1 (k' & Hk' & Kk') N. unfold present. rewrite Hk', Kk'. apply not_true_is_false. intros F.
    apply existsb_owned in F. destruct F as (s' & n' & F). now apply N in F. }
  pose proof (nth_lt _ _ _ Hk) as LG.
  destruct o as [r c|vs|b r c|s0|s0|d s0|d s0|u w0|s0 r c|s0 v|s0 i j v|s0 i j|s0|s0 nr' nc' br' bc'|w0|w0|d w0|d w0|w0 v|w0 i j v|w0 i j|w0|w0|w0 chk zz|w0];
    cbn [releases] in RL; try discriminate; cbn [xstep] in E; split_x E; unfold on_mem in E; cbn [astep] in E.
  - (* copy assignment *)
    apply andb_prop in RL. destruct RL as (RL & NS). apply Nat.eqb_eq in RL. subst d.
    apply negb_true_iff in NS. rewrite (proj2 (live_nth _ _ _) Hl) in E. destruct (live (x_mem x) s0) as [h|] eqn:Hs; [|discriminate].
    rewrite Nat.eqb_sym in NS. rewrite NS in E. destruct (free_to_resize h) eqn:FR.
    + destruct (contents (x_mem x) h) as [cc|]; [|discriminate]. injection E as <- _. cbn [x_mem]. apply G; cbn [put region_new fresh regions handles].
      * exists k. split; auto. now apply snoc_old.
      * intros s' n' H. apply upd_cases in H. destruct H as [[_ H]|[NE H]]; [injection H as H _; lia|]. apply U in H. congruence.
    + injection E as <- _. cbn [x_mem]. apply G; cbn [put regions handles]; [eauto|].
      intros s' n' H. apply upd_cases in H. destruct H as [[_ H]|[NE H]]; [injection H as <-; discriminate|]. apply U in H. congruence.
  - (* move assignment *)
    apply Nat.eqb_eq in RL. subst d. rewrite (proj2 (live_nth _ _ _) Hl) in E.
    destruct (live (x_mem x) s0) as [h|] eqn:Hs; [|discriminate]. injection E as <- _. cbn [x_mem].
    apply G; cbn [put regions handles]; [eauto|]. apply live_nth in Hs.
    intros s' n' H. apply upd_cases in H. destruct H as [[_ H]|[NE H]]; [discriminate|].
    apply upd_cases in H. destruct H as [[-> H]|[NE' H]].
    + injection H as <-. apply U in Hs. congruence.
    + apply U in H. congruence.
  - (* resize *)
    apply andb_prop in RL. destruct RL as (RL & NS). apply Nat.eqb_eq in RL. subst s0.
    rewrite (proj2 (live_nth _ _ _) Hl) in E. destruct (nth_error (x_dims x) t) as [[r' c']|] eqn:Hd; [|discriminate].
    rewrite (Hn _ _ eq_refl) in *. cbn [hsize free_to_resize] in E. apply negb_true_iff in NS. rewrite Nat.eqb_sym in NS. rewrite NS in E.
    injection E as <- _. cbn [x_mem]. apply G; cbn [put region_new fresh regions handles].
    + exists k. split; auto. now apply snoc_old.
    + intros s' n' H. apply upd_cases in H. destruct H as [[_ H]|[NE H]]; [injection H as H _; lia|]. apply U in H. congruence.
  - (* destruction *)
    apply Nat.eqb_eq in RL. subst s0. rewrite (proj2 (live_nth _ _ _) Hl) in E. injection E as <- _. cbn [x_mem].
    apply G; cbn [put regions handles]; [eauto|].
    intros s' n' H. apply upd_cases in H. destruct H as [[_ H]|[NE H]]; [discriminate|]. apply U in H. congruence.
Qed.

Lemma gone_access x m w v : WRel x m -> swin_of x w = Some v -> present (x_mem x) (v_region v) = false ->
  (forall i j, i < v_rows v -> j < v_cols v ->
     wstep dbg m (VRead w i j) = UB UseAfterFree /\ forall e, wstep dbg m (VWrite w i j e) = UB UseAfterFree) /\
  (traversable v = true -> (forall e, wstep dbg m (VAll w e) = UB UseAfterFree) /\
                           (forall chk e, wstep dbg m (VDense w chk e) = UB UseAfterFree)).
Proof.
  intros R Hw P. destruct (swin_get _ _ _ _ R Hw) as (_ & Gw & W). pose proof W as (g & br & bc & Hg & _).
  destruct (gone_block _ _ _ _ R Hg P) as (k & Hk & LV). split.
  - intros i j Hi Hj.
    assert (WC : w_cell dbg m (wconc v) i j = UB UseAfterFree).
    { unfold w_cell. rewrite pos_ok by auto. cbn [bind]. unfold h_cell. cbn [wconc w_data]. now rewrite Hk, LV. }
    split; [|intros e]; cbn [wstep]; rewrite Gw; cbn [bind]; now rewrite WC.
  - intros TR. pose proof (w_addrs_ok _ _ W TR) as A. destruct (places_nonempty v TR) as (q & l & Q).
    rewrite Q in A. cbn [map] in A.
    split; [intros e|intros chk e]; cbn [wstep]; rewrite Gw; cbn [bind]; unfold w_all, w_dense; rewrite A; cbn [bind];
      unfold w_block; cbn [wconc w_data]; rewrite Hk, LV; reflexivity.
Qed.

(** ** A moved window *)
Lemma moved_access x m w v x1 z : WRel x m -> swin_of x w = Some v -> v_ldc v <> None -> xstep x (VMove w) = Some (x1, z) ->
  exists m1, wstep dbg m (VMove w) = Ok (m1, z) /\ WRel x1 m1 /\
    (forall i j, i < v_rows v -> j < v_cols v -> wstep dbg m1 (VRead (length (x_wins x)) i j) = wstep dbg m1 (VRead w i 0)) /\
    wstep dbg m1 (VLd (length (x_wins x))) = Ok (m1, WPair 0 0).
Proof.
  intros R Hw LC E. destruct (xstep_sim dbg _ _ _ _ _ R E) as (m1 & E1 & R1). exists m1. split; [exact E1|]. split; [exact R1|].
  cbn [xstep] in E. rewrite Hw in E. injection E as <- _.
  set (v' := mkSwin (v_region v) (v_first v) (v_rows v) (v_cols v) (v_stride v) None) in *.
  assert (H' : swin_of (mkWst (x_mem x) (x_dims x) (x_wins x ++ [Some v'])) (length (x_wins x)) = Some v').
  { apply swin_nth. cbn [x_wins]. apply snoc_last. }
  assert (H0 : swin_of (mkWst (x_mem x) (x_dims x) (x_wins x ++ [Some v'])) w = Some v).
  { apply swin_nth. cbn [x_wins]. apply snoc_old. now apply swin_nth. }
  destruct (swin_get _ _ _ _ R1 H') as (_ & G' & _). destruct (swin_get _ _ _ _ R1 H0) as (_ & G0 & _). split.
  - intros i j Hi Hj. cbn [wstep]. rewrite G', G0. cbn [bind].
    assert (WC : w_cell dbg m1 (wconc v') i j = w_cell dbg m1 (wconc v) i 0); [|now rewrite WC].
    unfold w_cell. rewrite !pos_ok by (cbn; auto; lia). cbn [bind]. cbn [wconc w_shape getLdRows sh_sub sh_ldr w_ldr w_data w_off v' v_ldc v_region v_first].
    now rewrite !Nat.mul_0_r, Nat.mul_0_l.
  - cbn [wstep]. rewrite G'. reflexivity.
Qed.

(** Reading back what was written. *)
Lemma write_back m t i j e v : wstep dbg m (WRead t i j) = Ok (m, WVal e) ->
  exists m1, wstep dbg m (WWrite t i j v) = Ok (m1, WNone) /\ wstep dbg m1 (WRead t i j) = Ok (m1, WVal (Some v)) /\
    w_wins m1 = w_wins m /\ w_dims m1 = w_dims m /\ objs (w_sys m1) = objs (w_sys m).
Proof.
  cbn [wstep]. intros E. destruct (dims_of m t) as [d| | | |] eqn:D; try discriminate. cbn [bind] in *.
  destruct (position dbg (own_shape ColMajor (fst d) (snd d)) i j) as [p| | | |] eqn:P; try discriminate. cbn [bind] in *.
  unfold w_storage in *. cbn [step] in *. unfold s_read, s_write, quiet in *.
  destruct (get_obj (w_sys m) t) as [r| | | |] eqn:G; try discriminate. cbn [bind] in *.
  destruct (h_cell (blocks (w_sys m)) (st_data r) p) as [[k b]| | | |] eqn:H; try discriminate. cbn [bind fst snd] in *.
  eexists. split; [reflexivity|].
  unfold dims_of, get_obj in *. cbn [w_dims w_sys objs w_wins]. rewrite D. cbn [bind]. rewrite P. cbn [bind]. rewrite G. cbn [bind blocks].
  unfold h_cell in *. destruct (st_data r) as [k'|]; [|discriminate].
  destruct (nth_error (blocks (w_sys m)) k') as [b'|] eqn:Hk; [|discriminate].
  destruct (b_live b') eqn:LV; cbn [negb] in H; [|discriminate].
  destruct (Nat.ltb_spec p (length (b_cells b'))) as [Lp|]; [|discriminate]. injection H as <- <-.
  rewrite nth_error_upd_eq by (eapply nth_lt; eassumption). cbn [b_live negb b_cells]. rewrite upd_length.
  destruct (Nat.ltb_spec p (length (b_cells b'))); [|lia]. cbn [bind fst snd b_cells].
  rewrite (proj2 (rdc_ok _ _ _) (nth_error_upd_eq _ _ _ Lp)). cbn [bind wof]. repeat split.
Qed.
End P.
