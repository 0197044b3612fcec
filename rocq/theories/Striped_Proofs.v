(** The striped iterator visits exactly the blocks, in both directions. *)
From Verif Require Import Base BaseLemmas Dense_Model Dense_Spec Dense_Proofs.

(** Address of position [p] in block [b]. *)
Definition sp_at (s : striped) (b p : nat) : Z :=
  (sp_data s + Z.of_nat b * (sp_cs s + sp_sep s) + Z.of_nat p)%Z.

(** A non-empty striped range whose extent is representable. *)
Definition sp_fits (s : striped) (cs nb : nat) : Prop :=
  sp_cs s = Z.of_nat cs /\ sp_nb s = Z.of_nat nb /\ 1 <= cs /\ 1 <= nb /\ (0 <= sp_sep s)%Z /\
  (sp_cs s * sp_nb s + (sp_nb s - 1) * sp_sep s < 2 ^ 63)%Z.

Section Striped.
  Context (s : striped) (cs nb : nat) (Hf : sp_fits s cs nb).

  Let Ecs : sp_cs s = Z.of_nat cs := proj1 Hf.
  Let Enb : sp_nb s = Z.of_nat nb := proj1 (proj2 Hf).

  Lemma sp_cs_small : (sp_cs s <= sp_cs s * sp_nb s + (sp_nb s - 1) * sp_sep s)%Z.
  Proof. pose proof Hf as (_ & _ & H1 & H2 & H3 & _). rewrite Ecs, Enb in *. nia. Qed.

  Lemma sp_nb_small : (sp_nb s <= sp_cs s * sp_nb s + (sp_nb s - 1) * sp_sep s)%Z.
  Proof. pose proof Hf as (_ & _ & H1 & H2 & H3 & _). rewrite Ecs, Enb in *. nia. Qed.

  Lemma sp_csm1 : ((sp_cs s - 1) mod W64 = Z.of_nat (cs - 1))%Z.
  Proof.
    pose proof Hf as (_ & _ & H1 & _ & _ & Hb). pose proof sp_cs_small as Hs.
    rewrite Z.mod_small; [rewrite Ecs; lia|]. unfold W64. rewrite Ecs in *. lia.
  Qed.

  Lemma sp_offset :
    (to_signed (sp_cs s * sp_nb s + ((sp_nb s - 1) mod W64) * sp_sep s) =
     sp_cs s * sp_nb s + (sp_nb s - 1) * sp_sep s)%Z.
  Proof.
    pose proof Hf as (_ & _ & H1 & H2 & H3 & Hb). pose proof sp_nb_small as Hs.
    rewrite (Z.mod_small (sp_nb s - 1)) by (unfold W64; rewrite Enb in *; lia).
    unfold to_signed. rewrite Z.mod_small.
    - change (W64 / 2)%Z with (2 ^ 63)%Z. destruct (Z.ltb_spec (sp_cs s * sp_nb s + (sp_nb s - 1) * sp_sep s) (2 ^ 63)); lia.
    - unfold W64. rewrite Ecs, Enb in *. split; [nia|]. lia.
  Qed.

  Lemma sp_offset_r :
    (to_signed (sp_cs s * sp_nb s + ((sp_nb s - 1) mod W64) * sp_sep s - 1) =
     sp_cs s * sp_nb s + (sp_nb s - 1) * sp_sep s - 1)%Z.
  Proof.
    pose proof Hf as (_ & _ & H1 & H2 & H3 & Hb). pose proof sp_nb_small as Hs.
    rewrite (Z.mod_small (sp_nb s - 1)) by (unfold W64; rewrite Enb in *; lia).
    unfold to_signed. rewrite Z.mod_small.
    - change (W64 / 2)%Z with (2 ^ 63)%Z.
      destruct (Z.ltb_spec (sp_cs s * sp_nb s + (sp_nb s - 1) * sp_sep s - 1) (2 ^ 63)); lia.
    - unfold W64. rewrite Ecs, Enb in *. split; [nia|]. lia.
  Qed.

  Definition blk (b : nat) : list Z := map (sp_at s b) (seq 0 cs).
  Definition fwd : list Z := flat_map blk (seq 0 nb).

  Lemma sp_end_at : sp_end_ptr s = sp_at s (nb - 1) cs.
  Proof.
    unfold sp_end_ptr, sp_at. rewrite sp_offset, Ecs, Enb.
    pose proof Hf as (_ & _ & _ & H2 & _). rewrite Nat2Z.inj_sub by lia. change (Z.of_nat 1) with 1%Z. ring.
  Qed.

  Lemma sp_at_lt_end b p : b < nb -> p < cs -> (sp_at s b p < sp_at s (nb - 1) cs)%Z.
  Proof.
    intros Hb Hp. unfold sp_at. pose proof Hf as (_ & _ & _ & _ & H3 & _). rewrite Ecs.
    pose proof (Z.mul_le_mono_nonneg_r (Z.of_nat b) (Z.of_nat (nb - 1)) (Z.of_nat cs + sp_sep s)). lia.
  Qed.

  Lemma si_loop_from m : forall b p f, b < nb -> p < cs ->
    m = (nb - 1 - b) * cs + (cs - p) -> m < f ->
    si_loop f s (mkSiter (sp_at s b p) (Z.of_nat p) (Z.of_nat b)) (sp_end_ptr s) =
    Ok (map (sp_at s b) (seq p (cs - p)) ++ flat_map blk (seq (S b) (nb - S b))).
  Proof.
    induction m as [|m IH]; intros b p f Hb Hp Em Hfu; [nia|].
    destruct f as [|f]; [lia|]. cbn [si_loop si_ptr].
    pose proof (sp_at_lt_end b p Hb Hp) as Hlt. rewrite <- sp_end_at in Hlt.
    destruct (Z.eqb_spec (sp_at s b p) (sp_end_ptr s)) as [E|_]; [lia|].
    unfold si_inc; cbn [si_pos si_ptr si_blk]. rewrite sp_csm1.
    destruct (Z.eqb_spec (Z.of_nat p) (Z.of_nat (cs - 1))) as [Ep|Ep].
    - assert (p = cs - 1) by lia.
      destruct (Z.eqb_spec (Z.of_nat b + 1) (sp_nb s)) as [Eb|Eb].
      + (* leaving the last block *)
        rewrite Enb in Eb. assert (b = nb - 1) by lia. subst b.
        replace (nb - S (nb - 1)) with 0 by lia. cbn [seq flat_map]. rewrite app_nil_r.
        replace (cs - p) with 1 by lia. cbn [seq map].
        destruct f as [|f]; [lia|]. cbn [si_loop si_ptr].
        replace (sp_at s (nb - 1) p + 1)%Z with (sp_end_ptr s).
        * rewrite Z.eqb_refl. reflexivity.
        * rewrite sp_end_at. unfold sp_at. lia.
      + rewrite Enb in Eb. assert (Hb' : S b < nb) by lia.
        replace (sp_at s b p + (sp_sep s + 1))%Z with (sp_at s (S b) 0)
          by (unfold sp_at; rewrite Ecs; lia).
        replace (Z.of_nat b + 1)%Z with (Z.of_nat (S b)) by lia.
        change 0%Z with (Z.of_nat 0).
        rewrite (IH (S b) 0 f) by nia. cbn [bind]. f_equal.
        replace (cs - p) with 1 by lia. cbn [seq map app]. f_equal.
        replace (nb - S b) with (S (nb - S (S b))) by lia. cbn [seq flat_map].
        unfold blk at 2. now rewrite Nat.sub_0_r.
    - replace (sp_at s b p + 1)%Z with (sp_at s b (S p)) by (unfold sp_at; lia).
      replace (Z.of_nat p + 1)%Z with (Z.of_nat (S p)) by lia.
      rewrite (IH b (S p) f) by lia. cbn [bind]. f_equal.
      replace (cs - p) with (S (cs - S p)) by lia. reflexivity.
  Qed.

  Lemma sp_addrs_fwd : sp_addrs s = Ok fwd.
  Proof.
    pose proof Hf as (_ & _ & H1 & H2 & H3 & _). unfold sp_addrs, sp_begin.
    replace (sp_data s) with (sp_at s 0 0) by (unfold sp_at; lia).
    change 0%Z with (Z.of_nat 0).
    rewrite (si_loop_from ((nb - 1 - 0) * cs + (cs - 0)) 0 0) by
      (auto; unfold sp_fuel; rewrite ?Ecs, ?Enb; nia).
    f_equal. unfold fwd. replace nb with (S (nb - 1)) at 2 by lia. cbn [seq flat_map].
    unfold blk at 2. now rewrite Nat.sub_0_r.
  Qed.

  Definition upto (b p : nat) : list Z :=
    flat_map blk (seq 0 b) ++ map (sp_at s b) (seq 0 (S p)).

  Lemma si_rloop_from m : forall b p f, b < nb -> p < cs -> m = b * cs + S p -> m < f ->
    si_rloop f s (mkSiter (sp_at s b p) (Z.of_nat p) (Z.of_nat b)) (sp_rend_ptr s) =
    Ok (rev (upto b p)).
  Proof.
    induction m as [|m IH]; intros b p f Hb Hp Em Hfu; [nia|].
    destruct f as [|f]; [lia|]. cbn [si_rloop si_ptr].
    pose proof Hf as (_ & _ & H1 & _ & H3 & _).
    assert (Hge : (sp_data s <= sp_at s b p)%Z) by (unfold sp_at; rewrite Ecs; nia).
    destruct (Z.eqb_spec (sp_at s b p) (sp_rend_ptr s)) as [E|_]; [unfold sp_rend_ptr in E; lia|].
    unfold si_dec; cbn [si_pos si_ptr si_blk]. rewrite sp_csm1.
    destruct (Z.eqb_spec (Z.of_nat p) 0) as [Ep|Ep].
    - assert (p = 0) by lia. subst p.
      unfold upto. cbn [seq map]. rewrite rev_app_distr. cbn [rev app].
      destruct (Z.eqb_spec (Z.of_nat b - 1) (-1)) as [Eb|Eb].
      + assert (b = 0) by lia. subst b. destruct f as [|f]; [lia|]. cbn [si_rloop si_ptr].
        replace (sp_at s 0 0 - 1)%Z with (sp_rend_ptr s) by (unfold sp_at, sp_rend_ptr; lia).
        rewrite Z.eqb_refl. reflexivity.
      + destruct b as [|b]; [lia|].
        replace (sp_at s (S b) 0 - (sp_sep s + 1))%Z with (sp_at s b (cs - 1))
          by (unfold sp_at; rewrite Ecs, Nat2Z.inj_sub by lia; lia).
        replace (Z.of_nat (S b) - 1)%Z with (Z.of_nat b) by lia.
        rewrite (IH b (cs - 1) f) by nia. cbn [bind]. f_equal. f_equal.
        unfold upto. replace (S (cs - 1)) with cs by lia. fold (blk b).
        rewrite (seq_S b), flat_map_app. cbn [flat_map]. now rewrite app_nil_r.
    - destruct p as [|p]; [lia|].
      replace (sp_at s b (S p) - 1)%Z with (sp_at s b p) by (unfold sp_at; lia).
      replace (Z.of_nat (S p) - 1)%Z with (Z.of_nat p) by lia.
      rewrite (IH b p f) by lia. cbn [bind]. f_equal.
      unfold upto. rewrite (seq_S (S p)), map_app, app_assoc. cbn [map].
      symmetry; etransitivity; [apply rev_app_distr|]; reflexivity.
  Qed.

  Lemma sp_addrs_bwd : sp_raddrs s = Ok (rev fwd).
  Proof.
    pose proof sp_end_at as Ee. unfold sp_end_ptr in Ee. rewrite sp_offset in Ee.
    pose proof Hf as (_ & _ & H1 & H2 & H3 & _). unfold sp_raddrs, sp_rbegin.
    rewrite sp_offset_r, sp_csm1, Enb.
    replace (sp_data s + (sp_cs s * Z.of_nat nb + (Z.of_nat nb - 1) * sp_sep s - 1))%Z
      with (sp_at s (nb - 1) (cs - 1)).
    2: { rewrite <- Enb.
         replace (sp_data s + (sp_cs s * sp_nb s + (sp_nb s - 1) * sp_sep s - 1))%Z with
           (sp_data s + (sp_cs s * sp_nb s + (sp_nb s - 1) * sp_sep s) - 1)%Z by lia.
         rewrite Ee. unfold sp_at. lia. }
    replace (Z.of_nat nb - 1)%Z with (Z.of_nat (nb - 1)) by lia.
    rewrite (si_rloop_from ((nb - 1) * cs + S (cs - 1)) (nb - 1) (cs - 1)) by
      (auto; unfold sp_fuel; rewrite ?Ecs, ?Enb; nia).
    f_equal. f_equal. unfold upto, fwd. replace (S (cs - 1)) with cs by lia. fold (blk (nb - 1)).
    replace nb with (S (nb - 1)) at 3 by lia.
    rewrite (seq_S (nb - 1)), flat_map_app. cbn [flat_map]. now rewrite app_nil_r.
  Qed.
End Striped.

(** Window elements in the order of the window's own columns. *)
Lemma win_addrs sh :
  sh_o sh = ColMajor -> sh_sub sh = true -> 1 <= sh_rows sh -> 1 <= sh_cols sh ->
  sh_rows sh <= sh_ldr sh -> (Z.of_nat (sh_cols sh * sh_ldr sh) < 2 ^ 63)%Z ->
  sp_addrs (win_striped sh) =
  Ok (map (fun p => Z.of_nat (addr sh (snd p) (fst p))) (pairs (sh_cols sh) (sh_rows sh))).
Proof.
  intros Ho Hs Hr Hc Hld Hb.
  assert (Esep : sp_sep (win_striped sh) = Z.of_nat (sh_ldr sh - sh_rows sh)).
  { unfold win_striped; cbn [sp_sep]. rewrite Z.mod_small; [lia|]. unfold W64. nia. }
  assert (Hf : sp_fits (win_striped sh) (sh_rows sh) (sh_cols sh)).
  { unfold sp_fits. rewrite Esep. cbn [win_striped sp_cs sp_nb]. repeat split; auto; nia. }
  rewrite (sp_addrs_fwd _ _ _ Hf). f_equal. unfold fwd, pairs, blk.
  assert (G : forall l, flat_map (fun b => map (sp_at (win_striped sh) b) (seq 0 (sh_rows sh))) l =
     map (fun p => Z.of_nat (addr sh (snd p) (fst p)))
       (flat_map (fun i => map (fun j => (i, j)) (seq 0 (sh_rows sh))) l)).
  { induction l as [|b l IH]; [reflexivity|]. cbn [flat_map]. rewrite map_app, <- IH. f_equal.
    rewrite map_map. apply map_ext; intros p. cbn [fst snd].
    unfold sp_at. rewrite Esep. cbn [win_striped sp_data sp_cs].
    unfold addr, getLdRows. rewrite Ho, Hs. nia. }
  apply G.
Qed.
