(** C69: formatted output of times and norms. *)
From Verif Require Import Base BaseLemmas Stream_Model.
Require Import String Ascii.
Local Open Scope list_scope.

(** ** Settings in force, read off the program text. *)
Section Spec.
Context {N : Type}.
(** The last value some insertion into stream [k] gave to a setting. *)
Definition setting {X} (change : X -> @item N -> X) (k : nat) (x : X) (l : list (nat * @item N)) : X :=
  fold_left (fun x ki => if fst ki =? k then change x (snd ki) else x) l x.
(** Only set_duration_accuracy changes the accuracy. *)
Definition accuracy := setting (fun d i => match i with IAccuracy d' => d' | _ => d end).
(** Only std::left and std::right change the alignment. *)
Definition alignment := setting (fun b i => match i with ILeft b' => b' | _ => b end).
(** std::setw holds for the next text or number. *)
Definition width := setting (fun w i => match i with
  | IWidth w' => w' | IText _ | INumber _ | IDuration _ | ITimer _ _ _ => 0 | _ => w end).
(** The notation of numbers: changed by the manipulators and by a timer, not by durations. *)
Definition number_notation := setting (fun n i => match i with INotation n' => n' | ITimer _ _ _ => Fixed | _ => n end).
(** The digits of numbers: changed by std::setprecision, by a timer, and by every duration,
    which leaves its accuracy behind. *)
Definition number_digits (k : nat) (pd : Z * Z) (l : list (nat * @item N)) : Z :=
  fst (setting (fun pd i => match i with
    | IPrecision p => (p, snd pd) | ITimer _ p _ => (p, snd pd) | IDuration _ => (snd pd, snd pd)
    | IAccuracy d => (fst pd, d) | _ => pd end) k pd l).
End Spec.

Section Output.
Context {N : Type} (render : notation -> Z -> N -> string) (seconds : Z -> N).
Notation write_all := (write_all render seconds).
Notation insert := (insert render seconds).

Lemma write_app l1 : forall st l2, write_all st (l1 ++ l2) =
  let (st1, t1) := write_all st l1 in let (st2, t2) := write_all st1 l2 in (st2, t1 ++ t2).
Proof.
  induction l1 as [|[k i] l1 IH]; intros st l2; cbn [app Stream_Model.write_all].
  - destruct (write_all st l2). reflexivity.
  - destruct (insert (st k) i) as [s t]. rewrite IH. destruct (write_all _ l1) as [st1 t1]. destruct (write_all st1 l2) as [st2 t2]. reflexivity.
Qed.
Lemma write_length l : forall st, List.length (snd (write_all st l)) = List.length l.
Proof.
  induction l as [|[k i] l IH]; intros st; cbn; [reflexivity|]. destruct (insert (st k) i) as [s t].
  specialize (IH (fun j => if j =? k then s else st j)). destruct (write_all _ l) as [st1 t1]. cbn in *. now rewrite IH.
Qed.

(** The state of a stream is what the settings say. *)
Lemma state_is l : forall st k, let s := fst (write_all st l) k in
  s_acc s = accuracy k (s_acc (st k)) l /\ s_left s = alignment k (s_left (st k)) l /\ s_width s = width k (s_width (st k)) l /\
  s_not s = number_notation k (s_not (st k)) l /\ s_prec s = number_digits k (s_prec (st k), s_acc (st k)) l.
Proof.
  induction l as [|[q i] l IH]; intros st k; cbn [Stream_Model.write_all fst]; [cbn; repeat split|].
  destruct (insert (st q) i) as [s t] eqn:E. specialize (IH (fun j => if j =? q then s else st j) k).
  destruct (write_all (fun j => if j =? q then s else st j) l) as [st' ts]. cbn [fst] in *. cbn zeta in IH.
  unfold accuracy, alignment, width, number_notation, number_digits, setting in *. cbn [fold_left fst snd] in *.
  rewrite (Nat.eqb_sym q k). destruct (Nat.eqb_spec k q) as [-> | Ne]; [|exact IH].
  destruct i; cbn in E; injection E as <- <-; cbn in IH; exact IH.
Qed.

(** The text of one insertion in any program. *)
Lemma nth_text pre k i post st : nth_error (snd (write_all st (pre ++ (k, i) :: post))) (List.length pre) =
  Some (snd (insert (fst (write_all st pre) k) i)).
Proof.
  rewrite write_app. pose proof (write_length pre st) as L. destruct (write_all st pre) as [st1 t1]. cbn in *.
  destruct (insert (st1 k) i) as [s t]. destruct (write_all _ post) as [st2 t2]. cbn.
  rewrite nth_error_app2 by lia. rewrite L, Nat.sub_diag. reflexivity.
Qed.

(** In every program, on any streams: a duration appears in fixed notation with the accuracy
    last set on its stream (none: 0), padded to the width in force. *)
Theorem C69_durations :
  forall pre k ns post st,
    nth_error (snd (write_all st (pre ++ (k, IDuration ns) :: post))) (List.length pre) =
    Some (pad (alignment k (s_left (st k)) pre) (width k (s_width (st k)) pre)
           (render Fixed (accuracy k (s_acc (st k)) pre) (seconds ns))).
Proof.
  intros. rewrite nth_text. destruct (state_is pre st k) as (E1 & E2 & E3 & _). cbn. now rewrite E1, E2, E3.
Qed.

(** A number appears in the notation last chosen, whatever durations were written. *)
Theorem C69_numbers :
  forall pre k x post st,
    nth_error (snd (write_all st (pre ++ (k, INumber x) :: post))) (List.length pre) =
    Some (pad (alignment k (s_left (st k)) pre) (width k (s_width (st k)) pre)
           (render (number_notation k (s_not (st k)) pre) (number_digits k (s_prec (st k), s_acc (st k)) pre) x)).
Proof.
  intros. rewrite nth_text. destruct (state_is pre st k) as (_ & E2 & E3 & E4 & E5). cbn. now rewrite E2, E3, E4, E5.
Qed.

(** Nothing written to one stream shows on another. *)
Theorem C69_streams_independent :
  forall l st k, (forall q i, In (q, i) l -> q <> k) -> fst (write_all st l) k = st k.
Proof.
  induction l as [|[q i] l IH]; intros st k H; [reflexivity|]. cbn [Stream_Model.write_all].
  destruct (insert (st q) i) as [s t]. specialize (IH (fun j => if j =? q then s else st j) k).
  destruct (write_all (fun j => if j =? q then s else st j) l) as [st' ts]. cbn [fst] in *. rewrite IH.
  - destruct (Nat.eqb_spec k q) as [-> |]; [|reflexivity]. exfalso. exact (H q i (or_introl eq_refl) eq_refl).
  - intros q' i' Hi. apply (H q' i'). now right.
Qed.

(** ** The benchmark's table. *)
Fixpoint concat (l : list string) : string := match l with [] => ""%string | t :: l => (t ++ concat l)%string end.
Lemma append_assoc (a b c : string) : ((a ++ b) ++ c)%string = (a ++ b ++ c)%string.
Proof. induction a as [|x a IH]; cbn; [reflexivity|now rewrite IH]. Qed.
Lemma append_nil (a : string) : (a ++ "")%string = a.
Proof. induction a as [|x a IH]; cbn; [reflexivity|now rewrite IH]. Qed.
Lemma append_length (a b : string) : String.length (a ++ b) = String.length a + String.length b.
Proof. induction a as [|x a IH]; cbn; [reflexivity|now rewrite IH]. Qed.
Lemma concat_app a b : concat (a ++ b) = (concat a ++ concat b)%string.
Proof. induction a as [|x a IH]; cbn; [reflexivity|now rewrite IH, append_assoc]. Qed.

Record entry := mkEntry { e_first : bool; e_index : string; e_name : string; e_ns : Z; e_max : N; e_two : N; e_details : string }.
Definition items_of (digits : Z) (e : entry) : list (nat * item) :=
  map (pair 0) (row (e_first e) digits (e_index e) (e_name e) (e_ns e) (e_max e) (e_two e) (e_details e)).
Definition newline : string := String "010"%char "".
(** What a row should look like: six columns, the last one unpadded. *)
Definition row_text (digits : Z) (e : entry) : string :=
  (pad true 10 (e_index e) ++ pad true 30 (e_name e) ++ pad true 15 (render Fixed digits (seconds (e_ns e))) ++
   pad true 15 (render Scientific digits (e_max e)) ++ pad true 15 (render Scientific digits (e_two e)) ++ e_details e ++ newline)%string.

Lemma blanks_length n : String.length (blanks n) = n.
Proof.
  unfold blanks. induction n as [|n IH]; [reflexivity|]. cbn [repeat]. destruct n as [|n]; [reflexivity|].
  cbn in IH |- *. now rewrite IH.
Qed.
Lemma pad0 b t : pad b 0 t = t.
Proof. unfold pad. cbn. destruct b; [apply append_nil|reflexivity]. Qed.
Lemma pad_length b w t : String.length t <= w -> String.length (pad b w t) = w.
Proof. intros H. unfold pad. destruct b; rewrite append_length, blanks_length; lia. Qed.

(** Writing to stream 0 alone. *)
Fixpoint write1 (s : stream) (l : list item) : stream * list string :=
  match l with
  | [] => (s, [])
  | i :: l => let (s, t) := insert s i in let (s, ts) := write1 s l in (s, t :: ts)
  end.
Lemma write1_all l : forall st, fst (write_all st (map (pair 0) l)) 0 = fst (write1 (st 0) l) /\
  snd (write_all st (map (pair 0) l)) = snd (write1 (st 0) l).
Proof.
  induction l as [|i l IH]; intros st; [split; reflexivity|]. cbn [map Stream_Model.write_all write1].
  destruct (insert (st 0) i) as [s t]. specialize (IH (fun j => if j =? 0 then s else st j)). cbn [Nat.eqb] in IH.
  destruct (write_all _ (map (pair 0) l)) as [st' ts]. destruct (write1 s l) as [s1 ts1]. cbn [fst snd] in *.
  destruct IH as [-> ->]. split; reflexivity.
Qed.
Lemma row_write digits e pr : let r := write1 (mkStream Scientific true 0 pr digits)
    (row (e_first e) digits (e_index e) (e_name e) (e_ns e) (e_max e) (e_two e) (e_details e)) in
  fst r = mkStream Scientific true 0 digits digits /\ concat (snd r) = row_text digits e.
Proof.
  unfold row, row_text. destruct (e_first e); lazy -[pad append]; cbn [append]; rewrite ?pad0, ?append_nil; split; reflexivity.
Qed.

(** In every table, of any rows, each row is laid out alike: times in fixed and norms in
    scientific notation. *)
Theorem C69_table :
  forall digits (l : list entry),
    concat (snd (write_all (fun _ => new_stream) (map (pair 0) (heading digits) ++ flat_map (items_of digits) l))) =
    (concat (snd (write_all (fun _ => new_stream) (map (pair 0) (heading digits)))) ++ concat (map (row_text digits) l))%string.
Proof.
  intros digits l. rewrite write_app.
  assert (H : forall l st, st 0 = mkStream Scientific true 0 (s_prec (st 0)) digits ->
    concat (snd (write_all st (flat_map (items_of digits) l))) = concat (map (row_text digits) l)).
  { clear. induction l as [|e l IH]; intros st E; [reflexivity|]. cbn [flat_map map]. rewrite write_app.
    assert (R : exists st1 ts, write_all st (items_of digits e) = (st1, ts) /\ concat ts = row_text digits e /\
              st1 0 = mkStream Scientific true 0 digits digits).
    { destruct (write_all st (items_of digits e)) as [st1 ts] eqn:Ew. exists st1, ts. split; [reflexivity|].
      unfold items_of in Ew. destruct (write1_all (row (e_first e) digits (e_index e) (e_name e) (e_ns e) (e_max e) (e_two e) (e_details e)) st) as [W1 W2].
      rewrite Ew, E in W1, W2. cbn [fst snd] in W1, W2. destruct (row_write digits e (s_prec (st 0))) as [R1 R2].
      split; [rewrite W2; exact R2|rewrite W1; exact R1]. }
    destruct R as (st1 & ts & -> & Ht & E1). specialize (IH st1). destruct (write_all st1 (flat_map (items_of digits) l)) as [st2 t2].
    cbn [snd] in *. rewrite concat_app, Ht. cbn [concat]. rewrite IH; [reflexivity|].
    rewrite E1. reflexivity. }
  destruct (write_all (fun _ => new_stream) (map (pair 0) (heading digits))) as [st1 t1] eqn:E1.
  specialize (H l st1). destruct (write_all st1 (flat_map (items_of digits) l)) as [st2 t2]. cbn [snd] in *. rewrite concat_app, H; [reflexivity|].
  assert (E : fst (write_all (fun _ => new_stream) (map (pair 0) (heading digits))) 0 = mkStream Scientific true 0 6 digits) by reflexivity.
  rewrite E1 in E. cbn [fst] in E. rewrite E. reflexivity.
Qed.

(** If index, name, time and norms fit into their columns, every row's columns start at the
    positions of the heading: 0, 10, 40, 55, 70 and 85. *)
Theorem C69_columns :
  forall digits e,
    String.length (e_index e) <= 10 -> String.length (e_name e) <= 30 ->
    String.length (render Fixed digits (seconds (e_ns e))) <= 15 ->
    String.length (render Scientific digits (e_max e)) <= 15 -> String.length (render Scientific digits (e_two e)) <= 15 ->
    exists c0 c1 c2 c3 c4, row_text digits e = (c0 ++ c1 ++ c2 ++ c3 ++ c4 ++ e_details e ++ newline)%string /\
      String.length c0 = 10 /\ String.length (c0 ++ c1) = 40 /\ String.length (c0 ++ c1 ++ c2) = 55 /\
      String.length (c0 ++ c1 ++ c2 ++ c3) = 70 /\ String.length (c0 ++ c1 ++ c2 ++ c3 ++ c4) = 85 /\
      prefix (e_index e) c0 = true /\ prefix (e_name e) c1 = true /\ prefix (render Fixed digits (seconds (e_ns e))) c2 = true /\
      prefix (render Scientific digits (e_max e)) c3 = true /\ prefix (render Scientific digits (e_two e)) c4 = true.
Proof.
  intros digits e H0 H1 H2 H3 H4.
  assert (P : forall a b, prefix a (a ++ b) = true).
  { induction a as [|x a IH]; intros b; cbn; [now destruct b|]. destruct (ascii_dec x x); [apply IH|congruence]. }
  eexists _, _, _, _, _. split; [reflexivity|]. rewrite !append_length, !pad_length by assumption. unfold pad.
  repeat split; apply P.
Qed.

(** Every text of the heading but the first begins a column of that width. *)
Example C69_heading :
  forall digits, concat (snd (write_all (fun _ => new_stream) (map (pair 0) (heading digits)))) =
    (newline ++ "matrix    name                          time/s         max-norm       2-norm         details" ++ newline ++
     String.concat "" (repeat "-" 120) ++ newline)%string.
Proof. intros digits. reflexivity. Qed.
End Output.
Print Assumptions C69_durations. Print Assumptions C69_numbers. Print Assumptions C69_streams_independent.
Print Assumptions C69_table. Print Assumptions C69_columns.

(** A rendering that shows notation and digits. *)
Definition demo_render (n : notation) (p : Z) (x : Z) : string :=
  (match n with General => "g" | Fixed => "f" | Scientific => "e" end ++ (if (p =? 3)%Z then "3" else if (p =? 6)%Z then "6" else "0"))%string.
Example C69_nonvacuous :
  snd (write_all demo_render (fun ns => ns) (fun _ => new_stream)
    [(0, IAccuracy 3); (1, IDuration 7); (0, IWidth 5); (0, IDuration 7); (0, INumber 7%Z); (1, INumber 7%Z)]) =
  [""; "f0"; ""; "   f3"; "g3"; "g0"]%string.
Proof. reflexivity. Qed.

(** Known violations.  A duration changes the digits of the numbers written after it: the
    table's norms have the digits meant for the times (default 3), not those of the stream. *)
Theorem C69_digits_leak_refuted :
  exists ns, let (s, _) := put_duration demo_render (fun ns => ns) new_stream ns in
    snd (put_number demo_render s 7%Z) <> snd (put_number demo_render new_stream 7%Z).
Proof. exists 1%Z. vm_compute. congruence. Qed.
(** A scoped timer leaves the stream in fixed notation with its own digits. *)
Theorem C69_timer_leaks_refuted :
  forall label p ns s, let (s', _) := put_timer demo_render (fun ns => ns) s label p ns in
    s_not s' = Fixed /\ s_prec s' = p.
Proof. intros. cbn. split; reflexivity. Qed.
Print Assumptions C69_digits_leak_refuted. Print Assumptions C69_timer_leaks_refuted.
