(** C71: the BLAS interface forwards every call to the library. *)
From Verif Require Import Base BaseLemmas BlasIf_Model BlasIf_Data BlasIf_Spec.
Require Import String DecimalString DecimalNat.
Require FinFun.
Local Open Scope list_scope.

(** The committed files of a vendor. *)
Definition defs (v : vendor) : list wrapper := match v with OpenBLAS => openblas_cpp | MKL => mkl_cpp end.
Definition decls (v : vendor) : list fn := match v with OpenBLAS => openblas_h | MKL => mkl_h end.
Definition protos (v : vendor) : list fn := match v with OpenBLAS => blas_h | MKL => blas_h ++ spblas_h end.

Lemma var_name_inj i j : var_name i = var_name j -> i = j.
Proof.
  unfold var_name. intros H. injection H as H. apply Unsigned.to_uint_inj.
  assert (E : NilEmpty.uint_of_string (NilEmpty.string_of_uint (Nat.to_uint i)) =
              NilEmpty.uint_of_string (NilEmpty.string_of_uint (Nat.to_uint j))) by (now rewrite H).
  rewrite !NilEmpty.usu in E. now injection E.
Qed.
Lemma var_names_nodup k s : NoDup (map var_name (seq s k)).
Proof. apply FinFun.Injective_map_NoDup; [exact var_name_inj|apply seq_NoDup]. Qed.

Section Lookup.
Context {A : Type}.
Lemma lookup_in (x : string) a (env : list (string * A)) : NoDup (map fst env) -> In (x, a) env -> lookup x env = Some a.
Proof.
  induction env as [|[y b] env IH]; cbn; [intros _ []|]. intros N H. inversion N; subst.
  destruct (String.eqb_spec x y) as [-> | Ne].
  - destruct H as [[= <-]|H]; [reflexivity|]. exfalso. apply H2. change y with (fst (y, a)). now apply in_map.
  - destruct H as [[= -> ->]|H]; [contradiction|]. auto.
Qed.
Lemma eval_vars (env locals : list (string * A)) names vals : NoDup (map fst env) -> List.length names = List.length vals ->
  (forall p, In p (combine names vals) -> In p env) -> eval_args env locals (map Var names) = Some vals.
Proof.
  intros N. revert vals. induction names as [|x names IH]; intros [|a vals]; cbn; try discriminate; [reflexivity|].
  intros [= L] H. rewrite (lookup_in x a env N) by (apply H; now left). rewrite (IH vals L); [reflexivity|]. intros p Hp. apply H. now right.
Qed.
Lemma combine_fst {X Y} (l : list X) (r : list Y) : List.length l = List.length r -> map fst (combine l r) = l.
Proof. revert r. induction l; intros [|y r]; cbn; try discriminate; auto. intros [= L]. now rewrite IHl. Qed.
Lemma combine_snd {X Y} (l : list X) (r : list Y) : List.length l = List.length r -> map snd (combine l r) = r.
Proof. revert r. induction l; intros [|y r]; cbn; try discriminate; auto. intros [= L]. now rewrite IHl. Qed.
End Lookup.

Lemma forward_call {A V} (aeq : forall x y : A, {x = y} + {x <> y}) (lib : @library A V) fresh pre suf f args m :
  List.length args = List.length (f_args f) ->
  call aeq lib fresh (forward pre suf f) args m = Ok (lib (pre ++ f_name f ++ suf)%string args m).
Proof.
  intros L. unfold call, forward; cbn. rewrite combine_snd by (now rewrite map_length, seq_length).
  rewrite (eval_vars _ [] _ args); auto.
  - rewrite combine_fst by (now rewrite map_length, seq_length). apply var_names_nodup.
  - now rewrite map_length, seq_length.
Qed.

(** Whatever the function list says: each definition the template generates passes all its
    arguments on, in order, and returns what the routine returns. *)
Theorem C71_generator :
  forall (blas sp : list fn) (A V : Type) (aeq : forall x y : A, {x = y} + {x <> y}) (lib : @library A V) fresh f args m,
    List.length args = List.length (f_args f) ->
    (In f blas -> exists w, In w (gen_openblas_cpp blas) /\ In w (gen_mkl_cpp blas sp) /\ w_fun w = f_name f /\
       call aeq lib fresh w args m = Ok (lib (f_name f ++ "_")%string args m)) /\
    (In f sp -> exists w, In w (gen_mkl_cpp blas sp) /\ w_fun w = f_name f /\
       call aeq lib fresh w args m = Ok (lib ("mkl_" ++ f_name f)%string args m)).
Proof.
  intros blas sp A V aeq lib fresh f args m L. split; intros H.
  - exists (forward "" "_" f). assert (HI : In (forward "" "_" f) (map (forward "" "_") blas)) by now apply in_map.
    repeat split; [apply in_or_app; now left|apply in_or_app; now left|]. exact (forward_call aeq lib fresh "" "_" f args m L).
  - exists (forward "mkl_" "" f). assert (HI : In (forward "mkl_" "" f) (map (forward "mkl_" "") sp)) by now apply in_map.
    repeat split; [apply in_or_app; right; apply in_or_app; now left|]. rewrite (forward_call aeq lib fresh "mkl_" "" f args m L).
    assert (E : forall s, (s ++ "")%string = s) by (induction s as [|c s IH]; cbn; [reflexivity|now rewrite IH]). now rewrite E.
Qed.

Lemma ctype_eqb_refl t : ctype_eqb t t = true. Proof. now destruct t. Qed.
Lemma ctype_eqb_eq a b : ctype_eqb a b = true -> a = b. Proof. destruct a, b; cbn; congruence. Qed.
Lemma distinct_nodup l : distinct l = true <-> NoDup l.
Proof.
  induction l as [|x l IH]; cbn; [split; [constructor|reflexivity]|]. rewrite andb_true_iff, negb_true_iff, IH. split.
  - intros [H N]. constructor; [|exact N]. intros HI. rewrite <- Bool.not_true_iff_false in H. apply H. apply existsb_exists.
    exists x. split; [exact HI|apply String.eqb_refl].
  - intros N. inversion N; subst. split; [|assumption]. rewrite <- Bool.not_true_iff_false. intros H. apply existsb_exists in H as (y & HI & E).
    apply String.eqb_eq in E as ->. contradiction.
Qed.
Lemma find_param (params : list ((bool * ctype) * string)) t x : NoDup (map snd params) -> In (t, x) params ->
  find (fun p => String.eqb x (snd p)) params = Some (t, x).
Proof.
  induction params as [|[t' y] ps IH]; cbn; [intros _ []|]. intros N H. inversion N; subst.
  destruct (String.eqb_spec x y) as [-> | Ne].
  - destruct H as [[= ->]|H]; [reflexivity|]. exfalso. apply H2. change y with (snd (t, y)). now apply in_map.
  - destruct H as [[= -> ->]|H]; [contradiction|]. auto.
Qed.
Lemma args_ok_vars params local names ts : NoDup (map snd params) -> List.length names = List.length ts ->
  (forall p, In p (combine ts names) -> In p params) -> args_ok params local (map Var names) ts = true.
Proof.
  intros N. revert ts. induction names as [|x names IH]; intros [|t ts]; cbn; try discriminate; auto. intros [= L] H.
  rewrite (find_param params t x N) by (apply H; now left). cbn. unfold converts. rewrite ctype_eqb_refl.
  rewrite (IH ts L) by (intros p Hp; apply H; now right). now destruct t as [[] ?].
Qed.
Lemma find_proto (l : list fn) p : NoDup (map f_name l) -> In p l -> find (fun q => String.eqb (f_name p) (f_name q)) l = Some p.
Proof.
  induction l as [|q l IH]; cbn; [intros _ []|]. intros N H. inversion N; subst. destruct (String.eqb_spec (f_name p) (f_name q)) as [E|Ne].
  - destruct H as [-> |H]; [reflexivity|]. exfalso. apply H2. rewrite <- E. now apply in_map.
  - destruct H as [-> |H]; [contradiction|]. auto.
Qed.
Lemma nodup_left {X} (l r : list X) : NoDup (l ++ r) -> NoDup l.
Proof.
  induction l as [|a l IH]; cbn; intros N; [constructor|]. inversion N; subst. constructor; auto.
  intros H. apply H1. apply in_or_app. now left.
Qed.
Lemma forward_compiles l pre suf f : NoDup (map f_name l) -> In (rename pre suf f) l -> compiles l (forward pre suf f) = true.
Proof.
  intros N H. unfold compiles, forward; cbn. rewrite combine_snd by (now rewrite map_length, seq_length).
  assert (D : distinct (map var_name (seq 0 (List.length (f_args f)))) = true) by (apply distinct_nodup, var_names_nodup).
  rewrite D. cbn. pose proof (find_proto l (rename pre suf f) N H) as E. cbn in E. rewrite E. cbn. rewrite ctype_eqb_refl. cbn.
  apply args_ok_vars; auto.
  - rewrite combine_snd by (now rewrite map_length, seq_length). apply var_names_nodup.
  - now rewrite map_length, seq_length.
Qed.
(** ... and compiles against the generated prototypes, if no name is listed twice. *)
Theorem C71_generator_compiles :
  forall blas zdot_no_return sp f,
    NoDup (map f_name (gen_blas_h blas zdot_no_return ++ gen_spblas_h sp)) ->
    (In f blas -> compiles (gen_blas_h blas zdot_no_return) (forward "" "_" f) = true /\
                  compiles (gen_blas_h blas zdot_no_return ++ gen_spblas_h sp) (forward "" "_" f) = true) /\
    (In f sp -> compiles (gen_blas_h blas zdot_no_return ++ gen_spblas_h sp) (forward "mkl_" "" f) = true).
Proof.
  intros blas zd sp f N. assert (N1 : NoDup (map f_name (gen_blas_h blas zd))).
  { rewrite map_app in N. now apply nodup_left in N. }
  split; [intros H; split|intros H]; apply forward_compiles; auto.
  - unfold gen_blas_h. apply in_map, in_or_app. now left.
  - apply in_or_app. left. unfold gen_blas_h. apply in_map, in_or_app. now left.
  - apply in_or_app. right. unfold gen_spblas_h. now apply in_map.
Qed.

(** The committed files are what the templates generate from the committed list. *)
Theorem C71_up_to_date :
  openblas_cpp = gen_openblas_cpp functions_blas /\ mkl_cpp = gen_mkl_cpp functions_blas functions_spblas /\
  openblas_h = gen_openblas_h functions_blas functions_blas_zdot /\ mkl_h = gen_mkl_h functions_blas functions_blas_zdot functions_spblas /\
  blas_h = gen_blas_h functions_blas functions_blas_zdot_no_return /\ spblas_h = gen_spblas_h functions_spblas /\
  function_types = gen_function_types functions_blas functions_blas_zdot functions_spblas.
Proof. repeat split; vm_compute; reflexivity. Qed.

(** ** The committed interface against the reference. *)
Definition par_eqb (a b : bool * ctype) : bool := Bool.eqb (fst a) (fst b) && ctype_eqb (snd a) (snd b).
Fixpoint list_eqb {X} (e : X -> X -> bool) (l r : list X) : bool :=
  match l, r with [], [] => true | a :: l, b :: r => e a b && list_eqb e l r | _, _ => false end.
Lemma list_eqb_eq {X} (e : X -> X -> bool) (H : forall a b, e a b = true -> a = b) l r : list_eqb e l r = true -> l = r.
Proof. revert r. induction l; intros [|b r]; cbn; try discriminate; auto. rewrite andb_true_iff. intros [E1 E2]. f_equal; auto. Qed.
Definition fn_eqb (a b : fn) : bool := ctype_eqb (f_ret a) (f_ret b) && String.eqb (f_name a) (f_name b) && list_eqb par_eqb (f_args a) (f_args b).
Lemma fn_eqb_eq a b : fn_eqb a b = true -> a = b.
Proof.
  destruct a, b; unfold fn_eqb; cbn. rewrite !andb_true_iff. intros [[E1 E2] E3]. apply ctype_eqb_eq in E1. apply String.eqb_eq in E2.
  apply list_eqb_eq in E3; [congruence|]. intros [c1 t1] [c2 t2]. unfold par_eqb; cbn. rewrite andb_true_iff. intros [Ea Eb].
  apply eqb_prop in Ea. apply ctype_eqb_eq in Eb. congruence.
Qed.
Definition subset (l r : list fn) : bool := forallb (fun a => existsb (fn_eqb a) r) l.
Lemma subset_in l r : subset l r = true -> forall a, In a l -> In a r.
Proof.
  intros H a Ha. unfold subset in H. rewrite forallb_forall in H. specialize (H a Ha). apply existsb_exists in H as (b & Hb & E).
  apply fn_eqb_eq in E as ->. exact Hb.
Qed.
Definition is_sparse (f : fn) : bool := existsb (String.eqb (f_name f)) sparse_names.
Lemma is_sparse_in f : is_sparse f = true <-> In (f_name f) sparse_names.
Proof.
  unfold is_sparse. rewrite existsb_exists. split.
  - intros (x & Hx & E). apply String.eqb_eq in E as ->. exact Hx.
  - intros H. exists (f_name f). split; [exact H|apply String.eqb_refl].
Qed.
Definition offered (v : vendor) : list fn :=
  match v with MKL => reference | OpenBLAS => filter (fun f => negb (is_sparse f)) reference end.
Lemma offered_in v f : In f (offered v) <-> offers v f.
Proof.
  unfold offers. destruct v; cbn [offered].
  - rewrite filter_In, negb_true_iff, <- Bool.not_true_iff_false, is_sparse_in. intuition.
  - intuition discriminate.
Qed.

(** The classes that exist are exactly the reference routines (the sparse ones only for
    MKL), with the reference's return type and argument order, and none exists twice. *)
Theorem C71_reference :
  forall v, (forall f, In f (decls v) <-> offers v f) /\ NoDup (map f_name (decls v)).
Proof.
  intros v. split.
  - intros f. rewrite <- offered_in. split; revert f; apply subset_in; destruct v; vm_compute; reflexivity.
  - apply distinct_nodup. destruct v; vm_compute; reflexivity.
Qed.

(** Each has one definition, with the declared types; it compiles; and the prototypes it
    relies on are those of the reference. *)
Theorem C71_compiles :
  forall v, map (fun w => mkFn (w_ret w) (w_fun w) (map fst (w_params w))) (defs v) =
      (match v with OpenBLAS => functions_blas | MKL => functions_blas ++ functions_spblas end) ++ functions_blas_zdot /\
    (forall w, In w (defs v) -> In (mkFn (w_ret w) (w_fun w) (map fst (w_params w))) (decls v) /\ compiles (protos v) w = true) /\
    NoDup (map w_fun (defs v)) /\
    (forall p, In p (protos v) <-> exists f, offers v f /\ p = prototype f).
Proof.
  intros v. split; [destruct v; vm_compute; reflexivity|]. split; [|split].
  - assert (E : forallb (fun w => existsb (fn_eqb (mkFn (w_ret w) (w_fun w) (map fst (w_params w)))) (decls v) && compiles (protos v) w) (defs v) = true)
      by (destruct v; vm_compute; reflexivity).
    rewrite forallb_forall in E. intros w Hw. specialize (E w Hw). rewrite andb_true_iff in E. destruct E as [E1 E2]. split; [|exact E2].
    apply existsb_exists in E1 as (b & Hb & E). apply fn_eqb_eq in E. now rewrite E.
  - apply distinct_nodup. destruct v; vm_compute; reflexivity.
  - intros p. assert (E1 : subset (protos v) (map prototype (offered v)) = true) by (destruct v; vm_compute; reflexivity).
    assert (E2 : subset (map prototype (offered v)) (protos v) = true) by (destruct v; vm_compute; reflexivity). split.
    + intros H. apply (subset_in _ _ E1) in H. apply in_map_iff in H as (f & <- & Hf). exists f. split; [now apply offered_in|reflexivity].
    + intros (f & Hf & ->). apply (subset_in _ _ E2). apply in_map. now apply offered_in.
Qed.

(** The string a function tag reports is its own name, and there is one tag per routine. *)
Theorem C71_names :
  (forall t s, In (t, s) function_types -> s = t) /\ NoDup (map fst function_types) /\
  forall f, In f reference -> In (f_name f, f_name f) function_types.
Proof.
  split; [|split].
  - assert (E : forallb (fun p => String.eqb (snd p) (fst p)) function_types = true) by (vm_compute; reflexivity).
    rewrite forallb_forall in E. intros t s H. specialize (E _ H). now apply String.eqb_eq.
  - apply distinct_nodup. vm_compute. reflexivity.
  - assert (E : forallb (fun f => existsb (fun p => String.eqb (f_name f) (fst p) && String.eqb (f_name f) (snd p)) function_types) reference = true)
      by (vm_compute; reflexivity).
    rewrite forallb_forall in E. intros f H. specialize (E f H). apply existsb_exists in E as ([t s] & Hp & E). cbn in E.
    rewrite andb_true_iff in E. destruct E as [E1 E2]. apply String.eqb_eq in E1. apply String.eqb_eq in E2. congruence.
Qed.

(** Definition of the class for [f]. *)
Definition defines (v : vendor) (f : fn) (w : wrapper) : Prop := In w (defs v) /\ w_fun w = f_name f.

(** For every routine, library, argument list and memory: calling the interface does what
    calling the library's routine with the same arguments does, and nothing else. *)
Theorem C71_forwarding :
  forall v f w, offers v f -> ~ In (f_name f) complex_dots -> defines v f w ->
  forall (A V : Type) (aeq : forall x y : A, {x = y} + {x <> y}) (lib : @library A V) fresh args m,
    List.length args = List.length (f_args f) ->
    call aeq lib fresh w args m = Ok (lib (routine (f_name f)) args m).
Proof.
  intros v f w Ho Hd [Hw Ef] A V aeq lib fresh args m L.
  set (entries := match v with OpenBLAS => map (pair ("", "_")%string) functions_blas
    | MKL => map (pair ("", "_")%string) functions_blas ++ map (pair ("mkl_", "")%string) functions_spblas end).
  assert (E : defs v = map (fun e => forward (fst (fst e)) (snd (fst e)) (snd e)) entries ++ dot_defs).
  { subst entries. destruct v; vm_compute; reflexivity. }
  assert (C : forallb (fun e => String.eqb (fst (fst e) ++ f_name (snd e) ++ snd (fst e)) (routine (f_name (snd e)))
      && existsb (fn_eqb (snd e)) (decls v))%string entries = true).
  { subst entries. destruct v; vm_compute; reflexivity. }
  rewrite E in Hw. apply in_app_or in Hw as [Hw|Hw].
  - apply in_map_iff in Hw as (e & <- & He). rewrite forallb_forall in C. specialize (C e He). rewrite andb_true_iff in C. destruct C as [C1 C2].
    apply String.eqb_eq in C1. cbn in Ef. apply existsb_exists in C2 as (d & Hd2 & Ed). apply fn_eqb_eq in Ed. subst d.
    destruct (C71_reference v) as [R N]. apply R in Ho.
    assert (Es : snd e = f).
    { clear - Ho Hd2 Ef N. induction (decls v) as [|d l IH]; [destruct Ho|]. cbn in N. inversion N; subst.
      destruct Ho as [-> |Ho], Hd2 as [-> |Hd2]; auto.
      - exfalso. apply H1. rewrite <- Ef. now apply in_map.
      - exfalso. apply H1. rewrite Ef. now apply in_map. }
    rewrite <- Es in *. rewrite (forward_call aeq lib fresh _ _ _ args m L). now rewrite C1.
  - exfalso. apply Hd. rewrite <- Ef. cbn in Hw. destruct Hw as [<-|[<-|[<-|[<-|[]]]]]; cbn; auto.
Qed.

(** The complex dot products: if the routine stores the value [dot] of its arguments in the
    place its first argument points to and changes nothing else, the interface returns this
    value and leaves the memory as it was. *)
Theorem C71_complex_dot :
  forall v f w, offers v f -> In (f_name f) complex_dots -> defines v f w ->
  forall (A V : Type) (aeq : forall x y : A, {x = y} + {x <> y}) (lib : @library A V) (dot : list A -> @mem A V -> V),
    (forall r args m, m r <> None -> ~ In r args ->
       snd (lib (routine (f_name f)) (r :: args) m) r = Some (Some (dot args m)) /\
       forall a, a <> r -> snd (lib (routine (f_name f)) (r :: args) m) a = m a) ->
    (forall args m m', (forall a, In a args \/ m a <> None -> m a = m' a) -> dot args m = dot args m') ->
  forall fresh args m, List.length args = 5 -> m fresh = None -> (forall a, In a args -> m a <> None) ->
    exists m', call aeq lib fresh w args m = Ok (Some (dot args m), m') /\ forall a, m' a = m a.
Proof.
  intros v f w Ho Hd [Hw Ef] A V aeq lib dot HL HD fresh args m L Hf Ha.
  assert (Hin : In w dot_defs /\ routine (f_name f) = (w_fun w ++ "_")%string).
  { assert (C : forallb (fun w => negb (existsb (String.eqb (w_fun w)) complex_dots)) (firstn (List.length (defs v) - 4) (defs v)) = true)
      by (destruct v; vm_compute; reflexivity).
    assert (E : defs v = firstn (List.length (defs v) - 4) (defs v) ++ dot_defs) by (destruct v; vm_compute; reflexivity).
    rewrite E in Hw. apply in_app_or in Hw as [Hw|Hw].
    - exfalso. rewrite forallb_forall in C. specialize (C w Hw). rewrite negb_true_iff in C. rewrite <- Bool.not_true_iff_false in C. apply C.
      apply existsb_exists. exists (f_name f). split; [exact Hd|]. rewrite Ef. apply String.eqb_refl.
    - split; [exact Hw|]. rewrite <- Ef. cbn in Hw. destruct Hw as [<-|[<-|[<-|[<-|[]]]]]; vm_compute; reflexivity. }
  destruct Hin as [Hw' Hr]. rewrite Hr in HL.
  do 5 (destruct args as [|? args]; [discriminate|]). destruct args; [|discriminate].
  assert (NF : ~ In fresh [a; a0; a1; a2; a3]) by (intros H; now apply Ha in H).
  set (m1 := set_mem aeq m fresh (Some None)).
  assert (Hm1 : m1 fresh = Some None) by (unfold m1, set_mem; destruct (aeq fresh fresh); congruence).
  specialize (HL fresh [a; a0; a1; a2; a3] m1). rewrite Hm1 in HL. destruct (HL ltac:(discriminate) NF) as [H1 H2]. clear HL.
  exists (set_mem aeq (snd (lib (w_fun w ++ "_")%string (fresh :: [a; a0; a1; a2; a3]) m1)) fresh None). split.
  - assert (Ew : exists t, w = dot_def t (w_fun w)).
    { cbn in Hw'. destruct Hw' as [<-|[<-|[<-|[<-|[]]]]]; eexists; reflexivity. }
    destruct Ew as (t & ->). cbn - [append]. cbn [dot_def w_fun] in H1. fold m1. rewrite H1.
    rewrite (HD [a; a0; a1; a2; a3] m m1); [reflexivity|].
    intros b Hb. unfold m1, set_mem. destruct (aeq b fresh) as [-> |]; [|reflexivity]. exfalso. destruct Hb; auto.
  - intros b. unfold set_mem at 1. destruct (aeq b fresh) as [-> |Ne]; [now rewrite Hf|]. rewrite H2 by exact Ne.
    unfold m1, set_mem. destruct (aeq b fresh); congruence.
Qed.

(** Every routine offered has exactly one definition. *)
Theorem C71_defined :
  forall v f, offers v f -> exists w, defines v f w /\ w_ret w = f_ret f /\ map fst (w_params w) = f_args f /\ forall w', defines v f w' -> w' = w.
Proof.
  intros v f Ho. apply offered_in in Ho.
  assert (E : forallb (fun f => existsb (fun w => fn_eqb (mkFn (w_ret w) (w_fun w) (map fst (w_params w))) f) (defs v)) (offered v) = true)
    by (destruct v; vm_compute; reflexivity).
  rewrite forallb_forall in E. specialize (E f Ho). apply existsb_exists in E as (w & Hw & E). apply fn_eqb_eq in E.
  assert (E1 : w_ret w = f_ret f) by now rewrite <- E. assert (E2 : w_fun w = f_name f) by now rewrite <- E.
  assert (E3 : map fst (w_params w) = f_args f) by now rewrite <- E.
  exists w. split; [now split|]. split; [exact E1|]. split; [exact E3|].
  intros w' [Hw' Ef]. rewrite <- E2 in Ef. destruct (C71_compiles v) as (_ & _ & N & _). clear - N Hw Hw' Ef.
  induction (defs v) as [|d l IH]; [destruct Hw|]. cbn in N. inversion N; subst.
  destruct Hw as [-> |Hw], Hw' as [-> |Hw']; auto.
  - exfalso. apply H1. rewrite <- Ef. now apply in_map.
  - exfalso. apply H1. rewrite Ef. now apply in_map.
Qed.

(** Instances: sgemm is offered by both vendors, dcsrmm by MKL; a dot product of stored numbers. *)
Lemma offers_by v n : existsb (fun f => String.eqb (f_name f) n) (offered v) = true -> exists f, offers v f /\ f_name f = n.
Proof. intros H. apply existsb_exists in H as (f & Hf & E). exists f. split; [now apply offered_in|]. now apply String.eqb_eq. Qed.
Definition demo_lib : @library nat nat := fun _ l m =>
  match l with
  | [r; n; x; _; y; _] => (None, set_mem Nat.eq_dec m r
      (match m x, m y with Some (Some a), Some (Some b) => Some (Some (a * b)) | _, _ => Some (Some 0) end))
  | _ => (None, m)
  end.
Definition demo_mem : @mem nat nat := fun a => if a <? 5 then Some (Some (a + 2)) else None.
Definition demo_value (args : list nat) (m : @mem nat nat) : nat :=
  match args with
  | [n; x; _; y; _] => match m x, m y with Some (Some a), Some (Some b) => a * b | _, _ => 0 end
  | _ => 0
  end.
Example C71_nonvacuous :
  (exists f, offers OpenBLAS f /\ f_name f = "sgemm"%string /\ ~ In (f_name f) complex_dots) /\
  (exists f, offers MKL f /\ f_name f = "dcsrmm"%string /\ ~ In (f_name f) complex_dots) /\
  (exists f w m', offers MKL f /\ In (f_name f) complex_dots /\ defines MKL f w /\
    call Nat.eq_dec demo_lib 9 w [0; 1; 2; 3; 4] demo_mem = Ok (Some 15, m')) /\
  (forall r a b c d e m, m r <> None -> ~ In r [a; b; c; d; e] ->
    snd (demo_lib "cdotc_"%string (r :: [a; b; c; d; e]) m) r = Some (Some (demo_value [a; b; c; d; e] m)) /\
    forall q, q <> r -> snd (demo_lib "cdotc_"%string (r :: [a; b; c; d; e]) m) q = m q).
Proof.
  split; [|split; [|split]].
  - destruct (offers_by OpenBLAS "sgemm"%string) as (f & Hf & E); [vm_compute; reflexivity|]. exists f. rewrite E. repeat split; try apply Hf.
    cbn. intuition discriminate.
  - destruct (offers_by MKL "dcsrmm"%string) as (f & Hf & E); [vm_compute; reflexivity|]. exists f. rewrite E. repeat split; try apply Hf.
    cbn. intuition discriminate.
  - destruct (offers_by MKL "cdotc"%string) as (f & Hf & E); [vm_compute; reflexivity|].
    exists f, (dot_def C32 "cdotc"%string). eexists. split; [exact Hf|]. rewrite E. split; [now left|]. split.
    + split; [|now rewrite E]. assert (X : existsb (fun w => String.eqb (w_fun w) "cdotc"%string) (defs MKL) = true) by (vm_compute; reflexivity).
      assert (Y : nth_error (defs MKL) (List.length (defs MKL) - 4) = Some (dot_def C32 "cdotc"%string)) by (vm_compute; reflexivity).
      now apply nth_error_In in Y.
    + vm_compute. reflexivity.
  - intros r a b c d e m Hr Hn. cbn. unfold set_mem. split.
    + destruct (Nat.eq_dec r r); [|congruence]. destruct (m b) as [[]|]; try reflexivity. destruct (m d) as [[]|]; reflexivity.
    + intros q Hq. destruct (Nat.eq_dec q r); congruence.
Qed.
Print Assumptions C71_generator. Print Assumptions C71_generator_compiles. Print Assumptions C71_up_to_date.
Print Assumptions C71_reference. Print Assumptions C71_compiles. Print Assumptions C71_names. Print Assumptions C71_forwarding.
Print Assumptions C71_complex_dot. Print Assumptions C71_defined. Print Assumptions C71_nonvacuous.
