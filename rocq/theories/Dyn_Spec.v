(** Specification of run-time typed and blocked matrices: which mathematical
    matrix (an array of doubles) an object stands for. *)
From Verif Require Import Base Dense_Model Dense_Spec Sparse_Model Sparse_Spec Dyn_Model Mult_Spec.

(** Exact arithmetic: doubles form a ring with the operations of [SD], every
    float operation gives the same result as the double operation on the
    promoted operands, and the BLAS inner products are sums of products.  This
    is how "up to rounding" is expressed: rounding is switched off. *)
Record exact {F D} (ar : arith F D) {SD : Scalar D} : Prop := mkExact {
  ex_ring : RingLaws D;
  ex_d0 : d0 ar = s0;
  ex_addD : forall a b, addD ar a b = sadd a b;
  ex_subD : forall a b, subD ar a b = ssub a b;
  ex_oppD : forall a, oppD ar a = sopp a;
  ex_fmaD : forall c x y, fmaD ar c x y = sadd c (smul x y);
  ex_dotD : forall l, dotD ar l = fold_left (fun acc p => sadd acc (smul (fst p) (snd p))) l s0;
  ex_dnz : forall x, dnz ar x = s_nz x;
  ex_f0 : toD ar (f0 ar) = s0;
  ex_addF : forall a b, toD ar (addF ar a b) = sadd (toD ar a) (toD ar b);
  ex_subF : forall a b, toD ar (subF ar a b) = ssub (toD ar a) (toD ar b);
  ex_oppF : forall a, toD ar (oppF ar a) = sopp (toD ar a);
  ex_fmaF : forall c x y, toD ar (fmaF ar c x y) = sadd (toD ar c) (smul (toD ar x) (toD ar y));
  ex_dotF : forall l, toD ar (dotF ar l) =
      fold_left (fun acc p => sadd acc (smul (toD ar (fst p)) (toD ar (snd p)))) l s0;
  ex_fnz : forall x, fnz ar x = s_nz (toD ar x)
}.

(** The type pairs for which operator- computes the difference: the right operand
    is Zero, or the left one is dense, or both are sparse. *)
Definition minus_ok (a b : lty) : bool :=
  match a, b with
  | _, TZ => true
  | TD _, _ => true
  | TS _, TS _ => true
  | _, _ => false
  end.
(** The same for operands in two parts; never for two two-part operands. *)
Definition sub_ok (a b : mty) : bool :=
  match a, b with
  | TL a, TL b => minus_ok a b
  | TL a, TM b1 b2 => minus_ok a b1 && minus_ok (add_lty a b1) b2
  | TM a1 a2, TL b => minus_ok (add_lty a1 a2) b
  | TM _ _, TM _ _ => false
  end.

Section Spec.
Context {F D : Type} (ar : arith F D).

(** The one-part object [l] is a well-formed column-major r x c matrix whose
    element (i, j) has, as a double, the value [g i j]; elements that are not
    stored are 0. *)
Definition rep_leaf (l : leaf F D) (r c : nat) (g : nat -> nat -> D) : Prop :=
  match l with
  | LZ z => z_rows z = r /\ z_cols z = c /\ forall i j, i < r -> j < c -> g i j = d0 ar
  | LSf s => s_o s = ColMajor /\ exists f, sp_mat s r c f /\
      forall i j, i < r -> j < c -> g i j = dflt (d0 ar) (option_map (toD ar) (f i j))
  | LSd s => s_o s = ColMajor /\ exists f, sp_mat s r c f /\
      forall i j, i < r -> j < c -> g i j = dflt (d0 ar) (f i j)
  | LDf d => d_orient d = ColMajor /\ exists f, is_mat d r c f /\
      forall i j, i < r -> j < c -> g i j = toD ar (f i j)
  | LDd d => d_orient d = ColMajor /\ is_mat d r c g
  end.

(** A two-part object stands for the sum of its parts. *)
Definition rep (d : dyn F D) (r c : nat) (g : nat -> nat -> D) : Prop :=
  match d with
  | DL l => rep_leaf l r c g
  | DM t1 t2 (Some a) (Some b) =>
      leaf_ty a = t1 /\ leaf_ty b = t2 /\
      exists g1 g2, rep_leaf a r c g1 /\ rep_leaf b r c g2 /\
        forall i j, i < r -> j < c -> g i j = addD ar (g1 i j) (g2 i j)
  | DM _ _ _ _ => False
  end.

(** The sizes for which the BLAS calls of the policy are legal: the int
    arguments do not overflow and the leading dimensions are not 0. *)
Definition fits (p : policy) (m n l : nat) : Prop :=
  match p with
  | PNative => True
  | _ => 1 <= m /\ 1 <= n /\ (Z.of_nat m < 2 ^ 31)%Z /\ (Z.of_nat n + 1 < 2 ^ 31)%Z /\
         (Z.of_nat l < 2 ^ 31)%Z /\ (Z.of_nat (m * n) + 1 < 2 ^ 31)%Z
  end.

(** Policy MKL multiplies float with double in float: exact only if every
    double is a float. *)
Definition float_exact (p : policy) : Prop :=
  match p with PMKL => forall y, toD ar (toF ar y) = y | _ => True end.

(** Sum of the first [n] elements of a list of sizes: where block [n] begins. *)
Definition offs (l : list nat) (n : nat) : nat := list_sum (firstn n l).

(** The blocked matrix [b] is cut along the sizes [rl], [cl] and its block
    (I, J) stands for the region of [g] starting at (offs rl I, offs cl J). *)
Definition rep_blocked (b : blocked F D) (rl cl : list nat) (g : nat -> nat -> D) : Prop :=
  b_ubr b = list_sum rl /\ b_ubc b = list_sum cl /\ d_orient (b_mat b) = ColMajor /\
  exists f, is_mat (b_mat b) (length rl) (length cl) f /\
    forall I J, I < length rl -> J < length cl ->
      exists d, f I J = Some d /\ In (dyn_ty d) type_list /\
        rep d (nth I rl 0) (nth J cl 0) (fun i j => g (offs rl I + i) (offs cl J + j)).

End Spec.
