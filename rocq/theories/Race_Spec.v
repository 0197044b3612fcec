(** Specification of threads that share a const matrix. *)
From Verif Require Export Race_Model Check_Spec.

Section Spec.
Context {F D : Type} (ar : arith F D) {C N : Type}.
Context (norm_of : C -> N) (count_of : (D -> bool) -> C -> nat).

(** The answer a question about contents [c] deserves. *)
Definition right (c : C) (q : ask D) : answer C N :=
  match q with
  | AskNorm => GotNorm (norm_of c)
  | AskCount k => GotCount (count_of (ck_ok ar k) c)
  | AskElems => GotElems c
  end.

(** A count for [k], or for an equivalent range, has been asked before. *)
Definition cached (k : checker D) (l : list (checker D * nat)) : Prop :=
  exists k' n, In (k', n) l /\ ck_equiv ar k k' = Ok true.

(** The caches of a matrix nobody has changed since they were filled; in
    particular those of a new matrix. *)
Definition consistent (s : shared D C N) : Prop :=
  (sh_flag s = true -> sh_norm s = norm_of (sh_c s)) /\
  (forall k n, In (k, n) (sh_map s) -> ck_t k = TTdouble /\ n = count_of (ck_ok ar k) (sh_c s)).

(** Questions with the checkers of ValueCheckerTypeList. *)
Definition listed (q : ask D) : Prop :=
  match q with AskCount k => ck_t k = TTdouble | _ => True end.

Definition race_reachable (std : bool) (s : shared D C N) (qs : nat -> list (ask D)) : Prop :=
  exists l y, rrun ar norm_of count_of (rinit s qs) l = Ok y /\ race ar std y.
End Spec.
