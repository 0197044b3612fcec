(** What the comparisons with norm and occupation should answer. *)
From Verif Require Import Base Dyn_Model Check_Model Check_Spec Query_Model.

Section QSpec.
Context {F D : Type} (ar : arith F D) {C : Type}.
Context (norm_of : C -> D) (count_of : (D -> bool) -> C -> nat) (size_of : C -> nat).

(** The share of the elements the checker accepts. *)
Definition share (k : checker D) (c : C) : D := quotD ar (count_of (ck_ok ar k) c) (size_of c).

(** The answer is the one for the contents the object has at that moment. *)
Definition norm_answer (a : qout D C) : Prop :=
  match a with
  | ABase (ONorm n c) => n = norm_of c
  | ANormLarger b x c => b = true <-> lt ar x (norm_of c)
  | ANormSmaller b x c => b = true <-> lt ar (norm_of c) x
  | _ => True
  end.
Definition occ_answer (a : qout D C) : Prop :=
  match a with
  | ABase (OCount n k c) => n = count_of (ck_ok ar k) c
  | AOcc q k c => q = share k c
  | AOccLarger b x k c => b = true <-> lt ar x (share k c)
  | AOccSmaller b x k c => b = true <-> lt ar (share k c) x
  | _ => True
  end.

(** For the discipline of Check_Spec.v a comparison counts as asking for the
    value. *)
Definition asks (x : qop D C) : op D C :=
  match x with
  | QBase x => x
  | QNormLarger v _ | QNormSmaller v _ => GetNorm v
  | QOcc v k | QOccLarger v _ k | QOccSmaller v _ k => GetCount v k
  end.
End QSpec.
