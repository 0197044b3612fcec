(** What storages of compile-time size are expected to do: each is a list of [N]
    values of its own. *)
From Verif Require Import Base Stk_Model.

Section Spec.
Context {T : Type} (zero : T) (N : nat).

(** [None]: the caller breaks the rules (no such storage, index not below [N], a
    value list with more than [N] elements). *)
Definition kspec (m : list (list T)) (x : kop T) : option (list (list T) * kout T) :=
  match x with
  | KNew _ => Some (m ++ [repeat zero N], KNone)
  | KList vs => if length vs <=? N then Some (m ++ [vs ++ repeat zero (N - length vs)], KNone) else None
  | KCopy s => match nth_error m s with Some v => Some (m ++ [v], KNone) | None => None end
  | KAssign d s => match nth_error m d, nth_error m s with Some _, Some v => Some (upd m d v, KNone) | _, _ => None end
  | KWrite s i v =>
      match nth_error m s with Some l => if i <? N then Some (upd m s (upd l i v), KNone) else None | None => None end
  | KRead s i =>
      match nth_error m s with
      | Some l => match nth_error l i with Some v => Some (m, KVal v) | None => None end
      | None => None
      end
  | KSize s => match nth_error m s with Some _ => Some (m, KNat N) | None => None end
  | KEq _ _ => None
  end.
Fixpoint kspec_run (m : list (list T)) (xs : list (kop T)) : option (list (list T) * list (kout T)) :=
  match xs with
  | [] => Some (m, [])
  | x :: t =>
      match kspec m x with
      | None => None
      | Some (m1, z) => match kspec_run m1 t with None => None | Some (m2, zs) => Some (m2, z :: zs) end
      end
  end.

(** No storage is assigned to another one. *)
Definition no_assign (x : kop T) : Prop := match x with KAssign d s => d = s | _ => True end.
End Spec.
