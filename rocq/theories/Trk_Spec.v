(** Specification of tracked scopes in several threads. *)
From Verif Require Export Trk_Model.
Local Open Scope Z_scope.

(** What leaving one scope, and a list of scopes, should add. *)
Definition due1 (x : tloc) (e : nat * Z) : Z :=
  match x with
  | LTime id => if Nat.eqb id (fst e) then snd e else 0
  | LCount id => if Nat.eqb id (fst e) then 1 else 0
  end.
Fixpoint due (x : tloc) (l : list (nat * Z)) : Z := match l with [] => 0 | e :: r => due1 x e + due x r end.
(** The same over several threads. *)
Fixpoint due_all (x : tloc) (prog : nat -> list (nat * Z)) (ts : list nat) : Z :=
  match ts with [] => 0 | t :: r => due x (prog t) + due_all x prog r end.

Definition the_id (x : tloc) : nat := match x with LTime id | LCount id => id end.
(** Thread [t] leaves a scope with this identifier. *)
Definition uses (prog : nat -> list (nat * Z)) (t id : nat) : Prop := exists d, In (id, d) (prog t).
