(** Model of the value checkers and of the cached norm and occupation of a
    matrix object.  Sources (include/BlasBooster/Core):
    AbsoluteValueRangeChecker.h, NormPolicy.h, OccupationPolicy.h,
    DenseMatrix.h 197-221, 287-295, SparseMatrix.h 88-133.

    Simplifications:
    - double is an abstract type with the comparisons of record [arith];
    - std::map is an association list searched with the map's own equivalence
      (neither key is less than the other), which is what the standard
      guarantees for a strict weak order;
    - the contents of a matrix are an abstract type [C]; writes, assignments and
      resizes are arbitrary functions on it. *)
From Verif Require Import Base Dyn_Model.

(** ThresholdType of a checker; only the double checkers are in
    ValueCheckerTypeList (AbsoluteValueRangeChecker.h 40-45). *)
Inductive tty := TTdouble | TTfloat | TTint.
(** The four class templates, 47-220: (lower bound, upper bound). *)
Inductive ckind := ExclNo | ExclIncl | InclIncl | ExclExcl.
(** [ck_hi] is unused for [ExclNo]. *)
Record checker (D : Type) := mkChecker { ck_t : tty; ck_k : ckind; ck_lo : D; ck_hi : D }.
Arguments mkChecker {D}. Arguments ck_t {D}. Arguments ck_k {D}. Arguments ck_lo {D}. Arguments ck_hi {D}.

Section Checkers.
Context {F D : Type} (ar : arith F D).

(** Constructors: 54-58, 95-101, 141-147, 187-193. *)
Definition ck_new (t : tty) (k : ckind) (lo hi : D) : res (checker D) :=
  match k with
  | ExclNo => if ltD ar lo (d0 ar) then Throw else Ok (mkChecker t k lo hi)
  | ExclIncl | ExclExcl =>
      if ltD ar lo (d0 ar) then Throw
      else if ltD ar hi (d0 ar) then Throw
      else if leD ar hi lo then Throw
      else Ok (mkChecker t k lo hi)
  | InclIncl =>
      if ltD ar lo (d0 ar) then Throw
      else if ltD ar hi (d0 ar) then Throw
      else if ltD ar hi lo then Throw
      else Ok (mkChecker t k lo hi)
  end.

(** operator(): 60-64, 103-108, 149-154, 195-200. *)
Definition ck_ok (c : checker D) (x : D) : bool :=
  let v := absD ar x in
  match ck_k c with
  | ExclNo => ltD ar (ck_lo c) v
  | ExclIncl => ltD ar (ck_lo c) v && leD ar v (ck_hi c)
  | InclIncl => leD ar (ck_lo c) v && leD ar v (ck_hi c)
  | ExclExcl => ltD ar (ck_lo c) v && ltD ar v (ck_hi c)
  end.

(** getID: index in ValueCheckerTypeList, its length 4 if absent (40-45, 84-86,
    130-132, 176-178, 222-224). *)
Definition ck_id (c : checker D) : nat :=
  match ck_t c with
  | TTdouble => match ck_k c with ExclNo => 0 | ExclIncl => 1 | InclIncl => 2 | ExclExcl => 3 end
  | _ => 4
  end.
Definition tty_eqb (a b : tty) : bool :=
  match a, b with TTdouble, TTdouble | TTfloat, TTfloat | TTint, TTint => true | _, _ => false end.
Definition ckind_eqb (a b : ckind) : bool :=
  match a, b with ExclNo, ExclNo | ExclIncl, ExclIncl | InclIncl, InclIncl | ExclExcl, ExclExcl => true | _, _ => false end.

(** std::tuple comparison of two components. *)
Definition lex2 (a b a' b' : D) : bool :=
  if ltD ar a a' then true else if ltD ar a' a then false else ltD ar b b'.

(** operator<: 66-72, 110-117, 156-163, 202-209.  Lexicographic on (id,
    thresholds); the thresholds of the other object are read, after an
    unchecked cast to the own class, only if the ids are equal. *)
Definition ck_lt (a b : checker D) : res bool :=
  if ck_id a <? ck_id b then Ok true
  else if ck_id b <? ck_id a then Ok false
  else if negb (tty_eqb (ck_t a) (ck_t b) && ckind_eqb (ck_k a) (ck_k b)) then UB DeadObject
  else match ck_k a with
       | ExclNo => Ok (ltD ar (ck_lo a) (ck_lo b))
       | _ => Ok (lex2 (ck_lo a) (ck_hi a) (ck_lo b) (ck_hi b))
       end.

(** Equivalence of keys as std::map determines it. *)
Definition ck_equiv (a b : checker D) : res bool :=
  do x <- ck_lt a b; if x : bool then Ok false else
  do y <- ck_lt b a; Ok (negb y).

Fixpoint map_find (k : checker D) (l : list (checker D * nat)) : res (option nat) :=
  match l with
  | [] => Ok None
  | (k', n) :: r => do e <- ck_equiv k k'; if e : bool then Ok (Some n) else map_find k r
  end.
End Checkers.

(** ** Objects with caches *)
Section Caches.
Context {F D : Type} (ar : arith F D) {C N : Type}.
(** What the policies compute from the contents: norm<NormType> (Norm.h) and
    countDesiredElements (Occupation.h), and what a move leaves behind. *)
Context (norm_of : C -> N) (count_of : (D -> bool) -> C -> nat) (moved : C -> C) (empty : C).

(** NormPolicy.h 50-54: [o_norm = Some n] is isNormUpToDate_ with norm_ = n.
    OccupationPolicy.h 58. *)
Record obj := mkObj { o_c : C; o_norm : option N; o_occ : list (checker D * nat) }.

(** A constructor that builds contents [c]: both policies are default
    constructed (NormPolicy.h 16-18, OccupationPolicy.h 15). *)
Definition o_new (c : C) : obj := mkObj c None [].
(** Any member function that changes the contents: none touches the caches. *)
Definition o_modify (f : C -> C) (o : obj) : obj := mkObj (f (o_c o)) (o_norm o) (o_occ o).
(** Copy constructor and copy assignment are defaulted: DenseMatrix.h 197, 211. *)
Definition o_copy (o : obj) : obj := o.
(** Move constructor, DenseMatrix.h 200-205, SparseMatrix.h 91-97: new object, then source. *)
Definition o_move (src : obj) : obj * obj := (o_new (o_c src), o_modify moved src).
(** Move assignment, DenseMatrix.h 214-221, SparseMatrix.h 106-112: target, source. *)
Definition o_massign (tgt src : obj) : obj * obj := (o_modify (fun _ => o_c src) tgt, o_modify moved src).
(** swap, DenseMatrix.h 287-295, SparseMatrix.h 126-133. *)
Definition o_swap (a b : obj) : obj * obj := (o_modify (fun _ => o_c b) a, o_modify (fun _ => o_c a) b).
(** NormPolicy.h 20-24, 40-46. *)
Definition o_getNorm (o : obj) : obj * N :=
  match o_norm o with
  | Some n => (o, n)
  | None => let n := norm_of (o_c o) in (mkObj (o_c o) (Some n) (o_occ o), n)
  end.
(** OccupationPolicy.h 18-29. *)
Definition o_getCount (k : checker D) (o : obj) : res (obj * nat) :=
  do r <- map_find ar k (o_occ o);
  match r with
  | Some n => Ok (o, n)
  | None => let n := count_of (ck_ok ar k) (o_c o) in Ok (mkObj (o_c o) (o_norm o) ((k, n) :: o_occ o), n)
  end.
(** OccupationPolicy.h 51-54. *)
Definition o_reset (o : obj) : obj := mkObj (o_c o) (o_norm o) [].

(** A program: operations on numbered variables. *)
Inductive op :=
| New (v : nat) (c : C)
| Modify (v : nat) (f : C -> C)
| Copy (v src : nat)          (* construct or assign [v] from [src] *)
| MoveNew (v src : nat)       (* move-construct [v] from [src], v <> src *)
| MoveAssign (v src : nat)    (* v <> src *)
| Swap (v w : nat)            (* v <> w *)
| GetNorm (v : nat)
| GetCount (v : nat) (k : checker D)
| Reset (v : nat).
(** What the program prints: the value obtained and, for the specification, the
    contents the variable had at that moment. *)
Inductive out := ONorm (n : N) (c : C) | OCount (n : nat) (k : checker D) (c : C).

Definition env := nat -> obj.
Definition eset (e : env) (v : nat) (o : obj) : env := fun w => if w =? v then o else e w.

Definition step (e : env) (x : op) : res (env * list out) :=
  match x with
  | New v c => Ok (eset e v (o_new c), [])
  | Modify v f => Ok (eset e v (o_modify f (e v)), [])
  | Copy v s => Ok (eset e v (o_copy (e s)), [])
  | MoveNew v s => let '(a, b) := o_move (e s) in Ok (eset (eset e s b) v a, [])
  | MoveAssign v s => let '(a, b) := o_massign (e v) (e s) in Ok (eset (eset e s b) v a, [])
  | Swap v w => let '(a, b) := o_swap (e v) (e w) in Ok (eset (eset e v a) w b, [])
  | GetNorm v => let '(o, n) := o_getNorm (e v) in Ok (eset e v o, [ONorm n (o_c (e v))])
  | GetCount v k => do r <- o_getCount k (e v); let '(o, n) := r in Ok (eset e v o, [OCount n k (o_c (e v))])
  | Reset v => Ok (eset e v (o_reset (e v)), [])
  end.
Fixpoint run (e : env) (l : list op) : res (env * list out) :=
  match l with
  | [] => Ok (e, [])
  | x :: r => do s <- step e x; let '(e, o) := s in do t <- run e r; let '(e, o') := t in Ok (e, o ++ o')
  end.
(** Variables start as default constructed objects. *)
Definition start : env := fun _ => o_new empty.
End Caches.
Arguments obj : clear implicits. Arguments op : clear implicits. Arguments out : clear implicits.
