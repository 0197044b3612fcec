(** Several threads that share one const matrix, at the granularity of single
    accesses to its mutable members.  Sources (include/BlasBooster/Core):
    NormPolicy.h 20-46, 50-52, OccupationPolicy.h 18-29, 58.  The code has no
    locks and no atomics: a step of the model is one access to norm_, one access
    to isNormUpToDate_, one call of a member of the map, or one read-only use of
    the elements, and a schedule says which thread makes the next step.

    Simplifications:
    - a member function of std::map is one step; whether two such calls may
      overlap is what [accesses] records;
    - the elements are never written (the matrix is const), so all read-only uses
      of them are one step;
    - steps are sequentially consistent; C++ promises that only for executions
      without data races, which [race] detects. *)
From Verif Require Export Base Dyn_Model Check_Model.

(** What two threads can collide on: elements, norm_, isNormUpToDate_, nbDesiredElementsMap_. *)
Inductive loc := LElems | LNorm | LFlag | LMap.

Section Race.
Context {F D : Type} (ar : arith F D) {C N : Type}.
Context (norm_of : C -> N) (count_of : (D -> bool) -> C -> nat).

(** The shared matrix: NormPolicy.h 50-52, OccupationPolicy.h 58. *)
Record shared := mkShared { sh_c : C; sh_norm : N; sh_flag : bool; sh_map : list (checker D * nat) }.

(** What a thread can ask of a const matrix: getNorm() (isNormLargerThan and
    isNormSmallerThan make the same accesses), getNbOfSignificantElements(k)
    (getOccupation and the construction of a sparse matrix, SparseMatrix.h
    183-188, start with it), and any use of the elements alone. *)
Inductive ask := AskNorm | AskCount (k : checker D) | AskElems.
Inductive answer := GotNorm (n : N) | GotCount (n : nat) | GotElems (c : C).

(** Where a thread is. *)
Inductive pc :=
| PNorm1            (* NormPolicy.h 22: read isNormUpToDate_ *)
| PNorm2            (* 42: read it again, in updateNorm *)
| PNorm3            (* 43: compute and write norm_ *)
| PNorm4            (* 44: write isNormUpToDate_ *)
| PNorm5            (* 23: read norm_ and return it *)
| PCount1 (k : checker D)   (* OccupationPolicy.h 22: map.count(key) *)
| PCount2 (k : checker D)   (* 23: map[key] *)
| PCount3 (k : checker D)   (* 25-27: count the elements, map[key] = n, return n *)
| PElems.
Definition enter (q : ask) : pc :=
  match q with AskNorm => PNorm1 | AskCount k => PCount1 k | AskElems => PElems end.

(** The map after [map[k] = n]. *)
Fixpoint map_put (k : checker D) (n : nat) (l : list (checker D * nat)) : res (list (checker D * nat)) :=
  match l with
  | [] => Ok [(k, n)]
  | (k', m) :: r => do e <- ck_equiv ar k k';
      if e : bool then Ok ((k', n) :: r) else do r' <- map_put k n r; Ok ((k', m) :: r')
  end.

(** One step: where the thread goes, or its answer. *)
Definition micro (s : shared) (p : pc) : res (shared * (pc + answer)) :=
  match p with
  | PNorm1 => Ok (s, inl (if sh_flag s then PNorm5 else PNorm2))
  | PNorm2 => Ok (s, inl (if sh_flag s then PNorm5 else PNorm3))
  | PNorm3 => Ok (mkShared (sh_c s) (norm_of (sh_c s)) (sh_flag s) (sh_map s), inl PNorm4)
  | PNorm4 => Ok (mkShared (sh_c s) (sh_norm s) true (sh_map s), inl PNorm5)
  | PNorm5 => Ok (s, inr (GotNorm (sh_norm s)))
  | PCount1 k => do r <- map_find ar k (sh_map s);
      Ok (s, inl (match r with Some _ => PCount2 k | None => PCount3 k end))
  | PCount2 k => do r <- map_find ar k (sh_map s);
      match r with
      | Some n => Ok (s, inr (GotCount n))
      | None => do m <- map_put k 0 (sh_map s);     (* operator[] inserts a zero *)
          Ok (mkShared (sh_c s) (sh_norm s) (sh_flag s) m, inr (GotCount 0))
      end
  | PCount3 k =>
      let n := count_of (ck_ok ar k) (sh_c s) in
      do m <- map_put k n (sh_map s);
      Ok (mkShared (sh_c s) (sh_norm s) (sh_flag s) m, inr (GotCount n))
  | PElems => Ok (s, inr (GotElems (sh_c s)))
  end.

(** What a step touches; [true] is a write.  The standard counts operator[] of a
    map among the functions that modify it ([container.requirements.dataraces]);
    [std = false] is an implementation that only searches if the key is there. *)
Definition accesses (std : bool) (s : shared) (p : pc) : list (loc * bool) :=
  match p with
  | PNorm1 | PNorm2 => [(LFlag, false)]
  | PNorm3 => [(LElems, false); (LNorm, true)]
  | PNorm4 => [(LFlag, true)]
  | PNorm5 => [(LNorm, false)]
  | PCount1 k => [(LMap, false)]
  | PCount2 k => [(LMap, std || match map_find ar k (sh_map s) with Ok (Some _) => false | _ => true end)]
  | PCount3 k => [(LElems, false); (LMap, true)]
  | PElems => [(LElems, false)]
  end.

(** A thread: the step it is at, followed by the entries of the questions still to
    come; the answers it has got, in order. *)
Record thread := mkThread { th_code : list pc; th_got : list answer }.
Record rsys := mkRsys { r_sh : shared; r_th : nat -> thread }.

(** Threads about to ask [qs t]. *)
Definition rinit (s : shared) (qs : nat -> list ask) : rsys :=
  mkRsys s (fun t => mkThread (map enter (qs t)) []).

(** Thread [t] makes a step; a thread that is through does nothing. *)
Definition rstep (y : rsys) (t : nat) : res rsys :=
  match th_code (r_th y t) with
  | [] => Ok y
  | p :: r =>
      do a <- micro (r_sh y) p;
      let th := match snd a with
                | inl p' => mkThread (p' :: r) (th_got (r_th y t))
                | inr x => mkThread r (th_got (r_th y t) ++ [x])
                end in
      Ok (mkRsys (fst a) (fun u => if u =? t then th else r_th y u))
  end.
Fixpoint rrun (y : rsys) (l : list nat) : res rsys :=
  match l with [] => Ok y | t :: r => do y1 <- rstep y t; rrun y1 r end.

(** Two threads are about to touch the same thing and one of them writes it. *)
Definition race (std : bool) (y : rsys) : Prop :=
  exists t u p q x w w', t <> u /\
    hd_error (th_code (r_th y t)) = Some p /\ hd_error (th_code (r_th y u)) = Some q /\
    In (x, w) (accesses std (r_sh y) p) /\ In (x, w') (accesses std (r_sh y) q) /\ w || w' = true.
End Race.
Arguments shared : clear implicits. Arguments ask : clear implicits. Arguments answer : clear implicits.
Arguments pc : clear implicits. Arguments thread : clear implicits. Arguments rsys : clear implicits.
Arguments PNorm1 {D}. Arguments PNorm2 {D}. Arguments PNorm3 {D}. Arguments PNorm4 {D}. Arguments PNorm5 {D}.
Arguments PElems {D}. Arguments AskNorm {D}. Arguments AskElems {D}.
Arguments GotNorm {C N}. Arguments GotCount {C N}. Arguments GotElems {C N}.
