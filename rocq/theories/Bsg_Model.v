(** Model of the block-size generator.
    Source: include/BlasBooster/Core/BlockSizeGenerator.h (cited as BSG).

    Simplifications:
    - the element type T (float or double) is abstract: [bnum] lists the
      operations the code applies to it;
    - std::set<size_t> is a strictly increasing list of nat;
    - std::sort is not stable: the order of the indices is an argument, which the
      properties quantify over (any order [sort_indices] may return);
    - the timing object [Tracker] (BSG 110, 143) is left out;
    - matrices are owning matrices: the windows' iterator has no [operator+]
      (StripedIterator.h), so get_detection_arrays does not compile for them. *)
From Verif Require Import Base Dense_Model.

(** Operations on the element type used in BSG: [b_exp x] is the exponent that
    frexp stores, converted back to T (BSG 44-53). [b_szadd] is
    [std::plus<size_t>] applied to two T and converted back (BSG 101-102). *)
Record bnum (T : Type) := mkBnum {
  b_zero : T; b_exp : T -> T; b_abs : T -> T; b_sub : T -> T -> T; b_add : T -> T -> T;
  b_szadd : T -> T -> T; b_gt : T -> T -> bool; b_eq : T -> T -> bool
}.
Arguments b_zero {T}. Arguments b_exp {T}. Arguments b_abs {T}. Arguments b_sub {T}.
Arguments b_add {T}. Arguments b_szadd {T}. Arguments b_gt {T}. Arguments b_eq {T}.

(** ** std::set<size_t> *)
Fixpoint set_ins (x : nat) (l : list nat) : list nat :=
  match l with
  | [] => [x]
  | y :: t => if x <? y then x :: y :: t else if x =? y then y :: t else y :: set_ins x t
  end.
Definition set_del (x : nat) (l : list nat) : list nat := filter (fun y => negb (y =? x)) l.
Definition set_mem (x : nat) (l : list nat) : bool := existsb (Nat.eqb x) l.
(** [*std::prev(s.lower_bound(x))]: the last element below [x]; undefined if
    there is none. *)
Definition set_below (l : list nat) (x : nat) : res nat :=
  match rev (filter (fun y => y <? x) l) with [] => UB OOBRead | y :: _ => Ok y end.
(** [*s.upper_bound(x)]: the first element above [x]; undefined if there is none. *)
Definition set_above (l : list nat) (x : nat) : res nat :=
  match filter (fun y => x <? y) l with [] => UB OOBRead | y :: _ => Ok y end.

Section Generator.
Context {T : Type} (bn : bnum T).

(** BSG 57-61, the constructor; size_t arithmetic wraps. *)
Definition bsg_new (mn mx : N) : res (nat * nat) :=
  if (mx <? (2 * mn) mod 2 ^ 64)%N then Throw else Ok (N.to_nat mn, N.to_nat mx).

Definition vget {A} (l : list A) (i : nat) : res A :=
  match nth_error l i with None => UB OOBRead | Some v => Ok v end.

(** [v[i] += x] on a std::vector. *)
Definition vadd (l : list T) (i : nat) (x : T) : res (list T) :=
  match nth_error l i with None => UB OOBWrite | Some v => Ok (upd l i (b_add bn v x)) end.

(** ** Choice of the borders (BSG 140-205) *)

(** 153-156: the positions after [i] whose value equals the one at [i]. *)
Fixpoint take_equal (detect : list T) (idx : list nat) (v : T) (js : list nat) : res (list nat) :=
  match js with
  | [] => Ok []
  | j :: t =>
      do k <- vget idx j; do w <- vget detect k;
      if b_eq bn v w then do r <- take_equal detect idx v t; Ok (j :: r) else Ok []
  end.

(** 165: next_j, next_idx, next_left_idx, next_left, next_right. *)
Record cand := mkCand { c_j : nat; c_idx : nat; c_lidx : nat; c_left : nat; c_right : nat }.

(** 166-182: one pass over the group; [largest_min] starts at 0 and the [next_*]
    variables are uninitialised ([None]). *)
Definition pick (mn : nat) (idx borders eqs : list nat) : res (nat * option cand) :=
  foldM (fun j '(lm, best) =>
    do k <- vget idx j;
    let x := k + 1 in
    do lx <- set_below borders x;
    do ux <- set_above borders x;
    let left := x - lx in
    let right := ux - x in
    if (left <? mn) || (right <? mn) then Ok (lm, best)
    else if lm <? Nat.min left right then Ok (Nat.min left right, Some (mkCand j x lx left right))
    else Ok (lm, best)) eqs (0, None).

(** 185-189. *)
Definition new_large (mx : nat) (c : cand) (large : list nat) : list nat :=
  if set_mem (c_lidx c) large then
    let l1 := if c_left c <=? mx then set_del (c_lidx c) large else large in
    if mx <? c_right c then set_ins (c_idx c) l1 else l1
  else large.

(** 162-191, [while (!equal_indices.empty())]. *)
Fixpoint split_group (fuel mn mx : nat) (idx eqs borders large : list nat) : res (list nat * list nat) :=
  match eqs with
  | [] => Ok (borders, large)
  | _ =>
      match fuel with
      | 0 => Diverge
      | S f =>
          do r <- pick mn idx borders eqs;
          match snd r with
          | None => UB UninitRead
          | Some c =>
              let large' := new_large mx c large in
              match large' with
              | [] => Ok (set_ins (c_idx c) borders, [])
              | _ => split_group f mn mx idx (set_del (c_j c) eqs) (set_ins (c_idx c) borders) large'
              end
          end
      end
  end.

(** 149-193, the loop over the sorted positions. *)
Fixpoint place (fuel mn mx : nat) (detect : list T) (idx : list nat) (i : nat) (borders large : list nat)
  : res (list nat) :=
  if i =? length detect then Ok borders
  else
    match fuel with
    | 0 => Diverge
    | S f =>
        do k <- vget idx i; do v <- vget detect k;
        do js <- take_equal detect idx v (seq (i + 1) (length detect - (i + 1)));
        let eqs := i :: js in
        do r <- split_group (length eqs) mn mx idx eqs borders large;
        match snd r with
        | [] => Ok (fst r)
        | _ => place f mn mx detect idx (i + length eqs) (fst r) (snd r)
        end
    end.

(** 195-204: the distances between consecutive borders. *)
Fixpoint gaps (b : list nat) : list nat :=
  match b with
  | x :: ((y :: _) as t) => (y - x) :: gaps t
  | _ => []
  end.

(** 140-205; [idx] is the order chosen by [sort_indices]. *)
Definition get_block_size (mn mx : nat) (detect : list T) (idx : list nat) : res (list nat) :=
  do b <- place (length detect) mn mx detect idx 0 [0; length detect + 1] [0];
  Ok (gaps b).

(** ** Detection profile (BSG 107-138) *)

(** 44-53: a copy of the matrix whose values are replaced by their exponents. *)
Definition frexp_copy (d : dense T) : res (buf T) :=
  mapM (fun c => match c with None => UB UninitRead | Some v => Ok (Some (b_exp bn v)) end) (d_buf d).

(** 115-137: iter1 = [p], iter2 = [p+1], iter3 = [p+nbColumns].  A dimension 0
    makes [std::vector(size_t(-1))] throw. *)
Definition diff (lg : buf T) (p q : nat) : res T :=
  do x <- rd lg p; do y <- rd lg q; Ok (b_abs bn (b_sub bn x y)).
Definition detection (d : dense T) : res (list T * list T) :=
  let r := d_rows d in
  let c := d_cols d in
  if (r =? 0) || (c =? 0) then Throw
  else
    do lg <- frexp_copy d;
    do st <- forM (r - 1) (fun i st =>
      do st1 <- forM (c - 1) (fun j '(p, rowd, cold) =>
        do x <- diff lg p (p + c); do rowd' <- vadd rowd i x;
        do y <- diff lg p (p + 1); do cold' <- vadd cold j y;
        Ok (p + 1, rowd', cold')) st;
      let '(p, rowd, cold) := st1 in
      do x <- diff lg p (p + c); do rowd' <- vadd rowd i x;
      Ok (p + 1, rowd', cold)) (0, repeat (b_zero bn) (r - 1), repeat (b_zero bn) (c - 1));
    do st2 <- forM (c - 1) (fun j '(p, rowd, cold) =>
      do y <- diff lg p (p + 1); do cold' <- vadd cold j y;
      Ok (p + 1, rowd, cold')) st;
    let '(_, rowd, cold) := st2 in Ok (rowd, cold).

(** 84-93, [operator()]; [ri], [ci] are the orders chosen by the two sorts. *)
Definition generate (mn mx : nat) (d : dense T) (ri ci : list nat) : res (list nat * list nat) :=
  if (d_rows d <=? mx) && (d_cols d <=? mx) then Ok ([d_rows d], [d_cols d])
  else
    do p <- detection d;
    do a <- get_block_size mn mx (fst p) ri;
    do b <- get_block_size mn mx (snd p) ci;
    Ok (a, b).

(** 101-102, std::transform over the first range. *)
Fixpoint add_profiles (a b : list T) : res (list T) :=
  match a, b with
  | [], _ => Ok []
  | x :: ta, y :: tb => do t <- add_profiles ta tb; Ok (b_szadd bn x y :: t)
  | _ :: _, [] => UB OOBRead
  end.

(** 95-105. *)
Definition generate_mult (mn mx : nat) (A B : dense T) (ri ki ci : list nat)
  : res (list nat * list nat * list nat) :=
  do pa <- detection A;
  do pb <- detection B;
  do k <- add_profiles (snd pa) (fst pb);
  do a <- get_block_size mn mx (fst pa) ri;
  do b <- get_block_size mn mx k ki;
  do c <- get_block_size mn mx (snd pb) ci;
  Ok (a, b, c).

End Generator.
