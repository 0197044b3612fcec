(** Specification of programs over run-time typed and blocked matrices without
    memory: every variable is a value of its own.  This is the reading all other
    theorems about these types use (Dyn_Model.v); it is right as long as no matrix
    is changed in place while something else may refer to it.  A variable is
    marked as owner when it got its matrix from [new], an operator or the converter
    and has not been copied, assigned, put into a blocked matrix or used as a part
    since. *)
From Verif Require Import Base Dense_Model Sparse_Model Mult_Model Dyn_Model PObj_Model.

Section Spec.
Context {F D : Type} (ar : arith F D).

Record vst := mkVst { v_var : list (option (dyn F D) * bool); v_blk : list (blocked F D) }.
Definition vst0 : vst := mkVst [] [].

Definition vvar (s : vst) (v : nat) : res (option (dyn F D)) :=
  match nth_error (v_var s) v with Some (x, _) => Ok x | None => UB DeadObject end.
Definition vblk (s : vst) (b : nat) : res (blocked F D) :=
  match nth_error (v_blk s) b with Some x => Ok x | None => UB DeadObject end.
Definition owner (s : vst) (v : nat) : bool :=
  match nth_error (v_var s) v with Some (_, w) => w | None => true end.

Definition set_var (s : vst) (v : nat) (x : option (dyn F D)) (w : bool) : vst := mkVst (upd (v_var s) v (x, w)) (v_blk s).
Definition share (s : vst) (v : nat) : vst :=
  match nth_error (v_var s) v with Some (x, _) => set_var s v x false | None => s end.
Definition vadd (s : vst) (x : option (dyn F D)) (w : bool) : vst * pout D := (mkVst (v_var s ++ [(x, w)]) (v_blk s), PNone).
Definition badd (s : vst) (B : blocked F D) : vst * pout D := (mkVst (v_var s) (v_blk s ++ [B]), PNone).

Definition vcatch {A} (s : vst) (r : res A) (f : A -> vst * pout D) : res (vst * pout D) :=
  match r with
  | Ok a => Ok (f a)
  | Throw => Ok (s, PThrew)
  | AssertFail => AssertFail | UB u => UB u | Diverge => Diverge
  end.

Definition vcast (t : lty) (x : option (dyn F D)) : res (option (leaf F D)) :=
  match x with
  | None => Ok None
  | Some (DL l) => if lty_eqb (leaf_ty l) t then Ok (Some l) else UB DeadObject
  | Some (DM _ _ _ _) => UB DeadObject
  end.

(** Only dense matrices are ever changed in place; a matrix of its own type is
    not a window. *)
Definition in_place (x : option (dyn F D)) : bool :=
  match x with Some (DL (LDf _)) | Some (DL (LDd _)) => true | _ => false end.
Definition windowless (x : option (dyn F D)) : bool :=
  match x with
  | Some (DL (LDf d)) => negb (sh_sub (d_sh d))
  | Some (DL (LDd d)) => negb (sh_sub (d_sh d))
  | _ => true
  end.

Section Step.
Variables (ready : mty -> bool) (p : policy) (exc dbg : bool).

(** One call; [None]: a matrix that may be shared is changed in place. *)
Definition vstep (s : vst) (x : pop F D) : option (res (vst * pout D)) :=
  match x with
  | PLeaf l => Some (Ok (vadd s (Some (DL l)) true))
  | PNull => Some (Ok (vadd s None true))
  | PPair t1 t2 v1 v2 => Some (
      do x1 <- vvar s v1; do x2 <- vvar s v2;
      do m1 <- vcast t1 x1; do m2 <- vcast t2 x2;
      vcatch s (mm_new exc dbg t1 t2 m1 m2) (fun q => vadd (share (share s v1) v2) (Some q) true))
  | PCopy v => Some (do x <- vvar s v; Ok (vadd (share s v) x false))
  | PAssign d v => Some (do _ <- vvar s d; do x <- vvar s v; Ok (set_var (share s v) d x false, PNone))
  | POp k a b => Some (
      do x <- vvar s a; do y <- vvar s b;
      vcatch s (value_op ar ready p dbg k x y) (fun z => vadd s z true))
  | PAsg o a b =>
      match vvar s a, vvar s b with
      | Ok x, Ok y =>
          if (owner s a || negb (in_place x)) && (negb (a =? b) || windowless x) then
            Some (vcatch s (asg_ptr ar ready o dbg x y) (fun z => (set_var s a z (owner s a), PNone)))
          else None
      | _, _ => Some (UB DeadObject)
      end
  | PPut v i j w =>
      match vvar s v with
      | Ok x =>
          if owner s v then Some (
            match x with
            | None => UB NullDeref
            | Some (DL (LDd d)) => do d1 <- dset dbg d i j w; Ok (set_var s v (Some (DL (LDd d1))) true, PNone)
            | _ => UB DeadObject
            end)
          else None
      | _ => Some (UB DeadObject)
      end
  | PRows v => Some (do x <- vvar s v; vcatch s (dyn_rows exc dbg x) (fun n => (s, PNat n)))
  | PCols v => Some (do x <- vvar s v; vcatch s (dyn_cols exc dbg x) (fun n => (s, PNat n)))
  | PToDense v => Some (do x <- vvar s v; vcatch s (dense_of_ptr ar exc dbg x) (fun q => (s, PMat q)))
  | PConvert th d => Some (vcatch s (convert ar exc dbg th d) (fun q => vadd s (Some q) true))
  | BNew r c ur uc => Some (Ok (badd s (blk_new r c ur uc)))
  | BGet b i j => Some (do B <- vblk s b; do x <- dget dbg (b_mat B) i j; Ok (vadd s x false))
  | BSet b i j v => Some (
      do B <- vblk s b; do x <- vvar s v; do M <- dset dbg (b_mat B) i j x;
      Ok (mkVst (v_var (share s v)) (upd (v_blk s) b (mkBlocked M (b_ubr B) (b_ubc B))), PNone))
  | BCopy b => Some (do B <- vblk s b; Ok (badd s B))
  | BAssign d b => Some (do _ <- vblk s d; do B <- vblk s b; Ok (mkVst (v_var s) (upd (v_blk s) d B), PNone))
  | BMul a b => Some (do A <- vblk s a; do B <- vblk s b; vcatch s (mul_blocked ar ready p dbg A B) (badd s))
  | BCut th d rl cl => Some (vcatch s (cut ar exc dbg th d rl cl) (badd s))
  | BToDense b => Some (do B <- vblk s b; vcatch s (dense_of_blocked ar exc dbg B) (fun q => (s, PMat q)))
  end.

Fixpoint vrun (s : vst) (ops : list (pop F D)) : option (res (vst * list (pout D))) :=
  match ops with
  | [] => Some (Ok (s, []))
  | x :: t =>
      match vstep s x with
      | None => None
      | Some (Ok (s1, z)) =>
          match vrun s1 t with
          | None => None
          | Some r => Some (do q <- r; let '(s2, zs) := q in Ok (s2, z :: zs))
          end
      | Some Throw => Some Throw | Some AssertFail => Some AssertFail
      | Some (UB u) => Some (UB u) | Some Diverge => Some Diverge
      end
  end.
End Step.
End Spec.
Arguments vst : clear implicits.
