(** Calls on a thread-safe chain, with all interleavings of any number of threads.
    sctk_allocator.c:1474-1517 (alloc) and 1620-1651 (free): with SCTK_ALLOC_CHAIN_FLAGS_THREAD_SAFE, the work on the chain is
    done between sctk_alloc_spinlock_lock and sctk_alloc_spinlock_unlock (accesses of the lock as in LockModel.v).
    The section is a program made of any number of atomic steps on the shared state; steps of several threads
    interleave freely.
    Simplifications: the header read that precedes the lock in free (1596-1608) and the alignment padding that follows
    the unlock in alloc (1520-1522) concern the caller's own block and are counted in the section; huge blocks
    (1463-1471, 1612-1618) do not take the lock and are not covered. *)
From Verif Require Import Res LockModel.
From Coq Require Import ZArith List Bool.
Import ListNotations.
Open Scope Z_scope.

(** A program made of atomic steps on a shared state [S], with result in [R]. (No code of its own in /repo: any code between lock and unlock, sctk_allocator.c 1476-1516, 1622-1650.) *)
Inductive prog (S R : Type) : Type :=
| PRet (r : R)
| PAct (f : S -> res (S * prog S R)).
Arguments PRet {S R} r.
Arguments PAct {S R} f.

(** Its meaning when nobody interferes. (No code of its own in /repo.) *)
Fixpoint prun {S R} (p : prog S R) (s : S) : res (R * S) :=
  match p with
  | PRet r => Ok (r, s)
  | PAct f => match f s with Ok (s', p') => prun p' s' | UB => UB | Abort => Abort | OutOfFuel => OutOfFuel end
  end.

(** Where a thread is: outside; in lock before the swap; in lock before the load; in the section; before the store of unlock;
    about to return. (sctk_allocator.c 1475, 1517, 1621, 1651; sctk_alloc_internal_spinlock.h 54-67.) *)
Inductive tpc (S A R : Type) : Type :=
| TOut
| TSwap (a : A)
| TSpin (a : A)
| TIn (p : prog S R)
| TRet (r : R).
Arguments TOut {S A R}.
Arguments TSwap {S A R} a.
Arguments TSpin {S A R} a.
Arguments TIn {S A R} p.
Arguments TRet {S A R} r.

(** What is seen from outside. (The call and the return of sctk_allocator.c 1444-1529, 1583-1653; the log is a ghost.) *)
Inductive cev (A R : Type) : Type := ECall (t : nat) (a : A) | ERetn (t : nat) (r : R).
Arguments ECall {A R} t a.
Arguments ERetn {A R} t r.

(** The chain, the word of its lock (sctk_alloc_chain.h 93), the threads, the ghost log. *)
Record cst (S A R : Type) : Type := mkC { sh : S; lw : Z; thr : nat -> tpc S A R; ctr : list (cev A R) }.
Arguments mkC {S A R}.
Arguments sh {S A R}.
Arguments lw {S A R}.
Arguments thr {S A R}.
Arguments ctr {S A R}.

(** A thread calls or goes on (sctk_allocator.c 1444-1529, 1583-1653). *)
Inductive cact (A : Type) : Type := DoCall (t : nat) (a : A) | DoStep (t : nat).
Arguments DoCall {A} t a.
Arguments DoStep {A} t.

(** One access: sctk_alloc_internal_spinlock.h 56, 59, 66, or one step of the section (sctk_allocator.c 1476-1516, 1622-1650). *)
Definition cstep {S A R} (P : A -> prog S R) (c : cst S A R) (x : cact A) : option (cst S A R) :=
  match x with
  | DoCall t a =>
      match thr c t with
      | TOut => Some (mkC (sh c) (lw c) (fupd (thr c) t (TSwap a)) (ctr c ++ [ECall t a]))
      | _ => None
      end
  | DoStep t =>
      match thr c t with
      | TOut => None
      | TSwap a => if lw c =? 0 then Some (mkC (sh c) 1 (fupd (thr c) t (TIn (P a))) (ctr c))
                   else Some (mkC (sh c) 1 (fupd (thr c) t (TSpin a)) (ctr c))
      | TSpin a => Some (mkC (sh c) (lw c) (fupd (thr c) t (if lw c =? 0 then TSwap a else TSpin a)) (ctr c))
      | TIn (PRet r) => Some (mkC (sh c) 0 (fupd (thr c) t (TRet r)) (ctr c))
      | TIn (PAct f) => match f (sh c) with
                        | Ok (s', p') => Some (mkC s' (lw c) (fupd (thr c) t (TIn p')) (ctr c))
                        | _ => None
                        end
      | TRet r => Some (mkC (sh c) (lw c) (fupd (thr c) t TOut) (ctr c ++ [ERetn t r]))
      end
  end.
