(** The internal spinlock, sctk_alloc_internal_spinlock.h, with all interleavings of any number of threads.
    One action is one atomic access of the C code; memory is sequentially consistent (the accesses are the atomic
    primitives of OpenPA).  The pause instruction of sctk_alloc_cpu_relax (39-46) has no effect. *)
From Coq Require Import ZArith List Bool.
Import ListNotations.
Open Scope Z_scope.

(** Where a thread is: outside the functions; in [lock] before the swap (56), in [lock] before the load (59); in
    [trylock] before the swap (72); in [unlock] before the store (66). *)
Inductive lpc := LOut | LSwap | LSpin | LTry | LUnl.

(** What an observer sees: lock obtained, trylock refused, lock released (at the store). (56, 72, 66; the log itself is a ghost.) *)
Inductive levent := EAcq (t : nat) | ERefused (t : nat) | ERel (t : nat).

(** [held t]: thread [t] obtained the lock (by [lock], or by [trylock] returning 0) and did not release it. ([word]: the int of 31; the rest is a ghost or the program counter.) *)
Record lst := mkL { word : Z; lp : nat -> lpc; held : nat -> bool; ltr : list levent }.

(** 48-51 [sctk_alloc_internal_spinlock_init]: SCTK_ALLOC_INTERNAL_UNLOCKED is 0 (35). *)
Definition l0 : lst := mkL 0 (fun _ => LOut) (fun _ => false) [].

(** Update of a function (no code of its own in /repo). *)
Definition fupd {A} (f : nat -> A) (t : nat) (v : A) : nat -> A := fun x => if Nat.eqb x t then v else f x.
(** A thread goes on (no code of its own in /repo: the program counter). *)
Definition set_lp (s : lst) (t : nat) (p : lpc) : lst := mkL (word s) (fupd (lp s) t p) (held s) (ltr s).
(** Ghost: who has the lock (no code of its own in /repo). *)
Definition set_held (s : lst) (t : nat) (b : bool) : lst := mkL (word s) (lp s) (fupd (held s) t b) (ltr s).
(** Store in the word of the lock (56, 66, 72). *)
Definition set_word (s : lst) (w : Z) : lst := mkL w (lp s) (held s) (ltr s).
(** A ghost event is added (no code of its own in /repo). *)
Definition llog (s : lst) (e : levent) : lst := mkL (word s) (lp s) (held s) (ltr s ++ [e]).

(** A thread enters one of the functions, or does its next access.  A thread only unlocks a lock it holds; it may call
    [lock] while holding the lock (sctk_alloc_chain_get_stat does). (Lines 54-73.) *)
Inductive lact := CallLock (t : nat) | CallTry (t : nat) | CallUnlock (t : nat) | LGo (t : nat).

(** One access: 56, 59, 66, 72. *)
Definition lstep (s : lst) (a : lact) : option lst :=
  match a with
  | CallLock t => match lp s t with LOut => Some (set_lp s t LSwap) | _ => None end
  | CallTry t => match lp s t with LOut => Some (set_lp s t LTry) | _ => None end
  | CallUnlock t => match lp s t with LOut => if held s t then Some (set_lp s t LUnl) else None | _ => None end
  | LGo t =>
      match lp s t with
      | LOut => None
      | LSwap =>                                                                       (* 56 *)
          if word s =? 0 then Some (llog (set_held (set_lp (set_word s 1) t LOut) t true) (EAcq t))
          else Some (set_lp (set_word s 1) t LSpin)
      | LSpin => Some (set_lp s t (if word s =? 0 then LSwap else LSpin))              (* 57-59 *)
      | LTry =>                                                                        (* 72 *)
          if word s =? 0 then Some (llog (set_held (set_lp (set_word s 1) t LOut) t true) (EAcq t))
          else Some (llog (set_lp (set_word s 1) t LOut) (ERefused t))
      | LUnl => Some (llog (set_held (set_lp (set_word s 0) t LOut) t false) (ERel t)) (* 66 *)
      end
  end.
