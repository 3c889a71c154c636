(** The internal spinlock (sctk_alloc_internal_spinlock.h) and the data it protects on a machine with store buffers.  The swap
    (OPA_swap_int, lines 56 and 72) waits until the buffer of its thread is empty; the stores to the data and the store of the
    unlock (OPA_store_int, line 66, a plain store) go through the buffer; loads look in the buffer of their thread first.
    [fifo = true]: stores reach memory in the order of the program (x86).  [fifo = false]: a store may overtake stores to other
    places (other machines: OPA_store_int is not a release). *)
From Coq Require Import ZArith List Bool.
From Verif Require Import LockModel.
Import ListNotations.
Open Scope Z_scope.

(** A store in a buffer: to the data (address, value), or to the lock word (always SCTK_ALLOC_INTERNAL_UNLOCKED, line 66). *)
Inductive lwr := WData (a v : Z) | WUnl.

(** What an observer sees: lock obtained, trylock refused, lock released (the instruction), data written, data read (the value the
    program gets). (56, 66, 72; the log itself is a ghost.) *)
Inductive mevent := MAcq (t : nat) | MRefused (t : nat) | MRel (t : nat) | MWr (t : nat) (a v : Z) | MRd (t : nat) (a v : Z).

(** As LockModel.lst, with the protected data and the buffers (those of the processor). *)
Record mst := mkM { mword : Z; mdata : Z -> Z; mbuf : nat -> list lwr; mp : nat -> lpc; mheld : nat -> bool; mtr : list mevent }.

(** 48-51 [sctk_alloc_internal_spinlock_init]; the data is arbitrary. *)
Definition m0 (d : Z -> Z) : mst := mkM 0 d (fun _ => []) (fun _ => LOut) (fun _ => false) [].

(** Update of a function (no code of its own in /repo). *)
Definition zupd (f : Z -> Z) (a v : Z) : Z -> Z := fun x => if x =? a then v else f x.

(** What a load returns. (Data; no code of its own in /repo: loads of x86.) *)
Fixpoint ldd (b : list lwr) (a m : Z) : Z :=
  match b with [] => m | WData x v :: r => ldd r a (if x =? a then v else m) | WUnl :: r => ldd r a m end.
(** The same for the word of the lock (59). *)
Fixpoint ldw (b : list lwr) (m : Z) : Z :=
  match b with [] => m | WUnl :: r => ldw r 0 | WData _ _ :: r => ldw r m end.

(** Stores to the same place (no code of its own in /repo). *)
Definition same_place (x y : lwr) : bool :=
  match x, y with WData a _, WData b _ => a =? b | WUnl, WUnl => true | _, _ => false end.
(** Is the buffer of the thread empty (no code of its own in /repo: what a locked swap of x86 waits for, 56, 72). *)
Definition mempty (s : mst) (t : nat) : bool := match mbuf s t with [] => true | _ => false end.

(** A thread enters one of the functions, does its next access, reads or writes the data (while it holds the lock), or its [i]-th store
    reaches memory. (Lines 54-73; the data is that of the caller.) *)
Inductive mact := MLock (t : nat) | MTry (t : nat) | MUnlock (t : nat) | MGo (t : nat) | MRead (t : nat) (a : Z)
| MWrite (t : nat) (a v : Z) | MFlush (t i : nat).

(** The swap finds the lock free (56, 72). *)
Definition m_acq (s : mst) (t : nat) : mst :=
  mkM 1 (mdata s) (mbuf s) (fupd (mp s) t LOut) (fupd (mheld s) t true) (mtr s ++ [MAcq t]).

(** One access of the functions: 56, 59, 66, 72. *)
Definition mgo (s : mst) (t : nat) : option mst :=
  match mp s t with
  | LOut => None
  | LSwap =>                                                                           (* 56 *)
      if negb (mempty s t) then None
      else if mword s =? 0 then Some (m_acq s t)
      else Some (mkM 1 (mdata s) (mbuf s) (fupd (mp s) t LSpin) (mheld s) (mtr s))
  | LSpin =>                                                                           (* 57-59 *)
      Some (mkM (mword s) (mdata s) (mbuf s) (fupd (mp s) t (if ldw (mbuf s t) (mword s) =? 0 then LSwap else LSpin)) (mheld s) (mtr s))
  | LTry =>                                                                            (* 72 *)
      if negb (mempty s t) then None
      else if mword s =? 0 then Some (m_acq s t)
      else Some (mkM 1 (mdata s) (mbuf s) (fupd (mp s) t LOut) (mheld s) (mtr s ++ [MRefused t]))
  | LUnl =>                                                                            (* 66 *)
      Some (mkM (mword s) (mdata s) (fupd (mbuf s) t (mbuf s t ++ [WUnl])) (fupd (mp s) t LOut) (fupd (mheld s) t false) (mtr s ++ [MRel t]))
  end.

(** A store takes effect (no code of its own in /repo: memory). *)
Definition mapply (s : mst) (x : lwr) : mst :=
  match x with
  | WData a v => mkM (mword s) (zupd (mdata s) a v) (mbuf s) (mp s) (mheld s) (mtr s)
  | WUnl => mkM 0 (mdata s) (mbuf s) (mp s) (mheld s) (mtr s)
  end.
(** A store leaves the buffer (no code of its own in /repo: store buffers). *)
Definition mflush (fifo : bool) (s : mst) (t i : nat) : option mst :=
  match nth_error (mbuf s t) i with
  | None => None
  | Some x =>
      let older := firstn i (mbuf s t) in
      if (if fifo then Nat.eqb i 0 else negb (existsb (same_place x) older)) then
        Some (mapply (mkM (mword s) (mdata s) (fupd (mbuf s) t (older ++ skipn (S i) (mbuf s t))) (mp s) (mheld s) (mtr s)) x)
      else None
  end.

(** One of [mact]: lines 54-73. *)
Definition mstep (fifo : bool) (s : mst) (x : mact) : option mst :=
  match x with
  | MLock t => match mp s t with LOut => Some (mkM (mword s) (mdata s) (mbuf s) (fupd (mp s) t LSwap) (mheld s) (mtr s)) | _ => None end
  | MTry t => match mp s t with LOut => Some (mkM (mword s) (mdata s) (mbuf s) (fupd (mp s) t LTry) (mheld s) (mtr s)) | _ => None end
  | MUnlock t => match mp s t with
                 | LOut => if mheld s t then Some (mkM (mword s) (mdata s) (mbuf s) (fupd (mp s) t LUnl) (mheld s) (mtr s)) else None
                 | _ => None
                 end
  | MGo t => mgo s t
  | MRead t a => match mp s t with
                 | LOut => if mheld s t then Some (mkM (mword s) (mdata s) (mbuf s) (mp s) (mheld s) (mtr s ++ [MRd t a (ldd (mbuf s t) a (mdata s a))]))
                           else None
                 | _ => None
                 end
  | MWrite t a v => match mp s t with
                    | LOut => if mheld s t then Some (mkM (mword s) (mdata s) (fupd (mbuf s) t (mbuf s t ++ [WData a v])) (mp s) (mheld s) (mtr s ++ [MWr t a v]))
                              else None
                    | _ => None
                    end
  | MFlush t i => mflush fifo s t i
  end.
