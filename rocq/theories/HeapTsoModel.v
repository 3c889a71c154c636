(** A thread-safe chain and the memory of its blocks on a machine with store buffers.  The body of a call under the lock of the chain
    (sctk_allocator.c 1475-1517 for an allocation, 1621-1651 for a free) is any program of loads and stores; the lock is the one of
    sctk_alloc_internal_spinlock.h (swap: waits until the buffer of its thread is empty; unlock: a plain store, which goes through the
    buffer).  Outside the lock threads load and store in the blocks they have, load the header of these blocks (1598-1611: the chunk
    is looked at before the lock is taken), and hand blocks to each other by plain stores of the pointer.
    Huge blocks do not take the lock of the chain (1464-1472, 1611-1618) and are not in this model.
    [fifo = true]: stores reach memory in the order of the program (x86).  [fifo = false]: a store may overtake stores to other places. *)
From Coq Require Import ZArith List Bool.
From Verif Require Import LockModel.
Import ListNotations.
Open Scope Z_scope.

(** The body of a call between lock and unlock (1475-1517, 1621-1651): loads, stores, and the value returned. *)
Inductive prog := PRet (r : Z) | PRd (c : Z) (k : Z -> prog) | PWr (c v : Z) (k : prog).

(** Update of a function (no code of its own in /repo). *)
Definition cset (f : Z -> Z) (a v : Z) : Z -> Z := fun x => if x =? a then v else f x.
(** Is the cell in the list (no code of its own in /repo). *)
Definition inb (c : Z) (l : list Z) : bool := existsb (Z.eqb c) l.

(** Who may use a cell (ghost, no code of its own in /repo): the calls of the chain only, under the lock; or the thread [t] that has the block. [ro]: the
    cell is in the header of the block, which nobody writes while the block is in use (1598-1611 and, for the neighbours of a block,
    911-960 read it; a cell is a byte: the size of the previous chunk, sctk_alloc_chunk.h 102, belongs to the allocator). [way]: [t] is
    handing the block to another thread. *)
Inductive owner := OAlloc | OUse (ro way : bool) (t : nat).
(** Changes of owner (ghost, no code of its own in /repo): all cells of a list; handing over; arrival. *)
Definition oset (o : Z -> owner) (l : list Z) (w : owner) : Z -> owner := fun c => if inb c l then w else o c.
(** A block is sent (ghost, no code of its own in /repo). *)
Definition osend (o : Z -> owner) (l : list Z) : Z -> owner :=
  fun c => if inb c l then match o c with OUse ro _ t => OUse ro true t | OAlloc => OAlloc end else o c.
(** A block arrives at thread [u] (ghost, no code of its own in /repo). *)
Definition ogot (o : Z -> owner) (l : list Z) (u : nat) : Z -> owner :=
  fun c => if inb c l then match o c with OUse ro _ _ => OUse ro false u | OAlloc => OAlloc end else o c.

(** The thread has the cell; it may write it; it is on its way; the calls alone have it (ghosts, no code of its own in /repo). *)
Definition has (t : nat) (w : owner) : bool := match w with OUse _ false u => Nat.eqb u t | _ => false end.
Definition has_rw (t : nat) (w : owner) : bool := match w with OUse false false u => Nat.eqb u t | _ => false end.
Definition on_way (w : owner) : bool := match w with OUse _ true _ => true | _ => false end.
Definition is_alloc (w : owner) : bool := match w with OAlloc => true | _ => false end.

(** A store in a buffer: to a cell; to the lock word (sctk_alloc_internal_spinlock.h 66); the pointer of a block for thread [u]. *)
Inductive hwr := WData (c v : Z) | WUnl | WHand (u : nat) (l : list Z).

(** What a load returns (no code of its own in /repo: loads of x86). *)
Fixpoint ldc (b : list hwr) (c m : Z) : Z :=
  match b with [] => m | WData x v :: r => ldc r c (if x =? c then v else m) | _ :: r => ldc r c m end.
(** The same for the word of the lock (sctk_alloc_internal_spinlock.h 59). *)
Fixpoint ldl (b : list hwr) (m : Z) : Z :=
  match b with [] => m | WUnl :: r => ldl r 0 | _ :: r => ldl r m end.
(** Stores to the same place (no code of its own in /repo). *)
Definition same_cell (x y : hwr) : bool :=
  match x, y with WData a _, WData b _ => a =? b | WUnl, WUnl => true | _, _ => false end.

Section Heap.
(** The calls (sctk_allocator.c 1462-1530, 1580-1655): body, cells given with the call (the block of a free), cells of the block and of its header got
    with the result. *)
Variable A : Type.
Variable P : A -> prog.
Variable gives : A -> list Z.
Variables takes heads : A -> Z -> list Z.

(** Where a thread is: outside; at the swap, waiting (sctk_alloc_internal_spinlock.h 56-59); in the body with the rest of the program; after unlock. *)
Inductive hpc := HOut | HSwap (a : A) | HSpin (a : A) | HIn (a : A) (p : prog) | HDone (r : Z).

(** What an observer sees (ghost, no code of its own in /repo): call, its effect (at the unlock), return; loads and stores outside calls; a block sent, and arrived. *)
Inductive hev := HvCall (t : nat) (a : A) | HvOp (t : nat) (r : Z) | HvRet (t : nat) (r : Z)
| HvRd (t : nat) (c v : Z) | HvWr (t : nat) (c v : Z) | HvSend (t u : nat) (l : list Z) | HvGot (u : nat) (l : list Z).

(** Lock word, memory, buffers, threads, owners, trace (sctk_alloc_chain.h: the lock of the chain; memory and buffers are those of the machine). *)
Record hst := mkH { hw : Z; hm : Z -> Z; hbuf : nat -> list hwr; hp : nat -> hpc; hown : Z -> owner; htr : list hev }.
(** The start: lock free (sctk_alloc_internal_spinlock.h 48-51), any memory. *)
Definition h0 (m : Z -> Z) (o : Z -> owner) : hst := mkH 0 m (fun _ => []) (fun _ => HOut) o [].
(** A thread goes on (no code of its own in /repo). *)
Definition set_hp (s : hst) (t : nat) (p : hpc) : hst := mkH (hw s) (hm s) (hbuf s) (fupd (hp s) t p) (hown s) (htr s).
(** A store goes to the buffer (no code of its own in /repo). *)
Definition push (s : hst) (t : nat) (x : hwr) : hst := mkH (hw s) (hm s) (fupd (hbuf s) t (hbuf s t ++ [x])) (hp s) (hown s) (htr s).
(** An event is seen (ghost, no code of its own in /repo). *)
Definition see (s : hst) (e : hev) : hst := mkH (hw s) (hm s) (hbuf s) (hp s) (hown s) (htr s ++ [e]).
(** The owners change (ghost, no code of its own in /repo). *)
Definition set_own (s : hst) (o : Z -> owner) : hst := mkH (hw s) (hm s) (hbuf s) (hp s) o (htr s).

(** One access of a call: sctk_alloc_internal_spinlock.h 56-66 around sctk_allocator.c 1475-1517, 1621-1651. *)
Definition hgo (s : hst) (t : nat) : option hst :=
  match hp s t with
  | HOut => None
  | HSwap a =>                                                                         (* 56 *)
      match hbuf s t with
      | _ :: _ => None
      | [] => if hw s =? 0
              then Some (mkH 1 (hm s) (hbuf s) (fupd (hp s) t (HIn a (P a))) (oset (hown s) (gives a) OAlloc) (htr s))
              else Some (mkH 1 (hm s) (hbuf s) (fupd (hp s) t (HSpin a)) (hown s) (htr s))
      end
  | HSpin a => Some (set_hp s t (if ldl (hbuf s t) (hw s) =? 0 then HSwap a else HSpin a))   (* 57-59 *)
  | HIn a (PRd c k) => Some (set_hp s t (HIn a (k (ldc (hbuf s t) c (hm s c)))))
  | HIn a (PWr c v k) => Some (set_hp (push s t (WData c v)) t (HIn a k))
  | HIn a (PRet r) =>                                                                  (* 66 *)
      Some (see (set_own (set_hp (push s t WUnl) t (HDone r))
                         (oset (oset (hown s) (takes a r) (OUse false false t)) (heads a r) (OUse true false t))) (HvOp t r))
  | HDone r => Some (see (set_hp s t HOut) (HvRet t r))
  end.

(** A store leaves the buffer (no code of its own in /repo: store buffers). *)
Definition hflush (fifo : bool) (s : hst) (t i : nat) : option hst :=
  match nth_error (hbuf s t) i with
  | None => None
  | Some x =>
      let older := firstn i (hbuf s t) in
      let b := fupd (hbuf s) t (older ++ skipn (S i) (hbuf s t)) in
      if (if fifo then Nat.eqb i 0 else negb (existsb (same_cell x) older)) then
        Some match x with
             | WData c v => mkH (hw s) (cset (hm s) c v) b (hp s) (hown s) (htr s)
             | WUnl => mkH 0 (hm s) b (hp s) (hown s) (htr s)
             | WHand u l => mkH (hw s) (hm s) b (hp s) (ogot (hown s) l u) (htr s ++ [HvGot u l])
             end
      else None
  end.

(** What can happen: a call (with blocks the thread has), the next access of a thread, a load or store of a thread in its blocks, a block
    is handed to another thread, a store reaches memory (sctk_alloc_posix.c 615-730: the program around the calls is arbitrary but for the
    contract of malloc and free). *)
Inductive hact := ACall (t : nat) (a : A) | AGo (t : nat) | ARead (t : nat) (c : Z) | AWrite (t : nat) (c v : Z)
| ASend (t u : nat) (l : list Z) | AFlush (t i : nat).
(** One step (sctk_allocator.c 1462-1530, 1580-1655). *)
Definition hstep (fifo : bool) (s : hst) (x : hact) : option hst :=
  match x with
  | ACall t a => match hp s t with
                 | HOut => if forallb (fun c => has t (hown s c)) (gives a) then Some (see (set_hp s t (HSwap a)) (HvCall t a)) else None
                 | _ => None
                 end
  | AGo t => hgo s t
  | ARead t c => match hp s t with
                 | HOut => if has t (hown s c) then Some (see s (HvRd t c (ldc (hbuf s t) c (hm s c)))) else None
                 | _ => None
                 end
  | AWrite t c v => match hp s t with
                    | HOut => if has_rw t (hown s c) then Some (see (push s t (WData c v)) (HvWr t c v)) else None
                    | _ => None
                    end
  | ASend t u l => match hp s t with
                   | HOut => if forallb (fun c => has t (hown s c)) l
                             then Some (see (set_own (push s t (WHand u l)) (osend (hown s) l)) (HvSend t u l)) else None
                   | _ => None
                   end
  | AFlush t i => hflush fifo s t i
  end.
End Heap.
