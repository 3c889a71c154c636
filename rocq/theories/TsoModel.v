(** The remote free queue on a machine with store buffers (x86: total store order).  Each thread has a buffer of stores, first in
    first out; a load looks in the buffer of its own thread first, then in memory; an atomic swap (OPA_swap_ptr, an xchg
    instruction) waits until the buffer of its thread is empty.  The stores of sctk_mpscf_queue_insert, of
    sctk_mpscft_queue_dequeue_all and of sctk_alloc_rfq_register are plain stores (OPA_store_ptr is a volatile store).
    [fence = false] is a machine whose swap does not wait for the buffer (the swap has the meaning of an acquire, and the line
    OPA_write_barrier of sctk_alloc_mpscf_queue.h:223 is commented out).
    Simplification: an entry is its address plus its two fields; the queue itself does not lie in an entry. *)
From Verif Require Import MpscfModel.
From Coq Require Import ZArith List Bool.
Import ListNotations.
Open Scope Z_scope.

(** A thread: the owner of the chain (the consumer of the queue), or another one. (sctk_allocator.c 1787-1825 and 2537-2569.) *)
Inductive who := Owner | Thr (t : nat).
(** Equality of threads (no code of its own in /repo). *)
Definition who_eqb (a b : who) : bool :=
  match a, b with Owner, Owner => true | Thr t, Thr u => Nat.eqb t u | _, _ => false end.

(** A store in a buffer.  [SPay], [SNext], [SHead]: stores of the functions of the queue (sctk_allocator.c:2564-2565,
    queue.h:157, 166, 168, 222).  [WN], [WP]: stores of the program in a block it holds.  [WGive a u]: the store by which the
    program lets thread [u] know the block [a] (a pointer put in shared memory). *)
Inductive wr :=
| SPay (a v : Z)
| SNext (a v : Z)
| SHead (v : Z)
| WN (a v : Z)
| WP (a v : Z)
| WGive (a : Z) (u : who).

(** Who may write in a block: the thread that holds it; nobody but the functions of the queue between the call to
    sctk_alloc_rfq_register and the call to sctk_alloc_chain_free; nobody while it is on its way to another thread. (Ghost: no code of its own in /repo; the hand-over is at sctk_allocator.c 2537 and 1820.) *)
Inductive place := Held (w : who) | InQ | Passing.

(** Memory (fields, head, tail), where the producers and the consumer are (as in MpscfModel.v, a position is reached when the store before
    it is in the buffer), buffers (oldest store first), places, events.  [tbad]: a store of the functions of the queue reached a
    block that was not in the queue. (sctk_alloc_mpscf_queue.h 76-97; the buffers are those of the processor.) *)
Record tst := mkT {
  tn : Z -> Z; tp : Z -> Z; thd : Z; ttl : Z;
  tpc : nat -> ppc; tcs : cpc; tbuf : who -> list wr; tpl : Z -> place; tbad : bool; ttr : list event }.

(** queue.h:107-115; memory and places are arbitrary (each block is held by some thread), buffers are empty. *)
Definition t0 (n p : Z -> Z) (h : Z -> who) : tst :=
  mkT n p 0 0 (fun _ => PIdle) CIdle (fun _ => []) (fun a => Held (h a)) false [].

(** Update of the buffer of a thread (no code of its own in /repo: store buffers of x86). *)
Definition updw (f : who -> list wr) (w : who) (b : list wr) : who -> list wr := fun x => if who_eqb x w then b else f x.
(** Update of the place of a block (ghost, no code of its own in /repo). *)
Definition updl (f : Z -> place) (a : Z) (p : place) : Z -> place := fun x => if x =? a then p else f x.

(** A store reaches entry->next, entry->ptr or queue->head (sctk_alloc_mpscf_queue.h 78-95). *)
Definition t_mem (s : tst) (n p : Z -> Z) (h : Z) : tst :=
  mkT n p h (ttl s) (tpc s) (tcs s) (tbuf s) (tpl s) (tbad s) (ttr s).
(** The swaps of queue->tail (sctk_alloc_mpscf_queue.h 160, 226). *)
Definition t_tail (s : tst) (v : Z) : tst := mkT (tn s) (tp s) (thd s) v (tpc s) (tcs s) (tbuf s) (tpl s) (tbad s) (ttr s).
(** A producer goes on (sctk_allocator.c 2537-2569). *)
Definition t_pc (s : tst) (t : nat) (p : ppc) : tst :=
  mkT (tn s) (tp s) (thd s) (ttl s) (updp (tpc s) t p) (tcs s) (tbuf s) (tpl s) (tbad s) (ttr s).
(** The consumer goes on (sctk_allocator.c 1787-1825). *)
Definition t_cs (s : tst) (c : cpc) : tst := mkT (tn s) (tp s) (thd s) (ttl s) (tpc s) c (tbuf s) (tpl s) (tbad s) (ttr s).
(** New buffer of a thread (no code of its own in /repo: store buffers of x86). *)
Definition t_buf (s : tst) (w : who) (b : list wr) : tst :=
  mkT (tn s) (tp s) (thd s) (ttl s) (tpc s) (tcs s) (updw (tbuf s) w b) (tpl s) (tbad s) (ttr s).
(** New holder of a block (ghost): given at sctk_allocator.c 2537, freed at 1820. *)
Definition t_pl (s : tst) (a : Z) (p : place) : tst :=
  mkT (tn s) (tp s) (thd s) (ttl s) (tpc s) (tcs s) (tbuf s) (updl (tpl s) a p) (tbad s) (ttr s).
(** A store reached a block its thread does not hold (ghost, no code of its own in /repo). *)
Definition t_bad (s : tst) : tst := mkT (tn s) (tp s) (thd s) (ttl s) (tpc s) (tcs s) (tbuf s) (tpl s) true (ttr s).
(** A ghost event is added (no code of its own in /repo). *)
Definition t_log (s : tst) (e : event) : tst :=
  mkT (tn s) (tp s) (thd s) (ttl s) (tpc s) (tcs s) (tbuf s) (tpl s) (tbad s) (ttr s ++ [e]).

(** A store enters the buffer of its thread. (Every plain store: sctk_allocator.c 2564-2565, sctk_alloc_mpscf_queue.h 157, 166, 168, 222.) *)
Definition push (s : tst) (w : who) (x : wr) : tst := t_buf s w (tbuf s w ++ [x]).

(** What a load of thread [w] returns: the youngest store of its own buffer to the place, otherwise memory. (Loads of entry->next: sctk_alloc_mpscf_queue.h 188-195, sctk_allocator.c 1819.) *)
Fixpoint ldn (b : list wr) (a m : Z) : Z :=
  match b with
  | [] => m
  | SNext x v :: r | WN x v :: r => ldn r a (if x =? a then v else m)
  | _ :: r => ldn r a m
  end.
(** The same for entry->ptr (sctk_allocator.c 1820). *)
Fixpoint ldp (b : list wr) (a m : Z) : Z :=
  match b with
  | [] => m
  | SPay x v :: r | WP x v :: r => ldp r a (if x =? a then v else m)
  | _ :: r => ldp r a m
  end.
(** The same for queue->head (sctk_alloc_mpscf_queue.h 138, 212). *)
Fixpoint ldh (b : list wr) (m : Z) : Z :=
  match b with [] => m | SHead v :: r => ldh r v | _ :: r => ldh r m end.
(** entry->next as thread [w] reads it (sctk_alloc_mpscf_queue.h 188-195, sctk_allocator.c 1819). *)
Definition rdn (s : tst) (w : who) (a : Z) : Z := ldn (tbuf s w) a (tn s a).
(** entry->ptr as thread [w] reads it (sctk_allocator.c 1820). *)
Definition rdp (s : tst) (w : who) (a : Z) : Z := ldp (tbuf s w) a (tp s a).
(** queue->head as thread [w] reads it (sctk_alloc_mpscf_queue.h 138, 212). *)
Definition rdh (s : tst) (w : who) : Z := ldh (tbuf s w) (thd s).

(** Is the block in the queue (ghost, no code of its own in /repo; in at sctk_allocator.c 2537, out at 1820). *)
Definition in_q (s : tst) (a : Z) : bool := match tpl s a with InQ => true | _ => false end.
(** Is the buffer of the thread empty (no code of its own in /repo: what a locked swap of x86 waits for, sctk_alloc_mpscf_queue.h 160, 226). *)
Definition drained (s : tst) (w : who) : bool := match tbuf s w with [] => true | _ => false end.

(** The oldest store of a buffer reaches memory. (No code of its own in /repo: store buffers of x86; the stores are listed at [push].) *)
Definition apply (s : tst) (x : wr) : tst :=
  match x with
  | SPay a v => let s := t_mem s (tn s) (upd (tp s) a v) (thd s) in if in_q s a then s else t_bad s
  | SNext a v => let s := t_mem s (upd (tn s) a v) (tp s) (thd s) in if in_q s a then s else t_bad s
  | SHead v => t_mem s (tn s) (tp s) v
  | WN a v => t_mem s (upd (tn s) a v) (tp s) (thd s)
  | WP a v => t_mem s (tn s) (upd (tp s) a v) (thd s)
  | WGive a u => t_pl s a (Held u)
  end.
(** The oldest store of [w] reaches memory (no code of its own in /repo: store buffers of x86). *)
Definition flush (s : tst) (w : who) : option tst :=
  match tbuf s w with [] => None | x :: r => Some (apply (t_buf s w r) x) end.

(** sctk_allocator.c:2537-2563: a thread gives a block it holds. *)
Definition tstart (s : tst) (t : nat) (e v : Z) : option tst :=
  match tpc s t, tpl s e with
  | PIdle, Held (Thr u) =>
      if (e =? 0) || negb (Nat.eqb u t) then None else Some (t_log (t_pl (t_pc s t (PPay e v)) e InQ) (EStart t e v))
  | _, _ => None
  end.

(** One instruction of a producer. *)
Definition tgo (fence : bool) (s : tst) (t : nat) : option tst :=
  match tpc s t with
  | PIdle | PBad => None
  | PPay e v => Some (push (t_pc s t (PNext1 e v)) (Thr t) (SPay e v))                (* allocator.c:2564 *)
  | PNext1 e v => Some (push (t_pc s t (PNext2 e v)) (Thr t) (SNext e 0))             (* allocator.c:2565 *)
  | PNext2 e v => Some (push (t_pc s t (PSwap e v)) (Thr t) (SNext e 0))              (* queue.h:157 *)
  | PSwap e v => if fence && negb (drained s (Thr t)) then None
                 else Some (t_log (t_pc (t_tail s e) t (PLink e (ttl s))) (EPub t e v)) (* queue.h:160 *)
  | PLink e p => Some (t_log (push (t_pc s t PIdle) (Thr t) (if p =? 0 then SHead e else SNext p e)) (ERet t)) (* queue.h:164-169 *)
  end.

(** One instruction of the consumer. *)
Definition tconsume (fence : bool) (s : tst) : option tst :=
  match tcs s with
  | CIdle => Some (t_cs s (if rdh s Owner =? 0 then CIdle else CLoad))                 (* allocator.c:1800, queue.h:138 *)
  | CLoad => Some (t_cs s (if rdh s Owner =? 0 then CWalk 0 else CClear (rdh s Owner))) (* queue.h:212-215 *)
  | CClear h => Some (push (t_cs s (CSwap h)) Owner (SHead 0))                         (* queue.h:222 *)
  | CSwap h => if fence && negb (drained s Owner) then None
               else Some (t_cs (t_tail s 0) (if ttl s =? 0 then CBad else CWait h (ttl s) h)) (* queue.h:226-234 *)
  | CWait h t cur =>
      if negb (in_q s cur) then Some (t_cs s CBad)
      else if cur =? t then Some (t_cs s (if rdn s Owner cur =? 0 then CWalk h else CBad)) (* queue.h:186, 195 *)
      else Some (t_cs s (if rdn s Owner cur =? 0 then CWait h t cur else CAdv h t cur)) (* queue.h:188 *)
  | CAdv h t cur => if negb (in_q s cur) then Some (t_cs s CBad)
                    else Some (t_cs s (CWait h t (rdn s Owner cur)))                    (* queue.h:189 *)
  | CWalk e => if e =? 0 then Some (t_cs s CIdle)                                       (* allocator.c:1812 *)
               else if negb (in_q s e) then Some (t_cs s CBad)
               else Some (t_cs s (CDel e (rdn s Owner e)))                              (* allocator.c:1819 *)
  | CDel e n => if negb (in_q s e) then Some (t_cs s CBad)
                else Some (t_log (t_pl (t_cs s (CWalk n)) e (Held Owner)) (EDel e (rdp s Owner e))) (* allocator.c:1820-1821 *)
  | CBad => None
  end.

(** Program code runs in a producer outside sctk_alloc_rfq_register, and in the owner outside sctk_mpscft_queue_dequeue_all
    (sctk_alloc_chain_free, allocator.c:1820, writes in the blocks). *)
Definition outside (s : tst) (w : who) : bool :=
  match w with
  | Owner => match tcs s with CIdle | CWalk _ => true | _ => false end
  | Thr t => match tpc s t with PIdle => true | _ => false end
  end.
(** Does the thread hold the block (ghost, no code of its own in /repo). *)
Definition holds (s : tst) (w : who) (a : Z) : bool := match tpl s a with Held u => who_eqb u w | _ => false end.

(** Actions: call to register; next instruction of a producer, of the consumer; store of the program in a block held, in its first or
    in its second word; a block is given to another thread; the oldest store of a buffer reaches memory. (sctk_allocator.c 1787-1825, 2537-2569.) *)
Inductive tact := TStart (t : nat) (e v : Z) | TGo (t : nat) | TCons | TWrN (w : who) (a v : Z) | TWrP (w : who) (a v : Z)
| TGive (w : who) (a : Z) (u : who) | TFlush (w : who).

(** One action (sctk_allocator.c 1787-1825, 2537-2569; sctk_alloc_mpscf_queue.h 138-239). *)
Definition tstep (fence : bool) (s : tst) (x : tact) : option tst :=
  match x with
  | TStart t e v => tstart s t e v
  | TGo t => tgo fence s t
  | TCons => tconsume fence s
  | TWrN w a v => if outside s w && holds s w a then Some (push s w (WN a v)) else None
  | TWrP w a v => if outside s w && holds s w a then Some (push s w (WP a v)) else None
  | TGive w a u => if outside s w && holds s w a then Some (push (t_pl s a Passing) w (WGive a u)) else None
  | TFlush w => flush s w
  end.
