(** The remote free queue with its interleavings: any number of producers (threads that free a block they do not
    own) and one consumer (the owner, "must be called in critical section", sctk_alloc_mpscf_queue.h:200).
    One action is one shared memory access of the C code; memory is sequentially consistent.
    Simplification: an entry is its address plus its two fields; the queue itself does not lie in an entry. *)
From Coq Require Import ZArith List Bool.
Import ListNotations.
Open Scope Z_scope.

(** Where a producer is in [sctk_alloc_rfq_register] (sctk_allocator.c:2537-2569) and [sctk_mpscf_queue_insert]
    (sctk_alloc_mpscf_queue.h:145-170): about to store [entry->ptr], about to store [entry.next = NULL] (done twice,
    2565 and queue.h:157), about to swap the tail (queue.h:160), about to link (queue.h:164-169).
    [PBad]: it wrote into an entry that was no longer in the queue. *)
Inductive ppc :=
| PIdle
| PPay (e v : Z)
| PNext1 (e v : Z)
| PNext2 (e v : Z)
| PSwap (e v : Z)
| PLink (e prev : Z)
| PBad.

(** Where the consumer is in [sctk_alloc_chain_purge_rfq] (sctk_allocator.c:1787-1825) and
    [sctk_mpscft_queue_dequeue_all] (queue.h:202-239): idle; queue seen not empty; head read (non NULL), about to store
    head = NULL; about to swap the tail; in the loop of [wait_until_end_is] (queue.h:176-196) at the test, or between the test
    [current->next != NULL] and the second read; in the loop of the purge, at the test, or after the read of [next].
    [CBad]: failed assertion, or access to an entry that is not in the queue. *)
Inductive cpc :=
| CIdle
| CLoad
| CClear (h : Z)
| CSwap (h : Z)
| CWait (h t cur : Z)
| CAdv (h t cur : Z)
| CWalk (e : Z)
| CDel (e n : Z)
| CBad.

(** What an observer sees: a call to register starts, its publication (tail swap), its return, a delivery
    (call to [sctk_alloc_chain_free] with the payload). (sctk_allocator.c 2537-2569: start, publication at queue.h 160, return; 1820: an entry freed.) *)
Inductive event :=
| EStart (t : nat) (e v : Z)
| EPub (t : nat) (e v : Z)
| ERet (t : nat)
| EDel (e v : Z).

(** [busy]: entries given to the queue (from the start of the call to the delivery). (sctk_alloc_mpscf_queue.h 76-97: entry and queue; sctk_alloc_rfq.h 39-52: the pointer beside the entry.) *)
Record qst := mkQ {
  nxt : Z -> Z; pay : Z -> Z; qhd : Z; qtl : Z;
  prd : nat -> ppc; cns : cpc; busy : Z -> bool; tr : list event }.

(** queue.h:107-115 [sctk_mpscf_queue_init]; the contents of memory are arbitrary. *)
Definition q0 (n p : Z -> Z) : qst := mkQ n p 0 0 (fun _ => PIdle) CIdle (fun _ => false) [].

(** Update of a field of every entry (sctk_alloc_mpscf_queue.h 78-83). *)
Definition upd (f : Z -> Z) (a v : Z) : Z -> Z := fun x => if x =? a then v else f x.
(** Update of the ghost set [busy] (no code of its own in /repo). *)
Definition updb (f : Z -> bool) (a : Z) (v : bool) : Z -> bool := fun x => if x =? a then v else f x.
(** Update of the place of a producer (sctk_alloc_mpscf_queue.h 145-170). *)
Definition updp (f : nat -> ppc) (t : nat) (p : ppc) : nat -> ppc := fun x => if Nat.eqb x t then p else f x.

(** A producer goes on (sctk_allocator.c 2537-2569). *)
Definition set_prod (s : qst) (t : nat) (p : ppc) : qst :=
  mkQ (nxt s) (pay s) (qhd s) (qtl s) (updp (prd s) t p) (cns s) (busy s) (tr s).
(** The consumer goes on (sctk_allocator.c 1787-1825). *)
Definition set_cons (s : qst) (c : cpc) : qst := mkQ (nxt s) (pay s) (qhd s) (qtl s) (prd s) c (busy s) (tr s).
(** Store of entry->next (sctk_alloc_mpscf_queue.h 157, 168; sctk_allocator.c 2565). *)
Definition set_nxt (s : qst) (a v : Z) : qst :=
  mkQ (upd (nxt s) a v) (pay s) (qhd s) (qtl s) (prd s) (cns s) (busy s) (tr s).
(** Store of entry->ptr (sctk_allocator.c 2564). *)
Definition set_pay (s : qst) (a v : Z) : qst :=
  mkQ (nxt s) (upd (pay s) a v) (qhd s) (qtl s) (prd s) (cns s) (busy s) (tr s).
(** Store of queue->head (sctk_alloc_mpscf_queue.h 166, 222). *)
Definition set_hd (s : qst) (v : Z) : qst := mkQ (nxt s) (pay s) v (qtl s) (prd s) (cns s) (busy s) (tr s).
(** Store of queue->tail, by the swaps (sctk_alloc_mpscf_queue.h 160, 226). *)
Definition set_tl (s : qst) (v : Z) : qst := mkQ (nxt s) (pay s) (qhd s) v (prd s) (cns s) (busy s) (tr s).
(** Update of the ghost set [busy] (no code of its own in /repo): given at sctk_allocator.c 2537, freed at 1820. *)
Definition set_busy (s : qst) (a : Z) (b : bool) : qst :=
  mkQ (nxt s) (pay s) (qhd s) (qtl s) (prd s) (cns s) (updb (busy s) a b) (tr s).
(** A ghost event is added (no code of its own in /repo). *)
Definition log (s : qst) (e : event) : qst :=
  mkQ (nxt s) (pay s) (qhd s) (qtl s) (prd s) (cns s) (busy s) (tr s ++ [e]).

(** Actions: a thread calls register on a block; a producer does its next access; the consumer does its next access;
    the program overwrites memory that is not in the queue. (sctk_allocator.c 2537-2569, 1787-1825.) *)
Inductive act := Start (t : nat) (e v : Z) | Go (t : nat) | Cons | Scribble (a n v : Z).

(** sctk_allocator.c:2537-2569 up to the call of insert; the program gives a block that is not already in the queue. *)
Definition start (s : qst) (t : nat) (e v : Z) : option qst :=
  match prd s t with
  | PIdle => if (e =? 0) || busy s e then None
             else Some (log (set_busy (set_prod s t (PPay e v)) e true) (EStart t e v))
  | _ => None
  end.

(** One access of a producer. *)
Definition go (s : qst) (t : nat) : option qst :=
  match prd s t with
  | PIdle | PBad => None
  | PPay e v => Some (set_prod (set_pay s e v) t (PNext1 e v))                       (* allocator.c:2564 *)
  | PNext1 e v => Some (set_prod (set_nxt s e 0) t (PNext2 e v))                     (* allocator.c:2565 *)
  | PNext2 e v => Some (set_prod (set_nxt s e 0) t (PSwap e v))                      (* queue.h:157 *)
  | PSwap e v => Some (log (set_prod (set_tl s e) t (PLink e (qtl s))) (EPub t e v))  (* queue.h:160 *)
  | PLink e p =>
      if p =? 0 then Some (log (set_prod (set_hd s e) t PIdle) (ERet t))             (* queue.h:166 *)
      else if busy s p then Some (log (set_prod (set_nxt s p e) t PIdle) (ERet t))   (* queue.h:168 *)
      else Some (set_prod s t PBad)
  end.

(** One access of the consumer. *)
Definition consume (s : qst) : option qst :=
  match cns s with
  | CIdle => Some (set_cons s (if qhd s =? 0 then CIdle else CLoad))                  (* allocator.c:1800, queue.h:138 *)
  | CLoad => Some (set_cons s (if qhd s =? 0 then CWalk 0 else CClear (qhd s)))        (* queue.h:212-215 *)
  | CClear h => Some (set_cons (set_hd s 0) (CSwap h))                               (* queue.h:222 *)
  | CSwap h => Some (set_cons (set_tl s 0)
                       (if qtl s =? 0 then CBad else CWait h (qtl s) h))               (* queue.h:226-234 *)
  | CWait h t cur =>
      if negb (busy s cur) then Some (set_cons s CBad)
      else if cur =? t then
        Some (set_cons s (if nxt s cur =? 0 then CWalk h else CBad))                 (* queue.h:186, 195 *)
      else Some (set_cons s (if nxt s cur =? 0 then CWait h t cur else CAdv h t cur)) (* queue.h:188 *)
  | CAdv h t cur => if negb (busy s cur) then Some (set_cons s CBad)
                    else Some (set_cons s (CWait h t (nxt s cur)))                   (* queue.h:189 *)
  | CWalk e => if e =? 0 then Some (set_cons s CIdle)                                (* allocator.c:1812 *)
               else if negb (busy s e) then Some (set_cons s CBad)
               else Some (set_cons s (CDel e (nxt s e)))                             (* allocator.c:1819 *)
  | CDel e n => if negb (busy s e) then Some (set_cons s CBad)
                else Some (log (set_busy (set_cons s (CWalk n)) e false) (EDel e (pay s e))) (* allocator.c:1820-1821 *)
  | CBad => None
  end.

(** One action (sctk_allocator.c 2537-2569, 1787-1825; sctk_alloc_mpscf_queue.h 145-239). *)
Definition step (s : qst) (a : act) : option qst :=
  match a with
  | Start t e v => start s t e v
  | Go t => go s t
  | Cons => consume s
  | Scribble a n v => if busy s a then None else Some (set_pay (set_nxt s a n) a v)
  end.

(** sctk_allocator.c:2589-2599 [sctk_alloc_rfq_count_entries], [fuel] bounding the iterations ([None]: not finished);
    reading [next] of NULL gives [Some None] (undefined behaviour). *)
Fixpoint count_entries (fuel : nat) (n : Z -> Z) (entries cur cnt : Z) : option (option Z) :=
  match fuel with
  | O => None
  | S f => if entries =? 0 then Some (Some cnt)
           else if cur =? 0 then Some None
           else count_entries f n entries (n cur) (cnt + 1)
  end.
