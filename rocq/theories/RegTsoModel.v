(** The registry of segments with the store buffers of x86 (model only, no proofs): the code of RegConcModel.v, where the stores of a thread wait in
    its buffer, and the lookup goes on to the chain it is made for (sctk_alloc_posix.c 724, 823).

    A thread reads its own waiting stores, the others read the memory.  The swap that takes a spinlock drains the buffer of its thread first; giving a
    lock back is a store like the others.  [fifo = false] is a machine whose buffers let stores to different places overtake each other (the library has
    no barrier of its own); [fence = false] is a machine whose swap does not wait for the buffer.

    Simplifications: the table has been initialised (C68, C78); an entry is read once by a lookup; the stores in the header of a new segment are one store
    (size and chain, 1222-1249, 2318); the return of a segment to its source (1565) is one step that drains the buffer, as the lock of the source
    (sctk_alloc_light_mm_source.c) or the system call does.  Which thread has a pointer to a block of which segment is ghost. *)
From Verif Require Import Word Res RegionModel RegConcModel.
From Coq Require Import ZArith List Bool.
Import ListNotations.
Open Scope Z_scope.

(** A waiting store: a region header put in the table (sctk_allocator.c 2232); an entry (2295, 2336); the header of a segment (1222-1249, 2318); the lock
    given back (2238); the pointer by which the program lets thread [u] know a block of segment [b]. *)
Inductive wr := WReg (id : Z) (r : nat) | WEnt (r : nat) (i v : Z) | WHdr (b sz c : Z) | WFree | WGive (b : Z) (u : nat).
(** Memory: the table of regions, the region headers by number (a new one for each mmap), size and chain in the header of the segments.
    (sctk_allocator.c 71; sctk_alloc_region.h; sctk_alloc_mmsrc.h 43-51.) *)
Record rmem := mkM { m_regs : Z -> option nat; m_tabs : nat -> Z -> Z; m_hdr : Z -> Z * Z }.
(** A store takes effect (sctk_allocator.c 2232, 2295, 2336, 2318). *)
Definition apply (m : rmem) (w : wr) : rmem :=
  match w with
  | WReg id r => mkM (zupd (m_regs m) id (Some r)) (m_tabs m) (m_hdr m)
  | WEnt r i v => mkM (m_regs m) (fupd (m_tabs m) r (zupd (m_tabs m r) i v)) (m_hdr m)
  | WHdr b sz c => mkM (m_regs m) (m_tabs m) (zupd (m_hdr m) b (sz, c))
  | WFree | WGive _ _ => m
  end.

(** Where a thread is; [work], [target] and [slot] are those of RegConcModel.v.  Lines of sctk_allocator.c, or as noted. *)
Inductive spot :=
| QIdle | QDone
| QFound (p b c : Z)                                     (* a lookup has returned segment [b]; its chain is [c] (NULL: 0, 0) *)
| QLoop (w : work)                                       (* 2291, 2330 *)
| QGet (w : work)                                        (* 2253 *)
| QLock (w : work) | QLook (w : work) | QMap (w : work) | QUnlock (w : work) (r : nat)    (* 2220, 2223, 2226-2232, 2238 *)
| QRead (w : work) (r : nat)                             (* 2294, 2334, 2402, 2404 *)
| QWrite (w : work) (r : nat)                            (* 2295, 2336 *)
| QSize (p e : Z)                                        (* 2406 *)
| QChain (p b : Z)                                       (* sctk_alloc_posix.c 724, 823 *)
| QBack (b : Z).                                         (* 1565 *)

(** Memory, lock (73), buffers (oldest store first), segments that are mapped (address, size, chain), who has a pointer into which segment (ghost), places,
    number of the next region header. (sctk_allocator.c 71-75; the buffers are those of the processor.) *)
Record xst := mkX { x_m : rmem; x_lck : bool; x_buf : nat -> list wr; x_map : list (Z * Z * Z); x_know : list (nat * Z); x_at : nat -> spot; x_next : nat }.
(** The table after start-up; memory that nobody has written is zero (sctk_allocator.c 71-75, 2476-2484). *)
Definition x0 : xst := mkX (mkM (fun _ => None) (fun _ _ => 0) (fun _ => (0, 0))) false (fun _ => []) [] [] (fun _ => QIdle) O.
(** What thread [t] reads (no code of its own in /repo: loads of x86). *)
Definition view (s : xst) (t : nat) : rmem := fold_left apply (x_buf s t) (x_m s).
(** Is the segment mapped (no code of its own in /repo: the pages of sctk_alloc_common.c 49-93). *)
Definition mapped (s : xst) (b : Z) : bool := existsb (fun '(y, _, _) => y =? b) (x_map s).

(** A thread goes on (no code of its own in /repo: the program counter). *)
Definition x_goto (s : xst) (t : nat) (q : spot) : xst :=
  mkX (x_m s) (x_lck s) (x_buf s) (x_map s) (x_know s) (fupd (x_at s) t q) (x_next s).
(** A store enters the buffer of its thread (sctk_allocator.c 2232, 2238, 2295, 2336, 2318). *)
Definition x_push (s : xst) (t : nat) (w : wr) : xst :=
  mkX (x_m s) (x_lck s) (fupd (x_buf s) t (x_buf s t ++ [w])) (x_map s) (x_know s) (x_at s) (x_next s).
(** The lock is taken (sctk_allocator.c 2220). *)
Definition x_take (s : xst) : xst := mkX (x_m s) true (x_buf s) (x_map s) (x_know s) (x_at s) (x_next s).
(** Segments are mapped or given back (sctk_allocator.c 1222, 1565). *)
Definition x_maps (s : xst) (l : list (Z * Z * Z)) : xst := mkX (x_m s) (x_lck s) (x_buf s) l (x_know s) (x_at s) (x_next s).
(** Update of the ghost list [x_know] (no code of its own in /repo). *)
Definition x_knows (s : xst) (l : list (nat * Z)) : xst := mkX (x_m s) (x_lck s) (x_buf s) (x_map s) l (x_at s) (x_next s).
(** A region header is mapped (sctk_allocator.c 2226). *)
Definition x_new (s : xst) : xst := mkX (x_m s) (x_lck s) (x_buf s) (x_map s) (x_know s) (x_at s) (S (x_next s)).
(** Does the swap of the thread have to wait for its buffer (no code of its own in /repo: locked instructions of x86; sctk_alloc_internal_spinlock.h 56). *)
Definition waits (fence : bool) (s : xst) (t : nat) : bool := fence && match x_buf s t with [] => false | _ => true end.

(** Two stores to the same place (no code of its own in /repo). *)
Definition same_place (a b : wr) : bool :=
  match a, b with
  | WReg i _, WReg j _ => i =? j
  | WEnt r i _, WEnt q j _ => Nat.eqb r q && (i =? j)
  | WHdr b _ _, WHdr c _ _ => b =? c
  | WFree, WFree => true
  | WGive b u, WGive c v => (b =? c) && Nat.eqb u v
  | _, _ => false
  end.
(** The [i]-th waiting store of [t] reaches the memory: the oldest one if [fifo] (x86), else any one that no older store to the same place precedes.
    (No code of its own in /repo: store buffers of x86.) *)
Definition x_flush (fifo : bool) (s : xst) (t i : nat) : xst :=
  match nth_error (x_buf s t) i with
  | Some w =>
      if (if fifo then Nat.eqb i 0 else negb (existsb (same_place w) (firstn i (x_buf s t)))) then
        mkX (apply (x_m s) w) (match w with WFree => false | _ => x_lck s end) (fupd (x_buf s) t (firstn i (x_buf s t) ++ skipn (S i) (x_buf s t))) (x_map s)
            (match w with WGive b u => (u, b) :: x_know s | _ => x_know s end) (x_at s) (x_next s)
      else s
  | None => s
  end.

(** The access to the entry at 2294, 2334, 2402 and 2404 (sctk_allocator.c). *)
Definition x_read (s : xst) (t : nat) (w : work) (r : nat) : res xst :=
  let e := m_tabs (view s t) r (slot (target w)) in
  match w with
  | WSet b a => if e =? 0 then Ok (x_goto s t (QWrite w r)) else Abort                                            (* 2333-2335 *)
  | WUnset b a => Ok (x_goto s t (if e =? b then QWrite w r else QLoop (WUnset b (add64 a MB2))))                 (* 2294 *)
  | WFind p => Ok (x_goto s t (if ((e =? 0) || (p <? e)) && (MB2 <? p) then QGet (WBack p) else QChain p e))      (* 2402, 2411 *)
  | WBack p => Ok (x_goto s t (if negb (e =? 0) && (e <? p) then QSize p e else QFound p 0 0))                    (* 2404-2406 *)
  end.
(** The test of the loops (sctk_allocator.c 2291, 2330). *)
Definition x_loop (s : xst) (t : nat) (w : work) : res xst :=
  match w with
  | WSet b a => if negb (mapped s b) then UB else
      if a <? add64 b (fst (m_hdr (view s t) b)) then Ok (x_goto s t (QGet w)) else Ok (x_knows (x_goto s t QDone) ((t, b) :: x_know s))   (* 2330 *)
  | WUnset b a => if negb (mapped s b) then UB else
      Ok (x_goto s t (if a <? add64 b (fst (m_hdr (view s t) b)) then QGet w else QBack b))                       (* 2291 *)
  | _ => UB
  end.
(** The next access of thread [t]; a thread that waits stays. (sctk_allocator.c 2209-2254, 2263-2298, 2307-2339, 2391-2416, 1560-1565; sctk_alloc_posix.c 724, 823.) *)
Definition x_go (fence : bool) (t : nat) (s : xst) : res xst :=
  match x_at s t with
  | QIdle | QDone | QFound _ _ _ => Ok s
  | QLoop w => x_loop s t w
  | QGet w => rbind (get_id (target w)) (fun id => Ok (x_goto s t (match m_regs (view s t) id with Some r => QRead w r | None => QLock w end)))
  | QLock w => if x_lck s || waits fence s t then Ok s else Ok (x_take (x_goto s t (QLook w)))
  | QLook w => rbind (get_id (target w)) (fun id => Ok (x_goto s t (match m_regs (view s t) id with Some r => QUnlock w r | None => QMap w end)))
  | QMap w => rbind (get_id (target w)) (fun id => Ok (x_push (x_new (x_goto s t (QUnlock w (x_next s)))) t (WReg id (x_next s))))
  | QUnlock w r => Ok (x_push (x_goto s t (QRead w r)) t WFree)
  | QRead w r => x_read s t w r
  | QWrite w r =>
      match w with
      | WSet b a => Ok (x_push (x_goto s t (QLoop (WSet b (add64 a MB2)))) t (WEnt r (slot a) b))                 (* 2336-2337 *)
      | WUnset b a => Ok (x_push (x_goto s t (QLoop (WUnset b (add64 a MB2)))) t (WEnt r (slot a) 0))             (* 2295-2296 *)
      | _ => UB
      end
  | QSize p e => if negb (mapped s e) then UB
                 else Ok (x_goto s t (if p <? add64 e (fst (m_hdr (view s t) e)) then QChain p e else QFound p 0 0))
  | QChain p b => if b =? 0 then Ok (x_goto s t (QFound p 0 0)) else if negb (mapped s b) then UB
                  else Ok (x_goto s t (QFound p b (snd (m_hdr (view s t) b))))
  | QBack b => if waits fence s t then Ok s else Ok (x_maps (x_goto s t QDone) (filter (fun '(y, _, _) => negb (y =? b)) (x_map s)))
  end.

(** The calls.  [SReg t c b sz]: thread [t] has got a segment of [sz] bytes at [b] and registers it for chain [c] (1222-1249, 2307-2339).  [SUnreg]: 2281-2298,
    then 1565.  [SFind]: 2391-2416, then the chain.  [SGive t b u]: the program stores a pointer to a block of [b] where [u] will read it.  [SDrop]: a thread
    has freed its blocks of [b].  [SFlush]: a store reaches memory. (sctk_allocator.c, lines as noted.) *)
Inductive xact := SReg (t : nat) (c b sz : Z) | SUnreg (t : nat) (b : Z) | SFind (t : nat) (p : Z) | SGive (t : nat) (b : Z) (u : nat) | SDrop (t : nat) (b : Z)
| SGo (t : nat) | SFlush (t i : nat).
(** Ghost list without the pointers of [t] into [b] (no code of its own in /repo). *)
Definition forget (t : nat) (b : Z) (l : list (nat * Z)) : list (nat * Z) := filter (fun '(u, y) => negb (Nat.eqb u t && (y =? b))) l.
(** One action: the start of a call (sctk_allocator.c 2281, 2307, 2391), an access of one, a store that reaches memory. *)
Definition xstep (fifo fence : bool) (a : xact) (s : xst) : res xst :=
  match a with
  | SReg t c b sz => Ok (x_push (x_maps (x_goto s t (QLoop (WSet b b))) ((b, sz, c) :: x_map s)) t (WHdr b sz c))
  | SUnreg t b => Ok (x_knows (x_goto s t (QLoop (WUnset b b))) (forget t b (x_know s)))
  | SFind t p => Ok (x_goto s t (QGet (WFind p)))
  | SGive t b u => Ok (x_push (x_goto s t QIdle) t (WGive b u))
  | SDrop t b => Ok (x_knows s (forget t b (x_know s)))
  | SGo t => x_go fence t s
  | SFlush t i => Ok (x_flush fifo s t i)
  end.
