(** Public calls of several threads that run at the same time (sctk_alloc_posix.c on top of PosixModel.v).  Model only, no proofs.

    A call is cut where another thread can get in between: getting or creating the chain of the thread, emptying its queue, the operation on
    the chain, the search of the chain of a block with the decision taken from it, memcpy, memset, the mark of the chain at thread exit.
    Each piece is one of the functions of PosixModel.v and runs at once: the operations on a shared chain hold its lock, those on another
    chain are made by one thread only (proved), a registration in a queue is atomic (MpscfModel.v), the source and the registry have locks.
    The operations on huge blocks of a shared chain do not take its lock (sctk_allocator.c 1464-1469, 1608-1615): they only call the source
    and the registry, and update cnt_macro_blocs; what can happen to this counter is in CounterModel.v.
    Simplifications: the blocks taken from a queue are freed in one piece with the extraction, and the two stores that mark a chain
    (sctk_allocator.c 1135-1138) are one. *)
From Verif Require Import Word Res Mem ChainModel ChainSpec RegionModel LightModel PosixModel.
From Coq Require Import ZArith List Bool.
Import ListNotations.
Open Scope Z_scope.

(** What follows an allocation in the caller of sctk_malloc: return, memset of sctk_calloc (sctk_alloc_posix.c 561-568), memcpy and free of
    sctk_realloc_inter_chain (863-891) for the block at [p] of chain [i]. *)
Inductive then_ := ARet | AZero (z : Z) | ACopy (i : nat) (p n : Z).

(** Where a thread is in its call (lines of sctk_alloc_posix.c).  [l]: local_chain.  [v]: the result and the size of the caller of sctk_free, if it is a realloc. *)
Inductive task :=
| KAlloc (d : Z -> Z) (n : Z) (a : then_)                    (* sctk_malloc 571-584, sctk_memalign 614-626 *)
| KAllocPurge (l : nat) (d : Z -> Z) (n : Z) (a : then_)     (* 593, 635 *)
| KAllocDo (l : nat) (d : Z -> Z) (n : Z) (a : then_)        (* 603-607, 641-645 *)
| KZero (r z n : Z)                                          (* 566 *)
| KCopy (i : nat) (p r n : Z)                                (* 880-883 *)
| KFree (p : Z) (v : option (Z * Z))                         (* sctk_free 665-683 *)
| KFreePurge (l : nat) (p : Z) (v : option (Z * Z))          (* 692 *)
| KFreeFind (l : nat) (p : Z) (v : option (Z * Z))           (* 694-728 *)
| KFreeDo (i : nat) (direct : bool) (p : Z) (v : option (Z * Z))   (* 731, 736 *)
| KRealloc (p n : Z)                                         (* sctk_realloc 792-812 *)
| KReallocFind (l : nat) (p n : Z)                           (* 821-840 *)
| KReallocDo (i : nat) (p n : Z)                             (* 844 *)
| KExit                                                      (* 989-1005, sctk_allocator.c 1128-1138 *)
| KExitPurge (i : nat).                                      (* sctk_allocator.c 1141 *)

(** A piece ends the call, with an error code and a pointer as in [pexec], or leads to another one. (No code of its own in /repo: how a call is cut.) *)
Inductive out := Ret (code : Z) (r : option Z) | More (k : task).
(** The end of sctk_free (sctk_alloc_posix.c 739), back in its caller (805-806, 887-890) if there is one. *)
Definition answer (v : option (Z * Z)) : out := Ret 0 (option_map fst v).
(** The end of sctk_malloc (sctk_alloc_posix.c 610), back in its caller: 566, 879. *)
Definition and_then (r n : Z) (a : then_) : out :=
  match a with
  | ARet => Ret 0 (Some r)
  | AZero z => More (KZero r z n)
  | ACopy i p n => if r =? 0 then More (KFree p (Some (r, n))) else More (KCopy i p r n)
  end.

(** sctk_alloc_posix.c 561-739, 792-891, 989-1006, the lines of each piece being at [task]. *)
Definition piece (fuel : nat) (e : env) (os : list (Z * Z) -> Z) (t : Z) (k : task) (y : sys) : res (out * sys) :=
  match k with
  | KAlloc d n a => rbind (with_local fuel e t y) (fun '(l, y) => Ok (More (KAllocPurge l d n a), y))
  | KAllocPurge l d n a => rbind (chain_call fuel e no_os l OPurge y) (fun '(_, y) => Ok (More (KAllocDo l d n a), y))
  | KAllocDo l d n a =>
      let m := if n =? 0 then 1 else n in
      rbind (chain_call fuel e os l (OAlloc (d m) m None) y) (fun '(r, y) => Ok (and_then r m a, y))
  | KZero r z n => rbind (p_memset r z y) (fun y => Ok (Ret 0 (Some r), y))
  | KCopy i p r n =>
      rbind (p_size i p y) (fun u => rbind (p_memcpy r p (if n <? u then n else u) y) (fun y => Ok (More (KFree p (Some (r, n))), y)))
  | KFree p v => rbind (with_local fuel e t y) (fun '(l, y) => Ok (More (KFreePurge l p v), y))
  | KFreePurge l p v => rbind (chain_call fuel e no_os l OPurge y) (fun '(_, y) => Ok (More (KFreeFind l p v), y))
  | KFreeFind l p v =>
      if p =? 0 then Ok (answer v, y)
      else
        rbind (lookup e p y) (fun '(b, y) =>
        if b =? 0 then (if estrict e then Abort else Ok (answer v, y))
        else rbind (find_chain e b y) (fun i => Ok (More (KFreeDo i (is_shared y i || Nat.eqb i l) p v), y)))
  | KFreeDo i direct p v =>
      rbind (chain_call fuel e no_os i (if direct then OFree p else ORemote p) y) (fun '(_, y) => Ok (answer v, y))
  | KRealloc p n => rbind (with_local fuel e t y) (fun '(l, y) => Ok (More (KReallocFind l p n), y))
  | KReallocFind l p n =>
      rbind (lookup e p y) (fun '(b, y) =>
      if b =? 0 then Abort
      else
        rbind (find_chain e b y) (fun i =>
        Ok (More (if Nat.eqb i l || is_shared y i then KReallocDo i p n else KAlloc (ehook e) n (ACopy i p n)), y)))
  | KReallocDo i p n => rbind (chain_call fuel e os i (ORealloc (ehook e n) p n None) y) (fun '(r, y) => Ok (Ret 0 (Some r), y))
  | KExit =>
      match ytls y t with
      | None => Ok (Ret 0 None, y)
      | Some i =>
          match chain y i with
          | None => UB
          | Some k => Ok (More (KExitPurge i), put_chain (yset_tls y t (Some O)) i (Some (mkChn (kg k) true true (kst k))))
          end
      end
  | KExitPurge i => rbind (chain_call fuel e no_os i OPurge y) (fun '(_, y) => Ok (Ret 0 None, y))
  end.

(** The beginning of a call. (sctk_alloc_posix_export.c 32-144; sctk_alloc_posix.c 565, 801-807, 182-194.) *)
Definition begin (e : env) (c : pop) (y : sys) : out * sys :=
  match c with
  | PMalloc t n _ => (More (KAlloc (ehook e) n ARet), y)
  | PFree t p => (More (KFree p None), y)
  | PRealloc t p n _ =>
      (More (if p =? 0 then KAlloc (ehook e) n ARet else if n =? 0 then KFree p (Some (0, 0)) else KRealloc p n), y)
  | PCalloc t a b _ => (More (KAlloc (ehook e) (w64 (a * b)) (AZero (w64 (a * b)))), y)
  | PMemalign t d n _ => (if is_pow2 d then More (KAlloc (fun _ => d) n ARet) else Ret 0 (Some 0), y)
  | PPosixMemalign t d n _ => (if negb (d mod 8 =? 0) && is_pow2 d then Ret EINVAL None else More (KAlloc (fun _ => d) n ARet), y)
  | PValloc t n _ => (if is_pow2 4096 then More (KAlloc (fun _ => 4096) n ARet) else Ret 0 (Some 0), y)
  | PExit t => (More KExit, y)
  | PUse t i => (Ret 0 None, yset_tls y t (Some i))
  | PWrite x v => (Ret 0 None, yset_mem y (upd (ymem y) x v))
  end.

(** A call in progress: which one, and where it is. (No code of its own in /repo.) *)
Record job := mkJob { jc : pop; jk : task }.
(** The state of PosixModel.v and the calls in progress (no code of its own in /repo). *)
Record cst := mkCst { cy : sys; cjobs : Z -> option job }.

(** What happens next: a call begins (or a store is made), or thread [t] goes one piece further, with what mmap would return. (The calls: sctk_alloc_posix_export.c 32-144.) *)
Inductive act := Call (c : pop) | Go (t : Z) (os : list (Z * Z) -> Z).
(** The thread of a call (no code of its own in /repo). *)
Definition caller (c : pop) : option Z :=
  match c with
  | PMalloc t _ _ | PFree t _ | PRealloc t _ _ _ | PCalloc t _ _ _ | PMemalign t _ _ _ | PPosixMemalign t _ _ _ | PValloc t _ _ | PExit t | PUse t _ => Some t
  | PWrite _ _ => None
  end.
(** A call goes on (no code of its own in /repo). *)
Definition set_job (s : cst) (t : Z) (j : option job) (y : sys) : cst := mkCst y (zupd (cjobs s) t j).

(** [Some (c, code, r)]: call [c] returns. (One step; no code of its own in /repo but what [begin] and [piece] describe.) *)
Definition crun (fuel : nat) (e : env) (a : act) (s : cst) : res (option (pop * Z * option Z) * cst) :=
  match a with
  | Call c =>
      match begin e c (yset_tr (cy s) []), caller c with
      | (Ret code r, y), _ => Ok (Some (c, code, r), mkCst y (cjobs s))
      | (More k, y), Some t => Ok (None, set_job s t (Some (mkJob c k)) y)
      | (More _, _), None => UB
      end
  | Go t os =>
      match cjobs s t with
      | None => UB
      | Some j =>
          rbind (piece fuel e os t (jk j) (yset_tr (cy s) [])) (fun '(o, y) =>
          match o with
          | Ret code r => Ok (Some (jc j, code, r), set_job s t None y)
          | More k => Ok (None, set_job s t (Some (mkJob (jc j) k)) y)
          end)
      end
  end.

(** A call that no other thread interrupts: its pieces one after the other. (No code of its own in /repo.) *)
Fixpoint alone (n : nat) (fuel : nat) (e : env) (os : list (Z * Z) -> Z) (t : Z) (k : task) (y : sys) : res (Z * option Z * sys) :=
  match n with
  | O => OutOfFuel
  | S n => rbind (piece fuel e os t k y) (fun '(o, y) => match o with Ret code r => Ok (code, r, y) | More k => alone n fuel e os t k y end)
  end.
(** The answers of mmap given with a call (sctk_alloc_common.c 62-72). *)
Definition answers (c : pop) : list (Z * Z) -> Z :=
  match c with PMalloc _ _ os | PRealloc _ _ _ os | PCalloc _ _ _ os | PMemalign _ _ _ os | PPosixMemalign _ _ _ os | PValloc _ _ os => os | PFree _ _ | PExit _ | PUse _ _ | PWrite _ _ => no_os end.
(** A call alone from its beginning to its end (sctk_alloc_posix_export.c 32-144). *)
Definition whole (fuel : nat) (e : env) (c : pop) (y : sys) : res (Z * option Z * sys) :=
  match begin e c (yset_tr y []), caller c with
  | (Ret code r, y), _ => Ok (code, r, y)
  | (More k, y), Some t => alone 10 fuel e (answers c) t k y
  | (More _, _), None => UB
  end.
