(** The allocator as a whole: sctk_alloc_posix.c and sctk_alloc_posix_export.c on top of the chains, the registry of segments and the light
    memory source, in the UMA build (no hwloc: one memory source).  Model only, no proofs.

    Simplifications.  Public calls of different threads are taken one after another (the concurrent part is in AtomicModel.v, LockModel.v and
    MpscfModel.v).  The start-up done by the first call (base_init) is done beforehand by [sys_init].  The segments got and given back by a
    chain call are registered, unregistered and handed to the source after the chain part of the call, oldest first; in the C code this
    happens on the way, but nothing of it is read by the chain part.  The lock word of a chain is not in memory: an unlock is an item of the
    trace.  mmap never fails (a failure makes the source use the address -1, see LightModel.v). *)
From Verif Require Import Word Res Mem SizeClassModel ChainModel ChainSpec RegionModel LightModel.
From Coq Require Import ZArith List Bool.
Import ListNotations.
Open Scope Z_scope.

(** Addresses of the static variables sctk_global_egg_chain (sctk_alloc_posix.c) and buffer (395), settings (sctk_alloc_config.c), settings of
    the light source, and the alignment given to plain allocations by sctk_net_memory_allocation_hook (sctk_allocator.c 1402-1408, called at 1415-1422). *)
Record env := mkEnv { eegg : Z; ebuf : Z; estrict : bool; efac : Z; ethr : Z; elg : lcfg; ehook : Z -> Z }.

(** SCTK_ALLOC_EGG_INIT_MEM (sctk_alloc_common.h 110). *)
Definition EGG_MEM : Z := 2097152.
(** sizeof(struct sctk_alloc_chain) (sctk_alloc_chain.h 78-111). *)
Definition CHAIN_SIZE : Z := 1680.
(** sizeof(struct sctk_alloc_mm_source_light) (sctk_alloc_light_mm_source.h 71-93). *)
Definition LIGHT_SIZE : Z := 72.

(** The first chain ("egg"): no source (in this build sctk_global_memory_source[SCTK_DEFAULT_NUMA_MM_SOURCE_ID] is never set, sctk_alloc_posix.c 460), segments
    registered, merging (426). *)
Definition egg_cfg (e : env) : cfg := mkCfg (eegg e) true false true (estrict e) (efac e) (ethr e).
(** A thread chain at [p] (sctk_alloc_posix.c 499-507): same with the light source. *)
Definition thread_cfg (e : env) (p : Z) : cfg := mkCfg p true true true (estrict e) (efac e) (ethr e).

(** A chain: [ksh] flag SCTK_ALLOC_CHAIN_FLAGS_THREAD_SAFE, [kdes] destroy_handler set, [kst] its state; the memory is shared: [smem] of
    [kst] is stale between calls. (sctk_alloc_chain.h 78-111.) *)
Record chn := mkChn { kg : cfg; ksh : bool; kdes : bool; kst : st }.

(** What happens inside a public call: a call of a chain (sctk_allocator.c 1415-1825), a chain created or destroyed (sctk_alloc_posix.c 483-515,
    979-986), an unlock (sctk_allocator.c 1650-1651). *)
Inductive titem := TCall (i : nat) (c : op) (r : Z) (evs : list ev) | TNew (i : nat) | TDestroy (i : nat) | TUnlock (i : nat).

(** [ych]: the chains created so far, [None] once destroyed; chain 0 is the egg.  [ytls]: chain of each thread.  [yregs]: registry of
    segments.  [ysrc]: the light source, at address [ylight].  [ytr]: what happened during the current public call, latest first.  (sctk_alloc_posix.c 74-89: the global
    variables.) *)
Record sys := mkSys {
  ymem : mem; ych : list (option chn); ytls : Z -> option nat;
  yregs : Z -> option (Z -> Z); ysrc : ls; ylight : Z; ytr : list titem }.

(** Update of one field of [sys]: the memory (no code of its own in /repo). *)
Definition yset_mem (y : sys) (m : mem) : sys := mkSys m (ych y) (ytls y) (yregs y) (ysrc y) (ylight y) (ytr y).
(** Update of the list of chains (no code of its own in /repo). *)
Definition yset_ch (y : sys) (c : list (option chn)) : sys := mkSys (ymem y) c (ytls y) (yregs y) (ysrc y) (ylight y) (ytr y).
(** sctk_alloc_posix.c 128-135 [sctk_set_tls_chain] *)
Definition yset_tls (y : sys) (t : Z) (i : option nat) : sys :=
  mkSys (ymem y) (ych y) (zupd (ytls y) t i) (yregs y) (ysrc y) (ylight y) (ytr y).
(** Update of the registry (sctk_allocator.c 2307-2339, 2281-2298). *)
Definition yset_regs (y : sys) (r : Z -> option (Z -> Z)) : sys := mkSys (ymem y) (ych y) (ytls y) r (ysrc y) (ylight y) (ytr y).
(** Update of the source and with it of the memory (no code of its own in /repo). *)
Definition yset_src (y : sys) (l : ls) : sys := mkSys (lmem l) (ych y) (ytls y) (yregs y) l (ylight y) (ytr y).
(** Update of the trace (ghost: no code in /repo). *)
Definition yset_tr (y : sys) (l : list titem) : sys := mkSys (ymem y) (ych y) (ytls y) (yregs y) (ysrc y) (ylight y) l.
(** One more item in the trace (ghost: no code in /repo). *)
Definition log (y : sys) (t : titem) : sys := yset_tr y (t :: ytr y).

(** A pointer to a chain (sctk_alloc_chain.h 78) dereferenced; [None]: destroyed or never created. *)
Definition chain (y : sys) (i : nat) : option chn := nth i (ych y) None.
(** Update of a list (no code of its own in /repo). *)
Fixpoint set_nth {A} (i : nat) (x : A) (l : list A) : list A :=
  match i, l with
  | _, [] => []
  | O, _ :: l => x :: l
  | S i, a :: l => a :: set_nth i x l
  end.
(** The fields of a chain (sctk_alloc_chain.h 78-111) stored. *)
Definition put_chain (y : sys) (i : nat) (k : option chn) : sys := yset_ch y (set_nth i k (ych y)).

(** The registry (sctk_allocator.c 2194-2468) with the headers read from memory, where it is mapped. *)
Definition rview (e : env) (y : sys) : rst :=
  mkR (yregs y) (fun b => if accb ((ebuf e, EGG_MEM) :: lmap (ysrc y)) b 24 then Some (ld (ymem y) b 7, ld (ymem y) (b + 16) 8) else None).

(** The source (sctk_alloc_light_mm_source.c), on the shared memory. *)
Definition source (y : sys) : ls := lset_mem (ysrc y) (ymem y).

(** Exchanges of a chain with its source, oldest first.  A segment got is registered (sctk_alloc_chain_prepare_and_reg_macro_bloc,
    sctk_allocator.c 1222-1249); a segment given back is unregistered, then handed to the source (1560-1565). *)
Fixpoint events (e : env) (c : Z) (evs : list ev) (y : sys) : res sys :=
  match evs with
  | [] => Ok y
  | EGet b z :: evs => rbind (rstep (RSet c b z) (rview e y)) (fun '(_, s) => events e c evs (yset_regs y (regs s)))
  | EPut b :: evs =>
      rbind (rstep (RUnset b) (rview e y)) (fun '(_, s) =>
      rbind (free_memory (elg e) b (source y)) (fun l => events e c evs (yset_src (yset_regs y (regs s)) l)))
  end.

(** Does the call need memory from the source?  It does when it fails without; then it asks for [request_size] bytes
    (sctk_allocator.c: sctk_alloc_chain_refill_mem 1378-1391, sctk_alloc_chain_request_mem 1260-1308). *)
Definition wants (g : cfg) (c : op) (r : Z) : option Z :=
  if csrc g && (r =? 0) then
    match c with
    | OAlloc d n _ | ORealloc d _ n _ => if n =? 0 then None else Some (ask_size d n)
    | _ => None
    end
  else None.
(** The same call with memory given by the source (sctk_allocator.c 1292). *)
Definition with_grant (c : op) (b : Z) : op :=
  match c with OAlloc d n _ => OAlloc d n (Some b) | ORealloc h p n _ => ORealloc h p n (Some b) | c => c end.
(** The call asked the source for memory (sctk_allocator.c 1292). *)
Definition is_get (x : ev) : bool := match x with EGet _ _ => true | EPut _ => false end.
(** The call gave memory back to the source (sctk_allocator.c 1565). *)
Definition is_put (x : ev) : bool := match x with EGet _ _ => false | EPut _ => true end.

(** The end of a chain call: state, memory, registry and source (no code of its own in /repo: it joins the models of the parts). *)
Definition finish (e : env) (i : nat) (k : chn) (c : op) (r : Z) (s : st) (y : sys) : res (Z * sys) :=
  rbind (events e (cpool (kg k)) (rev (sevs s)) (put_chain (yset_mem y (smem s)) i (Some (mkChn (kg k) (ksh k) (kdes k) (clear_ev s)))))
    (fun y => Ok (r, log y (TCall i c r (sevs s)))).

(** A call on chain [i] (sctk_allocator.c 1415-1825).  [os l]: the address mmap would return when the mappings of the source are [l]. *)
Definition call (fuel : nat) (e : env) (os : list (Z * Z) -> Z) (i : nat) (c : op) (y : sys) : res (Z * sys) :=
  match chain y i with
  | None => UB
  | Some k =>
      rbind (step fuel (kg k) c (set_mem (kst k) (ymem y))) (fun '(r, s) =>
      match wants (kg k) c r with
      | None => finish e i k c r s y
      | Some z =>
          rbind (request (elg e) (loop_bound (source y)) z (Some (os (lmap (ysrc y)))) (source y)) (fun '(b, l) =>
          rbind (step fuel (kg k) (with_grant c b) (set_mem (kst k) (lmem l))) (fun '(r', s') =>
          if existsb is_get (sevs s') then finish e i k (with_grant c b) r' s' (yset_src y l) else finish e i k c r s y))
      end)
  end.

(** No answer of mmap is needed (calls on chains without a source, and frees, sctk_allocator.c 1270, 1583). *)
Definition no_os (l : list (Z * Z)) : Z := 0.

(** End of sctk_alloc_chain_free_macro_bloc (sctk_allocator.c 1571-1574): a chain marked for destruction whose last segment goes back is
    given to sctk_alloc_posix_destroy_handler (sctk_alloc_posix.c 979-986). *)
Definition last_gone (k : chn) (evs : list ev) : bool := kdes k && ksh k && existsb is_put evs && (scnt (kst k) =? 0).
(** sctk_allocator.c 1571-1574 and sctk_alloc_posix.c 979-986: the chain is freed in the egg. *)
Definition settle (fuel : nat) (e : env) (i : nat) (evs : list ev) (y : sys) : res sys :=
  match chain y i with
  | None => UB
  | Some k =>
      if last_gone k evs
      then rbind (call fuel e no_os 0 (OFree (cpool (kg k))) y) (fun '(_, y) => Ok (log (put_chain y i None) (TDestroy i)))
      else Ok y
  end.
(** The exchanges of the last chain call (ghost: no code in /repo). *)
Definition last_evs (y : sys) : list ev := match ytr y with TCall _ _ _ evs :: _ => evs | _ => [] end.

(** Does sctk_alloc_chain_free (sctk_allocator.c 1583-1653) take the path with the lock? *)
Definition locks (k : chn) (c : op) (m : mem) : bool :=
  match c with
  | OFree p =>
      match (v <- get_chunk_unpadded p ;; vsize v) (set_mem (kst k) m) with
      | Ok (z, _) => ksh k && negb (is_huge (kg k) z)
      | _ => false
      end
  | _ => false
  end.

(** A call with the destruction of the chain and the unlock that may follow (sctk_allocator.c 1571-1574, 1583-1653). *)
Definition chain_call (fuel : nat) (e : env) (os : list (Z * Z) -> Z) (i : nat) (c : op) (y : sys) : res (Z * sys) :=
  match chain y i with
  | None => UB
  | Some k =>
      rbind (call fuel e os i c y) (fun '(r, y1) =>
      rbind (settle fuel e i (last_evs y1) y1) (fun y2 =>
      Ok (r, if locks k c (ymem y) then log y2 (TUnlock i) else y2)))
  end.

(** sctk_alloc_posix.c 483-515 [sctk_alloc_posix_create_new_tls_chain] and 523-546 [sctk_alloc_posix_setup_tls_chain].  The result of the
    allocation is not checked (assert, 500). *)
Definition create (fuel : nat) (e : env) (t : Z) (y : sys) : res (nat * sys) :=
  rbind (call fuel e no_os 0 (OAlloc (ehook e CHAIN_SIZE) CHAIN_SIZE None) y) (fun '(p, y) =>
  if p =? 0 then UB
  else
    rbind (base_init (thread_cfg e p) (init_state (thread_cfg e p) (ymem y))) (fun '(_, s) =>
    let i := length (ych y) in
    Ok (i, log (yset_tls (yset_ch (yset_mem y (smem s)) (ych y ++ [Some (mkChn (thread_cfg e p) false false s)])) t (Some i)) (TNew i)))).
(** Beginning of every public function: sctk_alloc_posix.c 580-585, 622-627, 677-684, 810-812. *)
Definition with_local (fuel : nat) (e : env) (t : Z) (y : sys) : res (nat * sys) :=
  match ytls y t with Some i => Ok (i, y) | None => create fuel e t y end.

(** The part common to sctk_malloc (sctk_alloc_posix.c 571-611) and sctk_memalign (614-649). *)
Definition p_alloc (fuel : nat) (e : env) (os : list (Z * Z) -> Z) (t : Z) (d : Z -> Z) (n : Z) (y : sys) : res (Z * sys) :=
  rbind (with_local fuel e t y) (fun '(i, y) =>
  rbind (chain_call fuel e no_os i OPurge y) (fun '(_, y) =>
  let n := if n =? 0 then 1 else n in
  chain_call fuel e os i (OAlloc (d n) n None) y)).
(** sctk_alloc_posix.c 571-611 [sctk_malloc] *)
Definition p_malloc fuel e os t n y := p_alloc fuel e os t (ehook e) n y.
(** sctk_alloc_posix.c 614-649 [sctk_memalign] *)
Definition p_memalign fuel e os t d n y := p_alloc fuel e os t (fun _ => d) n y.

(** Registry lookup, sctk_allocator.c 2391-2416. *)
Definition lookup (e : env) (p : Z) (y : sys) : res (Z * sys) :=
  rbind (get_macro_bloc p (rview e y)) (fun '(b, s) => Ok (b, yset_regs y (regs s))).
(** The chain whose structure is at address [a]: macro_bloc->chain as a pointer to a chain (sctk_alloc_mmsrc.h 48). *)
Fixpoint owner (a : Z) (l : list (option chn)) : option nat :=
  match l with
  | [] => None
  | Some k :: l => if cpool (kg k) =? a then Some O else option_map S (owner a l)
  | None :: l => option_map S (owner a l)
  end.
(** sctk_alloc_posix.c 724-725, 821-838 *)
Definition find_chain (e : env) (b : Z) (y : sys) : res nat :=
  let a := ld (ymem y) (b + 16) 8 in
  if a =? 0 then Abort else match owner a (ych y) with Some i => Ok i | None => UB end.
(** sctk_allocator.c 1100-1106 [sctk_alloc_chain_is_thread_safe] *)
Definition is_shared (y : sys) (i : nat) : bool := match chain y i with Some k => ksh k | None => false end.

(** sctk_alloc_posix.c 665-739 [sctk_free] *)
Definition p_free (fuel : nat) (e : env) (t p : Z) (y : sys) : res (Z * sys) :=
  rbind (with_local fuel e t y) (fun '(l, y) =>
  rbind (chain_call fuel e no_os l OPurge y) (fun '(_, y) =>
  if p =? 0 then Ok (0, y)
  else
    rbind (lookup e p y) (fun '(b, y) =>
    if b =? 0 then (if estrict e then Abort else Ok (0, y))
    else
      rbind (find_chain e b y) (fun i =>
      chain_call fuel e no_os i (if is_shared y i || Nat.eqb i l then OFree p else ORemote p) y)))).

(** memcpy and memset by the library (sctk_alloc_posix.c 566, 883): inside memory of the chains. *)
Definition copy (m : mem) (d s n : Z) : mem := fun x => if (d <=? x) && (x <? d + n) then m (s + (x - d)) else m x.
(** memset, sctk_alloc_posix.c 566 *)
Definition zero (m : mem) (d n : Z) : mem := fun x => if (d <=? x) && (x <? d + n) then 0 else m x.
(** The memory the chains may access (ghost: no code in /repo). *)
Definition yrng (y : sys) : list (Z * Z) := flat_map (fun k => match k with Some k => srng (kst k) | None => [] end) (ych y).
(** sctk_alloc_posix.c 883 *)
Definition p_memcpy (d s n : Z) (y : sys) : res sys :=
  if n =? 0 then Ok y
  else if accb (yrng y) d n && accb (yrng y) s n && ((d + n <=? s) || (s + n <=? d)) then Ok (yset_mem y (copy (ymem y) d s n)) else UB.
(** sctk_alloc_posix.c 566 *)
Definition p_memset (d n : Z) (y : sys) : res sys :=
  if n =? 0 then Ok y else if accb (yrng y) d n then Ok (yset_mem y (zero (ymem y) d n)) else UB.
(** sctk_alloc_posix.c 748-759 [sctk_alloc_posix_get_size], on memory of chain [i]. *)
Definition p_size (i : nat) (p : Z) (y : sys) : res Z :=
  match chain y i with
  | None => UB
  | Some k => rbind (usable_size p (set_mem (kst k) (ymem y))) (fun '(u, _) => Ok u)
  end.

(** sctk_alloc_posix.c 863-891 [sctk_realloc_inter_chain], of a block of chain [i] *)
Definition inter_chain (fuel : nat) (e : env) (os : list (Z * Z) -> Z) (t : Z) (i : nat) (p n : Z) (y : sys) : res (Z * sys) :=
  rbind (p_malloc fuel e os t n y) (fun '(r, y) =>
  rbind (if r =? 0 then Ok y
         else rbind (p_size i p y) (fun u => p_memcpy r p (if n <? u then n else u) y)) (fun y =>
  rbind (p_free fuel e t p y) (fun '(_, y) => Ok (r, y)))).

(** sctk_alloc_posix.c 792-860 [sctk_realloc]; HAVE_MREMAP is never defined. *)
Definition p_realloc (fuel : nat) (e : env) (os : list (Z * Z) -> Z) (t p n : Z) (y : sys) : res (Z * sys) :=
  if p =? 0 then p_malloc fuel e os t n y
  else if n =? 0 then rbind (p_free fuel e t p y) (fun '(_, y) => Ok (0, y))
  else
    rbind (with_local fuel e t y) (fun '(l, y) =>
    rbind (lookup e p y) (fun '(b, y) =>
    if b =? 0 then Abort
    else
      rbind (find_chain e b y) (fun i =>
      if Nat.eqb i l || is_shared y i then chain_call fuel e os i (ORealloc (ehook e n) p n None) y
      else inter_chain fuel e os t i p n y))).

(** sctk_alloc_posix.c 561-568 [sctk_calloc] *)
Definition p_calloc (fuel : nat) (e : env) (os : list (Z * Z) -> Z) (t a b : Z) (y : sys) : res (Z * sys) :=
  rbind (p_malloc fuel e os t (w64 (a * b)) y) (fun '(r, y) =>
  rbind (p_memset r (w64 (a * b)) y) (fun y => Ok (r, y))).

(** sctk_alloc_posix.c 989-1006 [sctk_alloc_posix_mark_current_for_destroy] and sctk_allocator.c 1128-1142 [sctk_alloc_chain_mark_for_destroy] *)
Definition p_exit (fuel : nat) (e : env) (t : Z) (y : sys) : res (Z * sys) :=
  match ytls y t with
  | None => Ok (0, y)
  | Some i =>
      match chain y i with
      | None => UB
      | Some k => chain_call fuel e no_os i OPurge (put_chain (yset_tls y t (Some O)) i (Some (mkChn (kg k) true true (kst k))))
      end
  end.

(** sctk_alloc_inlined.h 45-48 *)
Definition is_pow2 (x : Z) : bool := negb (x =? 0) && (Z.land x (x - 1) =? 0).

(** Public calls by thread [t] (sctk_alloc_posix_export.c 32-144, sctk_alloc_posix.c 182-194, 989-1006), and stores of the program. *)
Inductive pop :=
| PMalloc (t n : Z) (os : list (Z * Z) -> Z)
| PFree (t p : Z)
| PRealloc (t p n : Z) (os : list (Z * Z) -> Z)
| PCalloc (t a b : Z) (os : list (Z * Z) -> Z)
| PMemalign (t d n : Z) (os : list (Z * Z) -> Z)
| PPosixMemalign (t d n : Z) (os : list (Z * Z) -> Z)
| PValloc (t n : Z) (os : list (Z * Z) -> Z)
| PExit (t : Z)
| PUse (t : Z) (i : nat)
| PWrite (x v : Z).

(** What a call returns: an error code (only posix_memalign has one, sctk_alloc_posix_export.c 98-115) and a pointer ([None]: none returned). *)
Definition ptr (x : res (Z * sys)) : res (Z * option Z * sys) := rbind x (fun '(r, y) => Ok (0, Some r, y)).
(** For the functions that return nothing (sctk_alloc_posix_export.c 58-66). *)
Definition unit_ (x : res (Z * sys)) : res (Z * option Z * sys) := rbind x (fun '(_, y) => Ok (0, None, y)).
(** errno.h, returned at sctk_alloc_posix_export.c 98-115 *)
Definition EINVAL : Z := 22.

(** sctk_alloc_posix_export.c 118-138 [memalign]: the bound of the addresses is the one checked there. *)
Definition x_memalign fuel e os t d n y : res (Z * sys) := if is_pow2 d then p_memalign fuel e os t d n y else Ok (0, y).
Definition pexec (fuel : nat) (e : env) (c : pop) (y : sys) : res (Z * option Z * sys) :=
  let y := yset_tr y [] in
  match c with
  | PMalloc t n os => ptr (p_malloc fuel e os t n y)
  | PFree t p => unit_ (p_free fuel e t p y)
  | PRealloc t p n os => ptr (p_realloc fuel e os t p n y)
  | PCalloc t a b os => ptr (p_calloc fuel e os t a b y)
  | PMemalign t d n os => ptr (x_memalign fuel e os t d n y)
  | PPosixMemalign t d n os =>                                                      (* posix_export.c 98-115 *)
      if negb (d mod 8 =? 0) && is_pow2 d then Ok (EINVAL, None, y) else ptr (p_memalign fuel e os t d n y)
  | PValloc t n os => ptr (x_memalign fuel e os t 4096 n y)                         (* posix_export.c 141-144 *)
  | PExit t => unit_ (p_exit fuel e t y)
  | PUse t i => Ok (0, None, yset_tls y t (Some i))                                 (* posix.c 182-194 *)
  | PWrite x v => Ok (0, None, yset_mem y (upd (ymem y) x v))
  end.

(** sctk_alloc_posix.c 392-477 [sctk_alloc_posix_base_init] and 198-208 [sctk_alloc_posix_mmsrc_uma_init]: the egg with its static buffer, then the structure
    of the light source inside it. *)
Definition sys_init (fuel : nat) (e : env) (m : mem) : res sys :=
  rbind (base_init (egg_cfg e) (init_state (egg_cfg e) m)) (fun '(_, s) =>
  let y := mkSys (smem s) [Some (mkChn (egg_cfg e) true false s)] (fun _ => None) (fun _ => None) (ls0 m) 0 [] in
  rbind (call fuel e no_os 0 (ORefill (ebuf e) EGG_MEM) y) (fun '(_, y) =>
  rbind (rstep (RSet (eegg e) (ebuf e) EGG_MEM) (rview e y)) (fun '(_, r) =>
  rbind (call fuel e no_os 0 (OAlloc (ehook e LIGHT_SIZE) LIGHT_SIZE None) (yset_regs y (regs r))) (fun '(p, y) =>
  Ok (mkSys (ymem y) (ych y) (ytls y) (yregs y) (ysrc y) p []))))).
