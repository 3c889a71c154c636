(** The lock operations of the functions of the library, function by function: which locks a call takes and gives back, and
    in which order, on each of its paths.  What a function computes, and which path it follows for which arguments, is the
    subject of the other models; here every path of the code is possible.  [assume_m], [abort] and [sctk_fatal] end the
    process and are left out, as is a thread that is cancelled. *)
From Verif Require Import OrderSpec.
From Coq Require Import List Bool Arith.
Import ListNotations.

(** The locks: of the start-up (sctk_alloc_posix.c 394), of each chain (sctk_alloc_chain.h 93), of each source
    (sctk_alloc_light_mm_source.h 80, sctk_alloc_mmsrc_default.h 47), of the table of regions (sctk_allocator.c 73), of the
    round robin (sctk_alloc_posix.c 300), of the page map (sctk_alloc_numa_stat.c 40).  Chain 0 is the egg chain. *)
Inductive lk := LInit | LChain (c : nat) | LSrc (s : nat) | LReg | LRobin | LPage.
(** Equality of locks (no code of its own in /repo). *)
Definition lk_eq (x y : lk) : {x = y} + {x <> y}.
Proof. decide equality; apply Nat.eq_dec. Defined.
(** Equality of locks as a boolean (no code of its own in /repo). *)
Definition lk_eqb (x y : lk) : bool := if lk_eq x y then true else false.

(** Paths of a function: nothing, one operation, a sequence, one of two, a loop. (No code of its own in /repo: the language in which the functions are described.) *)
Inductive prog := Skip | Do (o : op lk) | Seq (p q : prog) | Alt (p q : prog) | Many (p : prog).
(** The sequences of lock operations of the paths (no code of its own in /repo). *)
Inductive path : prog -> list (op lk) -> Prop :=
| p_skip : path Skip []
| p_do : forall o, path (Do o) [o]
| p_seq : forall p q x y, path p x -> path q y -> path (Seq p q) (x ++ y)
| p_left : forall p q x, path p x -> path (Alt p q) x
| p_right : forall p q x, path q x -> path (Alt p q) x
| p_none : forall p, path (Many p) []
| p_more : forall p x y, path p x -> path (Many p) y -> path (Many p) (x ++ y).

Declare Scope prog_scope.
Delimit Scope prog_scope with prog.
Notation "p ;; q" := (Seq p q) (at level 61, right associativity) : prog_scope.
Notation "p 'or' q" := (Alt p q) (at level 62, right associativity) : prog_scope.
Local Open Scope prog_scope.
(** sctk_alloc_spinlock_lock (sctk_alloc_lock.h), or SCTK_ALLOC_INIT_LOCK_LOCK for the start-up and the page map. *)
Definition take (l : lk) : prog := Do (Take l).
(** sctk_alloc_spinlock_unlock, or SCTK_ALLOC_INIT_LOCK_UNLOCK. *)
Definition give (l : lk) : prog := Do (Give l).

(** What happens around the library: can a mapping of the default source fail; do hwloc and the C library call malloc
    and free in the functions used here; does another thread change the thread-safe flag of a chain
    (sctk_alloc_chain_make_thread_safe, sctk_allocator.c 1112-1121) while a call runs. *)
Record world := mkW { map_fails : bool; libs_malloc : bool; flag_moves : bool }.

(** A source: none, light, default.  A chain: its lock, its flags THREAD_SAFE and not DISABLE_REGION_REGISTER, its source,
    whether a destroy handler is set (sctk_allocator.c 1138). *)
Inductive src := NoSrc | Light (s : nat) | Dflt (s : nat).
(** A chain: sctk_alloc_chain.h 78-111. *)
Record chn := mkC { cid : nat; safe : bool; listed : bool; source : src; dying : bool }.

(** ** Regions *)
(** sctk_allocator.c 2209-2242 [sctk_alloc_region_setup]. *)
Definition region_setup : prog := take LReg;; give LReg.
(** sctk_allocator.c 2263-2275 [sctk_alloc_region_get_entry]: sets up a missing region. *)
Definition region_get_entry : prog := Skip or region_setup.
(** 2281-2298 [sctk_alloc_region_unset_entry], 2307-2339 [sctk_alloc_region_set_entry]: one entry per 2 MB. *)
Definition region_entries : prog := Many region_get_entry.
(** 2391-2416 [sctk_alloc_region_get_macro_bloc]: one entry or two. *)
Definition region_get_macro_bloc : prog := region_get_entry;; (Skip or region_get_entry).
(** 2363-2384 [sctk_alloc_region_del_chain]. *)
Definition region_del_chain : prog := Skip or (take LReg;; give LReg).
(** sctk_allocator.c 2424-2456 [sctk_alloc_region_del]. *)
Definition region_del : prog := Skip or (take LReg;; give LReg).
(** 2490-2507 [sctk_alloc_region_del_all]. *)
Definition region_del_all : prog := Many (region_del_chain;; region_del).

(** ** Sources *)
(** sctk_alloc_light_mm_source.c 145-158 [reg_in_cache]. *)
Definition reg_in_cache (s : nat) : prog := take (LSrc s);; give (LSrc s).
(** sctk_alloc_light_mm_source.c 360-426 [find_in_cache]. *)
Definition find_in_cache (s : nat) : prog := take (LSrc s);; give (LSrc s).
(** 432-473 [request_memory]: looks in the cache only for sizes it keeps (453). *)
Definition light_request (s : nat) : prog := Skip or find_in_cache s.
(** sctk_alloc_light_mm_source.c 531-561 [free_memory]. *)
Definition light_free (s : nat) : prog := reg_in_cache s or Skip.
(** sctk_allocator.c 1952-2040: the mapping that fails (2005-2008) returns without giving the lock back. *)
Definition dflt_request (w : world) (s : nat) : prog :=
  take (LSrc s);; (if map_fails w then Skip or give (LSrc s) else give (LSrc s)).
(** 2050-2108: a null block or one without a valid header is ignored. *)
Definition dflt_free (s : nat) : prog := Skip or (take (LSrc s);; give (LSrc s)).
(** source->request_memory (sctk_alloc_mmsrc.h 72-78), called at sctk_allocator.c 1292. *)
Definition source_request (w : world) (x : src) : prog :=
  match x with NoSrc => Skip | Light s => light_request s | Dflt s => dflt_request w s end.
(** source->free_memory (sctk_alloc_mmsrc.h 72-78), called at sctk_allocator.c 1565. *)
Definition source_free (x : src) : prog := match x with NoSrc => Skip | Light s => light_free s | Dflt s => dflt_free s end.
(** sctk_alloc_light_mm_source.c 273-305: the lock is taken (284) and not given back. *)
Definition light_cleanup (s : nat) : prog := take (LSrc s).
(** sctk_allocator.c 2114-2143; a lock that is not free ends the process (2122, trylock). *)
Definition dflt_cleanup (s : nat) : prog := take (LSrc s);; Many (region_del_chain;; region_del);; give (LSrc s).

(** ** Chains *)
(** The lock is taken and given back when the flag is set, and the flag is read each time (1474-1475, 1496-1497, 1516-1517). *)
Definition lock_chain (c : chn) : prog := if safe c then take (LChain (cid c)) else Skip.
(** sctk_allocator.c 1496-1497, 1516-1517, 1650-1651. *)
Definition unlock_chain (w : world) (c : chn) : prog :=
  if safe c then (if flag_moves w then Skip or give (LChain (cid c)) else give (LChain (cid c))) else Skip.
(** 1222-1249 [prepare_and_reg_macro_bloc]. *)
Definition prepare_and_reg (c : chn) : prog := Skip or (if listed c then region_entries else Skip).
(** 1260-1308 [request_mem], 1378-1391 [refill_mem]. *)
Definition request_mem (w : world) (c : chn) : prog :=
  match source c with NoSrc => Skip | x => source_request w x;; prepare_and_reg c end.
(** 1444-1529 [chain_alloc_align] (and [chain_alloc], 1415-1422): nothing for size 0; huge; the others. *)
Definition chain_alloc (w : world) (c : chn) : prog :=
  Skip or request_mem w c or (lock_chain c;; (Skip or request_mem w c);; unlock_chain w c).
(** 1537-1575 [free_macro_bloc], [h] the destroy handler. *)
Definition free_macro_bloc (h : prog) (c : chn) : prog :=
  Skip or ((if listed c then region_entries else Skip);; source_free (source c);;
           (if dying c && safe c then Skip or h else Skip)).
(** 1583-1653 [chain_free]. *)
Definition chain_free_h (h : prog) (w : world) (c : chn) : prog :=
  Skip or free_macro_bloc h c or (lock_chain c;; (Skip or free_macro_bloc h c);; unlock_chain w c).
(** sctk_alloc_posix.c 979-986 [destroy_handler]: gives the chain back to the egg chain.  The egg chain has no handler, so
    one level is enough; for an egg chain that has one, the handler is unfolded once. *)
Definition destroy_handler (w : world) (egg : chn) : prog := chain_free_h Skip w egg.
(** sctk_allocator.c 1583-1653 with the handler of sctk_alloc_posix.c 979-986. *)
Definition chain_free (w : world) (egg c : chn) : prog := chain_free_h (destroy_handler w egg) w c.
(** 1319-1368 [realloc_macro_bloc]; the remap of the light source takes no lock (light 570-598). *)
Definition realloc_macro_bloc (c : chn) : prog := (if listed c then region_entries else Skip);; prepare_and_reg c.
(** 1680-1749 [chain_realloc]; 1711-1712 look the block up in asserts. *)
Definition chain_realloc (w : world) (egg c : chn) : prog :=
  Skip or chain_alloc w c or chain_free w egg c
  or (region_get_macro_bloc;; region_get_macro_bloc;; (Skip or realloc_macro_bloc c or (chain_alloc w c;; chain_free w egg c))).
(** 1787-1825 [purge_rfq]. *)
Definition purge_rfq (w : world) (egg c : chn) : prog := Many (chain_free w egg c).
(** 1046-1077 [chain_user_refill], 1085-1094 [chain_user_init]. *)
Definition chain_user_refill (c : chn) : prog := prepare_and_reg c.
(** 1128-1142 [mark_for_destroy]: from there on the chain is thread-safe and has a handler. *)
Definition mark_for_destroy (w : world) (egg c : chn) : prog :=
  purge_rfq w egg (mkC (cid c) true (listed c) (source c) true).
(** 1153-1177 [chain_destroy]. *)
Definition chain_destroy (c : chn) : prog := if listed c then region_del_chain else Skip.
(** 2703-2749 [chain_get_stat]: line 2745 takes the lock again instead of giving it back. *)
Definition chain_get_stat (c : chn) : prog := lock_chain c;; lock_chain c.

(** ** malloc, free and realloc *)
(** sctk_alloc_posix.c 299-313, called by [get_local_mm_source] (320-368) when the option is set. *)
Definition round_robin : prog := take LRobin;; give LRobin.
(** sctk_alloc_posix.c 320-368. *)
Definition get_local_mm_source : prog := Skip or round_robin.
(** 392-477 [base_init]: nothing once done (398); else, under the lock, nothing if another thread did it (405), or the
    start-up, which uses the egg chain for the memory of hwloc, of the configuration and of the sources. *)
Definition base_init (w : world) (egg : chn) : prog :=
  Skip or (take LInit;;
           (Skip or (chain_user_refill egg;; Many (chain_alloc w egg or chain_free w egg egg or chain_realloc w egg egg)));;
           give LInit).
(** 483-515 [create_new_tls_chain], 523-546 [setup_tls_chain]. *)
Definition setup_tls_chain (w : world) (egg : chn) : prog := base_init w egg;; chain_alloc w egg;; get_local_mm_source.
(** sctk_alloc_posix.c 580-585, 622-627, 677-684, 810-812: the chain of the thread is built if there is none. *)
Definition get_tls (w : world) (egg : chn) : prog := Skip or setup_tls_chain w egg.
(** 561-649 [sctk_calloc], [sctk_malloc], [sctk_memalign]: [c] is the chain of the thread. *)
Definition malloc (w : world) (egg c : chn) : prog := get_tls w egg;; purge_rfq w egg c;; chain_alloc w c.
(** 665-739 [sctk_free]: the block of another chain [d] is freed there when it is thread-safe, else queued without lock. *)
Definition free (w : world) (egg c d : chn) : prog :=
  get_tls w egg;; purge_rfq w egg c;; (Skip or (region_get_macro_bloc;; (Skip or chain_free w egg d))).
(** 792-860 [sctk_realloc], 863-891 [sctk_realloc_inter_chain]. *)
Definition realloc (w : world) (egg c d : chn) : prog :=
  malloc w egg c or free w egg c d
  or (get_tls w egg;; region_get_macro_bloc;; (chain_realloc w egg d or (malloc w egg c;; free w egg c d))).

(** ** NUMA *)
(** What a library function called by the code may do with malloc and free, in a thread whose chain is [c]. (No code of its own in /repo: hwloc and the C library.) *)
Definition lib (w : world) (egg c : chn) : prog :=
  if libs_malloc w then Many (malloc w egg c or free w egg c c) else Skip.
(** sctk_allocator.c 2619-2658 [numa_migrate_content]: hwloc is called (2649) under the lock of the regions. *)
Definition migrate_content (w : world) (egg c : chn) : prog := Skip or (take LReg;; Many (lib w egg c);; give LReg).
(** 2822-2844 [chain_numa_migrate], sctk_alloc_posix.c 930-966 [posix_numa_migrate_chain]. *)
Definition numa_migrate (w : world) (egg c : chn) : prog :=
  get_local_mm_source;; (Skip or (lib w egg c;; migrate_content w egg c)).
(** sctk_alloc_light_mm_source.c 615-655 [light_migrate]: hwloc is called (648) under the lock of the source. *)
Definition light_migrate (w : world) (egg c : chn) (s : nat) : prog :=
  Skip or (take (LSrc s);; Many (lib w egg c);; give (LSrc s)).
(** sctk_alloc_numa_stat.c 52-73 [open_pagemap]: fopen under the lock. *)
Definition open_pagemap (w : world) (egg c : chn) : prog := take LPage;; lib w egg c;; give LPage.
(** sctk_alloc_numa_stat.c 193-234 [read_pagemap]: calloc (211), then fseek and fread under the lock (214-231). *)
Definition read_pagemap (w : world) (egg c : chn) : prog :=
  Skip or (malloc w egg c;; take LPage;; lib w egg c;; give LPage).
(** 239-275 [numa_stat_cumul]: free (273) of what 211 allocated. *)
Definition numa_stat_cumul (w : world) (egg c : chn) : prog := read_pagemap w egg c;; (Skip or free w egg c c).
(** sctk_allocator.c 2666-2696 [chain_get_numa_stat]: all that under the lock of the regions. *)
Definition get_numa_stat (w : world) (egg c : chn) : prog :=
  (Skip or open_pagemap w egg c);; take LReg;; Many (numa_stat_cumul w egg c);; give LReg.

(** The egg chain: thread-safe, in the regions, its source is a light one or not yet set
    (sctk_alloc_posix.c 426, 460), and nobody marks it for destruction. *)
Definition egg_ok (egg : chn) : Prop :=
  cid egg = 0 /\ safe egg = true /\ dying egg = false /\ (source egg = NoSrc \/ exists s, source egg = Light s).
(** Another chain. (No code of its own in /repo: a condition on the program.) *)
Definition chn_ok (c : chn) : Prop := cid c <> 0.

(** The calls of a program, [egg] being the egg chain.  First those that keep the rules. (The functions are those above; which of them keep the rules has no code of its own in /repo.) *)
Inductive good_call (w : world) (egg : chn) : prog -> Prop :=
| gc_alloc : forall c, chn_ok c \/ c = egg -> good_call w egg (chain_alloc w c)
| gc_free : forall c, chn_ok c \/ c = egg -> good_call w egg (chain_free w egg c)
| gc_realloc : forall c, chn_ok c \/ c = egg -> good_call w egg (chain_realloc w egg c)
| gc_purge : forall c, chn_ok c \/ c = egg -> good_call w egg (purge_rfq w egg c)
| gc_refill : forall c, good_call w egg (chain_user_refill c)
| gc_mark : forall c, chn_ok c -> good_call w egg (mark_for_destroy w egg c)
| gc_destroy : forall c, good_call w egg (chain_destroy c)
| gc_malloc : forall c, chn_ok c \/ c = egg -> good_call w egg (malloc w egg c)
| gc_pfree : forall c d, chn_ok c \/ c = egg -> chn_ok d \/ d = egg -> good_call w egg (free w egg c d)
| gc_prealloc : forall c d, chn_ok c \/ c = egg -> chn_ok d \/ d = egg -> good_call w egg (realloc w egg c d)
| gc_migrate : forall c, chn_ok c \/ c = egg -> good_call w egg (numa_migrate w egg c)
| gc_lmigrate : forall c s, chn_ok c \/ c = egg -> good_call w egg (light_migrate w egg c s)
| gc_dclean : forall s, good_call w egg (dflt_cleanup s)
| gc_rdel : good_call w egg region_del_all.
(** All of them. (sctk_allocator.c 2666-2749, sctk_alloc_light_mm_source.c 273-305, sctk_alloc_numa_stat.c 239-275 break them; so does a program that marks the egg chain.) *)
Inductive any_call (w : world) (egg : chn) : prog -> Prop :=
| ac_good : forall p, good_call w egg p -> any_call w egg p
| ac_stat : forall c, any_call w egg (chain_get_stat c)
| ac_lclean : forall s, any_call w egg (light_cleanup s)
| ac_nstat : forall c, any_call w egg (get_numa_stat w egg c)
| ac_cumul : forall c, any_call w egg (numa_stat_cumul w egg c)
| ac_eggmark : any_call w egg (mark_for_destroy w egg egg).

(** A path of a call that keeps the rules (no code of its own in /repo). *)
Definition good (w : world) (egg : chn) (r : list (op lk)) : Prop := exists p, good_call w egg p /\ path p r.
(** A path of any call (no code of its own in /repo). *)
Definition any (w : world) (egg : chn) (r : list (op lk)) : Prop := exists p, any_call w egg p /\ path p r.
