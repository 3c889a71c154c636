(** Byte-level model of an allocation chain (model only, no proofs).

    Memory layout is the x86-64 Linux one.  A chunk header (struct sctk_alloc_chunk_header_large,
    sctk_alloc_chunk.h:87-109) at address [a] is
      bytes a..a+6   size (56 bits)          byte a+7   canary "addr"
      bytes a+8..a+14 prevSize (56 bits)     byte a+15  info: type (bits 0-1), state (bit 2), magic (bits 3-7)
    followed, in a free chunk (chunk.h:147-155), by the links next (a+16) and prev (a+24).
    A padded header (chunk.h:120-140) at [a] is: bytes a..a+6 padding, byte a+7 info.
    A [vchunk] is the address of an info byte; 0 is NULL. *)
From Verif Require Import Word Res Mem SizeClassModel.
From Coq Require Import ZArith List Bool.
Import ListNotations.
Open Scope Z_scope.

(** ** Constants *)
(** sctk_alloc_common.h:77, 90, 92, 121 *)
Definition MAGIC : Z := 16.
(** sctk_alloc_common.h:90 *)
Definition MIN_SIZE : Z := 32.
(** sctk_alloc_common.h:92 *)
Definition BASIC_ALIGN : Z := 16.
(** sctk_alloc_common.h:121, half of SCTK_MACRO_BLOC_SIZE *)
Definition HUGE_LIMIT : Z := 1048576.
(** sctk_alloc_chunk.h:43-55 *)
Definition T_LARGE : Z := 1.
(** sctk_alloc_chunk.h:45 *)
Definition T_PADDED : Z := 2.
(** sctk_alloc_chunk.h:53 *)
Definition S_FREE : Z := 0.
(** sctk_alloc_chunk.h:55 *)
Definition S_ALLOC : Z := 1.
(** sizeof(struct sctk_alloc_chunk_header_large), sizeof(struct sctk_alloc_chunk_header_padded),
    sizeof(struct sctk_alloc_macro_bloc); the first: sctk_alloc_chunk.h:87-109 *)
Definition SZ_LARGE : Z := 16.
(** sctk_alloc_chunk.h:120-140 *)
Definition SZ_PADDED : Z := 8.
(** sctk_alloc_mmsrc.h:43-51 *)
Definition SZ_MACRO : Z := 32.
(** The part of struct sctk_thread_pool kept in memory (sctk_alloc_thread_pool.h:57-79): 48 list heads of
    32 bytes, then 48 status bytes. *)
Definition POOL_SIZE : Z := 1584.
(** Offset of free_list_status, sctk_alloc_thread_pool.h:69 *)
Definition POOL_STATUS : Z := 1536.

(** ** State *)

(** Constant attributes of a chain: address of the structure (its first member is the pool), merge enabled
    (flag SCTK_ALLOC_CHAIN_DISABLE_MERGE not set), has a memory source, registers its segments in the
    region table, and the global configuration values (sctk_alloc_config.h). *)
Record cfg := mkCfg {
  cpool : Z; cmerge : bool; csrc : bool; creg : bool;
  cstrict : bool; cfactor : Z; cthresh : Z }.

(** Exchanges with the memory source. Calls of request_memory and free_memory, sctk_allocator.c:1292, 1565. *)
Inductive ev := EGet (b size : Z) | EPut (b : Z).

(** [smem] memory content; [srng] address ranges the chain may access (its structure and its segments);
    [sbase]/[send]/[scnt] fields base_addr/end_addr/cnt_macro_blocs (sctk_alloc_chain.h:87-105);
    [rqh]/[rqt] head and tail of the remote free queue; [sevs] exchanges with the source, latest first. *)
Record st := mkSt {
  smem : mem; srng : list (Z * Z);
  sbase : Z; send : Z; scnt : Z;
  rqh : Z; rqt : Z;
  sevs : list ev }.

(** Update of one field of [st]: the memory (no code of its own in /repo). *)
Definition set_mem (s : st) (m : mem) : st :=
  mkSt m (srng s) (sbase s) (send s) (scnt s) (rqh s) (rqt s) (sevs s).
(** Update of the accessible ranges (ghost: no code of its own in /repo). *)
Definition set_rng (s : st) (r : list (Z * Z)) : st :=
  mkSt (smem s) r (sbase s) (send s) (scnt s) (rqh s) (rqt s) (sevs s).
(** Update of base_addr and end_addr, sctk_allocator.c:1069-1073. *)
Definition set_be (s : st) (b e : Z) : st :=
  mkSt (smem s) (srng s) b e (scnt s) (rqh s) (rqt s) (sevs s).
(** Update of cnt_macro_blocs, sctk_allocator.c:1076, 1304, 1568. *)
Definition set_cnt (s : st) (c : Z) : st :=
  mkSt (smem s) (srng s) (sbase s) (send s) c (rqh s) (rqt s) (sevs s).
(** Update of head and tail of the queue, sctk_alloc_mpscf_queue.h:145-170. *)
Definition set_rq (s : st) (h t : Z) : st :=
  mkSt (smem s) (srng s) (sbase s) (send s) (scnt s) h t (sevs s).
(** One more exchange with the source (ghost: no code of its own in /repo). *)
Definition set_ev (s : st) (e : ev) : st :=
  mkSt (smem s) (srng s) (sbase s) (send s) (scnt s) (rqh s) (rqt s) (e :: sevs s).

(** ** Monad *)
Definition M (A : Type) : Type := st -> res (A * st).
(** A computation that changes nothing (no code of its own in /repo). *)
Definition ret {A} (a : A) : M A := fun s => Ok (a, s).
(** One computation after the other, the semicolon of C (no code of its own in /repo). *)
Definition bind {A B} (x : M A) (f : A -> M B) : M B :=
  fun s => rbind (x s) (fun '(a, s') => f a s').
(** Undefined behaviour of C (no code of its own in /repo). *)
Definition ub {A} : M A := fun _ => UB.
(** abort() in assume_m, sctk_alloc_debug.h:66. *)
Definition abort {A} : M A := fun _ => Abort.
(** A loop that ran longer than its fuel; excluded by the theorems (no code of its own in /repo). *)
Definition nofuel {A} : M A := fun _ => OutOfFuel.
(** A computation that does not use the state (no code of its own in /repo). *)
Definition lift {A} (r : res A) : M A := fun s => rbind r (fun a => Ok (a, s)).
(** Read the state (no code of its own in /repo). *)
Definition getst : M st := fun s => Ok (s, s).
(** Change the state (no code of its own in /repo). *)
Definition modst (f : st -> st) : M unit := fun s => Ok (tt, f s).

Notation "x <- e1 ;; e2" := (bind e1 (fun x => e2)) (at level 61, e1 at next level, right associativity).
Notation "e1 ;;; e2" := (bind e1 (fun _ => e2)) (at level 61, right associativity).

(** [assume_m] (sctk_alloc_debug.h): stops the program when the condition is false. *)
Definition assume (b : bool) : M unit := if b then ret tt else abort.

(** Is [a, a+n) inside one accessible range?; (When the C code dereferences a pointer; no code of its own in /repo.) *)
Definition accb (r : list (Z * Z)) (a n : Z) : bool :=
  existsb (fun '(b, z) => (b <=? a) && (a + n <=? b + z)) r.

(** A load of [n] bytes through a pointer; outside the ranges it is undefined behaviour (no code of its own in /repo). *)
Definition loadn (a : Z) (n : nat) : M Z := fun s =>
  if accb (srng s) a (Z.of_nat n) then Ok (ld (smem s) a n, s) else UB.
(** A store of [n] bytes through a pointer (no code of its own in /repo). *)
Definition storen (a : Z) (n : nat) (v : Z) : M unit := fun s =>
  if accb (srng s) a (Z.of_nat n) then Ok (tt, set_mem s (sto (smem s) a n v)) else UB.

(** ** Header fields (sctk_alloc_inlined.h:54-158) *)
Definition get_size (a : Z) : M Z := loadn a 7.
(** sctk_alloc_inlined.h:114-125 [sctk_alloc_set_chunk_header_large_size] *)
Definition set_size (a v : Z) : M unit := storen a 7 v.
(** sctk_alloc_inlined.h:127-130 [sctk_alloc_set_chunk_header_large_addr] *)
Definition set_addr (a v : Z) : M unit := storen (a + 7) 1 v.
(** sctk_alloc_inlined.h:73-83 [sctk_alloc_get_chunk_header_large_previous_size] *)
Definition get_prevsize (a : Z) : M Z := loadn (a + 8) 7.
(** sctk_alloc_inlined.h:133-144 [sctk_alloc_set_chunk_header_large_previous_size] *)
Definition set_prevsize (a v : Z) : M unit := storen (a + 8) 7 v.
(** sctk_alloc_inlined.h:92-102 [sctk_alloc_get_chunk_header_padded_padding] *)
Definition get_padding (a : Z) : M Z := loadn a 7.
(** sctk_alloc_inlined.h:147-158 [sctk_alloc_set_chunk_header_padded_padding] *)
Definition set_padding (a v : Z) : M unit := storen a 7 v.

(** Bit fields of struct sctk_alloc_chunk_info (sctk_alloc_chunk.h:75-83), as functions of the byte. *)
Definition i_type (b : Z) : Z := b mod 4.
(** sctk_alloc_chunk.h:80 *)
Definition i_state (b : Z) : Z := (b / 4) mod 2.
(** sctk_alloc_chunk.h:82 *)
Definition i_magic (b : Z) : Z := b / 8.
(** The byte with its three fields, sctk_alloc_chunk.h:75-83 *)
Definition mk_info (t s m : Z) : Z := t + 4 * s + 8 * m.

(** Reads of info->type, for example sctk_alloc_inlined.h:218 *)
Definition get_type (v : Z) : M Z := b <- loadn v 1 ;; ret (i_type b).
(** Reads of info->state, for example sctk_allocator.c:928 *)
Definition get_state (v : Z) : M Z := b <- loadn v 1 ;; ret (i_state b).
(** Reads of info->unused_magik, sctk_alloc_inlined.h:181 *)
Definition get_magic (v : Z) : M Z := b <- loadn v 1 ;; ret (i_magic b).
(** Stores to info->type, for example sctk_alloc_inlined.h:362 *)
Definition set_type (v t : Z) : M unit :=
  b <- loadn v 1 ;; storen v 1 (mk_info t (i_state b) (i_magic b)).
(** Stores to info->state, for example sctk_alloc_inlined.h:361 *)
Definition set_state (v s : Z) : M unit :=
  b <- loadn v 1 ;; storen v 1 (mk_info (i_type b) s (i_magic b)).
(** Stores to info->unused_magik, for example sctk_alloc_inlined.h:363 *)
Definition set_magic (v m : Z) : M unit :=
  b <- loadn v 1 ;; storen v 1 (mk_info (i_type b) (i_state b) m).

(** Free list links (sctk_alloc_chunk.h:147-155). *)
Definition get_next (a : Z) : M Z := loadn (a + 16) 8.
(** sctk_alloc_chunk.h:152 *)
Definition set_next (a v : Z) : M unit := storen (a + 16) 8 v.
(** sctk_alloc_chunk.h:154 *)
Definition get_prev (a : Z) : M Z := loadn (a + 24) 8.
(** sctk_alloc_chunk.h:154 *)
Definition set_prev (a v : Z) : M unit := storen (a + 24) 8 v.

(** ** vchunk helpers *)
(** sctk_alloc_inlined.h:199-204 *)
Definition large_of (v : Z) : Z := v + 1 - SZ_LARGE.
(** sctk_alloc_inlined.h:207-212 *)
Definition padded_of (v : Z) : Z := v + 1 - SZ_PADDED.
(** sctk_alloc_inlined.h:255-268 [large_to_vchunk], [padded_to_vchunk] *)
Definition vchunk_of_large (a : Z) : Z := a + 15.
(** sctk_alloc_inlined.h:262-268 [sctk_alloc_padded_to_vchunk] *)
Definition vchunk_of_padded (a : Z) : Z := a + 7.

(** sctk_alloc_inlined.h:168-196 [sctk_alloc_get_chunk] (the warning is not modelled). *)
Definition get_chunk (ptr : Z) : M Z :=
  if ptr =? 0 then ret 0
  else
    let v := ptr - 1 in
    m <- get_magic v ;;
    if negb (m =? MAGIC) then ret 0
    else
      t <- get_type v ;;
      assume ((t =? T_LARGE) || (t =? T_PADDED)) ;;;
      ret v.

(** sctk_alloc_inlined.h:215-229 [sctk_alloc_get_ptr] / [sctk_alloc_get_addr] *)
Definition get_ptr (v : Z) : M Z :=
  t <- get_type v ;;
  if t =? T_LARGE then ret (large_of v)
  else if t =? T_PADDED then ret (padded_of v)
  else abort.

(** sctk_alloc_inlined.h:237-252 *)
Definition vsize (v : Z) : M Z := get_size (large_of v).
(** sctk_alloc_inlined.h:249-252 [sctk_alloc_get_prev_size] *)
Definition vprevsize (v : Z) : M Z := get_prevsize (large_of v).

(** sctk_alloc_inlined.h:290-298 [sctk_alloc_unpad_vchunk] with 273-281 inlined *)
Definition unpad_vchunk (v : Z) : M Z :=
  if v =? 0 then ret 0
  else
    t <- get_type v ;;
    if t =? T_PADDED then
      pd <- get_padding (padded_of v) ;;
      get_chunk (sub64 (padded_of v) pd)
    else ret v.

(** sctk_alloc_inlined.h:307-310 *)
Definition get_chunk_unpadded (ptr : Z) : M Z := v <- get_chunk ptr ;; unpad_vchunk v.

(** sctk_alloc_inlined.h:326-337 (the check at 331 is compiled out: SCTK_ALLOC_FAST_BUT_LESS_SAFE, sctk_alloc_common.h:126) *)
Definition next_chunk (v : Z) : M Z := sz <- vsize v ;; ret (add64 v sz).

(** sctk_allocator.c:852-870 (the check at 856 is compiled out too); 0 stands for NULL *)
Definition prev_chunk (v : Z) : M Z :=
  p <- vprevsize v ;;
  if p =? 0 then ret 0 else (p <- vprevsize v ;; ret (sub64 v p)).

(** sctk_alloc_inlined.h:349-370 [sctk_alloc_setup_large_header] and 392-395 [sctk_alloc_setup_chunk] *)
Definition setup_chunk (ptr size prev : Z) : M Z :=
  set_size ptr size ;;;
  set_addr ptr ptr ;;;
  set_state (ptr + 15) S_ALLOC ;;;
  set_type (ptr + 15) T_LARGE ;;;
  set_magic (ptr + 15) MAGIC ;;;
  (if (prev =? 0) || (prev =? ptr) then set_prevsize ptr 0
   else set_prevsize ptr (sub64 ptr prev)) ;;;
  ret (vchunk_of_large ptr).

(** sctk_alloc_inlined.h:373-380 [sctk_alloc_setup_macro_bloc] *)
Definition setup_macro_bloc (ptr size : Z) : M unit :=
  setup_chunk ptr size 0 ;;; storen (ptr + 16) 8 0.

(** sctk_allocator.c:1208-1216 *)
Definition chunk_body (v : Z) : Z := if v =? 0 then 0 else v + 1.

(** sctk_allocator.c:117-157 [sctk_alloc_setup_chunk_padded] *)
Definition setup_chunk_padded (v boundary : Z) : M Z :=
  let orig := chunk_body v in
  if (1 <? boundary) && negb (v =? 0) && negb (orig mod boundary =? 0) then
    let p1 := add64 orig SZ_PADDED in
    let ptr := if negb (p1 mod boundary =? 0) then add64 p1 (boundary - p1 mod boundary) else p1 in
    let cp := sub64 ptr SZ_PADDED in
    set_padding cp (sub64 cp orig) ;;;
    s <- get_state v ;;
    set_state (cp + 7) s ;;;
    set_type (cp + 7) T_PADDED ;;;
    set_magic (cp + 7) MAGIC ;;;
    ret (vchunk_of_padded cp)
  else ret v.

(** sctk_allocator.c:168-172 [sctk_alloc_create_stopper] *)
Definition create_stopper (ptr prev : Z) : M unit :=
  v <- setup_chunk ptr 128 prev ;; set_size (large_of v) 0.

(** ** Free lists *)
(** Address of list head [i]: pool->free_lists + i; used at sctk_allocator.c:221-226 *)
Definition flist (g : cfg) (i : Z) : Z := cpool g + 32 * i.
(** [list - pool->free_lists]; used at sctk_allocator.c:608, 630, 652 *)
Definition list_id (g : cfg) (l : Z) : Z := (l - cpool g) / 32.

(** sctk_allocator.c:204-255 [sctk_alloc_thread_pool_init] (list heads and status bytes). *)
Fixpoint pool_init_lists (g : cfg) (n : nat) (i : Z) : M unit :=
  match n with
  | O => ret tt
  | S n' =>
      set_addr (flist g i) 0 ;;;
      set_magic (flist g i + 15) 0 ;;;
      set_size (flist g i) 0 ;;;
      set_next (flist g i) (flist g i) ;;;
      set_prev (flist g i) (flist g i) ;;;
      pool_init_lists g n' (i + 1)
  end.
(** sctk_allocator.c:251 (memset of the status bytes) *)
Fixpoint pool_init_status (g : cfg) (n : nat) (i : Z) : M unit :=
  match n with
  | O => ret tt
  | S n' => storen (cpool g + POOL_STATUS + i) 1 0 ;;; pool_init_status g n' (i + 1)
  end.
(** sctk_allocator.c:204-255 [sctk_alloc_thread_pool_init] *)
Definition pool_init (g : cfg) : M unit :=
  pool_init_lists g 48 0 ;;; pool_init_status g 48 0.

(** sctk_allocator.c:622-656 *)
Definition mark_status (g : cfg) (l v : Z) : M unit :=
  storen (cpool g + POOL_STATUS + list_id g l) 1 v.

(** sctk_allocator.c:473-530 [sctk_alloc_free_list_insert] *)
Inductive imode := AtEnd | AtStart.
(** sctk_allocator.c:473-530 [sctk_alloc_free_list_insert] *)
Definition free_list_insert (g : cfg) (a : Z) (md : imode) : M unit :=
  sz <- get_size a ;;
  i <- lift (insert_class sz) ;;
  let fl := flist g i in
  set_state (a + 15) S_FREE ;;;
  match md with
  | AtEnd =>
      p <- get_prev fl ;; set_prev a p ;;;
      set_next a fl ;;;
      p <- get_prev fl ;; set_next p a ;;;
      set_prev fl a
  | AtStart =>
      set_prev a fl ;;;
      n <- get_next fl ;; set_next a n ;;;
      n <- get_next fl ;; set_prev n a ;;;
      set_next fl a
  end ;;;
  mark_status g fl 1.

(** sctk_allocator.c:537-563 [sctk_alloc_free_list_remove] *)
Definition free_list_remove (g : cfg) (a : Z) : M unit :=
  prev <- get_prev a ;;
  next <- get_next a ;;
  set_prev next prev ;;;
  set_next prev next ;;;
  (if next =? prev then mark_status g prev 0 else ret tt) ;;;
  set_next a 0 ;;;
  set_prev a 0 ;;;
  set_state (a + 15) S_ALLOC.

(** sctk_allocator.c:571-589 [sctk_alloc_find_adapted_free_chunk]; [size] is signed *)
Fixpoint find_adapted_loop (fuel : nat) (list fchunk size : Z) : M Z :=
  match fuel with
  | O => nofuel
  | S fuel' =>
      if (fchunk =? 0) || (fchunk =? list) then ret fchunk
      else
        sz <- get_size fchunk ;;
        if sz <? size then (n <- get_next fchunk ;; find_adapted_loop fuel' list n size)
        else ret fchunk
  end.
(** sctk_allocator.c:571-589 [sctk_alloc_find_adapted_free_chunk] *)
Definition find_adapted (fuel : nat) (list size : Z) : M Z :=
  f <- get_next list ;;
  r <- find_adapted_loop fuel list f size ;;
  ret (if r =? list then 0 else r).

(** sctk_allocator.c:665-689 [sctk_alloc_find_first_free_non_empty_list]; the loop runs over
    [id <= i < nb_free_lists]; [n] is the number of iterations left; 0 stands for NULL *)
Fixpoint first_non_empty_loop (g : cfg) (n : nat) (i : Z) : M Z :=
  match n with
  | O => ret 0
  | S n' =>
      b <- loadn (cpool g + POOL_STATUS + i) 1 ;;
      if negb (b =? 0) then ret (flist g i) else first_non_empty_loop g n' (i + 1)
  end.
(** sctk_allocator.c:665-689 [sctk_alloc_find_first_free_non_empty_list] *)
Definition first_non_empty (g : cfg) (l : Z) : M Z :=
  let id := list_id g l in
  first_non_empty_loop g (Z.to_nat (nb_free_lists FREE_SIZES - id)) id.

(** sctk_allocator.c:701-740 [sctk_alloc_find_free_chunk] *)
Definition find_free_chunk (fuel : nat) (g : cfg) (n : Z) : M Z :=
  let size := calc_chunk_size n in
  i <- lift (get_free_list_fast size) ;;
  let start := flist g i in
  l <- first_non_empty g start ;;
  r <- (if l =? 0 then ret 0 else find_adapted fuel l (s64 size)) ;;
  r <- (if (r =? 0) && negb (start =? flist g 0)
        then find_adapted fuel (start - 32) (s64 size) else ret r) ;;
  (if r =? 0 then ret tt else free_list_remove g r) ;;;
  ret r.

(** ** Split and merge *)
(** sctk_allocator.c:791-795 [sctk_alloc_align_size_pow_of_2] with align 16 *)
Definition align16 (s : Z) : Z := w64 (s + 15) / 16 * 16.

(** sctk_allocator.c:806-846 [sctk_alloc_split_free_bloc] (the check at 820 is compiled out): returns the (rebuilt) chunk and the residue *)
Definition split_free_bloc (v n : Z) : M (Z * Z) :=
  let size := align16 (calc_chunk_size n) in
  cs <- vsize v ;;
  let residut := sub64 cs size in
  if MIN_SIZE <=? residut then
    a <- get_ptr v ;;
    r <- setup_chunk (add64 a size) residut a ;;
    a <- get_ptr v ;;
    pv <- vprevsize v ;;
    v' <- setup_chunk a size (sub64 a pv) ;;
    nx <- next_chunk r ;;
    set_prevsize (large_of nx) residut ;;;
    ret (v', r)
  else ret (v, 0).

(** sctk_allocator.c:911-971 [sctk_alloc_merge_chunk], the two loops *)
Fixpoint merge_left (fuel : nat) (g : cfg) (first cur : Z) : M Z :=
  match fuel with
  | O => nofuel
  | S fuel' =>
      if cur =? 0 then ret first
      else
        s <- get_state cur ;;
        if s =? S_FREE then
          f <- get_ptr cur ;;
          free_list_remove g f ;;;
          c <- prev_chunk cur ;;
          merge_left fuel' g cur c
        else ret first
  end.
(** sctk_allocator.c:911-971 [sctk_alloc_merge_chunk], the second loop *)
Fixpoint merge_right (fuel : nat) (g : cfg) (last cur : Z) : M Z :=
  match fuel with
  | O => nofuel
  | S fuel' =>
      if cur =? 0 then ret last
      else
        s <- get_state cur ;;
        if s =? S_FREE then
          f <- get_ptr cur ;;
          free_list_remove g f ;;;
          c <- next_chunk cur ;;
          merge_right fuel' g cur c
        else ret last
  end.
(** sctk_allocator.c:911-971 [sctk_alloc_merge_chunk] *)
Definition merge_chunk (fuel : nat) (g : cfg) (v : Z) : M Z :=
  s <- get_state v ;;
  assume (s =? S_ALLOC) ;;;
  cur <- prev_chunk v ;;
  first <- merge_left fuel g v cur ;;
  cur <- next_chunk v ;;
  last <- merge_right fuel g v cur ;;
  la <- get_ptr last ;;
  fa <- get_ptr first ;;
  ls <- vsize last ;;
  let size := add64 (sub64 la fa) ls in
  cur <- next_chunk last ;;
  set_prevsize (large_of cur) size ;;;
  fa <- get_ptr first ;;
  pv <- vprevsize first ;;
  setup_chunk fa size (sub64 fa pv).

(** ** Segments *)
(** sctk_allocator.c:1222-1249 [sctk_alloc_chain_prepare_and_reg_macro_bloc] on a non-NULL bloc; of the
    region registration (2307-2345) only the store of the owner in the bloc is done here, the table itself
    is the subject of RegionModel.v *)
Definition prepare_macro_bloc (g : cfg) (b : Z) : M Z :=
  size <- get_size b ;;
  v <- setup_chunk (b + SZ_MACRO) (sub64 (sub64 size SZ_MACRO) SZ_LARGE) 0 ;;
  create_stopper (sub64 (add64 b size) SZ_LARGE) (b + SZ_MACRO) ;;;
  (if creg g then storen (b + 16) 8 (cpool g) else ret tt) ;;;
  ret v.

(** The answer of the memory source to a request of [size] bytes ([request_memory] of a
    struct sctk_alloc_mm_source): [None] is NULL, [Some b] a bloc of exactly [size] bytes at [b] whose
    header is set up (sctk_alloc_light_mm_source.c:479-516). *)
Definition source_request (grant : option Z) (size : Z) : M Z :=
  match grant with
  | None => ret 0
  | Some b =>
      modst (fun s => set_ev (set_rng s ((b, size) :: srng s)) (EGet b size)) ;;;
      setup_macro_bloc b size ;;;
      ret b
  end.

(** [free_memory] of the source: the bloc must be one the chain holds, with its header as the chain left it (the source and
    the registry read the size there: sctk_alloc_light_mm_source.c:531-563, sctk_allocator.c:2281-2299; the owner is there
    too when the chain registers its blocs); it is gone afterwards. *)
Definition source_free (g : cfg) (b : Z) : M unit := fun s =>
  if existsb (fun '(x, z) => (x =? b) && (ld (smem s) b 7 =? z)) (srng s) && (negb (creg g) || (ld (smem s) (b + 16) 8 =? cpool g)) then
    Ok (tt, set_ev (set_rng s (filter (fun '(x, _) => negb (x =? b)) (srng s))) (EPut b))
  else UB.

(** sctk_allocator.c:1260-1308 [sctk_alloc_chain_request_mem]; 0 stands for NULL *)
Definition request_mem (g : cfg) (grant : option Z) (n : Z) : M Z :=
  if negb (csrc g) then ret 0
  else
    let s1 := add64 n (SZ_MACRO + SZ_LARGE) in
    let size := if negb (s1 mod MACRO_BLOC =? 0) then add64 s1 (MACRO_BLOC - s1 mod MACRO_BLOC) else s1 in
    b <- source_request grant size ;;
    if b =? 0 then ret 0
    else
      v <- prepare_macro_bloc g b ;;
      modst (fun s => set_cnt s (scnt s + 1)) ;;;
      ret v.

(** sctk_allocator.c:1378-1394 [sctk_alloc_chain_refill_mem] *)
Definition refill_mem (g : cfg) (grant : option Z) (n : Z) : M bool :=
  v <- request_mem g grant n ;;
  if v =? 0 then ret false
  else free_list_insert g (large_of v) AtEnd ;;; ret true.

(** sctk_allocator.c:1430-1436 [sctk_alloc_chain_is_huge_size] *)
Definition is_huge (g : cfg) (n : Z) : bool := csrc g && (HUGE_LIMIT <? calc_chunk_size n).

(** sctk_allocator.c:1444-1529 [sctk_alloc_chain_alloc_align] (locks: see LockModel.v) *)
Definition alloc_align (fuel : nat) (g : cfg) (grant : option Z) (boundary n : Z) : M Z :=
  if n =? 0 then ret 0
  else
    let size := if 1 <? boundary then add64 n boundary else n in
    if is_huge g size then
      v <- request_mem g grant size ;;
      v <- (if 1 <? boundary then setup_chunk_padded v boundary else ret v) ;;
      ret (chunk_body v)
    else
      c <- find_free_chunk fuel g size ;;
      c <- (if c =? 0 then
              ok <- refill_mem g grant (calc_chunk_size size) ;;
              if ok : bool then find_free_chunk fuel g size else ret c
            else ret c) ;;
      if c =? 0 then ret 0
      else
        cs <- get_size c ;;
        assume (32 <=? cs) ;;;
        vr <- split_free_bloc (vchunk_of_large c) size ;;
        let v := fst vr in
        let r := snd vr in
        vs <- vsize v ;;
        assume (calc_chunk_size size <=? vs) ;;;
        (if r =? 0 then ret tt else free_list_insert g (large_of r) AtStart) ;;;
        v <- (if 1 <? boundary then setup_chunk_padded v boundary else ret v) ;;
        ret (chunk_body v).

(** sctk_allocator.c:1537-1575 [sctk_alloc_chain_free_macro_bloc] (destroy handler: see PosixModel.v and OrderModel.v) *)
Definition free_macro_bloc (g : cfg) (v : Z) : M unit :=
  sz <- vsize v ;;
  if negb (sz mod MACRO_BLOC =? MACRO_BLOC - SZ_MACRO - SZ_LARGE) then ret tt
  else
    a <- get_ptr v ;;
    source_free g (a - SZ_MACRO) ;;;
    modst (fun s => set_cnt s (scnt s - 1)).

(** sctk_allocator.c:1583-1653 [sctk_alloc_chain_free] *)
Definition chain_free (fuel : nat) (g : cfg) (ptr : Z) : M unit :=
  if ptr =? 0 then ret tt
  else
    v <- get_chunk_unpadded ptr ;;
    if v =? 0 then assume (negb (cstrict g))
    else
      s <- get_state v ;;
      assume (s =? S_ALLOC) ;;;
      sz <- vsize v ;;
      if is_huge g sz then free_macro_bloc g v
      else
        s0 <- getst ;;
        (if negb (sbase s0 =? 0) then (get_chunk (sbase s0 + SZ_LARGE) ;;; ret tt) else ret tt) ;;;
        v <- (if cmerge g then merge_chunk fuel g v else ret v) ;;
        sz <- vsize v ;;
        if csrc g && (sz mod MACRO_BLOC =? MACRO_BLOC - SZ_MACRO - SZ_LARGE)
        then free_macro_bloc g v
        else free_list_insert g (large_of v) AtEnd.

(** memcpy; overlapping ranges are undefined behaviour; called at sctk_allocator.c:1738 *)
Definition memcpy (dst src n : Z) : M unit := fun s =>
  if accb (srng s) src n && accb (srng s) dst n && ((src + n <=? dst) || (dst + n <=? src) || (n =? 0)) then
    Ok (tt, set_mem s (fun x => if (dst <=? x) && (x <? dst + n) then smem s (src + (x - dst)) else smem s x))
  else UB.

(** sctk_allocator.c:1680-1749 [sctk_alloc_chain_realloc]; [hook] is the boundary that
    [sctk_alloc_chain_alloc] (1415-1422) gets from the hook function.  A null [cfactor] is a division
    by zero.  The mremap branch is compiled out (HAVE_MREMAP is never defined). *)
Definition chain_realloc (fuel : nat) (g : cfg) (grant : option Z) (hook ptr n : Z) : M Z :=
  if (ptr =? 0) && (n =? 0) then ret 0
  else if ptr =? 0 then alloc_align fuel g grant hook n
  else if n =? 0 then chain_free fuel g ptr ;;; ret 0
  else
    v <- get_chunk ptr ;;
    if v =? 0 then (if cstrict g then abort else ret 0)
    else
      u <- unpad_vchunk v ;;
      us <- vsize u ;;
      let old := sub64 us SZ_LARGE in
      let delta := sub64 old n in
      keep <- (if (n <=? old) && (delta <=? cthresh g)
               then (if cfactor g =? 0 then ub else ret (delta <=? old / cfactor g))
               else ret false) ;;
      if keep : bool then ret ptr
      else
        r <- alloc_align fuel g grant hook n ;;
        (if r =? 0 then ret tt else memcpy r ptr (if old <? n then old else n)) ;;;
        chain_free fuel g ptr ;;;
        ret r.

(** sctk_allocator.c:1046-1077 [sctk_alloc_chain_user_refill] *)
Definition user_refill (g : cfg) (buf size : Z) : M unit :=
  assume (negb (buf =? 0) || (size =? 0)) ;;;
  assume ((size =? 0) || (80 <? size)) ;;;
  (if negb (buf =? 0) && (0 <? size) then
     modst (fun s => set_rng s ((buf, size) :: srng s)) ;;;
     setup_macro_bloc buf size ;;;
     v <- prepare_macro_bloc g buf ;;
     free_list_insert g (large_of v) AtStart
   else ret tt) ;;;
  s <- getst ;;
  (if sbase s =? 0 then modst (fun s => set_be s buf (add64 buf size)) else ret tt) ;;;
  modst (fun s => set_cnt s (scnt s + 1)).

(** sctk_allocator.c:978-1003 [sctk_alloc_chain_base_init]; the chain structure is accessible, nothing else *)
Definition init_state (g : cfg) (m : mem) : st :=
  mkSt m [(cpool g, POOL_SIZE)] 0 0 0 0 0 [].
(** sctk_allocator.c:978-1003 [sctk_alloc_chain_base_init] *)
Definition base_init (g : cfg) : M unit := pool_init g.

(** sctk_allocator.c:1085-1094 [sctk_alloc_chain_user_init] *)
Definition user_init (g : cfg) (buf size : Z) : M unit :=
  base_init g ;;; (if negb (buf =? 0) then user_refill g buf size else ret tt).

(** sctk_allocator.c:1758-1780 [sctk_alloc_chain_can_destroy] *)
Definition can_destroy (g : cfg) : M bool :=
  s <- getst ;;
  let first := sbase s + SZ_MACRO in
  sz <- get_size first ;;
  sta <- get_state (first + 15) ;;
  ret ((add64 (add64 sz SZ_LARGE) SZ_MACRO =? sub64 (send s) (sbase s)) && (sta =? S_FREE)).

(** sctk_alloc_posix.c:748-760 [sctk_alloc_posix_get_size] (an invalid pointer dereferences NULL) *)
Definition usable_size (ptr : Z) : M Z :=
  if ptr =? 0 then ret 0
  else
    v <- get_chunk_unpadded ptr ;;
    if v =? 0 then ub
    else sz <- vsize v ;; ret (w64 (sz - SZ_LARGE - (ptr - v) + 1)).

(** sctk_allocator.c:2703-2749 [sctk_alloc_chain_get_stat] without the locks (see LockProofs.v, OrderModel.v):
    number of free chunks, their total size, the largest and the smallest. *)
Record stat := mkStat { st_nb : Z; st_bytes : Z; st_max : Z; st_min : Z }.
(** sctk_allocator.c:2731-2740, one list *)
Fixpoint stat_list (fuel : nat) (list cur : Z) (r : stat) : M stat :=
  match fuel with
  | O => nofuel
  | S fuel' =>
      if cur =? list then ret r
      else
        sz <- get_size cur ;;
        n <- get_next cur ;;
        stat_list fuel' list n
          (mkStat (st_nb r + 1) (add64 (st_bytes r) sz)
                  (if st_max r <? sz then sz else st_max r)
                  (if sz <? st_min r then sz else st_min r))
  end.
(** sctk_allocator.c:2729-2741, all lists *)
Fixpoint stat_lists (fuel : nat) (g : cfg) (n : nat) (i : Z) (r : stat) : M stat :=
  match n with
  | O => ret r
  | S n' =>
      f <- get_next (flist g i) ;;
      r <- stat_list fuel (flist g i) f r ;;
      stat_lists fuel g n' (i + 1) r
  end.
(** sctk_allocator.c:2703-2749 [sctk_alloc_chain_get_stat] *)
Definition chain_get_stat (fuel : nat) (g : cfg) : M stat :=
  r <- stat_lists fuel g (Z.to_nat (nb_free_lists FREE_SIZES)) 0 (mkStat 0 0 0 (-1)) ;;
  ret (mkStat (st_nb r) (st_bytes r) (st_max r) (if st_min r =? -1 then 0 else st_min r)).

(** ** Remote free queue, sequential view (interleavings are the subject of MpscfModel.v) *)
(** sctk_alloc_mpscf_queue.h:145-170 [sctk_mpscf_queue_insert] *)
Definition queue_insert (e : Z) : M unit :=
  storen e 8 0 ;;;
  s <- getst ;;
  let prev := rqt s in
  modst (fun s => set_rq s (rqh s) e) ;;;
  (if prev =? 0 then modst (fun s => set_rq s e (rqt s)) else storen prev 8 e).

(** sctk_allocator.c:2537-2572 [sctk_alloc_rfq_register]: the entry is stored in the freed block:
    next at offset 0, ptr at offset 8.  An invalid pointer dereferences NULL. *)
Definition rfq_register (ptr : Z) : M unit :=
  if ptr =? 0 then ret tt
  else
    v <- get_chunk ptr ;;
    if v =? 0 then ub
    else
      storen (ptr + 8) 8 ptr ;;;
      storen ptr 8 0 ;;;
      queue_insert ptr.

(** sctk_allocator.c:1787-1825 [sctk_alloc_chain_purge_rfq] *)
Fixpoint purge_loop (fuel qfuel : nat) (g : cfg) (e : Z) : M unit :=
  match qfuel with
  | O => nofuel
  | S q =>
      if e =? 0 then ret tt
      else
        n <- loadn e 8 ;;
        p <- loadn (e + 8) 8 ;;
        chain_free fuel g p ;;;
        purge_loop fuel q g n
  end.
(** sctk_allocator.c:1787-1825 [sctk_alloc_chain_purge_rfq] *)
Definition purge_rfq (fuel qfuel : nat) (g : cfg) : M unit :=
  s <- getst ;;
  if rqh s =? 0 then ret tt
  else
    let e := rqh s in
    modst (fun s => set_rq s 0 0) ;;;
    purge_loop fuel qfuel g e.
