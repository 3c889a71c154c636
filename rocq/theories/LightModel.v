(** The light memory source, sctk_alloc_light_mm_source.c: segments from mmap with a cache of the segments given back.
    Calls one after another (the lock and the atomic counter are not modelled here); hwloc binding and the hook of the network layer are
    left out; HAVE_MREMAP is never defined by the build system.  Structures in memory at byte level:
    struct sctk_alloc_macro_bloc (sctk_alloc_chunk.h): size 0-6, addr 7, prevSize 8-14, info 15, chain 16-23;
    struct sctk_alloc_mm_source_light_free_macro_bloc (light_mm_source.h 59-65): next 0-7, size 8-15. *)
From Verif Require Import Word Res Mem ChainModel.
From Coq Require Import ZArith List Bool.
Import ListNotations.
Open Scope Z_scope.

(** The two settings used here (sctk_alloc_config.c 74-102). *)
Record lcfg := mkLcfg { keep_max : Z; keep_mem : Z }.

(** [lmap]: the mappings obtained from the OS or inserted by the user and not unmapped, the only memory that may be accessed.
    [lcache], [lsz], [lcnt]: the fields cache, size and counter (light_mm_source.h 71-93).  The counter is an int: there are less than
    2^31 segments in user space. *)
Record ls := mkLs { lmem : mem; lmap : list (Z * Z); lcache : Z; lsz : Z; lcnt : Z }.

(** 89-135 [sctk_alloc_mm_source_light_init] *)
Definition ls0 (m : mem) : ls := mkLs m [] 0 0 0.

(** A store in memory (no code of its own in /repo). *)
Definition lset_mem (s : ls) (m : mem) : ls := mkLs m (lmap s) (lcache s) (lsz s) (lcnt s).
(** A mapping made or undone (sctk_alloc_common.c 62-72, 96-99). *)
Definition lset_map (s : ls) (l : list (Z * Z)) : ls := mkLs (lmem s) l (lcache s) (lsz s) (lcnt s).
(** Store of light_source->cache (sctk_alloc_light_mm_source.h 71-93). *)
Definition lset_cache (s : ls) (c : Z) : ls := mkLs (lmem s) (lmap s) c (lsz s) (lcnt s).
(** Store of light_source->size (sctk_alloc_light_mm_source.h 71-93). *)
Definition lset_sz (s : ls) (z : Z) : ls := mkLs (lmem s) (lmap s) (lcache s) z (lcnt s).
(** Store of light_source->counter (sctk_alloc_light_mm_source.h 71-93). *)
Definition lset_cnt (s : ls) (c : Z) : ls := mkLs (lmem s) (lmap s) (lcache s) (lsz s) c.

(** A read of [n] bytes, undefined outside of the mappings (no code of its own in /repo: the access to memory). *)
Definition rd (a : Z) (n : nat) (s : ls) : res Z := if accb (lmap s) a (Z.of_nat n) then Ok (ld (lmem s) a n) else UB.
(** A write of [n] bytes, undefined outside of the mappings (no code of its own in /repo: the access to memory). *)
Definition wr (a : Z) (n : nat) (v : Z) (s : ls) : res ls :=
  if accb (lmap s) a (Z.of_nat n) then Ok (lset_mem s (sto (lmem s) a n v)) else UB.

(** sctk_alloc_common.c 62-72: mmap returns an address chosen by the OS, or MAP_FAILED. *)
Definition MAP_FAILED : Z := 18446744073709551615.
(** sctk_alloc_common.c 96-99: unmapping anything but a mapping of the source counts as undefined behaviour. *)
Definition munmap (b n : Z) (s : ls) : res ls :=
  if existsb (fun '(x, z) => (x =? b) && (z =? n)) (lmap s)
  then Ok (lset_map s (filter (fun '(x, z) => negb ((x =? b) && (z =? n))) (lmap s))) else UB.

(** 54-61 [sctk_alloc_mm_source_light_keep] *)
Definition keep (g : lcfg) (s : ls) (size : Z) (for_register : bool) : bool :=
  (size <=? keep_max g) && (negb for_register || (lsz s <=? keep_mem g)).

(** 145-158 [sctk_alloc_mm_source_light_reg_in_cache] *)
Definition reg_in_cache (b : Z) (s : ls) : res ls :=
  rbind (wr b 8 (lcache s) s) (fun s => let s := lset_cache s b in
  rbind (rd (b + 8) 8 s) (fun z => Ok (lset_sz s (add64 (lsz s) z)))).

(** sctk_alloc_inlined.h 349-370 and 373-380, and 311-324 [sctk_alloc_mm_source_light_to_macro_bloc]: header of a segment.
    The three bit fields of the info byte are written as one byte. *)
Definition setup_header (b size : Z) (s : ls) : res ls :=
  rbind (wr b 7 size s) (fun s => rbind (wr (b + 7) 1 b s) (fun s =>
  rbind (wr (b + 15) 1 (mk_info T_LARGE S_ALLOC MAGIC) s) (fun s => rbind (wr (b + 8) 7 0 s) (fun s => wr (b + 16) 8 0 s)))).

(** 360-426 [sctk_alloc_mm_source_light_find_in_cache]: the loop 385-397, giving the block found and the one before. *)
Fixpoint find_loop (fuel : nat) (size prev cur : Z) (s : ls) : res (Z * Z) :=
  match fuel with
  | O => OutOfFuel
  | S fuel =>
      if cur =? 0 then Ok (0, prev)
      else rbind (rd (cur + 8) 8 s) (fun z =>
        if z =? size then Ok (cur, prev) else rbind (rd cur 8 s) (fun nx => find_loop fuel size cur nx s))
  end.
(** sctk_alloc_light_mm_source.c 360-426. *)
Definition find_in_cache (fuel : nat) (size : Z) (s : ls) : res (Z * ls) :=
  rbind (find_loop fuel size 0 (lcache s) s) (fun '(b, prev) =>
  if b =? 0 then Ok (0, s)
  else
    rbind (rd b 8 s) (fun nx =>
    rbind (if prev =? 0 then Ok (lset_cache s nx) else wr prev 8 nx s) (fun s =>     (* 409-412 *)
    let s := lset_cnt s (lcnt s + 1) in                                              (* 413 *)
    rbind (rd (b + 8) 8 s) (fun z =>
    let s := lset_sz s (sub64 (lsz s) z) in                                          (* 414 *)
    rbind (rd (b + 8) 8 s) (fun z =>                                                 (* 318-319 *)
    rbind (setup_header b z s) (fun s => Ok (b, s))))))).

(** 479-508 [sctk_alloc_mm_source_light_mmap_new_segment]; [grant] is the answer of the OS. *)
Definition new_segment (grant : option Z) (size : Z) (s : ls) : res (Z * ls) :=
  let '(b, s) := match grant with Some b => (b, lset_map s ((b, size) :: lmap s)) | None => (MAP_FAILED, s) end in
  if b =? 0 then Abort                                                               (* 490 *)
  else rbind (setup_header b size s) (fun s => Ok (b, lset_cnt s (lcnt s + 1))).     (* 501-504 *)

(** 432-473 [sctk_alloc_mm_source_light_request_memory] *)
Definition request (g : lcfg) (fuel : nat) (size : Z) (grant : option Z) (s : ls) : res (Z * ls) :=
  if size =? 0 then Ok (0, s)
  else
    rbind (if keep g s size false then find_in_cache fuel size s else Ok (0, s)) (fun '(b, s) =>
    if b =? 0 then new_segment grant size s else Ok (b, s)).

(** 531-561 [sctk_alloc_mm_source_light_free_memory], with 166-184. *)
Definition free_memory (g : lcfg) (b : Z) (s : ls) : res ls :=
  rbind (rd b 7 s) (fun size =>
  rbind (wr b 8 0 s) (fun s => rbind (wr (b + 8) 8 size s) (fun s =>
  rbind (rd (b + 8) 8 s) (fun z =>
  rbind (if keep g s z true then reg_in_cache b s else munmap b z s) (fun s =>
  Ok (lset_cnt s (lcnt s - 1))))))).

(** 194-230 [sctk_alloc_mm_source_light_insert_segment] *)
Definition insert_segment (b size : Z) (s : ls) : res ls :=
  if (b =? 0) || (size =? 0) then Ok s
  else if negb (b mod 4096 =? 0) then Abort
  else if negb (size mod 2097152 =? 0) then Abort
  else rbind (wr (b + 8) 8 size s) (fun s => rbind (wr b 8 0 s) (fun s => reg_in_cache b s)).

(** 273-305 [sctk_alloc_mm_source_light_cleanup]: the loop 292-296.  The pointer to the cache keeps its value. *)
Fixpoint cleanup_loop (fuel : nat) (cur : Z) (s : ls) : res ls :=
  match fuel with
  | O => OutOfFuel
  | S fuel =>
      if cur =? 0 then Ok s
      else rbind (rd cur 8 s) (fun nx => rbind (rd (cur + 8) 8 s) (fun z =>
        rbind (munmap cur z s) (fun s => cleanup_loop fuel nx s)))
  end.
(** sctk_alloc_light_mm_source.c 273-305: the counter is checked first (287-288). *)
Definition cleanup (fuel : nat) (s : ls) : res ls :=
  if lcnt s =? 0 then cleanup_loop fuel (lcache s) s else Abort.

(** What happens to a source: a chain asks for memory, gives a segment back; the user inserts a segment (the mapping is theirs);
    a byte of a segment is written by those who hold it. (sctk_alloc_light_mm_source.c 432-473, 531-561, 194-230.) *)
Inductive lop := LReq (n : Z) (grant : option Z) | LFree (b : Z) | LInsert (b n : Z) | LWrite (a v : Z).
(** Fuel for the loops over the cache (no code of its own in /repo). *)
Definition loop_bound (s : ls) : nat := S (length (lmap s)).
(** One of [lop]: sctk_alloc_light_mm_source.c 432-473, 531-561, 194-230. *)
Definition lightstep (g : lcfg) (a : lop) (s : ls) : res (Z * ls) :=
  match a with
  | LReq n gr => request g (loop_bound s) n gr s
  | LFree b => rbind (free_memory g b s) (fun s => Ok (0, s))
  | LInsert b n => rbind (insert_segment b n (lset_map s ((b, n) :: lmap s))) (fun s => Ok (0, s))
  | LWrite x v => Ok (0, lset_mem s (upd (lmem s) x v))
  end.
