(** Reallocation of huge blocks with mremap: the code under HAVE_MREMAP (model only, no proofs).  The build of this repository never defines
    HAVE_MREMAP; ChainModel.v describes the build without it. *)
From Verif Require Import Word Res Mem SizeClassModel ChainModel.
From Coq Require Import ZArith List Bool.
Import ListNotations.
Open Scope Z_scope.

(** The memory after [mremap(b, old, size, MREMAP_MAYMOVE)] answered [nb]: the bytes have moved, what is added is zero. (mremap, called at sctk_alloc_light_mm_source.c 584.) *)
Definition moved_mem (m : mem) (b old nb size : Z) : mem :=
  fun x => if (nb <=? x) && (x <? nb + size) then (if x - nb <? old then m (b + (x - nb)) else 0) else m x.

(** sctk_alloc_light_mm_source.c 584: [mremap] with the size read in the header; 586-590: a failure stops the program.  The system refuses an
    address that is not a multiple of the page size.  Remapping something else than a whole range that the chain holds is undefined here. *)
Definition mremap (ans : option Z) (b size : Z) : M Z := fun s =>
  let old := ld (smem s) b 7 in
  if negb (accb (srng s) b 7) then UB
  else if negb (b mod 4096 =? 0) then Abort
  else if existsb (fun '(x, z) => (x =? b) && (old =? z)) (srng s) then
    match ans with
    | None => Abort
    | Some nb => Ok (nb, set_ev (set_ev (set_rng (set_mem s (moved_mem (smem s) b old nb size))
                                          ((nb, size) :: filter (fun '(x, _) => negb (x =? b)) (srng s))) (EPut b)) (EGet nb size))
    end
  else UB.
(** 570-598 [sctk_alloc_mm_source_light_remap] *)
Definition light_remap (ans : option Z) (b size : Z) : M Z :=
  nb <- mremap ans b size ;;
  setup_macro_bloc nb size ;;;
  ret nb.
(** sctk_allocator.c 2281-2298 [sctk_alloc_region_unset_entry]: reads the size in the header; the table is the subject of RegionModel.v. *)
Definition unregister (g : cfg) (b : Z) : M unit := if creg g then (get_size b ;;; ret tt) else ret tt.
(** sctk_allocator.c 1319-1368 [sctk_alloc_chain_realloc_macro_bloc] (asserts are off) *)
Definition realloc_macro_bloc (g : cfg) (ans : option Z) (n v : Z) : M Z :=
  let s1 := add64 n (SZ_MACRO + SZ_LARGE) in
  let size := if negb (s1 mod MACRO_BLOC =? 0) then add64 s1 (MACRO_BLOC - s1 mod MACRO_BLOC) else s1 in
  a <- get_ptr v ;;
  let b := a - SZ_MACRO in
  unregister g b ;;;
  nb <- light_remap ans b size ;;
  prepare_macro_bloc g nb.
(** sctk_allocator.c 1659-1669 [sctk_alloc_chain_can_remap]; [rm]: the source has a function remap. *)
Definition can_remap (g : cfg) (rm : bool) : bool := csrc g && rm.
(** sctk_allocator.c 1680-1749 [sctk_alloc_chain_realloc] with the branch 1725-1728; [ans] is the answer of mremap. *)
Definition realloc_remap (fuel : nat) (g : cfg) (rm : bool) (ans grant : option Z) (hook ptr n : Z) : M Z :=
  if (ptr =? 0) && (n =? 0) then ret 0
  else if ptr =? 0 then alloc_align fuel g grant hook n
  else if n =? 0 then chain_free fuel g ptr ;;; ret 0
  else
    v <- get_chunk ptr ;;
    if v =? 0 then (if cstrict g then abort else ret 0)
    else
      u <- unpad_vchunk v ;;
      us <- vsize u ;;
      let old := sub64 us SZ_LARGE in
      let delta := sub64 old n in
      keep <- (if (n <=? old) && (delta <=? cthresh g)
               then (if cfactor g =? 0 then ub else ret (delta <=? old / cfactor g))
               else ret false) ;;
      if keep : bool then ret ptr
      else if (HUGE_LIMIT <? old) && (HUGE_LIMIT <? n) && can_remap g rm then
        v <- realloc_macro_bloc g ans n v ;;
        ret (chunk_body v)
      else
        r <- alloc_align fuel g grant hook n ;;
        (if r =? 0 then ret tt else memcpy r ptr (if old <? n then old else n)) ;;;
        chain_free fuel g ptr ;;;
        ret r.
