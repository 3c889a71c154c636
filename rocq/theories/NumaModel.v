(** Page ranges for NUMA migration and statistics (model only, no proofs). *)
From Verif Require Import Word Res RegionModel.
From Coq Require Import ZArith List Bool.
Import ListNotations.
Open Scope Z_scope.

(** sctk_alloc_common.h SCTK_ALLOC_PAGE_SIZE. *)
Definition PAGE : Z := 4096.

(** sctk_alloc_topology.c 393-399 in [sctk_alloc_migrate_numa_mem]: the address and size handed to hwloc. *)
Definition migrate_range (addr size : Z) : Z * Z :=
  let size := add64 size (addr mod PAGE) in
  let addr := addr - addr mod PAGE in
  (addr, if size mod PAGE =? 0 then size else add64 size (PAGE - size mod PAGE)).

(** sctk_alloc_numa_stat.c 242-243 in [sctk_alloc_numa_stat_cumul]: the pages counted, first and one past the last. *)
Definition stat_pages (addr size : Z) : Z * Z := let first := addr / PAGE in (first, add64 first (size / PAGE)).

(** sctk_allocator.c 2639-2654 in [sctk_alloc_chain_numa_migrate_content] and 2680-2688 in [sctk_alloc_chain_get_numa_stat]: both
    walk over the entries of all region headers and treat the macro bloc of each entry whose chain is [c].  The result is the list
    of (address, size) treated.  Inner loop, [n] entries from [j]: *)
Fixpoint scan_region (n : nat) (j : Z) (c : Z) (h : Z -> option (Z * Z)) (e : Z -> Z) : res (list (Z * Z)) :=
  match n with
  | O => Ok []
  | S n =>
      if e j =? 0 then scan_region n (j + 1) c h e
      else match h (e j) with
           | None => UB                                                          (* header of a bloc that is gone *)
           | Some (sz, ch) => rbind (scan_region n (j + 1) c h e) (fun l => Ok (if ch =? c then (e j, sz) :: l else l))
           end
  end.
(** Outer loop, [n] regions from [i]. (2639-2655, 2681-2693.) *)
Fixpoint scan_regions (n : nat) (i : Z) (c : Z) (s : rst) : res (list (Z * Z)) :=
  match n with
  | O => Ok []
  | S n =>
      rbind (match regs s i with None => Ok [] | Some e => scan_region (Z.to_nat ENTRIES) 0 c (hdr s) e end) (fun l1 =>
      rbind (scan_regions n (i + 1) c s) (fun l2 => Ok (l1 ++ l2)))
  end.
(** 2638-2657 and 2680-2695: all the regions. *)
Definition scan (c : Z) (s : rst) : res (list (Z * Z)) := scan_regions (Z.to_nat MAXREG) 0 c s.

(** sctk_alloc_numa_stat.c 257-266, the [total_pages] field after [sctk_alloc_chain_get_numa_stat] (with the page map). *)
Definition pages_of (x : Z * Z) : Z := let '(a, b) := stat_pages (fst x) (snd x) in b - a.
(** The sum over the blocs of the chain, sctk_alloc_numa_stat.c 257-266. *)
Definition total_pages (c : Z) (s : rst) : res Z := rbind (scan c s) (fun l => Ok (fold_right (fun x n => pages_of x + n) 0 l)).
