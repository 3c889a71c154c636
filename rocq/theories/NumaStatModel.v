(** Statistics of the pages of an area by NUMA node (sctk_alloc_numa_stat.c; model only, no proofs).

    The page map of Linux, the answers of move_pages and of the topology are arguments.  Debug assertions are off.  The ratio of
    [sctk_alloc_numa_check] is a floating point number; only the two cases in which it is not a number or infinite are modelled. *)
From Verif Require Import Word Res NumaModel.
From Coq Require Import ZArith List Bool.
Import ListNotations.
Open Scope Z_scope.

(** sctk_alloc_numa_stat.h 36-46, with 128 nodes at most. *)
Definition MAXNODE : Z := 128.
(** sctk_alloc_numa_stat.h 36-46: number of nodes, total_pages, total_mapped, numa_pages. *)
Record nstat := mkNstat { st_nodes : Z; st_total : Z; st_mapped : Z; st_pages : Z -> Z }.
(** One entry of /proc/self/pagemap (55-68). *)
Record entry := mkEntry { e_present : bool; e_order : Z }.
(** What the system answers: [w_map]: Some table when the file could be opened; [w_calloc]: calloc succeeds; [w_read]: fread reads all
    entries; [w_status]: the status that move_pages stores for an address, -1 when it stores none. (Calls at sctk_alloc_numa_stat.c 59, 211, 225, 92-111.) *)
Record world := mkWorld { w_map : option (Z -> entry); w_calloc : bool; w_read : bool; w_status : Z -> Z; w_move_pages : bool }.

(** numa_stat.c 92-110 and 113-117 ([w_move_pages]: libnuma is there). *)
Definition node_of_page (w : world) (ptr : Z) : Z :=
  if w_move_pages w then (if (-1 <=? w_status w ptr) && (w_status w ptr <? MAXNODE) then w_status w ptr else MAXNODE) else -1.
(** 121-158: init and reset; [nodes]: None when there are no NUMA nodes. *)
Definition stat_reset (s : nstat) : nstat := mkNstat (st_nodes s) 0 0 (fun _ => 0).
(** 121-141 [sctk_alloc_numa_stat_init]. *)
Definition stat_init (nodes : option Z) : nstat := mkNstat (match nodes with Some n => n | None => 1 end) 0 0 (fun _ => 0).
(** [stat->numa_pages[node]++]: outside of the array is UB. (268, 300.) *)
Definition count_node (s : nstat) (k : Z) : res nstat :=
  if (0 <=? k) && (k <=? MAXNODE) then Ok (mkNstat (st_nodes s) (st_total s) (st_mapped s) (fun x => if x =? k then add64 (st_pages s x) 1 else st_pages s x)) else UB.
(** 193-233: [Ok None]: no page map. *)
Definition read_pagemap (w : world) (first : Z) : res (option (Z -> entry)) :=
  match w_map w with
  | None => Ok None
  | Some t => if w_calloc w then (if w_read w then Ok (Some (fun i => t (add64 first i))) else Abort) else UB
  end.
(** 261-270: [int i]; the shift [i << 12] and [i++] are UB when they leave the range of int. *)
Definition INT_MAX : Z := 2147483647.
(** 261-270: the loop of [sctk_alloc_numa_stat_cumul]. *)
Fixpoint cumul_loop (fuel : nat) (w : world) (t : Z -> entry) (ptr n i : Z) (s : nstat) : res nstat :=
  if i <? n then
    match fuel with
    | O => OutOfFuel
    | S fuel =>
        let s := mkNstat (st_nodes s) (add64 (st_total s) 1) (st_mapped s) (st_pages s) in
        rbind (if e_present (t i) then
                 if e_order (t i) =? 12 then
                   let s := mkNstat (st_nodes s) (st_total s) (add64 (st_mapped s) 1) (st_pages s) in
                   if i * 4096 <=? INT_MAX then count_node s (node_of_page w (add64 ptr (i * 4096))) else UB
                 else Abort
               else Ok s) (fun s =>
        if i =? INT_MAX then UB else cumul_loop fuel w t ptr n (i + 1) s)
    end
  else Ok s.
(** 239-274 [sctk_alloc_numa_stat_cumul], with HAVE_LINUX_PAGEMAP. *)
Definition cumul (fuel : nat) (w : world) (s : nstat) (ptr size : Z) : res nstat :=
  let (first, last) := stat_pages ptr size in
  rbind (read_pagemap w first) (fun t =>
  match t with
  | None => Ok (mkNstat (st_nodes s) (st_total s) (add64 (st_mapped s) (size / 4096)) (st_pages s))
  | Some t => cumul_loop fuel w t ptr (sub64 last first) 0 s
  end).
(** 277-302, without: [unsigned int i]; the shift is done on 32 bits, and so is [i++]. *)
Definition W32 : Z := 4294967296.
(** 277-302: the loop. *)
Fixpoint cumul2_loop (fuel : nat) (w : world) (ptr n i : Z) (s : nstat) : res nstat :=
  if i <? n then
    match fuel with
    | O => OutOfFuel
    | S fuel =>
        let node := node_of_page w (add64 ptr ((i * 4096) mod W32)) in
        rbind (if -1 <? node then count_node s node else Ok s) (cumul2_loop fuel w ptr n ((i + 1) mod W32))
    end
  else Ok s.
(** 277-302 [sctk_alloc_numa_stat_cumul] without HAVE_LINUX_PAGEMAP. *)
Definition cumul2 (fuel : nat) (w : world) (s : nstat) (ptr size : Z) : res nstat :=
  let (first, last) := stat_pages ptr size in cumul2_loop fuel w ptr (sub64 last first) 0 s.
(** 306-310. *)
Definition stat_get (fuel : nat) (w : world) (s : nstat) (ptr size : Z) : res nstat := cumul fuel w (stat_reset s) ptr size.
(** 306-310 in the build without HAVE_LINUX_PAGEMAP. *)
Definition stat_get2 (fuel : nat) (w : world) (s : nstat) (ptr size : Z) : res nstat := cumul2 fuel w (stat_reset s) ptr size.
(** 177: the line "Non mapped" of [sctk_alloc_numa_stat_print]. *)
Definition non_mapped (s : nstat) : Z := sub64 (st_total s) (st_mapped s).
(** 396-399 of [sctk_alloc_numa_check]: does the check report a failure?  With [total_mapped] 0 the ratio is infinite or not a number, and
    smaller than nothing.  Otherwise the exact comparison is taken (the rounding of float is not modelled). *)
Definition check_fails (s : nstat) (node ratio : Z) : bool := if st_mapped s =? 0 then false else 100 * st_pages s node <? ratio * st_mapped s.
(** sctk_allocator.c 2666-2695 [sctk_alloc_chain_get_numa_stat]: over the blocs found by the scan. *)
Fixpoint cumul_all (fuel : nat) (w : world) (l : list (Z * Z)) (s : nstat) : res nstat :=
  match l with [] => Ok s | x :: l => rbind (cumul fuel w s (fst x) (snd x)) (cumul_all fuel w l) end.
