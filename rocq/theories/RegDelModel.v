(** Creation, test and removal of the regions of the registry, sctk_allocator.c 2209-2242, 2347-2384, 2424-2507, and the end of the default
    memory source, 2114-2140 (model only, no proofs).

    Simplifications: sequential histories, as in RegionModel.v; a region header is named by its place in the table, so that the search of 2440-2442
    finds it there (mmap gives each header its own address); munmap is the removal of the header. *)
From Verif Require Import Word Res RegionModel.
From Coq Require Import ZArith List Bool.
Import ListNotations.
Open Scope Z_scope.

(** 2347-2356 [sctk_alloc_region_has_ref]: [n] entries from [i] on. *)
Fixpoint has_ref (n : nat) (i : Z) (e : Z -> Z) : bool :=
  match n with O => false | S n => if negb (e i =? 0) then true else has_ref n (i + 1) e end.
(** 2424-2456 [sctk_alloc_region_del] on the region at [id] of the table. *)
Definition region_del (id : Z) (s : rst) : rst :=
  match regs s id with
  | None => s                                                                                  (* 2427-2428 *)
  | Some e => if has_ref (Z.to_nat ENTRIES) 0 e then s else mkR (zupd (regs s) id None) (hdr s)  (* 2431-2435, 2440-2455 *)
  end.
(** 2466-2468 [sctk_alloc_region_exist]. *)
Definition region_exist (a : Z) (s : rst) : res bool := rbind (get_id a) (fun id => Ok (match regs s id with Some _ => true | None => false end)).
(** 2363-2384 [sctk_alloc_region_del_chain] with NULL, then [sctk_alloc_region_del], on the region at [id]. *)
Definition wipe (id : Z) (s : rst) : res rst :=
  match regs s id with
  | None => Ok s
  | Some e => rbind (del_loop (Z.to_nat ENTRIES) 0 0 (hdr s) e) (fun e' => Ok (region_del id (mkR (zupd (regs s) id (Some e')) (hdr s))))
  end.
(** 2490-2507 [sctk_alloc_region_del_all]: [n] regions from [i] on. *)
Fixpoint del_all (n : nat) (i : Z) (s : rst) : res rst :=
  match n with O => Ok s | S n => rbind (wipe i s) (del_all n (i + 1)) end.
(** 2125-2136 in [sctk_alloc_mm_source_default_cleanup]: the regions of the heap from [cur] to [stop]. *)
Fixpoint clean_loop (fuel : nat) (cur stop : Z) (s : rst) : res rst :=
  match fuel with
  | O => OutOfFuel
  | S fuel => if cur <? stop then rbind (get_id cur) (fun id => rbind (wipe id s) (clean_loop fuel (add64 cur TB) stop)) else Ok s
  end.

(** The calls of the registry with those on whole regions. (2209-2242, 2466-2468, 2424-2456, 2490-2507.) *)
Inductive rop2 := R1 (a : rop) | RSetup (a : Z) | RExist (a : Z) | RDelReg (a : Z) | RDelAll.
(** One of [rop2]: 2209-2242, 2466-2468, 2424-2456, 2490-2507. *)
Definition rstep2 (a : rop2) (s : rst) : res (Z * rst) :=
  match a with
  | R1 a => rstep a s
  | RSetup a => rbind (get_id a) (fun id => Ok (0, setup id s))
  | RExist a => rbind (region_exist a s) (fun b => Ok ((if b then 1 else 0), s))
  | RDelReg a => rbind (get_id a) (fun id => Ok (0, region_del id s))
  | RDelAll => rbind (del_all (Z.to_nat MAXREG) 0 s) (fun s1 => Ok (0, s1))
  end.
