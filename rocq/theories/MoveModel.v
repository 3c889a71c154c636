(** A thread moves to another NUMA node and asks for its chain to follow: sctk_alloc_posix.c 903-966 with 320-368, sctk_allocator.c 2794-2844 and
    2619-2658, on the sources of sctk_alloc_posix.c 211-243 (model only, no proofs).

    Simplifications: those of NodeModel.v (hwloc answers are arguments, a segment is a size and the node it is bound to); a machine with at least two
    nodes, start-up over; the round robin is sequential (C72 has its threads); a thread always has a chain (904-917 return otherwise). *)
From Verif Require Import Res NodeModel.
From Coq Require Import ZArith List Bool.
Import ListNotations.
Open Scope Z_scope.
Local Notation "x <- e ;; k" := (rbind e (fun x => k)) (at level 61, e at next level, right associativity).

(** The settings: number of nodes (topology.c 112-128), numa_migration, numa_round_robin, sctk_alloc_is_numa (topology.c 504-507). *)
Record vcfg := mkVc { v_nodes : Z; v_mig : bool; v_rr : bool; v_numa : bool }.
(** The sources and chains (sctk_alloc_posix.c 211-243, 483-515), the binding of the structure of each chain, the counter of the round robin (301). *)
Record vst := mkV { v_n : nst; v_str : nat -> option Z; v_cnt : Z }.
(** sctk_alloc_common.h: SCTK_DEFAULT_NUMA_MM_SOURCE_ID, as an index of sctk_global_memory_source. *)
Definition DEF : nat := 128.
(** sctk_alloc_posix.c 211-243: the default source has no node, the others have the flag SCTK_ALLOC_MM_SOURCE_LIGHT_DEFAULT, that is no binding; 301. *)
Definition v0 : vst := mkV (mkNst (fun j => if Nat.eqb j DEF then ns_init (-1) false else ns_init (Z.of_nat j) false) (fun _ => []) (fun _ => DEF)) (fun _ => None) 0.
(** sctk_alloc_posix.c 299-314 [source_round_robin]. *)
Definition robin (g : vcfg) (s : vst) : Z * vst := (v_cnt s, mkV (v_n s) (v_str s) ((v_cnt s + 1) mod v_nodes g)).
(** sctk_alloc_posix.c 320-368 [get_local_mm_source]; 344 tests [node == -1 || 128], that is nothing. *)
Definition local_src (g : vcfg) (force : bool) (h : hw) (s : vst) : res (Z * vst) :=
  r <- (if v_numa g && negb force then init_on_node h else Ok DEFAULT_ID);;                           (* 328-337 *)
  let (node, s) := if v_rr g then robin g s else (r, s) in                                            (* 344-346 *)
  let node := if node =? -1 then DEFAULT_ID else node in                                              (* 350-351 *)
  if 128 <? node then Abort                                                                           (* 358 *)
  else if ((0 <=? node) && (node <? v_nodes g)) || (node =? DEFAULT_ID) then Ok (node, s) else UB.    (* 361-364 *)
(** sctk_alloc_chain.h: sizeof(struct sctk_alloc_chain). *)
Definition STRUCT : Z := 1680.
(** sctk_allocator.c 2822-2844 [chain_numa_migrate] with both flags set, to the source [j]. *)
Definition migrate_chain (g : vcfg) (c : nat) (target : Z) (j : nat) (s : vst) : res vst :=
  b <- migrate_mem (v_nodes g) (v_mig g) target (STRUCT, v_str s c);;                                 (* 2833-2834 *)
  n <- nstep (v_nodes g) (v_mig g) (NMigChain c target (Some j)) (v_n s);;                            (* 2837-2843 *)
  Ok (mkV n (nupd (v_str s) c (snd b)) (v_cnt s)).
(** sctk_alloc_posix.c 930-966 [posix_numa_migrate_chain]. *)
Definition move (g : vcfg) (c : nat) (h : hw) (s : vst) : res vst :=
  x <- local_src g false h s;;                                                                        (* 950 *)
  let (j, s) := x in
  let old := nnode (nsrcs (v_n s) (nlink (v_n s) c)) in                                               (* 953-955 *)
  let new := nnode (nsrcs (v_n s) (Z.to_nat j)) in                                                    (* 956-958 *)
  if negb (old =? new) && negb (new =? DEFAULT_ID) then migrate_chain g c new (Z.to_nat j) s else Ok s.   (* 963-964 *)

(** A chain is made for a new thread (508); asks its source for a segment, gives one back (light_mm_source.c 432-473, 531-561); is told to follow its
    thread (sctk_alloc_posix.c 903-921). *)
Inductive vact := VStart (c : nat) (h : hw) | VReq (c : nat) (n : Z) (cached : bool) | VFree (c i : nat) (keep : bool) | VMove (c : nat) (h : hw).
(** One action of [vact] (lines there). *)
Definition vstep (g : vcfg) (a : vact) (s : vst) : res vst :=
  match a with
  | VStart c h =>
      x <- local_src g true h s;;
      let (j, s) := x in Ok (mkV (mkNst (nsrcs (v_n s)) (nsegs (v_n s)) (nupd (nlink (v_n s)) c (Z.to_nat j))) (v_str s) (v_cnt s))
  | VReq c n cached => y <- nstep (v_nodes g) (v_mig g) (NReq c n cached) (v_n s);; Ok (mkV y (v_str s) (v_cnt s))
  | VFree c i keep => y <- nstep (v_nodes g) (v_mig g) (NFree c i keep) (v_n s);; Ok (mkV y (v_str s) (v_cnt s))
  | VMove c h => move g c h s
  end.
