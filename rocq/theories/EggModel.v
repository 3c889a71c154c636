(** The egg chain with a source: start-up and thread creation in the build with hwloc, where SCTK_DEFAULT_NUMA_MM_SOURCE_ID
    (sctk_alloc_common.h: SCTK_MAX_NUMA_NODE, 128) is the one source made at start-up (sctk_alloc_posix.c 211-243).  Everything else is as in
    PosixModel.v, where the egg has no source.  Model only, no proofs.

    Simplifications: those of PosixModel.v; machine with one NUMA node or no round robin, so that all the chains have the default source
    (335-338, 266-269: sctk_alloc_posix_get_local_mm_source(true)); the memory taken by hwloc and by the parser of the configuration before the
    source is bound is a list of sizes. *)
From Verif Require Import Word Res Mem ChainModel ChainSpec LightModel PosixModel PosixSpec.
From Coq Require Import ZArith List Bool.
Import ListNotations.
Open Scope Z_scope.

(** The egg once sctk_alloc_posix.c 460 has set its field source. *)
Definition bound_cfg (e : env) : cfg := mkCfg (eegg e) true true true (estrict e) (efac e) (ethr e).
(** sctk_alloc_posix.c 460. *)
Definition bind_egg (e : env) (y : sys) : res sys :=
  match chain y 0 with
  | None => UB
  | Some k => Ok (put_chain y 0 (Some (mkChn (bound_cfg e) (ksh k) (kdes k) (kst k))))
  end.
(** sctk_alloc_posix.c 452-457: allocations of the library itself, on the egg (437), before the source is bound. *)
Fixpoint early (fuel : nat) (e : env) (l : list Z) (y : sys) : res sys :=
  match l with
  | [] => Ok y
  | n :: l => rbind (call fuel e no_os 0 (OAlloc (ehook e n) n None) y) (fun '(_, y) => early fuel e l y)
  end.
(** sctk_alloc_posix.c 392-477 [sctk_alloc_posix_base_init] *)
Definition h_init (fuel : nat) (e : env) (l : list Z) (m : mem) : res sys :=
  rbind (sys_init fuel e m) (fun y => rbind (early fuel e l y) (fun y => rbind (bind_egg e y) (fun y => Ok y))).

(** 483-515 [sctk_alloc_posix_create_new_tls_chain] and 523-546 [sctk_alloc_posix_setup_tls_chain]: [create] of PosixModel.v with an answer of
    mmap for the egg. *)
Definition h_start (fuel : nat) (e : env) (os : list (Z * Z) -> Z) (t : Z) (y : sys) : res sys :=
  rbind (call fuel e os 0 (OAlloc (ehook e CHAIN_SIZE) CHAIN_SIZE None) (yset_tr y [])) (fun '(p, y) =>
  if p =? 0 then UB
  else
    rbind (base_init (thread_cfg e p) (init_state (thread_cfg e p) (ymem y))) (fun '(_, s) =>
    let i := length (ych y) in
    Ok (log (yset_tls (yset_ch (yset_mem y (smem s)) (ych y ++ [Some (mkChn (thread_cfg e p) false false s)])) t (Some i)) (TNew i)))).
