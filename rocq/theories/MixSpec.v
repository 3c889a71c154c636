(** A chain that gets a memory source although it lives on buffers of the user: [sctk_alloc_chain_user_refill]
    only warns (sctk_allocator.c:1055-1057), [sctk_alloc_chain_numa_migrate] sets the source of any chain. *)
From Verif Require Import Word Res Mem ChainModel ChainSpec.
From Coq Require Import ZArith List Bool.
Import ListNotations.
Open Scope Z_scope.

(** sctk_allocator.c:2840-2842: [chain->source = new_mm_source]. *)
Definition with_source (g : cfg) : cfg :=
  mkCfg (cpool g) (cmerge g) true (creg g) (cstrict g) (cfactor g) (cthresh g).

(** Calls that bring no memory but buffers of at most 1 MB: the source refuses (sctk_allocator.c:1292-1295, 1046-1077). *)
Definition small_call (c : op) : Prop :=
  match c with OAlloc _ _ gr | ORealloc _ _ _ gr => gr = None | ORefill _ z => z <= 1048576 | _ => True end.

(** Histories of a chain with a source, on small buffers of the user. *)
Inductive mixed (g : cfg) : st -> obs -> Prop :=
| mixed_init m s : wf_cfg g -> base_init g (init_state g m) = Ok (tt, s) -> mixed g s (mkObs [] [] [])
| mixed_step s o fuel c r s' :
    mixed g s o -> valid g s o c -> small_call c -> step fuel (with_source g) c s = Ok (r, s') ->
    mixed g s' (next o c r (sevs s')).
