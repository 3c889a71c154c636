(** Threads that come and go (C84): the structures of their chains are kept in the egg. *)
From Verif Require Import Word Res Mem ChainModel ChainSpec LightModel PosixModel PosixSpec.
From Coq Require Import ZArith List Bool.
Import ListNotations.
Open Scope Z_scope.

(** The chains of threads, running or ended, whose structure still exists; how many (sctk_alloc_posix.c 499: the structure is a block of the egg;
    985: given back when the chain is destroyed). *)
Definition standing (y : sys) : list nat := filter (fun i => match chain y i with Some _ => true | None => false end) (seq 1 (length (ych y))).
Definition alive (y : sys) : Z := Z.of_nat (length (standing y)).
(** Every thread that ever called has ended, and the program holds nothing (sctk_alloc_posix.c 989-1006). *)
Definition all_over (y : sys) (O : list obs) : Prop :=
  (forall t, ytls y t = None \/ ytls y t = Some 0%nat) /\ forall i b, ~ holds y O i b.
(** Calls whose first action is to look for the chain of the thread (sctk_alloc_posix.c 580, 622, 677, 810, 870: sctk_get_tls_chain, then
    sctk_alloc_posix_setup_tls_chain). *)
Definition needs_chain (c : pop) (t : Z) : Prop :=
  match c with
  | PMalloc t' _ _ | PFree t' _ | PCalloc t' _ _ _ | PValloc t' _ _ => t' = t
  | PRealloc t' p n _ => t' = t /\ (p = 0 \/ n = 0)
  | PMemalign t' d _ _ => t' = t /\ is_pow2 d = true
  | PPosixMemalign t' d _ _ => t' = t /\ d mod 8 = 0
  | PExit _ | PUse _ _ | PWrite _ _ => False
  end.
(** A history of threads that start, with a first call that asks for nothing, and end (sctk_alloc_posix.c 483-515, 989-1006). *)
Inductive come_go (e : env) : nat -> sys -> list obs -> Prop :=
| cg_start fuel m y : wf_env e -> sys_init fuel e m = Ok y -> come_go e 0 y (start_obs e y)
| cg_next n y O t f1 r1 y1 f2 r2 y2 : come_go e n y O -> ytls y t = None -> egg_room e y O ->
    pexec f1 e (PFree t 0) y = Ok (r1, y1) -> pexec f2 e (PExit t) y1 = Ok (r2, y2) ->
    come_go e (S n) y2 (obs_after (obs_after O (ytr y1)) (ytr y2)).
