(** Histories of the allocator whose egg has a source: start-up, threads that start (each before its first call), valid public calls. *)
From Verif Require Import Word Res Mem ChainModel ChainSpec LightModel PosixModel PosixSpec EggModel.
From Coq Require Import ZArith List Bool.
Import ListNotations.
Open Scope Z_scope.

Inductive hreach (e : env) : sys -> list obs -> Prop :=
| hreach_init fuel l m y0 y : wf_env e -> sys_init fuel e m = Ok y0 -> h_init fuel e l m = Ok y -> hreach e y (obs_after (start_obs e y0) (ytr y))
| hreach_start y O fuel t os y' : hreach e y O -> ytls y t = None -> ask_ok e y (ehook e CHAIN_SIZE) CHAIN_SIZE os -> h_start fuel e os t y = Ok y' ->
    hreach e y' (obs_after O (ytr y'))
| hreach_step y O fuel c r y' : hreach e y O -> (forall t, by_thread c = Some t -> ytls y t <> None) -> pvalid e y O c -> pexec fuel e c y = Ok (r, y') ->
    hreach e y' (obs_after O (ytr y')).

(** Memory that may be accessed: the static data and the mappings of the source. *)
Definition mapped (e : env) (y : sys) (x : Z) : Prop :=
  (eegg e <= x < eegg e + CHAIN_SIZE) \/ (ebuf e <= x < ebuf e + EGG_MEM) \/ exists b z, In (b, z) (lmap (ysrc y)) /\ b <= x < b + z.
