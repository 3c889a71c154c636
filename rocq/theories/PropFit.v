(** Properties C64 and C65: how much memory the blocks take, and when more is asked to the memory source. *)
From Verif Require Import Word Res Mem ChainModel ChainSpec ChainProps ChainWalk ChainCap ChainFit ChainRun.
From Coq Require Import ZArith List Bool Lia.
Import ListNotations.
Open Scope Z_scope.

(** C64. The usable size of a new block exceeds the size asked (plus the alignment, if any) by at most 31 bytes; on a
    chain with a memory source, requests above 1 MB - 16 get less than 2 MB more.  A plain block gets the size asked
    rounded up to 16, or 16 bytes more; a plain huge block exactly its segment without the headers. *)
Theorem C64_new_block : forall g s o d n gr fuel r s' u, reach g s o -> valid g s o (OAlloc d n gr) ->
  step fuel g (OAlloc d n gr) s = Ok (r, s') -> r <> 0 -> usable s' r u ->
  ((d <= 1 -> csrc g = false \/ n <= 1048560 -> u <= n + 31) /\
   (1 < d -> csrc g = false \/ n + d <= 1048560 -> u <= n + d + 31) /\
   (d <= 1 -> csrc g = true -> 1048560 < n -> u < n + 2097152) /\
   (1 < d -> csrc g = true -> 1048560 < n + d -> u < n + d + 2097152)) /\
  (d <= 1 -> csrc g = false \/ n <= 1048560 -> u = Z.max 16 ((n + 15) / 16 * 16) \/ u = Z.max 16 ((n + 15) / 16 * 16) + 16) /\
  (d <= 1 -> csrc g = true -> 1048560 < n -> (u + 64) mod 2097152 = 0).
Proof. exact new_block_size. Qed.
Print Assumptions C64_new_block.

(** Every live block of every history meets the bound of its request, unless a realloc shrunk it in place: then what
    is not used is at most the threshold and at most the configured fraction of the block. *)
Theorem C64_every_block : forall g s o, reach g s o -> forall b u, In b (live o) -> usable s (bp b) u ->
  ((bd b <= 1 -> csrc g = false \/ bn b <= 1048560 -> u <= bn b + 31) /\
   (1 < bd b -> csrc g = false \/ bn b + bd b <= 1048560 -> u <= bn b + bd b + 31) /\
   (bd b <= 1 -> csrc g = true -> 1048560 < bn b -> u < bn b + 2097152) /\
   (1 < bd b -> csrc g = true -> 1048560 < bn b + bd b -> u < bn b + bd b + 2097152)) \/
  (bn b <= u /\ u - bn b <= cthresh g /\ 0 < cfactor g /\ (u - bn b) * cfactor g <= u).
Proof. exact live_bound. Qed.
Print Assumptions C64_every_block.

(** A reallocation to a non null size keeps the pointer exactly when the new size fits and what would not be used is
    within the two limits; then the usable size does not change.  A moved block meets the bound of the request. *)
Theorem C64_realloc_in_place : forall g s o h p m d n gr fuel r s' u, reach g s o -> valid g s o (ORealloc h p n gr) ->
  step fuel g (ORealloc h p n gr) s = Ok (r, s') -> In (mkBlk p m d) (live o) -> n <> 0 -> usable s p u ->
  (r = p <-> n <= u /\ u - n <= cthresh g /\ u - n <= u / cfactor g) /\ (r = p -> usable s' p u) /\
  (r <> p -> r <> 0 -> forall v, usable s' r v ->
    (h <= 1 -> csrc g = false \/ n <= 1048560 -> v <= n + 31) /\
    (1 < h -> csrc g = false \/ n + h <= 1048560 -> v <= n + h + 31) /\
    (h <= 1 -> csrc g = true -> 1048560 < n -> v < n + 2097152) /\
    (1 < h -> csrc g = true -> 1048560 < n + h -> v < n + h + 2097152)).
Proof. exact realloc_in_place. Qed.
Print Assumptions C64_realloc_in_place.

(** The bounds are reached: a block of 1 byte with 32 usable bytes, a block of 504 bytes with 1008 after a realloc,
    a huge block of 1048561 bytes (the smallest one) with 2 MB - 64. *)
Definition h64 : list op := [ORefill 1048576 4096; OAlloc 0 16 None; OAlloc 0 32 None; OAlloc 0 16 None; OFree 1048656; OAlloc 0 1 None; OAlloc 0 1000 None].
Definition S64 : st := fin_s 200 gu h64.
Definition O64 : obs := fin_o 200 gu h64.
Example C64_nontrivial : reach gu S64 O64 /\ In (mkBlk 1048656 1 0) (live O64) /\ usable S64 1048656 32 /\
  In (mkBlk 1048736 1000 0) (live O64) /\ usable S64 1048736 1008 /\ valid gu S64 O64 (ORealloc 0 1048736 504 None) /\
  step 200 gu (ORealloc 0 1048736 504 None) S64 = Ok (1048736, after 200 gu (ORealloc 0 1048736 504 None) S64) /\
  result 200 gu (ORealloc 0 1048736 503 None) S64 <> 1048736 /\
  reach gs (fin_s 200 gs [OAlloc 0 1048561 (Some (4 * MB2))]) (fin_o 200 gs [OAlloc 0 1048561 (Some (4 * MB2))]) /\
  usable (fin_s 200 gs [OAlloc 0 1048561 (Some (4 * MB2))]) (4 * MB2 + 48) (MB2 - 64).
Proof.
  split; [apply fin_reach; vm_compute; reflexivity|]. split; [vm_compute; tauto|]. split; [apply usable_at; vm_compute; congruence|].
  split; [vm_compute; tauto|]. split; [apply usable_at; vm_compute; congruence|]. split; [apply validb_ok; vm_compute; reflexivity|].
  split; [apply step_at; vm_compute; congruence|]. split; [vm_compute; congruence|].
  split; [apply fin_reach; vm_compute; reflexivity|apply usable_at; vm_compute; congruence].
Qed.

(** The restriction of the valid calls to a non null factor is needed: with a factor of 0 (MPCALLOC_REALLOC_FACTOR=0)
    every reallocation in place divides by zero, whatever the history. *)
Theorem C64_null_factor_refuted : forall g s o h p m d n gr fuel u, reach g s o -> In (mkBlk p m d) (live o) -> d <= 1 -> cfactor g = 0 ->
  usable s p u -> 0 < n <= u -> u - n <= cthresh g -> step fuel g (ORealloc h p n gr) s = UB.
Proof. exact realloc_null_factor. Qed.
Print Assumptions C64_null_factor_refuted.

Definition g0 : cfg := mkCfg 65536 true false false false 0 52428800.
Example C64_null_factor_nontrivial : reach g0 (fin_s 200 g0 [ORefill 1048576 4096; OAlloc 0 100 None]) (fin_o 200 g0 [ORefill 1048576 4096; OAlloc 0 100 None]) /\
  In (mkBlk 1048624 100 0) (live (fin_o 200 g0 [ORefill 1048576 4096; OAlloc 0 100 None])) /\
  usable (fin_s 200 g0 [ORefill 1048576 4096; OAlloc 0 100 None]) 1048624 112.
Proof. split; [apply fin_reach; vm_compute; reflexivity|]. split; [vm_compute; tauto|apply usable_at; vm_compute; congruence]. Qed.

(** C65. Memory is asked to the source only by an allocation or a reallocation, of exactly the size of the
    specification, and only when the request is huge or when no free piece (of at most 2 MB) has room for it. *)
Theorem C65_asks_when_full : forall g s o c fuel r s' b z, reach g s o -> valid g s o c -> step fuel g c s = Ok (r, s') ->
  In (EGet b z) (sevs s') ->
  exists d n, (c = OAlloc d n (Some b) \/ exists p, c = ORealloc d p n (Some b)) /\ z = ask_size d n /\
    (huge d n \/ forall w t, In (w, t) (all_free (smem s) o) -> t <= 2097152 -> t < room d n).
Proof. exact asks_when_full. Qed.
Print Assumptions C65_asks_when_full.

Theorem C65_no_ask_with_room : forall g s o c fuel r s' d n w t, reach g s o -> valid g s o c -> step fuel g c s = Ok (r, s') ->
  (exists gr, c = OAlloc d n gr \/ exists p, c = ORealloc d p n gr) -> ~ huge d n ->
  In (w, t) (all_free (smem s) o) -> room d n <= t <= 2097152 -> forall b z, ~ In (EGet b z) (sevs s').
Proof. exact no_ask_with_room. Qed.
Print Assumptions C65_no_ask_with_room.

(** A block of 100 bytes leaves a free piece with room for 5000 bytes; two requests of 1 MB - 16 need another segment. *)
Example C65_nontrivial : reach gs SS OS /\ valid gs SS OS (OAlloc 0 5000 (Some (32 * MB2))) /\
  existsb (fun f => (room 0 5000 <=? snd f) && (snd f <=? 2097152)) (all_free (smem SS) OS) = true /\
  step 200 gs (OAlloc 0 5000 (Some (32 * MB2))) SS = Ok (9437360, after 200 gs (OAlloc 0 5000 (Some (32 * MB2))) SS) /\
  sevs (after 200 gs (OAlloc 0 5000 (Some (32 * MB2))) SS) = [] /\
  valid gs SS OS (OAlloc 0 1048560 (Some (32 * MB2))) /\
  step 200 gs (OAlloc 0 1048560 (Some (32 * MB2))) SS = Ok (32 * MB2 + 48, after 200 gs (OAlloc 0 1048560 (Some (32 * MB2))) SS) /\
  sevs (after 200 gs (OAlloc 0 1048560 (Some (32 * MB2))) SS) = [EGet (32 * MB2) MB2].
Proof.
  split; [exact reach_S|]. split; [apply validb_ok; vm_compute; reflexivity|]. split; [vm_compute; reflexivity|].
  split; [apply step_at; vm_compute; congruence|]. split; [vm_compute; reflexivity|]. split; [apply validb_ok; vm_compute; reflexivity|].
  split; [apply step_at; vm_compute; congruence|vm_compute; reflexivity].
Qed.
