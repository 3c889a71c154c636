(** Properties C01-C05, C12, C13: the blocks that a chain hands out.
    [reach g s o]: the state [s] and the observations [o] are those of a history of valid calls, of any length,
    on the chain [g] created on any memory content.  [blocks o]: live blocks, and blocks freed by another
    thread that the owner did not collect yet.  [usable s p u]: the allocator reports [u] bytes for [p]. *)
From Verif Require Import Word Res Mem ChainModel ChainSpec ChainProps ChainWalk ChainMore ChainExtra ChainRun.
From Coq Require Import ZArith List Bool Lia.
Import ListNotations.
Open Scope Z_scope.

(** C01. Any two blocks in use are disjoint over their whole usable size, plain and aligned blocks alike. *)
Theorem C01_blocks_disjoint : forall g s o, reach g s o ->
  NoDup (map bp (blocks o)) /\
  forall b1 b2 u1 u2, In b1 (blocks o) -> In b2 (blocks o) -> b1 <> b2 -> usable s (bp b1) u1 -> usable s (bp b2) u2 ->
    apart (bp b1, u1) (bp b2, u2).
Proof. exact blocks_apart. Qed.
Print Assumptions C01_blocks_disjoint.

Example C01_nontrivial : reach gu SU OU /\ length (blocks OU) = 3%nat /\
  In (mkBlk 1048624 100 0) (blocks OU) /\ In (mkBlk 1048768 200 64) (blocks OU) /\ usable SU 1048624 112 /\ usable SU 1048768 256.
Proof.
  split; [exact reach_U|]. split; [vm_compute; reflexivity|]. split; [vm_compute; tauto|]. split; [vm_compute; tauto|].
  split; apply usable_at; vm_compute; congruence.
Qed.

(** C02. The result of an allocation is a new block ... *)
Theorem C02_result_is_new : forall g s o d n gr fuel r s', reach g s o -> valid g s o (OAlloc d n gr) ->
  step fuel g (OAlloc d n gr) s = Ok (r, s') -> r <> 0 ->
  In (mkBlk r n d) (live (next o (OAlloc d n gr) r (sevs s'))) /\ reach g s' (next o (OAlloc d n gr) r (sevs s')) /\
  ~ In r (map bp (blocks o)).
Proof. exact alloc_block. Qed.
Print Assumptions C02_result_is_new.

(** ... and every block in use has at least the size asked, and lies inside one memory range given to the
    chain, beyond the 32 bytes of its header and the 16 bytes of the block header, and before the 16 bytes of
    the last header. *)
Theorem C02_blocks_inside : forall g s o, reach g s o -> forall b, In b (blocks o) ->
  exists u x z, usable s (bp b) u /\ bn b <= u /\ 1 <= bn b /\ In (x, z) (segs o) /\ x + 48 <= bp b /\ bp b + u <= x + z - 16.
Proof. exact blocks_inside. Qed.
Print Assumptions C02_blocks_inside.

(** The memory ranges are disjoint from each other and from the chain structure. *)
Theorem C02_ranges_disjoint : forall g s o, reach g s o -> ForallOrdPairs apart ((cpool g, POOL_SIZE) :: segs o).
Proof. exact segs_apart. Qed.
Print Assumptions C02_ranges_disjoint.

Example C02_nontrivial : reach gu SU OU /\ valid gu SU OU (OAlloc 256 1000 None) /\
  step 200 gu (OAlloc 256 1000 None) SU = Ok (1049088, after 200 gu (OAlloc 256 1000 None) SU) /\ reach gs SS OS /\ length (segs OS) = 2%nat.
Proof.
  split; [exact reach_U|]. split; [apply validb_ok; vm_compute; reflexivity|]. split; [apply step_at; vm_compute; congruence|].
  split; [exact reach_S|vm_compute; reflexivity].
Qed.

(** C03. Aligned blocks are multiples of the alignment asked; plain blocks are multiples of 16 when the
    memory ranges start on multiples of 16. *)
Theorem C03_blocks_aligned : forall g s o, reach g s o -> forall b, In b (blocks o) ->
  (1 < bd b -> bp b mod bd b = 0) /\
  ((forall x z, In (x, z) (segs o) -> x mod 16 = 0) -> bd b <= 1 -> bp b mod 16 = 0).
Proof. exact blocks_aligned. Qed.
Print Assumptions C03_blocks_aligned.

Example C03_nontrivial : reach gu SU OU /\ In (mkBlk 1048768 200 64) (blocks OU) /\ In (mkBlk 1049040 10 0) (blocks OU) /\
  forall x z, In (x, z) (segs OU) -> x mod 16 = 0.
Proof.
  split; [exact reach_U|]. split; [vm_compute; tauto|]. split; [vm_compute; tauto|]. intros x z H.
  assert (E : segs OU = [(1048576, 4096)]) by (vm_compute; reflexivity). rewrite E in H. destruct H as [H|[]]. injection H as <- _. reflexivity.
Qed.

(** C04. Through any sequence of calls not about the block [b], it stays live, keeps its usable size, and every
    byte of it that the program does not write itself keeps its value. *)
Theorem C04_content_undisturbed : forall g s o cs s' o' b u, reach g s o -> steps g s o cs s' o' -> In b (live o) ->
  (forall c, In c cs -> ~ target c (bp b)) -> usable s (bp b) u ->
  In b (live o') /\ usable s' (bp b) u /\
  forall x, bp b <= x < bp b + u -> (forall c, In c cs -> ~ written c x) -> smem s' x = smem s x.
Proof. exact steps_kept. Qed.
Print Assumptions C04_content_undisturbed.

(** One call. *)
Theorem C04_one_call : forall g s o c fuel r s' b u, reach g s o -> valid g s o c -> step fuel g c s = Ok (r, s') ->
  In b (live o) -> ~ target c (bp b) -> usable s (bp b) u ->
  In b (live (next o c r (sevs s'))) /\ usable s' (bp b) u /\
  forall x, bp b <= x < bp b + u -> ~ written c x -> smem s' x = smem s x.
Proof. exact step_kept. Qed.
Print Assumptions C04_one_call.

Example C04_nontrivial : reach gu SU OU /\ In (mkBlk 1048624 100 0) (live OU) /\ usable SU 1048624 112 /\ smem SU 1048700 = 7 /\
  exists s' o', steps gu SU OU [OFree 1048768; ORealloc 0 1049040 300 None; OAlloc 0 50 None] s' o'.
Proof.
  split; [exact reach_U|]. split; [vm_compute; tauto|]. split; [apply usable_at; vm_compute; congruence|]. split; [vm_compute; reflexivity|].
  do 2 eexists. eapply steps_cons with (fuel := 200%nat) (r := 0); [apply validb_ok; vm_compute; reflexivity|apply step_at; vm_compute; congruence|].
  eapply steps_cons with (fuel := 200%nat) (r := 1049072); [apply validb_ok; vm_compute; reflexivity|apply step_at; vm_compute; congruence|].
  eapply steps_cons with (fuel := 200%nat) (r := 1048752); [apply validb_ok; vm_compute; reflexivity|apply step_at; vm_compute; congruence|].
  apply steps_nil.
Qed.

(** C05. With fuel for one visit of every byte held by the chain, every valid call returns: no undefined
    behaviour, no abort, no endless loop; and it writes nothing outside the chain structure, the memory held
    by the chain, and the memory it gets during the call ([OStore m] is a store of the environment: memory becomes [m]). *)
Theorem C05_calls_return : forall g s o c fuel, reach g s o -> valid g s o c -> fuel_ok g o c fuel ->
  exists r s', step fuel g c s = Ok (r, s') /\ reach g s' (next o c r (sevs s')) /\
    forall x, (forall b z, In (b, z) ((cpool g, POOL_SIZE) :: segs o) \/ In (EGet b z) (sevs s') \/ c = ORefill b z -> ~ b <= x < b + z) ->
      smem s' x = match c with OStore m => m x | _ => smem s x end.
Proof. exact step_runs. Qed.
Print Assumptions C05_calls_return.

(** Whatever the fuel, the only other outcome is to run out of it. *)
Theorem C05_no_undefined_behaviour : forall g s o c fuel, reach g s o -> valid g s o c ->
  step fuel g c s = OutOfFuel \/ exists r s', step fuel g c s = Ok (r, s').
Proof. exact step_safe. Qed.
Print Assumptions C05_no_undefined_behaviour.

(** The creation of a chain returns as well. *)
Theorem C05_init_returns : forall g m, wf_cfg g -> exists s, base_init g (init_state g m) = Ok (tt, s) /\ reach g s (mkObs [] [] []) /\
  (forall x, ~ cpool g <= x < cpool g + POOL_SIZE -> smem s x = m x).
Proof. exact init_runs. Qed.
Print Assumptions C05_init_returns.

Example C05_nontrivial : wf_cfg gs /\ reach gu SG OG /\ valid gu SG OG OPurge /\ fuel_ok gu OG OPurge (Z.to_nat 4097) /\ length (pend OG) = 1%nat.
Proof.
  split; [unfold wf_cfg; vm_compute; split; congruence|]. split; [exact reach_G|]. split; [exact I|]. split; [|vm_compute; reflexivity].
  unfold fuel_ok. rewrite Z2Nat.id by lia. vm_compute. reflexivity.
Qed.

(** C12. From the pointer alone the allocator finds the chunk [[w, w+c)] that encloses the block, for plain
    and for aligned blocks: this chunk is one of the occupied chunks of a segment, the block reaches exactly
    to its end.  (That such pointers can be freed, freed remotely, resized is in C05: these are valid calls.) *)
Theorem C12_enclosing_chunk : forall g s o, reach g s o -> forall b u, In b (blocks o) -> usable s (bp b) u ->
  exists w c x z, occ (smem s) (bp b) = (w, c) /\ In (x, z) (segs o) /\ In (w, c) (occ_in (smem s) (x, z)) /\
    x + 32 <= w /\ w + 16 <= bp b /\ bp b + u = w + c /\ w + c <= x + z - 16 /\ (bd b <= 1 -> bp b = w + 16) /\
    get_chunk_unpadded (bp b) s = Ok (w + 15, s).
Proof. exact block_occ. Qed.
Print Assumptions C12_enclosing_chunk.

Example C12_nontrivial : reach gu SU OU /\ In (mkBlk 1048768 200 64) (blocks OU) /\ usable SU 1048768 256 /\
  occ (smem SU) 1048768 = (1048736, 288) /\ valid gu SU OU (OFree 1048768) /\ valid gu SU OU (ORemote 1048768).
Proof.
  split; [exact reach_U|]. split; [vm_compute; tauto|]. split; [apply usable_at; vm_compute; congruence|].
  split; [vm_compute; reflexivity|]. split; apply validb_ok; vm_compute; reflexivity.
Qed.

(** C13. The reported size is at least the size asked, and no byte of the range it describes belongs to the
    chain structure, to the header or the stopper of a segment, to the header of a chunk, to a free chunk or to
    another block. *)
Theorem C13_usable_size : forall g s o b, reach g s o -> In b (blocks o) -> exists u, usable s (bp b) u /\ bn b <= u /\
  forall x, bp b <= x < bp b + u ->
    ~ cpool g <= x < cpool g + POOL_SIZE /\
    (forall b' u', In b' (blocks o) -> b' <> b -> usable s (bp b') u' -> ~ bp b' <= x < bp b' + u') /\
    (exists y z, In (y, z) (segs o) /\ y + 48 <= x < y + z - 16) /\
    (forall y z w c f, In (y, z) (segs o) -> In (w, c, f) (chunks (smem s) (y, z)) ->
       ~ w <= x < w + 16 /\ (w <= x < w + c -> f = false /\ occ (smem s) (bp b) = (w, c))).
Proof. exact size_harmless. Qed.
Print Assumptions C13_usable_size.

Example C13_nontrivial : reach gu SU OU /\ In (mkBlk 1048768 200 64) (blocks OU) /\
  chunks (smem SU) (1048576, 4096) = [(1048608, 128, false); (1048736, 288, false); (1049024, 32, false); (1049056, 3600, true)].
Proof. split; [exact reach_U|]. split; [vm_compute; tauto|vm_compute; reflexivity]. Qed.

(** C13 is false for the sizes excluded from the valid requests: on a chain with a memory source, a request
    of [k * 2 MB - 48] bytes gets, with everything else valid, a block that is 16 bytes too small. *)
Theorem C13_huge_gap_refuted : exists s s' r u n b,
  reach gs s (mkObs [] [] []) /\ n = 2097152 - 48 /\ new_range gs (mkObs [] [] []) b (ask_size 0 n) /\
  step 200 gs (OAlloc 0 n (Some b)) s = Ok (r, s') /\ r <> 0 /\ usable s' r u /\ u < n.
Proof.
  set (n := 2097152 - 48). set (c := OAlloc 0 n (Some (4 * MB2))).
  exists (fin_s 200 gs []), (after 200 gs c (fin_s 200 gs [])), 8388656, 2097088, n, (4 * MB2).
  split; [change (mkObs [] [] []) with (fin_o 200 gs []); apply fin_reach; vm_compute; reflexivity|].
  split; [reflexivity|]. split; [apply new_rangeb_ok; vm_compute; reflexivity|].
  split; [apply step_at; vm_compute; congruence|]. split; [discriminate|]. split; [apply usable_at; vm_compute; congruence|reflexivity].
Qed.
Print Assumptions C13_huge_gap_refuted.
