(** Properties C06-C08, C14, C18, C19, C21-C23: capacity of a chain and exchanges with its memory source.
    [chunks m r]: the chunks of the segment [r] read from memory (start, size, free); [occ m p]: the memory
    occupied by the block [p], headers included; [room d n]: bytes taken by a request. *)
From Verif Require Import Word Res Mem ChainModel ChainSpec ChainProps ChainWalk ChainCap ChainSrc ChainMore ChainExtra ChainRun.
From Coq Require Import ZArith List Bool Lia Permutation.
Import ListNotations.
Open Scope Z_scope.

(** C06. On a user chain with merging, whenever no block is in use each segment is one single free chunk, and
    any request that fits in some segment (of at most 2 MB, see C21) succeeds. *)
Theorem C06_empty_is_whole : forall g s o, reach g s o -> csrc g = false -> cmerge g = true -> blocks o = [] ->
  (forall x z, In (x, z) (segs o) -> chunks (smem s) (x, z) = [(x + 32, z - 48, true)]) /\
  (forall d n gr fuel r s', valid g s o (OAlloc d n gr) -> 0 < n -> step fuel g (OAlloc d n gr) s = Ok (r, s') ->
     (exists x z, In (x, z) (segs o) /\ room d n <= z - 48 <= 2097152) -> r <> 0).
Proof. exact empty_restores. Qed.
Print Assumptions C06_empty_is_whole.

(** So a request that succeeded in any other state of a chain with the same segments succeeds again. *)
Theorem C06_capacity_restored : forall g s o s1 o1 d n gr gr1 fuel fuel1 r r1 s' s1',
  reach g s o -> reach g s1 o1 -> csrc g = false -> cmerge g = true -> blocks o = [] ->
  segs o1 = segs o -> (forall x z, In (x, z) (segs o) -> z <= 2097152 + 48) ->
  valid g s o (OAlloc d n gr) -> valid g s1 o1 (OAlloc d n gr1) ->
  step fuel1 g (OAlloc d n gr1) s1 = Ok (r1, s1') -> r1 <> 0 ->
  step fuel g (OAlloc d n gr) s = Ok (r, s') -> r <> 0.
Proof. exact empty_is_best. Qed.
Print Assumptions C06_capacity_restored.

Example C06_nontrivial : reach gu SE OE /\ csrc gu = false /\ cmerge gu = true /\ blocks OE = [] /\ segs OE = [(1048576, 4096)] /\
  reach gu (fin_s 200 gu [ORefill 1048576 4096]) (fin_o 200 gu [ORefill 1048576 4096]) /\
  valid gu SE OE (OAlloc 0 4032 None) /\ room 0 4032 = 4048 /\
  step 200 gu (OAlloc 0 4032 None) (fin_s 200 gu [ORefill 1048576 4096]) =
    Ok (1048624, after 200 gu (OAlloc 0 4032 None) (fin_s 200 gu [ORefill 1048576 4096])).
Proof.
  split; [exact reach_E|]. split; [reflexivity|]. split; [reflexivity|]. split; [vm_compute; reflexivity|]. split; [vm_compute; reflexivity|].
  split; [apply fin_reach; vm_compute; reflexivity|]. split; [apply validb_ok; vm_compute; reflexivity|]. split; [vm_compute; reflexivity|].
  apply step_at; vm_compute; congruence.
Qed.

(** C07. When an allocation fails on a user chain, every free chunk (up to 2 MB) is too small; with merging,
    every range of a segment (of at most 2 MB) that meets no block in use is too small. *)
Theorem C07_fails_only_when_full : forall g s o d n gr fuel s', reach g s o -> valid g s o (OAlloc d n gr) -> csrc g = false -> 0 < n ->
  step fuel g (OAlloc d n gr) s = Ok (0, s') ->
  (forall x z w c, In (x, z) (segs o) -> In (w, c) (free_in (smem s) (x, z)) -> c <= 2097152 -> c < room d n) /\
  (cmerge g = true -> forall x z w k, In (x, z) (segs o) -> z <= 2097152 -> x + 32 <= w -> w + k <= x + z - 16 ->
     (forall b, In b (blocks o) -> apart (w, k) (occ (smem s) (bp b))) -> k < room d n).
Proof. exact fails_only_full. Qed.
Print Assumptions C07_fails_only_when_full.

(** With or without source: if a free chunk (up to 2 MB) is large enough the allocation succeeds, without
    asking the source. *)
Theorem C07_succeeds_with_room : forall g s o d n gr fuel r s', reach g s o -> valid g s o (OAlloc d n gr) ->
  step fuel g (OAlloc d n gr) s = Ok (r, s') -> 0 < n -> ~ (csrc g = true /\ huge d n) ->
  (exists x z w c, In (x, z) (segs o) /\ In (w, c) (free_in (smem s) (x, z)) /\ room d n <= c <= 2097152) -> r <> 0 /\ sevs s' = [].
Proof. exact alloc_succeeds. Qed.
Print Assumptions C07_succeeds_with_room.

Example C07_nontrivial : reach gu SG OG /\ valid gu SG OG (OAlloc 0 3600 None) /\
  step 200 gu (OAlloc 0 3600 None) SG = Ok (0, after 200 gu (OAlloc 0 3600 None) SG) /\
  free_in (smem SG) (1048576, 4096) = [(1048736, 288); (1049056, 3600)] /\
  valid gu SG OG (OAlloc 0 272 None) /\ step 200 gu (OAlloc 0 272 None) SG = Ok (1048752, after 200 gu (OAlloc 0 272 None) SG).
Proof.
  split; [exact reach_G|]. split; [apply validb_ok; vm_compute; reflexivity|]. split; [apply step_at; vm_compute; congruence|].
  split; [vm_compute; reflexivity|]. split; [apply validb_ok; vm_compute; reflexivity|apply step_at; vm_compute; congruence].
Qed.

(** C08. On a user chain the occupied chunks of a segment are exactly those of the blocks in use there, and
    48 bytes of headers, the bytes of the blocks and the free bytes add up to the size of the segment. *)
Theorem C08_bytes_conserved : forall g s o, reach g s o -> csrc g = false -> forall r, In r (segs o) ->
  Permutation (occ_in (smem s) r) (map (fun b => occ (smem s) (bp b)) (filter (inside r) (blocks o))) /\
  48 + total (map (fun b => occ (smem s) (bp b)) (filter (inside r) (blocks o))) + total (free_in (smem s) r) = snd r.
Proof. exact conserved. Qed.
Print Assumptions C08_bytes_conserved.

(** In every segment of every chain the chunks follow each other from the first to the stopper. *)
Theorem C08_chunks_tile : forall g s o, reach g s o -> forall r, In r (segs o) ->
  walk (Z.to_nat (snd r)) (smem s) (fst r + 32) (fst r + snd r - 16) = Some (chunks (smem s) r) /\
  forall w c f, In (w, c, f) (chunks (smem s) r) -> 32 <= c /\ c mod 16 = 0.
Proof. exact walk_ok. Qed.
Print Assumptions C08_chunks_tile.

Example C08_nontrivial : reach gu SG OG /\ csrc gu = false /\ In (1048576, 4096) (segs OG) /\
  occ_in (smem SG) (1048576, 4096) = [(1048608, 128); (1049024, 32)] /\ total (free_in (smem SG) (1048576, 4096)) = 3888.
Proof. split; [exact reach_G|]. split; [reflexivity|]. split; [vm_compute; tauto|]. split; vm_compute; reflexivity. Qed.

(** C14. A request (that does not wrap around) larger than every segment fails and changes nothing, on a user
    chain or when the source refuses. *)
Theorem C14_too_big_fails : forall g s o d n gr fuel r s', reach g s o -> valid g s o (OAlloc d n gr) -> csrc g = false \/ gr = None ->
  (forall x z, In (x, z) (segs o) -> z - 48 < room d n) -> step fuel g (OAlloc d n gr) s = Ok (r, s') ->
  r = 0 /\ s' = clear_ev s.
Proof. exact too_big. Qed.
Print Assumptions C14_too_big_fails.

Example C14_nontrivial : reach gu SU OU /\ valid gu SU OU (OAlloc 4096 (2 ^ 62) None) /\
  (forall x z, In (x, z) (segs OU) -> z - 48 < room 4096 (2 ^ 62)) /\
  step 200 gu (OAlloc 4096 (2 ^ 62) None) SU = Ok (0, after 200 gu (OAlloc 4096 (2 ^ 62) None) SU).
Proof.
  split; [exact reach_U|]. split; [apply validb_ok; vm_compute; reflexivity|]. split.
  - intros x z H. assert (E : segs OU = [(1048576, 4096)]) by (vm_compute; reflexivity). rewrite E in H. destruct H as [H|[]]. injection H as <- <-. reflexivity.
  - apply step_at; vm_compute; congruence.
Qed.

(** C14 is false for sizes that wrap around.  On a user chain the last 16 sizes are served as a request of one
    byte, whatever the state ... *)
Theorem C14_wrap_refuted : forall fuel g gr s n, csrc g = false -> 2 ^ 64 - 16 <= n < 2 ^ 64 ->
  step fuel g (OAlloc 0 n gr) s = step fuel g (OAlloc 0 1 gr) s.
Proof. exact alloc_wraps. Qed.
Print Assumptions C14_wrap_refuted.

(** ... which succeeds here; with an alignment the sum wraps as well; and a chain with a memory source gives a
    segment of 2 MB for a request of 2^64 - 20 bytes. *)
Theorem C14_wrap_succeeds_refuted :
  (exists s', step 200 gu (OAlloc 0 (2 ^ 64 - 1) None) SU = Ok (1049072, s') /\ usable s' 1049072 16) /\
  (exists s', step 200 gu (OAlloc 64 (2 ^ 64 - 64) None) SU = Ok (1049088, s')) /\
  (exists s', step 200 gs (OAlloc 0 (2 ^ 64 - 20) (Some (4 * MB2))) (fin_s 200 gs []) = Ok (8388656, s') /\ usable s' 8388656 2097088).
Proof.
  split; [|split].
  - eexists. split; [apply step_at; vm_compute; congruence|apply usable_at; vm_compute; congruence].
  - eexists. apply step_at; vm_compute; congruence.
  - eexists. split; [apply step_at; vm_compute; congruence|apply usable_at; vm_compute; congruence].
Qed.
Print Assumptions C14_wrap_succeeds_refuted.

(** C18. Giving a new buffer keeps the blocks and the free chunks of the other segments and adds one free chunk
    of 48 bytes less than the buffer.  (The content of live blocks is kept: C04.) *)
Theorem C18_refill_adds : forall g s o b z fuel r s', reach g s o -> valid g s o (ORefill b z) -> b <> 0 ->
  step fuel g (ORefill b z) s = Ok (r, s') ->
  let o' := next o (ORefill b z) r (sevs s') in
  segs o' = (b, z) :: segs o /\ live o' = live o /\ pend o' = pend o /\
  chunks (smem s') (b, z) = [(b + 32, z - 48, true)] /\
  (forall x y, In (x, y) (segs o) -> chunks (smem s') (x, y) = chunks (smem s) (x, y)).
Proof. exact refill_adds. Qed.
Print Assumptions C18_refill_adds.

Example C18_nontrivial : reach gu SG OG /\ valid gu SG OG (ORefill 1056768 8192) /\
  step 200 gu (ORefill 1056768 8192) SG = Ok (0, after 200 gu (ORefill 1056768 8192) SG).
Proof. split; [exact reach_G|]. split; [apply validb_ok; vm_compute; reflexivity|apply step_at; vm_compute; congruence]. Qed.

(** C18 is false for buffers whose size is not a multiple of 16 ("every buffer larger than 80 bytes"): after a
    refill with 4095 bytes, a request of 4030 bytes is undefined behaviour (the split underflows). *)
Theorem C18_odd_buffer_refuted : exists s, reach gu s (mkObs [] [] []) /\ exists s',
  step 200 gu (ORefill 1048576 4095) s = Ok (0, s') /\ step 200 gu (OAlloc 0 4030 None) s' = UB.
Proof.
  exists (fin_s 200 gu []). split; [change (mkObs [] [] []) with (fin_o 200 gu []); apply fin_reach; vm_compute; reflexivity|].
  eexists. split; [apply step_at; vm_compute; congruence|vm_compute; reflexivity].
Qed.
Print Assumptions C18_odd_buffer_refuted.

(** C19. On a chain with one segment the emptiness test is exact ... *)
Theorem C19_can_destroy_one_segment : forall g s o x z, reach g s o -> csrc g = false -> cmerge g = true -> segs o = [(x, z)] ->
  exists b, can_destroy g s = Ok (b, s) /\ (b = true <-> blocks o = []).
Proof. exact can_destroy_exact. Qed.
Print Assumptions C19_can_destroy_one_segment.

(** ... with several segments it only looks at the first one given (the last of the list). *)
Theorem C19_can_destroy_first_segment_partial : forall g s o l x z, reach g s o -> csrc g = false -> segs o = l ++ [(x, z)] ->
  exists b, can_destroy g s = Ok (b, s) /\
    (b = true -> forall k, In k (blocks o) -> inside (x, z) k = false) /\
    (cmerge g = true -> (forall k, In k (blocks o) -> inside (x, z) k = false) -> b = true).
Proof. exact can_destroy_first. Qed.
Print Assumptions C19_can_destroy_first_segment_partial.

Example C19_nontrivial : reach gu SU OU /\ segs OU = [(1048576, 4096)] /\ length (blocks OU) = 3%nat /\ reach gu SE OE /\ segs OE = [(1048576, 4096)] /\ blocks OE = [].
Proof. split; [exact reach_U|]. split; [vm_compute; reflexivity|]. split; [vm_compute; reflexivity|]. split; [exact reach_E|]. split; vm_compute; reflexivity. Qed.

(** C19 is false with several segments: the test answers true while a block is live in the second one; and it
    reads unmapped memory on a chain that got no segment yet. *)
Theorem C19_several_segments_refuted : exists s o, reach gu s o /\ live o = [mkBlk 1056816 5000 0] /\ exists s', can_destroy gu s = Ok (true, s').
Proof.
  exists (fin_s 200 gu h19), (fin_o 200 gu h19). split; [apply fin_reach; vm_compute; reflexivity|]. split; [vm_compute; reflexivity|].
  assert (E : match can_destroy gu (fin_s 200 gu h19) with Ok (b, _) => b | _ => false end = true) by (vm_compute; reflexivity).
  destruct (can_destroy gu (fin_s 200 gu h19)) as [[[] s']| | |]; try discriminate. exists s'. reflexivity.
Qed.
Print Assumptions C19_several_segments_refuted.
Theorem C19_no_segment_refuted : exists s, reach gu s (mkObs [] [] []) /\ can_destroy gu s = UB.
Proof.
  exists (fin_s 200 gu []). split; [change (mkObs [] [] []) with (fin_o 200 gu []); apply fin_reach; vm_compute; reflexivity|vm_compute; reflexivity].
Qed.
Print Assumptions C19_no_segment_refuted.

(** C21, consequence for chains: a user chain with a buffer of 4 MB cannot serve a request of 10 bytes. *)
Theorem C21_big_segment_refuted : exists s o, reach gu s o /\ segs o = [(2 * MB2, 2 * MB2)] /\ blocks o = [] /\ valid gu s o (OAlloc 0 10 None) /\
  exists s', step 200 gu (OAlloc 0 10 None) s = Ok (0, s').
Proof.
  set (h := [ORefill (2 * MB2) (2 * MB2)]). exists (fin_s 200 gu h), (fin_o 200 gu h). split; [apply fin_reach; vm_compute; reflexivity|].
  split; [vm_compute; reflexivity|]. split; [vm_compute; reflexivity|]. split; [apply validb_ok; vm_compute; reflexivity|].
  eexists. apply step_at; vm_compute; congruence.
Qed.
Print Assumptions C21_big_segment_refuted.

(** C22. The chain counts the segments it holds ... *)
Theorem C22_segments_counted : forall g s o, reach g s o -> csrc g = true -> scnt s = Z.of_nat (length (segs o)).
Proof. exact source_count. Qed.
Print Assumptions C22_segments_counted.

(** ... a segment put back was held, is no longer held after the call, and no block in use after the call lies in it ... *)
Theorem C22_put_back_is_unused : forall g s o c fuel r s' b, reach g s o -> valid g s o c -> step fuel g c s = Ok (r, s') -> In (EPut b) (sevs s') ->
  let o' := next o c r (sevs s') in
  csrc g = true /\ (exists z, In (b, z) (segs o)) /\ ~ In b (map fst (segs o')) /\
  (forall z k, In (b, z) (segs o) -> In k (blocks o') -> inside (b, z) k = false).
Proof. exact source_put. Qed.
Print Assumptions C22_put_back_is_unused.

(** ... it is put back once by the call ... *)
Theorem C22_put_back_once : forall g s o c fuel r s' b, reach g s o -> valid g s o c -> step fuel g c s = Ok (r, s') ->
  forall l1 l2, sevs s' = l1 ++ EPut b :: l2 -> ~ In (EPut b) l1 /\ ~ In (EPut b) l2.
Proof. exact put_once. Qed.
Print Assumptions C22_put_back_once.

(** ... and no later than the call that releases its last block: in every state (with merging), every segment
    held contains a block in use, or a leaked piece of 1 MB or 1 MB + 16 bytes (C23). *)
Theorem C22_held_segments_in_use : forall g s o, reach g s o -> csrc g = true -> cmerge g = true -> forall x z, In (x, z) (segs o) ->
  (exists b, In b (blocks o) /\ inside (x, z) b = true) \/
  (exists w c, In (w, c) (occ_in (smem s) (x, z)) /\ 1048576 <= c <= 1048576 + 16).
Proof. exact source_busy. Qed.
Print Assumptions C22_held_segments_in_use.

(** What the chain takes from its source is what the source offered. *)
Theorem C22_gets_fresh : forall g s o c fuel r s' b z, reach g s o -> valid g s o c -> step fuel g c s = Ok (r, s') ->
  In (EGet b z) (sevs s') -> csrc g = true /\ new_range g o b z.
Proof. exact gets_new. Qed.
Print Assumptions C22_gets_fresh.

Example C22_nontrivial : reach gs SS OS /\ csrc gs = true /\ cmerge gs = true /\ length (segs OS) = 2%nat /\ valid gs SS OS (OFree 16777264) /\
  step 200 gs (OFree 16777264) SS = Ok (0, after 200 gs (OFree 16777264) SS) /\ sevs (after 200 gs (OFree 16777264) SS) = [EPut 16777216].
Proof.
  split; [exact reach_S|]. split; [reflexivity|]. split; [reflexivity|]. split; [vm_compute; reflexivity|].
  split; [apply validb_ok; vm_compute; reflexivity|]. split; [apply step_at; vm_compute; congruence|vm_compute; reflexivity].
Qed.

(** C23. What becomes of the memory [[w, w+c)] of a freed block: its segment goes back to the source, or [c] is
    1 MB or 1 MB + 16 (band between the two limits of the code), or it is inside a free chunk. *)
Theorem C23_freed_memory_fate_partial : forall g s o p n d fuel r s', reach g s o -> In (mkBlk p n d) (live o) -> step fuel g (OFree p) s = Ok (r, s') ->
  let o' := next o (OFree p) r (sevs s') in let w := fst (occ (smem s) p) in let c := snd (occ (smem s) p) in
  (csrc g = true /\ exists b z, In (b, z) (segs o) /\ b <= p < b + z /\ sevs s' = [EPut b]) \/
  (csrc g = true /\ sevs s' = [] /\ 1048576 <= c <= 1048576 + 16) \/
  (sevs s' = [] /\ (csrc g = true -> c <= 1048576 - 16) /\
    exists x z w' t, In (x, z) (segs o') /\ In (w', t) (free_in (smem s') (x, z)) /\ w' <= w /\ w + c <= w' + t /\
      (csrc g = true -> t <= 2097152) /\
      ((forall v t', In (v, t') (all_free (smem s) o) -> v + t' <> w) \/ cmerge g = false -> w' = w)).
Proof. exact free_fate. Qed.
Print Assumptions C23_freed_memory_fate_partial.

(** In the last case the next request that fits succeeds without the source. *)
Theorem C23_freed_memory_reusable_partial : forall g s o p n d fuel r s' fuel2 d2 n2 gr r2 s2, reach g s o -> In (mkBlk p n d) (live o) ->
  step fuel g (OFree p) s = Ok (r, s') -> sevs s' = [] -> let c := snd (occ (smem s) p) in
  (if csrc g then ~ (1048576 <= c <= 1048576 + 16) else forall x z, In (x, z) (segs o) -> z <= 2097152 + 48) ->
  let o' := next o (OFree p) r (sevs s') in
  valid g s' o' (OAlloc d2 n2 gr) -> 0 < n2 -> room d2 n2 <= c -> step fuel2 g (OAlloc d2 n2 gr) s' = Ok (r2, s2) ->
  r2 <> 0 /\ sevs s2 = [].
Proof. exact free_reusable. Qed.
Print Assumptions C23_freed_memory_reusable_partial.

Example C23_nontrivial : reach gs SS OS /\ In (mkBlk 8388656 100 0) (live OS) /\ occ (smem SS) 8388656 = (8388640, 128) /\
  step 200 gs (OFree 8388656) SS = Ok (0, after 200 gs (OFree 8388656) SS) /\ sevs (after 200 gs (OFree 8388656) SS) = [] /\
  step 200 gs (OAlloc 0 112 None) (after 200 gs (OFree 8388656) SS) = Ok (8388656, after 200 gs (OAlloc 0 112 None) (after 200 gs (OFree 8388656) SS)).
Proof.
  split; [exact reach_S|]. split; [vm_compute; tauto|]. split; [vm_compute; reflexivity|]. split; [apply step_at; vm_compute; congruence|].
  split; [vm_compute; reflexivity|apply step_at; vm_compute; congruence].
Qed.

(** C23 is false in the band: freeing such a block changes nothing at all, whatever the history ... *)
Theorem C23_band_refuted : forall g s o p n d fuel, reach g s o -> In (mkBlk p n d) (live o) -> csrc g = true ->
  1048576 <= snd (occ (smem s) p) <= 1048576 + 16 -> step fuel g (OFree p) s = Ok (0, clear_ev s).
Proof. exact free_band. Qed.
Print Assumptions C23_band_refuted.

(** ... and the band is reached by requests of 1048560 bytes (1 MB - 16). *)
Theorem C23_band_reached_refuted : reach gs SS OS /\ In (mkBlk 8388784 1048560 0) (live OS) /\ csrc gs = true /\ snd (occ (smem SS) 8388784) = 1048576.
Proof. split; [exact reach_S|]. split; [vm_compute; tauto|]. split; [reflexivity|vm_compute; reflexivity]. Qed.
Print Assumptions C23_band_reached_refuted.
