(** Properties C09-C11, C16, C17, C42: conventions, reallocation, invalid pointers, remote frees. *)
From Verif Require Import Word Res Mem ChainModel ChainSpec ChainProps ChainWalk ChainMore ChainExtra ChainRun.
From Coq Require Import ZArith List Bool Lia.
Import ListNotations.
Open Scope Z_scope.

(** C09. Zero sizes and null pointers; in each case the state does not change or the call is another call. *)
Theorem C09_conventions : forall g s o, reach g s o -> forall fuel,
  (forall d gr, step fuel g (OAlloc d 0 gr) s = Ok (0, clear_ev s) /\ next o (OAlloc d 0 gr) 0 [] = o) /\
  (step fuel g (OFree 0) s = Ok (0, clear_ev s) /\ next o (OFree 0) 0 [] = o) /\
  (forall h gr, step fuel g (ORealloc h 0 0 gr) s = Ok (0, clear_ev s) /\ next o (ORealloc h 0 0 gr) 0 [] = o) /\
  (forall h n gr, n <> 0 -> step fuel g (ORealloc h 0 n gr) s = step fuel g (OAlloc h n gr) s /\
     forall r evs, next o (ORealloc h 0 n gr) r evs = next o (OAlloc h n gr) r evs) /\
  (forall h p gr, p <> 0 -> step fuel g (ORealloc h p 0 gr) s = step fuel g (OFree p) s /\
     forall r evs, next o (ORealloc h p 0 gr) r evs = next o (OFree p) r evs) /\
  (forall p r s', step fuel g (OFree p) s = Ok (r, s') -> r = 0).
Proof. exact conventions. Qed.
Print Assumptions C09_conventions.

Example C09_nontrivial : reach gu SU OU /\ length (live OU) = 3%nat.
Proof. split; [exact reach_U|vm_compute; reflexivity]. Qed.

(** C10. A successful reallocation of a plain block: the result has the new size, the bytes up to the smaller
    of the old usable size and the new size are kept (the old usable size is at least the old size asked),
    and when the result is another block the old one is not in use any more. *)
Theorem C10_realloc_keeps : forall g s o h p n gr fuel r s' m d u, reach g s o -> valid g s o (ORealloc h p n gr) ->
  step fuel g (ORealloc h p n gr) s = Ok (r, s') -> In (mkBlk p m d) (live o) -> n <> 0 -> r <> 0 -> usable s p u ->
  let o' := next o (ORealloc h p n gr) r (sevs s') in
  (exists d' u', In (mkBlk r n d') (live o') /\ usable s' r u' /\ n <= u') /\ m <= u /\
  (forall i, 0 <= i < Z.min u n -> smem s' (r + i) = smem s (p + i)) /\
  (r <> p -> ~ In p (map bp (blocks o')) /\ ~ In r (map bp (blocks o))).
Proof. exact realloc_keeps. Qed.
Print Assumptions C10_realloc_keeps.

Example C10_nontrivial : reach gu SU OU /\ In (mkBlk 1048624 100 0) (live OU) /\ usable SU 1048624 112 /\
  valid gu SU OU (ORealloc 0 1048624 1000 None) /\ valid gu SU OU (ORealloc 0 1048624 60 None) /\
  step 200 gu (ORealloc 0 1048624 1000 None) SU = Ok (1049072, after 200 gu (ORealloc 0 1048624 1000 None) SU) /\
  step 200 gu (ORealloc 0 1048624 60 None) SU = Ok (1048624, after 200 gu (ORealloc 0 1048624 60 None) SU).
Proof.
  split; [exact reach_U|]. split; [vm_compute; tauto|]. split; [apply usable_at; vm_compute; congruence|].
  split; [apply validb_ok; vm_compute; reflexivity|]. split; [apply validb_ok; vm_compute; reflexivity|].
  split; apply step_at; vm_compute; congruence.
Qed.

(** C10 is false for aligned blocks (the property is restricted to plain ones): reallocating the 200 byte block
    aligned on 64 to 272 bytes returns the same pointer, with 256 usable bytes. *)
Theorem C10_aligned_refuted : reach gu SU OU /\ In (mkBlk 1048768 200 64) (live OU) /\ exists s',
  step 200 gu (ORealloc 0 1048768 272 None) SU = Ok (1048768, s') /\ usable s' 1048768 256.
Proof.
  split; [exact reach_U|]. split; [vm_compute; tauto|]. eexists.
  split; [apply step_at; vm_compute; congruence|apply usable_at; vm_compute; congruence].
Qed.
Print Assumptions C10_aligned_refuted.

(** C11 is false: EVERY reallocation of a live block that returns NULL has freed the block, exactly as [free]
    does ... *)
Theorem C11_failed_realloc_frees_refuted : forall g s o h p n gr fuel s' m d, reach g s o -> valid g s o (ORealloc h p n gr) ->
  In (mkBlk p m d) (live o) -> n <> 0 ->
  step fuel g (ORealloc h p n gr) s = Ok (0, s') -> step fuel g (OFree p) s = Ok (0, s').
Proof. exact realloc_fail. Qed.
Print Assumptions C11_failed_realloc_frees_refuted.

(** ... so the next allocation may hand it out while the program still uses it. *)
Theorem C11_block_reused_refuted : reach gu SU OU /\ In (mkBlk 1048624 100 0) (live OU) /\ valid gu SU OU (ORealloc 0 1048624 8000 None) /\
  exists s1 s2, step 200 gu (ORealloc 0 1048624 8000 None) SU = Ok (0, s1) /\ step 200 gu (OAlloc 0 100 None) s1 = Ok (1048624, s2).
Proof.
  split; [exact reach_U|]. split; [vm_compute; tauto|]. split; [apply validb_ok; vm_compute; reflexivity|].
  do 2 eexists. split; apply step_at; vm_compute; congruence.
Qed.
Print Assumptions C11_block_reused_refuted.

(** C16. Freeing (or reallocating to 0 bytes) a pointer to the body of a free chunk stops the program ... *)
Theorem C16_free_chunk_detected : forall g s o x z p c, reach g s o -> In (x, z) (segs o) -> In (p - 16, c) (free_in (smem s) (x, z)) ->
  forall fuel, step fuel g (OFree p) s = Abort /\ forall h gr, step fuel g (ORealloc h p 0 gr) s = Abort.
Proof. exact free_twice. Qed.
Print Assumptions C16_free_chunk_detected.

(** ... in particular a second free right after the first, unless the block was merged with a free chunk before
    it (or belongs to the band of C23, or its segment went back to the source). *)
Theorem C16_double_free_detected_partial : forall g s o p n d fuel r s', reach g s o -> In (mkBlk p n d) (live o) -> d <= 1 ->
  step fuel g (OFree p) s = Ok (r, s') ->
  sevs s' = [] -> (csrc g = true -> ~ 1048576 <= snd (occ (smem s) p) <= 1048576 + 16) ->
  (forall v t, In (v, t) (all_free (smem s) o) -> v + t <> p - 16) \/ cmerge g = false ->
  forall fuel2, step fuel2 g (OFree p) s' = Abort.
Proof. exact free_free. Qed.
Print Assumptions C16_double_free_detected_partial.

Example C16_nontrivial : reach gu SU OU /\ In (mkBlk 1048624 100 0) (live OU) /\
  step 200 gu (OFree 1048624) SU = Ok (0, after 200 gu (OFree 1048624) SU) /\ sevs (after 200 gu (OFree 1048624) SU) = [] /\ csrc gu = false /\
  all_free (smem SU) OU = [(1049056, 3600)] /\ reach gu SG OG /\ In (1048752 - 16, 288) (free_in (smem SG) (1048576, 4096)).
Proof.
  split; [exact reach_U|]. split; [vm_compute; tauto|]. split; [apply step_at; vm_compute; congruence|]. split; [vm_compute; reflexivity|].
  split; [reflexivity|]. split; [vm_compute; reflexivity|]. split; [exact reach_G|vm_compute; tauto].
Qed.

(** C16 is false after such a merge: here 1048880 was freed and not handed out since, the block 1048752 of 230
    bytes is live; freeing 1048880 again succeeds silently and the next allocation returns memory in the middle
    of the live block. *)
Theorem C16_double_free_missed_refuted : reach gu S16 O16 /\ In (OFree 1048880) h16 /\ ~ In 1048880 (map bp (blocks O16)) /\
  In (mkBlk 1048752 230 0) (live O16) /\
  exists s1 s2, step 200 gu (OFree 1048880) S16 = Ok (0, s1) /\ step 200 gu (OAlloc 0 100 None) s1 = Ok (1048880, s2) /\ 1048752 <= 1048880 < 1048752 + 230.
Proof.
  split; [exact reach_16|]. split; [vm_compute; tauto|]. split; [vm_compute; intuition discriminate|]. split; [vm_compute; tauto|].
  do 2 eexists. split; [apply step_at; vm_compute; congruence|]. split; [apply step_at; vm_compute; congruence|lia].
Qed.
Print Assumptions C16_double_free_missed_refuted.

(** C17. In ANY state, a pointer whose preceding byte does not carry the mark 16 in its upper 5 bits: free and
    realloc change nothing, or stop the program in strict mode. *)
Theorem C17_foreign_ignored : forall g s p, p <> 0 -> accb (srng s) (p - 1) 1 = true -> ld (smem s) (p - 1) 1 / 8 <> 16 -> forall fuel,
  step fuel g (OFree p) s = (if cstrict g then Abort else Ok (0, clear_ev s)) /\
  forall h n gr, step fuel g (ORealloc h p n gr) s = (if cstrict g then Abort else Ok (0, clear_ev s)).
Proof. exact foreign. Qed.
Print Assumptions C17_foreign_ignored.

Example C17_nontrivial : accb (srng SU) (1048701 - 1) 1 = true /\ ld (smem SU) (1048701 - 1) 1 = 7.
Proof. split; vm_compute; reflexivity. Qed.

(** C42. The record of a remote free stays within the first 16 bytes of the freed block (and the first 8 of a
    block already in the queue) ... *)
Theorem C42_record_inside : forall g s o p n d fuel r s', reach g s o -> In (mkBlk p n d) (live o) -> step fuel g (ORemote p) s = Ok (r, s') ->
  forall x, smem s' x <> smem s x -> p <= x < p + 16 \/ exists b, In b (pend o) /\ bp b <= x < bp b + 8.
Proof. exact remote_writes. Qed.
Print Assumptions C42_record_inside.

(** ... and every block has at least 16 usable bytes. *)
Theorem C42_room_for_record : forall g s o, reach g s o -> forall b, In b (blocks o) -> exists u, usable s (bp b) u /\ 16 <= u.
Proof. exact remote_room. Qed.
Print Assumptions C42_room_for_record.

Example C42_nontrivial : reach gu SG OG /\ In (mkBlk 1048624 100 0) (live OG) /\ length (pend OG) = 1%nat /\
  step 200 gu (ORemote 1048624) SG = Ok (0, after 200 gu (ORemote 1048624) SG).
Proof. split; [exact reach_G|]. split; [vm_compute; tauto|]. split; [vm_compute; reflexivity|apply step_at; vm_compute; congruence]. Qed.
