(** Property C67: realloc of a huge block with mremap (the code under HAVE_MREMAP). *)
From Verif Require Import Word Res Mem ChainModel ChainSpec ChainProps ChainRun RemapModel RemapProofs.
From Coq Require Import ZArith List Bool Lia.
Import ListNotations.
Open Scope Z_scope.

(** C67. The system moves (or extends) a huge block: the block is where the new mapping is, has the size asked, keeps its content up to the
    smaller of the two sizes; the state is one that the chain may reach, with the old segment replaced by the new one; the other blocks keep
    their size and content; nothing outside the new mapping is written and neither the free lists nor the remote queue are touched (this is why
    sctk_alloc_posix.c 845-851 may call it without the lock of the chain). *)
Theorem C67_moves : forall g s o p m d x z u nb n fuel gr h,
  reach g s o -> csrc g = true -> In (mkBlk p m d) (live o) -> In (x, z) (segs o) -> p = x + 48 -> x mod 4096 = 0 ->
  usable s p u -> 1048576 < u -> 1048576 < n -> n < 2 ^ 63 - 64 -> (n + 47) mod 2097152 < 2097152 - 16 -> 0 < cfactor g ->
  ~ (n <= u /\ u - n <= cthresh g /\ u - n <= u / cfactor g) ->
  new_range g (mkObs (rm p (live o)) (pend o) (filter (fun '(y, _) => negb (y =? x)) (segs o))) nb (ask_size 0 n) ->
  exists s', realloc_remap fuel g true (Some nb) gr h p n (clear_ev s) = Ok (nb + 48, s') /\
    reach g (clear_ev s') (mkObs (mkBlk (nb + 48) n 0 :: rm p (live o)) (pend o)
                                 ((nb, ask_size 0 n) :: filter (fun '(y, _) => negb (y =? x)) (segs o))) /\
    sevs s' = [EGet nb (ask_size 0 n); EPut x] /\
    usable s' (nb + 48) (ask_size 0 n - 64) /\
    (forall i, 0 <= i < u -> i < ask_size 0 n - 64 -> smem s' (nb + 48 + i) = smem s (p + i)) /\
    (forall y, ~ nb <= y < nb + ask_size 0 n -> smem s' y = smem s y) /\
    (forall b v, In b (live o) -> bp b <> p -> usable s (bp b) v -> usable s' (bp b) v /\ forall y, bp b <= y < bp b + v -> smem s' y = smem s y) /\
    sbase s' = sbase s /\ send s' = send s /\ scnt s' = scnt s /\ rqh s' = rqh s /\ rqt s' = rqt s.
Proof. exact remap_moves. Qed.
Print Assumptions C67_moves.
(** Where the branch is not taken the call is the one of the build without mremap: no remap in the source, no source, a new size of at most
    1 MB, the null pointer; or a block that is not huge. *)
Theorem C67_not_taken : forall g rm ans gr h p n fuel s, rm = false \/ csrc g = false \/ n <= 1048576 \/ p = 0 ->
  realloc_remap fuel g rm ans gr h p n s = chain_realloc fuel g gr h p n s.
Proof. exact remap_same. Qed.
Print Assumptions C67_not_taken.
Theorem C67_not_taken_small : forall g s o p m d u rm ans gr h n fuel, reach g s o -> In (mkBlk p m d) (live o) -> d <= 1 ->
  usable s p u -> u <= 1048576 ->
  realloc_remap fuel g rm ans gr h p n (clear_ev s) = chain_realloc fuel g gr h p n (clear_ev s).
Proof. exact remap_same_small. Qed.
Print Assumptions C67_not_taken_small.
(** A block large enough and not too large is left where it is, whatever the source and the answer. *)
Theorem C67_kept : forall g s o p m d u rm ans gr h n fuel, reach g s o -> In (mkBlk p m d) (live o) -> d <= 1 -> usable s p u -> 0 < cfactor g ->
  0 < n <= u -> u - n <= cthresh g -> u - n <= u / cfactor g -> realloc_remap fuel g rm ans gr h p n (clear_ev s) = Ok (p, clear_ev s).
Proof. exact remap_kept. Qed.
Print Assumptions C67_kept.
(** Refuted: "when no memory is left, realloc returns NULL and the block stays": the program stops, for every such block. *)
Theorem C67_no_memory_refuted : forall g s o p m d x z u n fuel gr h,
  reach g s o -> csrc g = true -> In (mkBlk p m d) (live o) -> In (x, z) (segs o) -> p = x + 48 -> x mod 4096 = 0 ->
  usable s p u -> 1048576 < u -> 1048576 < n -> 0 < cfactor g -> ~ (n <= u /\ u - n <= cthresh g /\ u - n <= u / cfactor g) ->
  realloc_remap fuel g true None gr h p n (clear_ev s) = Abort.
Proof. exact remap_refused. Qed.
Print Assumptions C67_no_memory_refuted.
(** Refuted: "any block may be passed to realloc": a huge block got with an alignment does not start 48 bytes after its segment; the address
    given to the system is not a multiple of the page size and the program stops, whatever the system would answer. *)
Theorem C67_aligned_refuted : forall g s o p m d u n fuel ans gr h,
  reach g s o -> csrc g = true -> In (mkBlk p m d) (live o) -> 1 < d -> d mod 16 = 0 ->
  (forall x z, In (x, z) (segs o) -> p <> x + 48) -> usable s p u -> 1048576 < u -> 1048576 < n -> 0 < cfactor g ->
  (forall x z, In (x, z) (segs o) -> x < p < x + z -> ~ (n <= z - 64 /\ z - 64 - n <= cthresh g /\ z - 64 - n <= (z - 64) / cfactor g)) ->
  realloc_remap fuel g true ans gr h p n (clear_ev s) = Abort.
Proof. exact remap_padded. Qed.
Print Assumptions C67_aligned_refuted.

(** A huge block of 2000000 bytes beside a small one, extended to 5000000 bytes at another address, or at the same. *)
Definition hm : list op := [OAlloc 0 100 (Some (4 * MB2)); OAlloc 0 2000000 (Some (8 * MB2)); OWrite (8 * MB2 + 48 + 7) 77].
Definition sm : st := fin_s 200 gs hm.
Definition om : obs := fin_o 200 gs hm.
Example C67_moves_nontrivial : reach gs sm om /\ csrc gs = true /\ In (mkBlk (8 * MB2 + 48) 2000000 0) (live om) /\ In (8 * MB2, MB2) (segs om) /\
  (8 * MB2) mod 4096 = 0 /\ usable sm (8 * MB2 + 48) (MB2 - 64) /\ 1048576 < MB2 - 64 /\ (5000000 + 47) mod 2097152 < 2097152 - 16 /\ 0 < cfactor gs /\
  ask_size 0 5000000 = 6291456 /\ smem sm (8 * MB2 + 48 + 7) = 77 /\
  new_range gs (mkObs (rm (8 * MB2 + 48) (live om)) (pend om) (filter (fun '(y, _) => negb (y =? 8 * MB2)) (segs om))) (20 * MB2) (ask_size 0 5000000) /\
  new_range gs (mkObs (rm (8 * MB2 + 48) (live om)) (pend om) (filter (fun '(y, _) => negb (y =? 8 * MB2)) (segs om))) (8 * MB2) (ask_size 0 5000000).
Proof.
  split; [apply fin_reach; vm_compute; reflexivity|]. split; [reflexivity|]. split; [vm_compute; left; reflexivity|]. split; [vm_compute; left; reflexivity|].
  split; [vm_compute; reflexivity|]. split; [apply usable_at; [vm_compute; reflexivity|vm_compute; discriminate]|]. split; [vm_compute; reflexivity|]. split; [vm_compute; reflexivity|]. split; [vm_compute; reflexivity|].
  split; [vm_compute; reflexivity|]. split; [vm_compute; reflexivity|]. split; apply new_rangeb_ok; vm_compute; reflexivity.
Qed.
Definition ran (r : res (Z * st)) (f : Z -> st -> list Z) : list Z := match r with Ok (a, s) => f a s | _ => [] end.
Example C67_moves_run : ran (realloc_remap 200 gs true (Some (20 * MB2)) None 0 (8 * MB2 + 48) 5000000 (clear_ev sm))
  (fun a s => a - 20 * MB2 :: smem s (a + 7) :: ran (usable_size a s) (fun u _ => [u])) = [48; 77; 6291456 - 64].
Proof. vm_compute. reflexivity. Qed.
Example C67_not_taken_nontrivial : ran (realloc_remap 200 gs true (Some (20 * MB2)) (Some (20 * MB2)) 0 (4 * MB2 + 48) 5000000 (clear_ev sm))
  (fun a s => [a - 20 * MB2]) = [48] /\ usable sm (4 * MB2 + 48) 112.
Proof. split; [vm_compute; reflexivity|apply usable_at; [vm_compute; reflexivity|vm_compute; discriminate]]. Qed.
Example C67_kept_nontrivial : 0 < 1500000 <= MB2 - 64 /\ MB2 - 64 - 1500000 <= cthresh gs /\ MB2 - 64 - 1500000 <= (MB2 - 64) / cfactor gs /\
  ran (realloc_remap 200 gs true (Some (20 * MB2)) None 0 (8 * MB2 + 48) 1500000 (clear_ev sm)) (fun a s => [a - 8 * MB2]) = [48].
Proof. split; [unfold MB2; lia|]. split; [vm_compute; discriminate|]. split; [vm_compute; discriminate|]. vm_compute. reflexivity. Qed.
(** A block of 2000000 bytes aligned on 4096. *)
Definition ha : list op := [OAlloc 4096 2000000 (Some (4 * MB2))].
Example C67_aligned_nontrivial : reach gs (fin_s 200 gs ha) (fin_o 200 gs ha) /\ In (mkBlk (4 * MB2 + 4096) 2000000 4096) (live (fin_o 200 gs ha)) /\
  segs (fin_o 200 gs ha) = [(4 * MB2, MB2)] /\ usable (fin_s 200 gs ha) (4 * MB2 + 4096) (MB2 - 4096 - 16) /\
  realloc_remap 200 gs true (Some (20 * MB2)) None 0 (4 * MB2 + 4096) 5000000 (clear_ev (fin_s 200 gs ha)) = Abort.
Proof.
  split; [apply fin_reach; vm_compute; reflexivity|]. split; [vm_compute; left; reflexivity|]. split; [vm_compute; reflexivity|]. split; [apply usable_at; [vm_compute; reflexivity|vm_compute; discriminate]|].
  vm_compute. reflexivity.
Qed.
(** Refuted: "the block has the size asked": in the band excluded by C67_moves the headers (64 bytes) are counted for 48 only. *)
Theorem C67_gap_refuted : reach gs sm om /\ ask_size 0 4194256 = 4194304 /\
  ran (realloc_remap 200 gs true (Some (20 * MB2)) None 0 (8 * MB2 + 48) 4194256 (clear_ev sm))
      (fun a s => a - 20 * MB2 :: ran (usable_size a s) (fun u _ => [4194256 - u])) = [48; 16].
Proof. split; [apply fin_reach; vm_compute; reflexivity|]. split; vm_compute; reflexivity. Qed.
Print Assumptions C67_gap_refuted.
