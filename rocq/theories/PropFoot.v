(** Property C66: how much memory the allocator holds for the blocks in use. *)
From Verif Require Import Word Res Mem ChainModel ChainSpec ChainProps ChainRun LightModel PosixModel PosixSpec PosixEx ConcModel ConcSpec FootSpec ChainFoot PosixFoot.
From Coq Require Import ZArith List Bool Permutation Lia.
Import ListNotations.
Open Scope Z_scope.

(** C66. A chain with a memory source holds, for each of its blocks, at most 2 MB, or a segment as large as the block when it is huge; plus
    2 MB for each piece lost by a free (the band of C23). *)
Theorem C66_chain : forall g s o lk, reach g s o -> csrc g = true -> cmerge g = true -> lost (smem s) (segs o) (blocks o) lk ->
  held o <= footprint (smem s) (blocks o) + 2097152 * Z.of_nat (length lk).
Proof. exact chain_held. Qed.
Print Assumptions C66_chain.

(** What the process has mapped is at most what the cache may keep, plus the same for all the chains of the threads. *)
Theorem C66_process : forall e y O lk, sreach e y O -> 0 <= keep_max (elg e) -> 0 <= keep_mem (elg e) ->
  lost (ymem y) (thread_segs O) (thread_blocks O) lk ->
  total (lmap (ysrc y)) <= keep_mem (elg e) + keep_max (elg e) + footprint (ymem y) (thread_blocks O) + 2097152 * Z.of_nat (length lk).
Proof. exact seq_mapped. Qed.
Print Assumptions C66_process.
(** The same between any two pieces of calls of several threads. *)
Theorem C66_process_threads : forall e s O G lk, creach e s O G -> 0 <= keep_max (elg e) -> 0 <= keep_mem (elg e) ->
  lost (ymem (cy s)) (thread_segs O) (thread_blocks O) lk ->
  total (lmap (ysrc (cy s))) <= keep_mem (elg e) + keep_max (elg e) + footprint (ymem (cy s)) (thread_blocks O) + 2097152 * Z.of_nat (length lk).
Proof. exact conc_mapped. Qed.
Print Assumptions C66_process_threads.
(** The blocks counted are those that the program holds and those waiting in a queue; the lost pieces exist, are determined, and are in the
    band of C23. *)
Theorem C66_counted : forall e y O, sreach e y O -> (exists lk, lost (ymem y) (thread_segs O) (thread_blocks O) lk) /\
  (forall lk w c, lost (ymem y) (thread_segs O) (thread_blocks O) lk -> In (w, c) lk -> 1048576 <= c <= 1048576 + 16) /\
  (forall b, In b (thread_blocks O) <-> exists i, i <> 0%nat /\ (holds y O i b \/ In b (pend (oat O i)))).
Proof. exact seq_lost. Qed.
Print Assumptions C66_counted.
(** The share of a block got without alignment: at most 2 MB, the size asked, the threshold of realloc and 63 bytes. *)
Theorem C66_share : forall e y O i b, sreach e y O -> holds y O i b -> i <> 0%nat -> bd b <= 1 -> 0 <= ethr e ->
  Z.max 2097152 (snd (occ (ymem y) (bp b)) + 48) <= bn b + 2097152 + ethr e + 63.
Proof. exact seq_plain. Qed.
Print Assumptions C66_share.
(** When nothing is in use, nor lost, the chains hold no segment and only the cache is left. *)
Theorem C66_idle : forall e y O, sreach e y O -> 0 <= keep_max (elg e) -> 0 <= keep_mem (elg e) ->
  (forall i b, i <> 0%nat -> ~ holds y O i b /\ ~ In b (pend (oat O i))) ->
  (forall x, In x (thread_segs O) -> ~ exists w c, In (w, c) (occ_in (ymem y) x) /\ 1048576 <= c <= 1048576 + 16) ->
  thread_segs O = [] /\ total (lmap (ysrc y)) <= keep_mem (elg e) + keep_max (elg e).
Proof. exact seq_idle. Qed.
Print Assumptions C66_idle.

(** The bound of C66_chain is reached: one small block in a segment of 2 MB, one huge block in a segment of 6 MB. *)
Definition hf : list op := [OAlloc 0 100 (Some (4 * MB2)); OAlloc 0 5000000 (Some (8 * MB2))].
Example C66_chain_nontrivial : reach gs (fin_s 200 gs hf) (fin_o 200 gs hf) /\ csrc gs = true /\ cmerge gs = true /\
  lost (smem (fin_s 200 gs hf)) (segs (fin_o 200 gs hf)) (blocks (fin_o 200 gs hf)) [] /\ length (blocks (fin_o 200 gs hf)) = 2%nat /\
  held (fin_o 200 gs hf) = 8388608 /\ footprint (smem (fin_s 200 gs hf)) (blocks (fin_o 200 gs hf)) = 8388608.
Proof.
  split; [apply fin_reach; vm_compute; reflexivity|]. split; [reflexivity|]. split; [reflexivity|].
  split; [unfold lost; match goal with |- Permutation ?a ?b => replace b with a by (vm_compute; reflexivity) end; apply Permutation_refl|]. repeat split; vm_compute; reflexivity.
Qed.
(** Two threads, three blocks held and one in a queue. *)
Ltac same_list := match goal with |- Permutation ?a ?b => replace b with a by (vm_compute; reflexivity) end; apply Permutation_refl.
Example C66_process_nontrivial : sreach e0 Y2 O2 /\ 0 <= keep_max (elg e0) /\ 0 <= keep_mem (elg e0) /\
  (exists lk, lost (ymem Y2) (thread_segs O2) (thread_blocks O2) lk) /\ total (lmap (ysrc Y2)) = 4194304 /\ length (thread_blocks O2) = 4%nat.
Proof.
  split; [exact reach_2|]. split; [vm_compute; discriminate|]. split; [vm_compute; discriminate|].
  split; [exact (proj1 (C66_counted _ _ _ reach_2))|]. split; vm_compute; reflexivity.
Qed.
(** The same with a cache that keeps nothing; the block of 1048560 bytes is freed and its 2 MB stay mapped: without the lost pieces the bound
    would be 0 bytes. *)
Definition e6 : env := mkEnv 65536 4194304 false 2 52428800 (mkLcfg 0 0) (fun _ => 0).
Lemma e6_wf : wf_env e6.
Proof. exact e0_wf. Qed.
Definition hist6 : list PosixEx.act := [AMalloc 1 1048560 8388608; AFree 1 8388656].
Definition Y6 : sys := fin_y 200 e6 (fun _ => 0) hist6.
Definition O6 : list obs := fin_O 200 e6 (fun _ => 0) hist6.
Theorem C66_lost_refuted : sreach e6 Y6 O6 /\ keep_max (elg e6) = 0 /\ keep_mem (elg e6) = 0 /\ thread_blocks O6 = [] /\
  lost (ymem Y6) (thread_segs O6) (thread_blocks O6) [(8388640, 1048576)] /\ total (lmap (ysrc Y6)) = 2097152.
Proof.
  split; [apply fin_sreach; [exact e6_wf|vm_compute; reflexivity]|]. split; [reflexivity|]. split; [reflexivity|]. split; [vm_compute; reflexivity|].
  split; [unfold lost; same_list|vm_compute; reflexivity].
Qed.
Print Assumptions C66_lost_refuted.
(** A block of 100 bytes accounts for 2 MB. *)
Example C66_share_nontrivial : sreach e0 Y2 O2 /\ (exists b, holds Y2 O2 1 b /\ bd b <= 1 /\ bn b = 100) /\ 0 <= ethr e0.
Proof.
  split; [exact reach_2|]. split; [|vm_compute; discriminate]. exists (mkBlk 8388656 100 0). split; [apply live_at_ok; vm_compute; tauto|]. split; vm_compute; [discriminate|reflexivity].
Qed.
(** Both threads have freed what they got: the cache keeps all that is mapped. *)
Definition hist7 : list PosixEx.act := [AMalloc 1 100 8388608; AMalloc 2 200 12582912; AFree 1 8388656; AFree 2 12582960].
Definition Y7 : sys := fin_y 200 e0 (fun _ => 0) hist7.
Definition O7 : list obs := fin_O 200 e0 (fun _ => 0) hist7.
Example C66_idle_nontrivial : sreach e0 Y7 O7 /\ (forall i b, i <> 0%nat -> ~ holds Y7 O7 i b /\ ~ In b (pend (oat O7 i))) /\
  (forall x, In x (thread_segs O7) -> ~ exists w c, In (w, c) (occ_in (ymem Y7) x) /\ 1048576 <= c <= 1048576 + 16) /\ total (lmap (ysrc Y7)) = 4194304.
Proof.
  split; [apply fin_sreach; [exact e0_wf|vm_compute; reflexivity]|].
  assert (E : O7 = [oat O7 0; obs0; obs0]) by (vm_compute; reflexivity).
  split; [|split; [|vm_compute; reflexivity]].
  - intros i b Ni. assert (K : oat O7 i = obs0).
    { rewrite E. destruct i as [|[|[|[|i]]]]; try reflexivity; congruence. }
    split; [intros (_ & K' & _)|intros K']; rewrite K in K'; destruct K'.
  - intros x H. rewrite E in H. destruct H.
Qed.
