(** How memory comes back on the whole allocator: the queues of blocks freed by other threads, and the segments of the chains.  Property
    theorems C53 and C54; the vocabulary is in PosixSpec.v, ConcSpec.v and ReclaimSpec.v. *)
From Verif Require Import Word Res Mem ChainModel ChainSpec PosixModel PosixSpec PosixMore ReclaimSpec PosixQueue PosixEx ConcModel ConcSpec ConcEx.
From Coq Require Import ZArith List Bool Permutation Lia.
Import ListNotations.
Open Scope Z_scope.

(** ** C53: what other threads freed comes back at the next call of the owner *)
Theorem C53_queue_emptied : forall e y O c t i fuel er rp y', sreach e y O -> pvalid e y O c -> ytls y t = Some i -> empties y O c t i ->
  pexec fuel e c y = Ok (er, rp, y') -> pend (oat (obs_after O (ytr y')) i) = [].
Proof. exact queue_empty_after. Qed.
Print Assumptions C53_queue_emptied.
(** Then the allocated pieces of the segments of the chain are those of its blocks and of the band of C23: the others can serve again. *)
Theorem C53_memory_back : forall e y O c t i fuel er rp y' r, sreach e y O -> pvalid e y O c -> ytls y t = Some i -> empties y O c t i ->
  pexec fuel e c y = Ok (er, rp, y') -> let O' := obs_after O (ytr y') in chain y' i <> None -> In r (segs (oat O' i)) -> exists lk,
  Permutation (occ_in (ymem y') r) (map (fun b => occ (ymem y') (bp b)) (filter (inside r) (live (oat O' i))) ++ lk) /\
  (forall w c, In (w, c) lk -> i <> 0%nat /\ 1048576 <= c <= 1048576 + 16).
Proof. exact memory_back. Qed.
Print Assumptions C53_memory_back.
(** The queue of a chain whose owner has exited stays empty (calls one after another; C52 shows what a race does). *)
Theorem C53_marked_queue_empty : forall e y O i k, sreach e y O -> chain y i = Some k -> i <> 0%nat -> kdes k = true -> pend (oat O i) = [].
Proof. exact marked_clear. Qed.
Print Assumptions C53_marked_queue_empty.
(** 12582960 (200 bytes) waits in the queue of chain 2.  A malloc of thread 2 that could be served without it takes it back, and gives it. *)
Example C53_nontrivial : sreach e0 Y2 O2 /\ ytls Y2 2 = Some 2%nat /\ pend (oat O2 2) = [mkBlk 12582960 200 0] /\ pvalid e0 Y2 O2 (PMalloc 2 30 (fun _ => 16777216)) /\
  occ_in (ymem Y2) (12582912, 2097152) = [(12582944, 224); (12583168, 80)] /\
  (let y' := pafter 200 e0 (PMalloc 2 30 (fun _ => 16777216)) Y2 in
   pexec 200 e0 (PMalloc 2 30 (fun _ => 16777216)) Y2 = Ok (0, Some 12582960, y') /\ occ_in (ymem y') (12582912, 2097152) = [(12582944, 48); (12583168, 80)]) /\
  empties Y2 O2 (PRealloc 2 8388656 5000 (fun _ => 16777216)) 2 2.
Proof.
  split; [exact reach_2|]. split; [vm_compute; reflexivity|]. split; [vm_compute; reflexivity|]. split; [apply (pvalidb_ok e0 Y2 O2 (AMalloc 2 30 16777216)); vm_compute; reflexivity|].
  split; [vm_compute; reflexivity|]. split; [split; [apply panswer_at; vm_compute; reflexivity|vm_compute; reflexivity]|]. split; [exact (eq_refl 2)|]. right. right.
  destruct (flags_at Y2 1 false false) as (k & K1 & _ & K3); [vm_compute; reflexivity|]. exists 1%nat, k, (mkBlk 8388656 100 0). split; [apply live_at_ok; vm_compute; tauto|]. split; [reflexivity|]. split; [intros K; discriminate K|]. split; [intros K; discriminate K|]. split; [exact K1|exact K3].
Qed.
(** It is false for realloc of a block of the caller's own chain, whatever the state: the queue is left as it was, so a thread that only
    reallocates its own blocks never gets back what other threads freed. *)
Theorem C53_realloc_refuted : forall e y O t i n os b fuel er rp y', sreach e y O -> ytls y t = Some i -> holds y O i b -> n <> 0 ->
  pexec fuel e (PRealloc t (bp b) n os) y = Ok (er, rp, y') -> pend (oat (obs_after O (ytr y')) i) = pend (oat O i).
Proof. exact realloc_keeps_queue. Qed.
Print Assumptions C53_realloc_refuted.
Example C53_realloc_nontrivial : sreach e0 Y2 O2 /\ ytls Y2 2 = Some 2%nat /\ holds Y2 O2 2 (mkBlk 12583184 50 0) /\ pend (oat O2 2) = [mkBlk 12582960 200 0] /\
  pvalid e0 Y2 O2 (PRealloc 2 12583184 100000 (fun _ => 16777216)) /\ panswer 200 e0 (PRealloc 2 12583184 100000 (fun _ => 16777216)) Y2 <> None.
Proof.
  split; [exact reach_2|]. split; [vm_compute; reflexivity|]. split; [apply live_at_ok; vm_compute; tauto|]. split; [vm_compute; reflexivity|].
  split; [apply (pvalidb_ok e0 Y2 O2 (ARealloc 2 12583184 100000 16777216)); vm_compute; reflexivity|]. vm_compute. discriminate.
Qed.

(** ** C54: a chain keeps a segment only while something in it is in use *)
Theorem C54_segment_in_use : forall e y O i k x z, sreach e y O -> chain y i = Some k -> i <> 0%nat -> In (x, z) (segs (oat O i)) ->
  (exists b, holds y O i b /\ inside (x, z) b = true) \/ (exists b, In b (pend (oat O i)) /\ inside (x, z) b = true) \/ leaked y (x, z).
Proof. exact seg_busy_seq. Qed.
Print Assumptions C54_segment_in_use.
(** The same between any two pieces of calls of several threads. *)
Theorem C54_segment_in_use_threads : forall e s O G i k x z, creach e s O G -> chain (cy s) i = Some k -> i <> 0%nat -> In (x, z) (segs (oat O i)) ->
  (exists b, holds (cy s) O i b /\ inside (x, z) b = true) \/ (exists b, In b (pend (oat O i)) /\ inside (x, z) b = true) \/ leaked (cy s) (x, z).
Proof. exact seg_busy_conc. Qed.
Print Assumptions C54_segment_in_use_threads.
(** So, after the exit of its thread, a chain that had memory is destroyed exactly when the program has freed its last block. *)
Theorem C54_destroyed_with_last_block : forall e y O tr y' O' i k, sreach e y O -> chain y i = Some k -> i <> 0%nat -> kdes k = true -> segs (oat O i) <> [] -> later e y O tr y' O' ->
  (forall r, In r (segs (oat O' i)) -> ~ leaked y' r) ->
  (In (TDestroy i) tr <-> forall b, ~ holds y' O' i b) /\ (chain y' i = None <-> forall b, ~ holds y' O' i b).
Proof. exact gone_with_last. Qed.
Print Assumptions C54_destroyed_with_last_block.
Theorem C54_destroyed_with_last_block_threads : forall e s O tr s' O' G i k, creach e s O G -> chain (cy s) i = Some k -> i <> 0%nat -> kdes k = true -> segs (oat O i) <> [] -> clater e s O tr s' O' ->
  (forall r, In r (segs (oat O' i)) -> ~ leaked (cy s') r) -> (In (TDestroy i) tr <-> pend (oat O' i) = [] /\ forall b, ~ holds (cy s') O' i b).
Proof. exact conc_gone. Qed.
Print Assumptions C54_destroyed_with_last_block_threads.
(** Thread 1 has exited with one block; when thread 2 frees it the chain goes. *)
Example C54_nontrivial : sreach e0 Y3 O3 /\ flags Y3 1 = Some (true, true) /\ segs (oat O3 1) = [(8388608, 2097152)] /\ holds Y3 O3 1 (mkBlk 8388656 100 0) /\
  occ_in (ymem Y3) (8388608, 2097152) = [(8388640, 128)] /\ pvalid e0 Y3 O3 (PFree 2 8388656) /\
  flags (pafter 200 e0 (PFree 2 8388656) Y3) 1 = None /\ (exists er rp, pexec 200 e0 (PFree 2 8388656) Y3 = Ok (er, rp, pafter 200 e0 (PFree 2 8388656) Y3)).
Proof.
  split; [exact reach_3|]. split; [vm_compute; reflexivity|]. split; [vm_compute; reflexivity|]. split; [apply live_at_ok; vm_compute; tauto|]. split; [vm_compute; reflexivity|].
  split; [apply (pvalidb_ok e0 Y3 O3 (AFree 2 8388656)); vm_compute; reflexivity|]. split; [vm_compute; reflexivity|]. exists 0, None. apply panswer_at. vm_compute. reflexivity.
Qed.
(** Without the exception for lost pieces this is false: thread 1 frees its only block, of 1048560 bytes, and exits; no block of its chain is
    in use, but the chain keeps its 2 MB and is not destroyed. *)
Definition hist5 : list PosixEx.act := [AMalloc 1 1048560 8388608; AFree 1 8388656; AExit 1].
Definition Y5 : sys := fin_y 200 e0 (fun _ => 0) hist5.
Definition O5 : list obs := fin_O 200 e0 (fun _ => 0) hist5.
Lemma none_held y O i : live (oat O i) = [] -> forall b, ~ holds y O i b.
Proof. intros H b (_ & K & _). rewrite H in K. destruct K. Qed.
Theorem C54_lost_block_refuted : sreach e0 Y5 O5 /\ flags Y5 1 = Some (true, true) /\ (forall b, ~ holds Y5 O5 1 b) /\ pend (oat O5 1) = [] /\ segs (oat O5 1) = [(8388608, 2097152)] /\
  occ_in (ymem Y5) (8388608, 2097152) = [(8388640, 1048576)].
Proof.
  split; [apply fin_sreach; [exact e0_wf|vm_compute; reflexivity]|]. split; [vm_compute; reflexivity|]. split; [apply none_held; vm_compute; reflexivity|]. split; [vm_compute; reflexivity|]. split; vm_compute; reflexivity.
Qed.
Print Assumptions C54_lost_block_refuted.
