(** Calls of several threads that run at the same time, any interleaving of their pieces.  Property theorems C49 to C52; see ConcModel.v for
    the pieces, ConcSpec.v for the vocabulary, CounterModel.v for the counter of segments. *)
From Verif Require Import Word Res Mem ChainModel ChainSpec LightModel PosixModel PosixSpec ConcModel ConcSpec ConcMore PosixEx ConcEx CounterModel CounterProofs.
From Coq Require Import ZArith List Bool Lia Permutation.
Import ListNotations.
Open Scope Z_scope.

(** ** C49: blocks are safe in every interleaving *)
(** The pieces one after the other are the call of PosixModel.v. *)
Theorem C49_pieces_are_the_call : forall fuel e c y, whole fuel e c y = pexec fuel e c y.
Proof. exact whole_pexec. Qed.
Print Assumptions C49_pieces_are_the_call.
(** No step of any execution has undefined behaviour or aborts. *)
Theorem C49_steps_safe : forall e s O G a, creach e s O G -> avalid e s O a ->
  (exists f0 x, forall f, (f0 <= f)%nat -> crun f e a s = Ok x) /\ forall f, crun f e a s = OutOfFuel \/ exists x, crun f e a s = Ok x.
Proof. exact conc_safe. Qed.
Print Assumptions C49_steps_safe.
(** The blocks the program holds never overlap and have the size asked. *)
Theorem C49_blocks_disjoint : forall e s O G i j b b' u u', creach e s O G -> cholds s O i b -> cholds s O j b' -> size_of (cy s) i (bp b) u -> size_of (cy s) j (bp b') u' ->
  (i, b) <> (j, b') -> apart (bp b, u) (bp b', u') /\ bn b <= u.
Proof. exact conc_apart. Qed.
Print Assumptions C49_blocks_disjoint.
(** What any step of any thread does to the blocks of the program: they stay, with size and bytes, unless the step is the beginning of their
    free or realloc; a new one is the one that a call returns at this step. *)
Theorem C49_step_effect : forall e s O G a fuel r s', creach e s O G -> avalid e s O a -> crun fuel e a s = Ok (r, s') ->
  let O' := obs_after O (ytr (cy s')) in
  (forall j b u, cholds s O j b -> ~ takes a (bp b) -> size_of (cy s) j (bp b) u ->
     cholds s' O' j b /\ size_of (cy s') j (bp b) u /\ forall x, bp b <= x < bp b + u -> ~ stores a x -> ymem (cy s') x = ymem (cy s) x) /\
  (forall j b, cholds s' O' j b -> (cholds s O j b /\ ~ takes a (bp b)) \/ exists c code, r = Some (c, code, Some (bp b))).
Proof. exact conc_effect. Qed.
Print Assumptions C49_step_effect.
(** A pointer in the hands of a call (to free, to move, just allocated) is a block of the allocator that no other call has. *)
Theorem C49_one_call_per_block : forall e s O G t j p, creach e s O G -> cjobs s t = Some j -> In p (ptrs (jk j)) -> p <> 0 ->
  (exists i n d, holds (cy s) O i (mkBlk p n d)) /\ forall t' j', t' <> t -> cjobs s t' = Some j' -> ~ In p (ptrs (jk j')).
Proof. exact conc_owned. Qed.
Print Assumptions C49_one_call_per_block.
Lemma out_1 : outside S1.
Proof. apply (end_creach 200 e0 (fun _ => 0) ints1); [exact e0_wf|vm_compute; reflexivity]. Qed.
Lemma creach_1 : exists G, creach e0 S1 Q1 G.
Proof. apply (end_creach 200 e0 (fun _ => 0) ints1); [exact e0_wf|vm_compute; reflexivity]. Qed.
(** Thread 1 is in a realloc, thread 2 in the free of another block of thread 1; the program holds the block of thread 2. *)
Example C49_nontrivial : (exists G, creach e0 S1 Q1 G) /\ avalid e0 S1 Q1 (Go 1 (fun _ => 16777216)) /\ avalid e0 S1 Q1 (Go 2 (fun _ => 16777216)) /\
  cholds S1 Q1 2 (mkBlk 8388656 200 0) /\ option_map (fun j => ptrs (jk j)) (cjobs S1 1) = Some [12582960] /\ option_map (fun j => ptrs (jk j)) (cjobs S1 2) = Some [12583088] /\
  says 200 e0 (Go 1 (fun _ => 16777216)) S1 = Some (Some (0, Some 12583408)) /\ ymem (cy (next_s 200 e0 (Go 1 (fun _ => 16777216)) S1)) (12583408 + 10) = 7.
Proof.
  split; [exact creach_1|]. split; [apply (validb_ok e0 S1 Q1 (Nx 1 16777216) out_1); vm_compute; reflexivity|]. split; [apply (validb_ok e0 S1 Q1 (Nx 2 16777216) out_1); vm_compute; reflexivity|].
  split; [apply (cheld_ok _ _ _ _ out_1); vm_compute; left; reflexivity|]. split; [vm_compute; reflexivity|]. split; [vm_compute; reflexivity|]. split; vm_compute; reflexivity.
Qed.

(** ** C50: one thread at a time works on a chain that is not shared *)
Theorem C50_exclusive : forall e s O G a fuel r s' i c v evs, creach e s O G -> avalid e s O a -> crun fuel e a s = Ok (r, s') -> In (TCall i c v evs) (ytr (cy s')) ->
  exists t, actor a = Some t /\ exclusive (cy s) t i c.
Proof. exact conc_exclusive. Qed.
Print Assumptions C50_exclusive.
(** Two threads whose next piece works on the same chain: it is shared (its operations take the lock), or already destroyed. *)
Theorem C50_no_race : forall e s O G t1 t2 j1 j2 i, creach e s O G -> t1 <> t2 -> cjobs s t1 = Some j1 -> cjobs s t2 = Some j2 -> enters (jk j1) i -> enters (jk j2) i ->
  is_shared (cy s) i = true \/ chain (cy s) i = None.
Proof. exact conc_one_inside. Qed.
Print Assumptions C50_no_race.
(** The queue of a chain is emptied by its own thread, or by the thread that exits. *)
Theorem C50_one_consumer : forall e s O G a fuel r s' i v evs, creach e s O G -> avalid e s O a -> crun fuel e a s = Ok (r, s') -> In (TCall i OPurge v evs) (ytr (cy s')) ->
  exists t j, actor a = Some t /\ cjobs s t = Some j /\ (ytls (cy s) t = Some i \/ jk j = KExitPurge i).
Proof. exact conc_purge. Qed.
Print Assumptions C50_one_consumer.

Definition ints_two : list stp := [Bg (AMalloc 1 100 0); Nx 1 0; Nx 1 0; Nx 1 8388608; Bg (AMalloc 2 50 0); Nx 2 0; Nx 2 0; Nx 2 12582912].
(** Thread 1 works on its own chain while thread 2 is about to look for the chain of a block of it; two threads that have exited both go to the egg. *)
Definition ints_egg : list stp := ints_two ++ [Bg (AExit 1); Nx 1 0; Nx 1 0; Bg (AExit 2); Nx 2 0; Nx 2 0; Bg (AMalloc 1 10 0); Bg (AMalloc 2 20 0); Nx 1 0; Nx 2 0].
Definition S5 : cst := end_s 200 e0 (fun _ => 0) ints_egg.
Definition Q5 : list obs := end_O 200 e0 (fun _ => 0) ints_egg.
Definition which (s : cst) (t : Z) : option nat := match cjobs s t with Some (mkJob _ (KAllocPurge l _ _ _)) => Some l | _ => None end.
Lemma which_at s t l : which s t = Some l -> exists j, cjobs s t = Some j /\ enters (jk j) l.
Proof.
  unfold which. destruct (cjobs s t) as [[c k]|]; [|discriminate]. destruct k; try discriminate. intros H. injection H as <-. eexists. split; [reflexivity|]. reflexivity.
Qed.
Example C50_nontrivial : (exists G, creach e0 S1 Q1 G) /\ avalid e0 S1 Q1 (Go 1 (fun _ => 16777216)) /\
  ytr (cy (next_s 200 e0 (Go 1 (fun _ => 16777216)) S1)) = [TCall 1 (ORealloc 0 12582960 5000 None) 12583408 []] /\ ytls (cy S1) 1 = Some 1%nat /\
  (exists G, creach e0 S5 Q5 G) /\ (exists j, cjobs S5 1 = Some j /\ enters (jk j) 0) /\ (exists j, cjobs S5 2 = Some j /\ enters (jk j) 0).
Proof.
  split; [exact creach_1|]. split; [apply (validb_ok e0 S1 Q1 (Nx 1 16777216) out_1); vm_compute; reflexivity|]. split; [vm_compute; reflexivity|]. split; [vm_compute; reflexivity|].
  split; [apply (end_creach 200 e0 (fun _ => 0) ints_egg); [exact e0_wf|vm_compute; reflexivity]|]. split; apply which_at; vm_compute; reflexivity.
Qed.

(** ** C51: calls return what they should, whatever the other threads do meanwhile *)
Theorem C51_result : forall e s O G t os fuel c code r s', creach e s O G -> avalid e s O (Go t os) -> crun fuel e (Go t os) s = Ok (Some (c, code, r), s') ->
  let O' := obs_after O (ytr (cy s')) in
  caller c = Some t /\ cjobs s' t = None /\
  (exists s0 O0 G0, G t = Some (s0, O0) /\ creach e s0 O0 G0 /\ starts e s0 O0 c /\ result e (cy s') O' t c r s0 O0) /\
  forall q, r = Some q -> q <> 0 -> (exists i b, cholds s' O' i b /\ bp b = q /\ gives c = Some (bn b)) /\ forall j b, cholds s O j b -> bp b <> q.
Proof. exact conc_result. Qed.
Print Assumptions C51_result.

(** The realloc of thread 1 ends while thread 2 is in its free: the byte written before it began is in the new block. *)
Example C51_nontrivial : exists G s', creach e0 S1 Q1 G /\ avalid e0 S1 Q1 (Go 1 (fun _ => 16777216)) /\
  crun 200 e0 (Go 1 (fun _ => 16777216)) S1 = Ok (Some (PRealloc 1 12582960 5000 (fun _ => 0), 0, Some 12583408), s') /\ ymem (cy s') 12583418 = 7 /\ ymem (cy S1) 12582970 = 7.
Proof.
  destruct creach_1 as (G & R). exists G, (next_s 200 e0 (Go 1 (fun _ => 16777216)) S1). split; [exact R|]. split; [apply (validb_ok e0 S1 Q1 (Nx 1 16777216) out_1); vm_compute; reflexivity|].
  split; [|split; vm_compute; reflexivity]. assert (E : isOk (crun 200 e0 (Go 1 (fun _ => 16777216)) S1) = true) by (vm_compute; reflexivity). assert (E2 : next_r 200 e0 (Go 1 (fun _ => 16777216)) S1 = Some (PRealloc 1 12582960 5000 (fun _ => 0), 0, Some 12583408)) by (vm_compute; reflexivity).
  rewrite <- E2. exact (next_at 200 e0 (Go 1 (fun _ => 16777216)) S1 E).
Qed.

(** ** C52: destruction of chains, with other threads at work *)
(** A step destroys a chain exactly when it is marked, had segments and loses the last one; the structure goes back to the egg once. *)
Theorem C52_destroyed_when_empty : forall e s O G a fuel r s' i k, creach e s O G -> avalid e s O a -> crun fuel e a s = Ok (r, s') -> chain (cy s) i = Some k -> i <> 0%nat ->
  let O' := obs_after O (ytr (cy s')) in
  (In (TDestroy i) (ytr (cy s')) <-> kdes k = true /\ segs (oat O i) <> [] /\ segs (oat O' i) = []) /\ (chain (cy s') i = None <-> In (TDestroy i) (ytr (cy s'))) /\
  (In (TDestroy i) (ytr (cy s')) -> exists t1 v t2, ytr (cy s') = t1 ++ TDestroy i :: TCall 0 (OFree (cpool (kg k))) v [] :: t2 /\ idle i t1 /\ ~ In (TDestroy i) t2).
Proof. exact conc_destroy. Qed.
Print Assumptions C52_destroyed_when_empty.
Theorem C52_destroyed_once : forall e s O tr s' O' G i k, creach e s O G -> chain (cy s) i = Some k -> i <> 0%nat -> kdes k = true -> segs (oat O i) <> [] -> clater e s O tr s' O' ->
  (chain (cy s') i = None <-> segs (oat O' i) = []) /\ (In (TDestroy i) tr <-> segs (oat O' i) = []) /\ (forall t, ytls (cy s') t <> Some i) /\
  (segs (oat O' i) = [] -> exists t1 r t2, tr = t1 ++ TDestroy i :: TCall 0 (OFree (cpool (kg k))) r [] :: t2 /\ idle i t1 /\ ~ In (TDestroy i) t2).
Proof. exact conc_marked_once. Qed.
Print Assumptions C52_destroyed_once.
Theorem C52_never_used_again : forall e s O tr s' O' G i, creach e s O G -> clater e s O tr s' O' -> (i < length (ych (cy s)))%nat -> chain (cy s) i = None ->
  chain (cy s') i = None /\ idle i tr /\ forall t, ytls (cy s') t <> Some i.
Proof. exact clater_dead. Qed.
Print Assumptions C52_never_used_again.

(** The last theorem holds because [goes] supposes that an exiting thread finds its chain again.  It may not: between the mark and the last
    purge of thread 1, thread 2 frees the last block, which destroys the chain; the purge then works on the structure given back. *)
Definition ints_purge : list stp := ints_two ++ [Bg (AExit 1); Nx 1 0; Bg (AFree 2 8388656); Nx 2 0; Nx 2 0; Nx 2 0; Nx 2 0].
Definition S2 : cst := end_s 200 e0 (fun _ => 0) ints_purge.
Definition Q2 : list obs := end_O 200 e0 (fun _ => 0) ints_purge.
Theorem C52_purge_after_destruction_refuted : (exists G, creach e0 S2 Q2 G) /\ option_map jk (cjobs S2 1) = Some (KExitPurge 1) /\ chain (cy S2) 1 = None /\ (1 < length (ych (cy S2)))%nat /\
  forall fuel os, crun fuel e0 (Go 1 os) S2 = UB.
Proof.
  split; [apply (end_creach 200 e0 (fun _ => 0) ints_purge); [exact e0_wf|vm_compute; reflexivity]|]. assert (E : option_map jk (cjobs S2 1) = Some (KExitPurge 1)) by (vm_compute; reflexivity).
  assert (E2 : chain (cy S2) 1 = None) by (vm_compute; reflexivity). split; [exact E|]. split; [exact E2|]. split; [vm_compute; lia|].
  intros fuel os. exact (purge_gone fuel e0 os S2 1 1%nat E E2).
Qed.
Print Assumptions C52_purge_after_destruction_refuted.
(** A chain whose owner has exited and that has a block in its queue keeps it, in every continuation: the block is never taken back and the
    chain is never destroyed. *)
Theorem C52_late_free_lost_refuted : forall e s O tr s' O' G i k b, creach e s O G -> chain (cy s) i = Some k -> i <> 0%nat -> kdes k = true -> In b (pend (oat O i)) -> no_exit_left s i ->
  clater e s O tr s' O' -> (exists k', chain (cy s') i = Some k' /\ kdes k' = true) /\ In b (pend (oat O' i)) /\ ~ In (TDestroy i) tr.
Proof. exact stranded. Qed.
Print Assumptions C52_late_free_lost_refuted.
(** This happens: thread 2 decides to free through the queue of chain 1, thread 1 exits, thread 2 registers the block. *)
Definition ints_late : list stp := ints_two ++ [Bg (AFree 2 8388656); Nx 2 0; Nx 2 0; Nx 2 0; Bg (AExit 1); Nx 1 0; Nx 1 0; Nx 2 0].
Definition S3 : cst := end_s 200 e0 (fun _ => 0) ints_late.
Definition Q3 : list obs := end_O 200 e0 (fun _ => 0) ints_late.
Example C52_late_free_happens : (exists G, creach e0 S3 Q3 G) /\ flags (cy S3) 1 = Some (true, true) /\ pend (oat Q3 1) = [mkBlk 8388656 100 0] /\ no_exit_left S3 1 /\ segs (oat Q3 1) = [(8388608, 2097152)].
Proof.
  destruct (end_creach 200 e0 (fun _ => 0) ints_late e0_wf) as (W & R); [vm_compute; reflexivity|]. split; [exact R|]. split; [vm_compute; reflexivity|]. split; [vm_compute; reflexivity|]. split; [|vm_compute; reflexivity].
  intros t j Hj. rewrite (quietb_ok S3 W (ltac:(vm_compute; reflexivity)) t) in Hj. discriminate.
Qed.
(** A marked chain with segments and nothing in its queue, for the theorems above: the destruction of S2 is one step after this state. *)
Definition ints_mark : list stp := ints_two ++ [Bg (AExit 1); Nx 1 0; Bg (AFree 2 8388656); Nx 2 0; Nx 2 0; Nx 2 0].
Definition S4 : cst := end_s 200 e0 (fun _ => 0) ints_mark.
Definition Q4 : list obs := end_O 200 e0 (fun _ => 0) ints_mark.
Example C52_nontrivial : (exists G, creach e0 S4 Q4 G) /\ flags (cy S4) 1 = Some (true, true) /\ segs (oat Q4 1) = [(8388608, 2097152)] /\ avalid e0 S4 Q4 (Go 2 (fun _ => 0)) /\
  exists tr, clater e0 S4 Q4 tr (next_s 200 e0 (Go 2 (fun _ => 0)) S4) (obs_after Q4 tr) /\ tr = [TUnlock 1; TDestroy 1; TCall 0 (OFree 4194448) 0 []; TCall 1 (OFree 8388656) 0 [EPut 8388608]].
Proof.
  destruct (end_creach 200 e0 (fun _ => 0) ints_mark e0_wf) as (W & R); [vm_compute; reflexivity|]. assert (V : avalid e0 S4 Q4 (Go 2 (fun _ => 0))) by (apply (validb_ok e0 S4 Q4 (Nx 2 0) W); vm_compute; reflexivity).
  split; [exact R|]. split; [vm_compute; reflexivity|]. split; [vm_compute; reflexivity|]. split; [exact V|].
  exists (ytr (cy (next_s 200 e0 (Go 2 (fun _ => 0)) S4)) ++ []). split; [|vm_compute; reflexivity]. assert (E : isOk (crun 200 e0 (Go 2 (fun _ => 0)) S4) = true) by (vm_compute; reflexivity).
  pose proof (clater_step e0 S4 Q4 [] S4 Q4 200 _ _ _ (clater_here e0 S4 Q4) V (next_at 200 e0 (Go 2 (fun _ => 0)) S4 E)) as L. rewrite app_nil_r in L |- *. exact L.
Qed.

(** The frees of huge blocks do not take the lock, and count the segments with a plain decrement.  The handler is never called too early ... *)
Theorem C52_counter_not_early : forall n l, calls (sched l (frees_of n)) <> 0%nat -> forall p, In p (pcs (sched l (frees_of n))) -> wrote p = true.
Proof. exact handler_after_all. Qed.
Print Assumptions C52_counter_not_early.
(** ... and exactly once when the frees do not overlap ... *)
Theorem C52_counter_one_by_one : forall n l, (0 < n)%nat -> Permutation l (seq 0 n) -> calls (sched (flat_map (fun i => [i; i; i]) l) (frees_of n)) = 1%nat.
Proof. exact one_by_one. Qed.
Print Assumptions C52_counter_one_by_one.
(** ... but when they do it may be called by each of the [n] threads ... *)
Theorem C52_counter_many_refuted : forall n, exists l, sched l (frees_of n) = mkCnt 0 (repeat (Over Dec) n) n.
Proof. exact handler_many. Qed.
Print Assumptions C52_counter_many_refuted.
(** ... or by none of them ... *)
Theorem C52_counter_never_refuted : forall n, (2 <= n)%nat -> exists l, sched l (frees_of n) = mkCnt (Z.of_nat n - 1) (repeat (Over Dec) n) 0.
Proof. exact handler_never. Qed.
Print Assumptions C52_counter_never_refuted.
(** ... and, with a huge allocation in the same chain (realloc of a block of a chain whose owner has exited), while a block is there. *)
Theorem C52_counter_early_refuted : sched [0; 1; 1; 0; 0; 1]%nat (mkCnt 1 [Start Dec; Start Inc] 0) = mkCnt 0 [Over Dec; Over Inc] 1.
Proof. reflexivity. Qed.
Print Assumptions C52_counter_early_refuted.
