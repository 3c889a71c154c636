(** C57: several threads on the light memory sources.  C58: counters of the sources, segments given back to another source, cleanup. *)
From Verif Require Import Res LightModel LightConcModel LightConcSpec LightConcProofs LightConcOwn LightConcCount LightConcMore LightConcEx.
From Coq Require Import ZArith List Bool Lia.
Import ListNotations.
Open Scope Z_scope.
Local Notation sane g := (0 <= keep_max g /\ 0 <= keep_mem g).

(** ** C57 *)
(** No step of a request or of a free is undefined: in particular a segment is unmapped once. *)
Theorem C57_no_fault : forall g N S home s a, sane g -> lcreach g N S home s -> lcok N S home s a -> exists s', lcstep g a s = Ok s'.
Proof. exact no_fault. Qed.
Print Assumptions C57_no_fault.
(** Each mapping is at one place: in use, in one cache, or in the hands of one thread; nothing is lost. *)
Theorem C57_one_owner : forall g N S home s x, sane g -> lcreach g N S home s -> In x (maps s) -> exists w, has s w x /\ forall w', has s w' x -> w' = w.
Proof. exact one_owner. Qed.
Print Assumptions C57_one_owner.
(** What two owners have is mapped memory and does not overlap. *)
Theorem C57_disjoint : forall g N S home s w w' x y, sane g -> lcreach g N S home s -> has s w x -> has s w' y -> x <> y \/ w <> w' ->
  In x (maps s) /\ 0 < snd x /\ apart x y.
Proof. exact disjoint_owners. Qed.
Print Assumptions C57_disjoint.
(** No segment is twice in use, twice in a cache or mapped twice. *)
Theorem C57_no_twice : forall g N S home s, sane g -> lcreach g N S home s ->
  NoDup (map fst (held s)) /\ (forall j, NoDup (cq (srcs s j))) /\ NoDup (maps s).
Proof. exact no_twice. Qed.
Print Assumptions C57_no_twice.
(** At most one thread is between the lock and the unlock of a source. *)
Theorem C57_one_inside : forall g N S home s j t u, sane g -> lcreach g N S home s -> locked_in j (cat_ s t) -> locked_in j (cat_ s u) -> t = u.
Proof. exact one_locked. Qed.
Print Assumptions C57_one_inside.
(** When the lock is free the size of the source is exactly what its cache contains. *)
Theorem C57_size_exact : forall g N S home s j, sane g -> lcreach g N S home s -> clk (srcs s j) = None -> csz (srcs s j) = bytes (cq (srcs s j)).
Proof. exact size_exact. Qed.
Print Assumptions C57_size_exact.
(** With [N] threads the size is never negative and never above keep_mem + N * keep_max (no wrap when this is less than 2^64). *)
Theorem C57_size : forall g N S home s j, sane g -> lcreach g N S home s -> 0 <= csz (srcs s j) <= keep_mem g + Z.of_nat N * keep_max g.
Proof. intros g N S home s j W R. exact (proj1 (size_bound g N S home s j W R)). Qed.
Print Assumptions C57_size.
(** Nor is what the cache contains, at any moment. *)
Theorem C57_cache : forall g N S home s j, sane g -> lcreach g N S home s -> bytes (cq (srcs s j)) <= keep_mem g + Z.of_nat N * keep_max g.
Proof. exact cache_bound. Qed.
Print Assumptions C57_cache.
(** That bound is the best one: [N] racing threads reach it.  In particular the bound of one thread, keep_mem + keep_max (C32), is refuted
    for several threads: the test of the size is made without the lock. *)
Theorem C57_one_thread_bound_refuted : forall g N S q, 0 < keep_max g -> (0 < N)%nat -> (0 < S)%nat -> keep_mem g = Z.of_nat q * keep_max g ->
  exists s, lcreach g N S true s /\ calm_lc s /\ held s = [] /\
    csz (srcs s 0%nat) = keep_mem g + Z.of_nat N * keep_max g /\ bytes (cq (srcs s 0%nat)) = keep_mem g + Z.of_nat N * keep_max g.
Proof. intros g N S q Km L0 LS. exact (bound_reached g N S Km L0 LS q). Qed.
Print Assumptions C57_one_thread_bound_refuted.
(** From every state the calls in progress can be brought to their end. *)
Theorem C57_progress : forall g N S home s, sane g -> lcreach g N S home s -> exists s', lcgo g N S home s s' /\ lcreach g N S home s' /\ calm_lc s'.
Proof. exact can_finish. Qed.
Print Assumptions C57_progress.

(** The hypotheses are met: three threads are past the test, 16 MB are in the cache; afterwards the cache has 40 MB. *)
Definition g57 : lcfg := mkLcfg 8388608 16777216.
Example C57_met : (exists s, lcreach g57 3 1 true s /\ csz (srcs s 0%nat) = 16777216 /\ forall t, (t < 3)%nat -> exists x, hand (cat_ s t) = Some x /\ cat_ s t = PFLock 0 x) /\
  exists s, lcreach g57 3 1 true s /\ calm_lc s /\ csz (srcs s 0%nat) = 41943040.
Proof.
  split.
  - destruct (phase_test g57 3 1 ltac:(cbn; lia) ltac:(lia) ltac:(lia) 2 3) as (s & R & C & _ & _ & _ & Z); [cbn; lia|lia|].
    exists s. split; [exact R|]. split; [exact Z|]. intros t L. destruct (C t L) as (x & E & _). exists x. rewrite E. split; reflexivity.
  - destruct (C57_one_thread_bound_refuted g57 3 1 2) as (s & R & C & _ & Z & _); [cbn; lia|lia|lia|reflexivity|]. exists s. split; [exact R|]. split; [exact C|exact Z].
Qed.

(** ** C58 *)
(** When segments go back to the source they came from, the counter of each source is at least the number of its segments in use, and
    exactly that number when no call is in progress. *)
Theorem C58_counter : forall g N S s j, sane g -> lcreach g N S true s ->
  count_home j (held s) <= ccnt (srcs s j) /\ (calm_lc s -> ccnt (srcs s j) = count_home j (held s)).
Proof. exact counter_home. Qed.
Print Assumptions C58_counter.
(** Wherever they go, the counters of all the sources together count the segments in use. *)
Theorem C58_sum : forall g N S home s, sane g -> lcreach g N S home s -> calm_lc s -> total (fun j => ccnt (srcs s j)) S = Z.of_nat (length (held s)).
Proof. exact counter_sum. Qed.
Print Assumptions C58_sum.
(** A segment given back to another source (sctk_alloc_chain_numa_migrate replaces the source of a chain that has segments): no segment is
    in use any more, yet both counters are wrong and the cleanup of either source stops the program. *)
Theorem C58_migrated_refuted : forall g N S, 0 < keep_max g -> 0 <= keep_mem g -> (0 < N)%nat -> (1 < S)%nat ->
  exists s, lcreach g N S false s /\ calm_lc s /\ held s = [] /\ ccnt (srcs s 0%nat) = 1 /\ ccnt (srcs s 1%nat) = -1 /\
    forall j, (j < 2)%nat -> exists s', lcruns g s [AClean 0 j; AGo 0 0] s' /\ lcstep g (AGo 0%nat 0) s' = Abort.
Proof.
  intros g N S Km Kk L0 LS. destruct (migrated g N S Km Kk L0 LS) as (s & R & C & E & A & B & F0 & F1).
  exists s. repeat (split; [assumption|]). intros j Lj. apply clean_aborts; [apply C| |]; destruct j as [|[|j]]; try lia; congruence || (rewrite ?A, ?B; discriminate).
Qed.
Print Assumptions C58_migrated_refuted.
(** Cleanup of a source of which nothing is in use unmaps its cache, nothing else, and leaves the lock taken ("never free the lock"): no
    thread ever enters the source again, whatever the threads do. *)
Theorem C58_cleanup : forall g N S home s t j, sane g -> lcreach g N S home s -> calm_lc s -> (t < N)%nat -> ccnt (srcs s j) = 0 ->
  exists s', lcruns g s [AClean t j; AGo t 0; AGo t 0] s' /\
    (forall x, In x (maps s') <-> In x (maps s) /\ ~ In x (cq (srcs s j))) /\ (forall i, i <> j -> srcs s' i = srcs s i) /\
    forall l s2 u, lcruns g s' l s2 -> ~ locked_in j (cat_ s2 u).
Proof.
  intros g N S home s t j W R C L Z. destruct (cleaned g N S home s t j W R C L Z) as (s' & H & D & _ & M & O).
  exists s'. split; [exact H|]. split; [exact M|]. split; [exact O|]. intros l s2 u X. exact (proj2 (dead_runs g j s' l s2 X D) u).
Qed.
Print Assumptions C58_cleanup.

(** The hypotheses are met: three segments of source 0 in use; a source with 40 MB in its cache, counter 0. *)
Example C58_met : (exists s, lcreach g57 2 2 true s /\ calm_lc s /\ length (held s) = 3%nat /\ ccnt (srcs s 0%nat) = 3) /\
  exists s, lcreach g57 3 1 true s /\ calm_lc s /\ ccnt (srcs s 0%nat) = 0 /\ csz (srcs s 0%nat) = 41943040.
Proof.
  assert (W : sane g57) by (cbn; lia). split.
  - destruct (phase_get g57 2 2 ltac:(cbn; lia) ltac:(lia) ltac:(lia) 3) as (s & R & C & E & _). exists s. split; [exact R|]. split; [exact C|].
    split; [rewrite E; reflexivity|]. rewrite (proj2 (C58_counter g57 2 2 s 0%nat W R) C), E. reflexivity.
  - destruct (C57_one_thread_bound_refuted g57 3 1 2) as (s & R & C & E & Z & _); [cbn; lia|lia|lia|reflexivity|]. exists s. split; [exact R|]. split; [exact C|].
    split; [|exact Z]. rewrite (proj2 (C58_counter g57 3 1 s 0%nat W R) C), E. reflexivity.
Qed.
